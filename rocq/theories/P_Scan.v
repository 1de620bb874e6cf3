(** * Properties of scans of the whole instrument: C22, C26 *)
From Coq Require Import Reals.
From Verif Require Import Common M_Chunks M_Hwp M_Mpi M_Detpair M_Scan S_Chunks S_Detpair S_Scan
  L_Scan7 L_Scan9 L_ScanEx L_ScanEx2 L_ScanEx3 L_PairEx.
Open Scope R_scope.

(** ** C22 *)

(** One process, no communicator: a scan that returns has handled every live
    detector once (its main beam and live ghosts scanned for every sample of
    the mission exactly once, every sample binned exactly once) and has left
    dead detectors alone.  Chunks, sub-chunks of the boresight rotation, the
    ground template and crosstalk are arbitrary. *)
Theorem C22_single : forall B (E : env B) O s s',
  e_mpi E = false -> e_size E = 1%nat -> e_rank E = 0%nat ->
  (o_ground O = true -> o_preview O = false) ->
  covers_mission E s -> rotation_ok s -> chunks_unmarked O s -> filters_keep_length O ->
  NoDup (map d_id (dets (s_beams s))) ->
  scan_instrument E O s = Ok s' ->
  exists new, s_log s' = s_log s ++ new
    /\ forall d, In d (dets (s_beams s)) ->
       if d_dead d then left_alone d new else handled_once (e_nsamp E) O d new.
Proof. exact (@scan_single). Qed.
Print Assumptions C22_single.

Example C22_single_case :
  let E := ex_env in let O := ex_opts false false in let s := ex_state ex_beams in
  e_mpi E = false /\ e_size E = 1%nat /\ e_rank E = 0%nat
  /\ covers_mission E s /\ rotation_ok s /\ chunks_unmarked O s /\ filters_keep_length O
  /\ NoDup (map d_id (dets (s_beams s)))
  /\ exists s', scan_instrument E O s = Ok s'.
Proof.
  exact (conj eq_refl (conj eq_refl (conj eq_refl (conj (ex_covers _ ex_env eq_refl) (conj (ex_rotation _)
    (conj (ex_unmarked _ _) (conj (proj1 (ex_filters _ _)) (conj ex_nodup ex_runs)))))))).
Qed.

(** All ranks of a communicator that scatters: each live detector is handled
    once, by exactly one rank. *)
Theorem C22_all_ranks : forall B (E : nat -> env B) O s (s' : nat -> state B) size n,
  (0 < size)%nat -> o_scatter O = true ->
  (forall r, e_mpi (E r) = true /\ e_size (E r) = size /\ e_rank (E r) = r /\ e_nsamp (E r) = n) ->
  (o_ground O = true -> o_preview O = false) ->
  (forall r, covers_mission (E r) s) -> rotation_ok s -> chunks_unmarked O s ->
  filters_keep_length O -> NoDup (map d_id (dets (s_beams s))) ->
  (forall r, (r < size)%nat -> scan_instrument (E r) O s = Ok (s' r)) ->
  exists new, (forall r, (r < size)%nat -> s_log (s' r) = s_log s ++ new r)
    /\ forall d, In d (dets (s_beams s)) ->
       if d_dead d then forall r, (r < size)%nat -> left_alone d (new r)
       else exists r, (r < size)%nat /\ handled_once n O d (new r)
                      /\ forall r', (r' < size)%nat -> r' <> r -> left_alone d (new r').
Proof. exact (@scan_all_ranks). Qed.
Print Assumptions C22_all_ranks.

Example C22_all_ranks_case :
  let O := ex_opts false false in let s := ex_state ex_beams in
  o_scatter O = true
  /\ (forall r, e_mpi (ex_rank r) = true /\ e_size (ex_rank r) = 2%nat /\ e_rank (ex_rank r) = r
                /\ e_nsamp (ex_rank r) = 5%Z)
  /\ (forall r, covers_mission (ex_rank r) s) /\ rotation_ok s /\ chunks_unmarked O s
  /\ filters_keep_length O /\ NoDup (map d_id (dets (s_beams s)))
  /\ forall r, (r < 2)%nat -> exists s', scan_instrument (ex_rank r) O s = Ok s'.
Proof.
  exact (conj eq_refl (conj (fun r => conj eq_refl (conj eq_refl (conj eq_refl eq_refl)))
    (conj (fun r => ex_covers _ (ex_rank r) eq_refl) (conj (ex_rotation _) (conj (ex_unmarked _ _)
    (conj (proj1 (ex_filters _ _)) (conj ex_nodup ex_runs_rank))))))).
Qed.

(** Any process of any communicator, for the pairs it works on. *)
Theorem C22_process : forall B (E : env B) O s s',
  (o_ground O = true -> o_preview O = false) ->
  covers_mission E s -> rotation_ok s -> chunks_unmarked O s -> filters_keep_length O ->
  NoDup (map d_id (dets (s_beams s))) ->
  scan_instrument E O s = Ok s' ->
  exists new, s_log s' = s_log s ++ new
    /\ forall i p d, nth_error (s_beams s) i = Some p -> In d (pair_dets p) ->
       (In (Some i) (my_pairs E O s) -> d_dead d = false ->
          handled_once (e_nsamp E) O d new)
       /\ (~ In (Some i) (my_pairs E O s) \/ d_dead d = true -> left_alone d new).
Proof. exact (@scan_process). Qed.
Print Assumptions C22_process.

Example C22_process_case :
  let E := ex_rank 1 in let O := ex_opts false false in let s := ex_state ex_beams in
  covers_mission E s /\ rotation_ok s /\ chunks_unmarked O s /\ filters_keep_length O
  /\ NoDup (map d_id (dets (s_beams s)))
  /\ (exists s', scan_instrument E O s = Ok s') /\ my_pairs E O s = [Some 2; None]%nat.
Proof.
  exact (conj (ex_covers _ (ex_rank 1) eq_refl) (conj (ex_rotation _) (conj (ex_unmarked _ _)
    (conj (proj1 (ex_filters _ _)) (conj ex_nodup (conj (ex_runs_rank 1 (le_n 2)) eq_refl)))))).
Qed.

(** A pair of which only the B detector is present cannot be scanned at all. *)
Theorem C22_absent_refuted :
  scan_instrument ex_env (ex_opts false false) (ex_state [(None, Some ex_b)]) = Err AttributeError.
Proof. exact absent_fails. Qed.
Print Assumptions C22_absent_refuted.

(** ** C26 *)

(** Without ground template: what is binned for a detector is, sample by
    sample, its main beam plus the sum over its live ghosts, each through its
    own beam (the beam of B's main lobe is that of A, as documented), mixed
    with the partner by the crosstalk coefficient; and it is binned with the
    pointing its main beam was scanned with. *)
Theorem C26_superposed_partial : forall B (E : env B) O s s',
  o_preview O = false -> o_reuse O = false -> o_ground O = false -> no_filters O ->
  covers_mission E s -> rotation_ok s -> chunks_unmarked O s ->
  NoDup (map d_id (dets (s_beams s))) ->
  scan_instrument E O s = Ok s' ->
  exists new, s_log s' = s_log s ++ new
    /\ forall i a ob, nth_error (s_beams s) i = Some (Some a, ob) -> pair_ready a ob ->
       exists x ba bb,
         main_beam a x /\ Forall2 ghost_beam (d_ghosts a) ba
         /\ (forall b, ob = Some b -> Forall2 ghost_beam (d_ghosts b) bb)
         /\ (d_dead a = false -> forall v t, In (EBin (d_id a) v t) new ->
               t = map (fun j => own_signal E a x ba v j
                                 + match live ob with
                                   | Some b => o_ctalk O * own_signal E b x bb v j
                                   | None => 0
                                   end) (seq 0 (length t))
               /\ exists t0, In (EScan (Main (d_id a)) v t0) new)
         /\ (forall b, ob = Some b -> d_dead b = false -> forall v t, In (EBin (d_id b) v t) new ->
               t = map (fun j => own_signal E b x bb v j
                                 + (if d_dead a then 0 else o_ctalk O * own_signal E a x ba v j))
                     (seq 0 (length t))
               /\ exists t0, In (EScan (Main (d_id b)) v t0) new).
Proof. exact (@scan_superposed). Qed.
Print Assumptions C26_superposed_partial.

Example C26_superposed_case :
  let E := ex_env in let O := ex_opts false false in let s := ex_state ex_beams in
  o_preview O = false /\ o_reuse O = false /\ o_ground O = false /\ no_filters O
  /\ covers_mission E s /\ rotation_ok s /\ chunks_unmarked O s
  /\ NoDup (map d_id (dets (s_beams s)))
  /\ (exists s', scan_instrument E O s = Ok s')
  /\ nth_error (s_beams s) 0 = Some (Some ex_a, None) /\ pair_ready ex_a None.
Proof.
  exact (conj eq_refl (conj eq_refl (conj eq_refl (conj (proj2 (ex_filters _ _))
    (conj (ex_covers _ ex_env eq_refl) (conj (ex_rotation _) (conj (ex_unmarked _ _)
    (conj ex_nodup (conj ex_runs (conj eq_refl ex_ready)))))))))).
Qed.

(** With a ground template, detectors without ghosts: sky plus ground, both
    through the main beam, plus crosstalk times the same of the partner. *)
Theorem C26_ground_partial : forall B (E : env B) O s s',
  o_preview O = false -> o_reuse O = false -> o_ground O = true -> no_filters O ->
  covers_mission E s -> rotation_ok s ->
  NoDup (map d_id (dets (s_beams s))) ->
  scan_instrument E O s = Ok s' ->
  exists new, s_log s' = s_log s ++ new
    /\ forall i a ob, nth_error (s_beams s) i = Some (Some a, ob) ->
       (forall d, In d (pair_dets (Some a, ob)) -> d_ghosts d = []) -> (exists x, main_beam a x) ->
       exists x, main_beam a x
         /\ (d_dead a = false -> forall v t, In (EBin (d_id a) v t) new ->
              exists vg, v_ground v = false /\ v_ground vg = true /\ v_start vg = v_start v
                /\ v_rot vg = v_rot v /\ v_hwp vg = v_hwp v
                /\ t = map (fun j => sky_and_ground E a x v vg j
                                     + match live ob with
                                       | Some b => o_ctalk O * sky_and_ground E b x v vg j
                                       | None => 0
                                       end) (seq 0 (length t)))
         /\ (forall b, ob = Some b -> d_dead b = false -> forall v t, In (EBin (d_id b) v t) new ->
              exists vg, v_ground v = false /\ v_ground vg = true /\ v_start vg = v_start v
                /\ v_rot vg = v_rot v /\ v_hwp vg = v_hwp v
                /\ t = map (fun j => sky_and_ground E b x v vg j
                                     + (if d_dead a then 0 else o_ctalk O * sky_and_ground E a x v vg j))
                       (seq 0 (length t))).
Proof. exact (@scan_ground_pair). Qed.
Print Assumptions C26_ground_partial.

Example C26_ground_case :
  let E := ex_env in let O := ex_opts true false in let s := gp_state in
  o_preview O = false /\ o_reuse O = false /\ o_ground O = true /\ no_filters O
  /\ covers_mission E s /\ rotation_ok s /\ NoDup (map d_id (dets (s_beams s)))
  /\ (exists s', scan_instrument E O s = Ok s')
  /\ nth_error (s_beams s) 0 = Some (Some ex_b, Some ex_c)
  /\ d_dead ex_b = false /\ d_dead ex_c = false
  /\ (forall d, In d (pair_dets (Some ex_b, Some ex_c)) -> d_ghosts d = [])
  /\ exists x, main_beam ex_b x.
Proof.
  exact (conj eq_refl (conj eq_refl (conj eq_refl (conj (proj2 (ex_filters _ _))
    (conj (ex_covers ex_beams_p ex_env eq_refl) (conj gp_rotation (conj ex_nodup_p
    (conj gp_runs (conj eq_refl (conj eq_refl (conj eq_refl (conj ex_bare_p
    (ex_intro _ 2%nat (or_intror (conj eq_refl eq_refl))))))))))))))).
Qed.

(** With a ground template, no ghost of any detector ever sees the sky: its
    signal is missing from the timestream. *)
Theorem C26_ground_ghost_refuted : forall B (E : env B) O s s',
  o_preview O = false -> o_ground O = true ->
  covers_mission E s -> rotation_ok s -> filters_keep_length O ->
  NoDup (map d_id (dets (s_beams s))) ->
  scan_instrument E O s = Ok s' ->
  exists new, s_log s' = s_log s ++ new
    /\ forall d k, In d (dets (s_beams s)) -> scanned (Ghost (d_id d) k) false new = [].
Proof. exact (@ground_ghosts). Qed.
Print Assumptions C26_ground_ghost_refuted.

Example C26_ground_ghost_case :
  let E := ex_env in let O := ex_opts true false in let s := ex_state ex_beams in
  o_preview O = false /\ o_ground O = true
  /\ covers_mission E s /\ rotation_ok s /\ filters_keep_length O
  /\ NoDup (map d_id (dets (s_beams s)))
  /\ (exists s', scan_instrument E O s = Ok s')
  /\ In ex_a (dets (s_beams s)) /\ exists g, nth_error (d_ghosts ex_a) 0 = Some g /\ gh_dead g = false.
Proof.
  exact (conj eq_refl (conj eq_refl (conj (ex_covers _ ex_env eq_refl) (conj (ex_rotation _)
    (conj (proj1 (ex_filters _ _)) (conj ex_nodup (conj ex_runs_ground_ghost
    (conj (or_introl eq_refl) (ex_intro _ _ (conj eq_refl eq_refl)))))))))).
Qed.

(** A ground template with [save_point] ends in an error. *)
Theorem C26_ground_point_refuted :
  scan_instrument ex_env (ex_opts true true) (ex_state ex_beams_g) = Err UnboundLocalError.
Proof. exact ground_point_fails. Qed.
Print Assumptions C26_ground_point_refuted.
