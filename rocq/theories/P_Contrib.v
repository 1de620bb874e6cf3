(** * What a detector contributes to the map: C88, C05 *)
From Coq Require Import Reals Permutation.
From Verif Require Import Common M_Chunks M_Hwp M_Detpair M_Scan S_Chunks S_Detpair S_Scan S_Saved S_Contrib
  L_Contrib L_Contrib2 L_Contrib3 L_ScanEx L_ScanEx2 L_ScanEx3.
Open Scope R_scope.

(** ** C88 *)

(** Two processes that observe the same sky in the same way and both work on the
    pair [p]: for each live detector of the pair they bin the same timestreams
    with the same pointing in the same order, whatever other pairs there are, in
    whatever order, and whatever their place in a communicator, use of a memory
    map for the boresight, and options for saving. *)
Theorem C88_own_pair_only : forall B (E E2 : env B) O O2 s s2 s' s2' new new2 p d,
  well_set E O s -> well_set E2 O2 s2 -> sky_only O -> sky_only O2 -> same_observation E E2 O O2 s s2 ->
  works_on E O s p -> works_on E2 O2 s2 p ->
  (exists a ob, p = (Some a, ob) /\ pair_ready a ob) -> In d (pair_dets p) -> d_dead d = false ->
  scan_instrument E O s = Ok s' -> scan_instrument E2 O2 s2 = Ok s2' ->
  s_log s' = s_log s ++ new -> s_log s2' = s_log s2 ++ new2 ->
  bins (d_id d) new = bins (d_id d) new2.
Proof. exact (@own_pair_only). Qed.
Print Assumptions C88_own_pair_only.

(** Rank 1 of 2 with memory map and saving, and one process without them and
    with fewer pairs in another order. *)
Example C88_case : let s := rep_state mv_strat ex_beams in let s2 := rep_state mv_strat swapped in
  let p := (Some ex_b, Some ex_dead2) in
  well_set (ex_rank 1) mv_opts s /\ well_set ex_env sw_opts s2 /\ sky_only mv_opts /\ sky_only sw_opts
  /\ same_observation (ex_rank 1) ex_env mv_opts sw_opts s s2
  /\ works_on (ex_rank 1) mv_opts s p /\ works_on ex_env sw_opts s2 p
  /\ (exists a ob, p = (Some a, ob) /\ pair_ready a ob) /\ In ex_b (pair_dets p) /\ d_dead ex_b = false
  /\ (exists s', scan_instrument (ex_rank 1) mv_opts s = Ok s')
  /\ (exists s2', scan_instrument ex_env sw_opts s2 = Ok s2').
Proof.
  exact (conj (mv_well (ex_rank 1) eq_refl eq_refl) (conj sw_well (conj mv_sky (conj sw_sky (conj (proj2 (sw_same 1))
    (conj (proj1 sw_works) (conj (proj2 sw_works) (conj (ex_intro _ _ (ex_intro _ _ (conj eq_refl ex_ready_b)))
    (conj (or_introl eq_refl) (conj eq_refl (conj (mv_runs_rank 1 (le_n 2)) sw_runs))))))))))).
Qed.

(** ** C05, for the scans themselves *)

(** What the ranks of a communicator bin together is, up to order, what one
    process bins: the same timestreams of the same detectors with the same
    pointing, none missing and none twice. *)
Theorem C05_scans_bin_the_same : forall B E1 (E : nat -> env B) O s s1 (s' : nat -> state B) new1 new size,
  (0 < size)%nat -> o_scatter O = true ->
  (e_mpi E1 = false /\ e_size E1 = 1%nat /\ e_rank E1 = 0%nat) ->
  (forall r, e_mpi (E r) = true /\ e_size (E r) = size /\ e_rank (E r) = r) ->
  well_set E1 O s -> (forall r, well_set (E r) O s) -> sky_only O -> all_ready s ->
  (forall r, same_observation E1 (E r) O O s s) ->
  scan_instrument E1 O s = Ok s1 -> (forall r, (r < size)%nat -> scan_instrument (E r) O s = Ok (s' r)) ->
  s_log s1 = s_log s ++ new1 -> (forall r, (r < size)%nat -> s_log (s' r) = s_log s ++ new r) ->
  Permutation (flat_map (fun r => all_bins (new r)) (seq 0 size)) (all_bins new1).
Proof. exact (@ranks_together). Qed.
Print Assumptions C05_scans_bin_the_same.

(** So any map that is a sum of what is binned is the same, summed over the
    ranks. *)
Theorem C05_scans_make_the_same_map : forall B E1 (E : nat -> env B) O s s1 (s' : nat -> state B) new1 new size,
  (0 < size)%nat -> o_scatter O = true ->
  (e_mpi E1 = false /\ e_size E1 = 1%nat /\ e_rank E1 = 0%nat) ->
  (forall r, e_mpi (E r) = true /\ e_size (E r) = size /\ e_rank (E r) = r) ->
  well_set E1 O s -> (forall r, well_set (E r) O s) -> sky_only O -> all_ready s ->
  (forall r, same_observation E1 (E r) O O s s) ->
  scan_instrument E1 O s = Ok s1 -> (forall r, (r < size)%nat -> scan_instrument (E r) O s = Ok (s' r)) ->
  s_log s1 = s_log s ++ new1 -> (forall r, (r < size)%nat -> s_log (s' r) = s_log s ++ new r) ->
  forall (M : Type) (add : M -> M -> M) (zero : M) (project : Z * (view * list R) -> M),
  (forall a b, add a b = add b a) -> (forall a b c, add a (add b c) = add (add a b) c) ->
  (forall a, add zero a = a) ->
  let sum l := fold_right add zero l in
  sum (map (fun r => sum (map project (all_bins (new r)))) (seq 0 size)) = sum (map project (all_bins new1)).
Proof.
  exact (fun B E1 E O s s1 s' new1 new size A1 A2 A3 A4 A5 A6 A7 A8 A9 A10 A11 A12 A13 M add zero f C A Z =>
    perm_map_sum add zero f _ _ _ C A Z
      (ranks_together E1 E O s s1 s' new1 new size A1 A2 A3 A4 A5 A6 A7 A8 A9 A10 A11 A12 A13)).
Qed.
Print Assumptions C05_scans_make_the_same_map.

Example C05_scans_case : let s := rep_state mv_strat ex_beams in
  o_scatter mv_opts = true /\ (e_mpi ex_env = false /\ e_size ex_env = 1%nat /\ e_rank ex_env = 0%nat)
  /\ (forall r, e_mpi (ex_rank r) = true /\ e_size (ex_rank r) = 2%nat /\ e_rank (ex_rank r) = r)
  /\ well_set ex_env mv_opts s /\ (forall r, well_set (ex_rank r) mv_opts s) /\ sky_only mv_opts /\ all_ready s
  /\ (forall r, same_observation ex_env (ex_rank r) mv_opts mv_opts s s)
  /\ (exists s1, scan_instrument ex_env mv_opts s = Ok s1)
  /\ (forall r, (r < 2)%nat -> exists s', scan_instrument (ex_rank r) mv_opts s = Ok s').
Proof.
  exact (conj eq_refl (conj (conj eq_refl (conj eq_refl eq_refl)) (conj (fun r => conj eq_refl (conj eq_refl eq_refl))
    (conj (mv_well ex_env eq_refl eq_refl) (conj (fun r => mv_well (ex_rank r) eq_refl eq_refl) (conj mv_sky
    (conj (ex_all_ready _) (conj (fun r => proj1 (sw_same r)) (conj mv_runs mv_runs_rank))))))))).
Qed.
