(** * Saved timestreams and the course of a scan: C79, C80, C86 *)
From Coq Require Import Reals.
From Verif Require Import Common M_Chunks M_Hwp M_Detpair M_Scan S_Chunks S_Hwp S_Scan S_Saved
  L_Scan13 L_Scan16 L_Scan17 L_Scan20 L_ScanEx L_ScanEx2 L_ScanEx3 L_ScanEx4 L_Absent.
Open Scope R_scope.

(** ** C79 *)

(** With [save_tod], every timestream that went into the map is found in the
    saved data afterwards: in the array of its chunk and detector, at the
    samples it was scanned for.  Later chunks, sub-chunks, detectors and ground
    scans do not overwrite it.  (Filters off: they change the binned copy in
    place.) *)
Theorem C79_saved_as_binned : forall B (E : env B) O s s',
  (o_ground O = true -> o_preview O = false) -> o_save_tod O = true -> no_filters O ->
  covers_mission E s -> rotation_ok s -> chunks_unmarked O s ->
  NoDup (map d_id (dets (s_beams s))) ->
  scan_instrument E O s = Ok s' ->
  exists new chunks, s_log s' = s_log s ++ new
    /\ tiles 0 (e_nsamp E) (map span chunks)
    /\ (forall l, s_chunks s = Some l \/ s_chunks s' = Some l -> chunks = map fst l)
    /\ forall i v t, In (EBin i v t) new -> saved_in chunks (fun c => data_tod s' c i) (v_start v) t.
Proof. exact (@saved_all). Qed.
Print Assumptions C79_saved_as_binned.

Example C79_case :
  let E := ex_env in let O := ex_opts true false in let s := ex_state ex_beams in
  (o_ground O = true -> o_preview O = false) /\ o_save_tod O = true /\ no_filters O
  /\ covers_mission E s /\ rotation_ok s /\ chunks_unmarked O s
  /\ NoDup (map d_id (dets (s_beams s)))
  /\ exists s', scan_instrument E O s = Ok s'.
Proof.
  exact (conj (fun _ => eq_refl) (conj eq_refl (conj (proj2 (ex_filters _ _))
    (conj (ex_covers _ ex_env eq_refl) (conj (ex_rotation _)
    (conj (ex_unmarked _ _) (conj ex_nodup ex_runs_ground_ghost))))))).
Qed.

(** Nothing else is found there: no data of dead or absent detectors, and none
    at all without [save_tod]. *)
Theorem C79_nothing_else : forall B (E : env B) O s s', (o_ground O = true -> o_preview O = false) ->
  covers_mission E s -> rotation_ok s -> chunks_unmarked O s -> scan_instrument E O s = Ok s' ->
  (forall c i, data_tod s c i = Err KeyError) ->
  forall c i, (o_save_tod O = true -> forall d, In d (dets (s_beams s)) -> d_dead d = false -> d_id d <> i) ->
  data_tod s' c i = Err KeyError.
Proof. exact (@absent). Qed.
Print Assumptions C79_nothing_else.

Example C79_nothing_case : let s := ex_state ex_beams in
  (forall c i, data_tod s c i = Err KeyError)
  /\ (forall d, In d (dets (s_beams s)) -> d_dead d = false -> d_id d <> 99%Z)
  /\ dets (s_beams s) <> [].
Proof.
  split; [intros [a b [k|] n] i; reflexivity|]. split; [|discriminate].
  intros d H _. cbn in H. repeat (destruct H as [<-|H]; [discriminate|]). destruct H.
Qed.

(** ** C80 *)

(** Two detectors, of the same process or of different processes with the same
    mission and settings: they see the same sequence of views of the sky, that
    is, the same boresight elevation, rotation angle and HWP angle at every
    sample, whatever came before them in the list of pairs. *)
Theorem C80_same_for_all : forall B (E E2 : env B) O O2 s s2 s' s2' new new2 d d2,
  well_set E O s -> well_set E2 O2 s2 ->
  e_nsamp E2 = e_nsamp E -> e_ext E2 = e_ext E -> e_elev E2 = e_elev E ->
  s_strat s2 = s_strat s -> chunks_used E2 s2 = chunks_used E s ->
  scan_instrument E O s = Ok s' -> scan_instrument E2 O2 s2 = Ok s2' ->
  s_log s' = s_log s ++ new -> s_log s2' = s_log s2 ++ new2 ->
  observes E O s d -> observes E2 O2 s2 d2 ->
  sky_views (d_id d) new = sky_views (d_id d2) new2.
Proof. exact (@same_course). Qed.
Print Assumptions C80_same_for_all.

Example C80_same_case : let s := rep_state mv_strat ex_beams in
  well_set (ex_rank 0) mv_opts s /\ well_set (ex_rank 1) mv_opts s
  /\ observes (ex_rank 0) mv_opts s ex_a /\ observes (ex_rank 1) mv_opts s ex_b
  /\ forall r, (r < 2)%nat -> exists s', scan_instrument (ex_rank r) mv_opts s = Ok s'.
Proof.
  exact (conj (mv_well (ex_rank 0) eq_refl eq_refl) (conj (mv_well (ex_rank 1) eq_refl eq_refl)
    (conj (proj1 (proj2 mv_observes)) (conj (proj2 (proj2 mv_observes)) mv_runs_rank)))).
Qed.

(** The pointing used for binning is the pointing used for scanning. *)
Theorem C80_binned_as_scanned : forall B (E : env B) O s s' new d,
  well_set E O s -> scan_instrument E O s = Ok s' -> s_log s' = s_log s ++ new ->
  observes E O s d -> o_binning O = true ->
  bin_views (d_id d) new = sky_views (d_id d) new.
Proof. exact (@binned_as_scanned). Qed.
Print Assumptions C80_binned_as_scanned.

(** The views are the mission, in order, without gap or overlap. *)
Theorem C80_views_in_order : forall B (E : env B) O s s' new chunks d cf,
  well_set E O s -> configure cf = Ok (s_strat s) -> scan_instrument E O s = Ok s' ->
  s_log s' = s_log s ++ new -> chunks_used E s = Ok chunks -> observes E O s d ->
  tiles 0 (e_nsamp E)
    (map (fun v => (v_start v, v_start v + Z.of_nat (length (v_bore v)))%Z) (sky_views (d_id d) new)).
Proof. exact (fun B E O s s' new cs d cf W H1 H2 H3 H4 H5 => lw_tiles _ _ _ _ _ _ (laws_of E O s s' new cs d cf W H1 H2 H3 H4 H5)). Qed.
Print Assumptions C80_views_in_order.

(** Elevation at sample [v_start v + j]: that of the scan, plus the step planned
    for this sample (nothing with pointing from outside). *)
Theorem C80_elevation : forall B (E : env B) O s s' new chunks d cf,
  well_set E O s -> configure cf = Ok (s_strat s) -> scan_instrument E O s = Ok s' ->
  s_log s' = s_log s ++ new -> chunks_used E s = Ok chunks -> observes E O s d ->
  forall v j c, In v (sky_views (d_id d) new) -> (j < length (v_bore v))%nat -> In c chunks ->
    (c_start c <= v_start v + Z.of_nat j < c_end c)%Z ->
    exists x a, nth_error (e_elev E c) (Z.to_nat (v_start v + Z.of_nat j - c_start c)) = Some x
      /\ (if e_ext E then a = 0 else planned_el cf (v_start v + Z.of_nat j) = Some a)
      /\ nth_error (v_bore v) j = Some (x + a).
Proof. exact (@el_law). Qed.
Print Assumptions C80_elevation.

(** Boresight angle at sample [k]: number [k / period] of the angles set, plus
    one for each earlier chunk that began and ended inside a period (C08). *)
Theorem C80_rotation : forall B (E : env B) O s s' new chunks d cf,
  well_set E O s -> configure cf = Ok (s_strat s) -> scan_instrument E O s = Ok s' ->
  s_log s' = s_log s ++ new -> chunks_used E s = Ok chunks -> observes E O s d ->
  forall p, cf_period cf = Some p -> p <> 0 ->
  forall v j, In v (sky_views (d_id d) new) -> (j < length (v_bore v))%nat ->
    let size := trunc (p * cf_fsamp cf) in
    let k := (v_start v + Z.of_nat j)%Z in
    nth_error (rot_angles cf)
      (Z.to_nat (k / size + count (inside_period size) (filter (fun ab => (fst ab <=? k)%Z) (map span chunks)))
       mod length (rot_angles cf)) = Some (v_rot v).
Proof. exact (fun B E O s s' new cs d cf W H1 H2 H3 H4 H5 => lw_rot _ _ _ _ _ _ (laws_of E O s s' new cs d cf W H1 H2 H3 H4 H5)). Qed.
Print Assumptions C80_rotation.

Theorem C80_no_rotation : forall B (E : env B) O s s' new chunks d cf,
  well_set E O s -> configure cf = Ok (s_strat s) -> scan_instrument E O s = Ok s' ->
  s_log s' = s_log s ++ new -> chunks_used E s = Ok chunks -> observes E O s d ->
  ~ on (cf_period cf) -> forall v, In v (sky_views (d_id d) new) -> v_rot v = cf_rot_start cf.
Proof. exact (fun B E O s s' new cs d cf W H1 H2 H3 H4 H5 => lw_rot_still _ _ _ _ _ _ (laws_of E O s s' new cs d cf W H1 H2 H3 H4 H5)). Qed.
Print Assumptions C80_no_rotation.

Example C80_moving_case : let s := rep_state mv_strat ex_beams in
  well_set ex_env mv_opts s /\ configure mv_cfg = Ok (s_strat s)
  /\ (exists s', scan_instrument ex_env mv_opts s = Ok s') /\ observes ex_env mv_opts s ex_b
  /\ cf_period mv_cfg = Some 3.
Proof.
  exact (conj (mv_well ex_env eq_refl eq_refl) (conj mv_configured (conj mv_runs (conj (proj1 mv_observes) eq_refl)))).
Qed.

(** HWP angle at sample [k], stepped: number [k / step size] of the angles set. *)
Theorem C80_stepped_hwp : forall B (E : env B) O s s' new chunks d cf,
  well_set E O s -> configure cf = Ok (s_strat s) -> scan_instrument E O s = Ok s' ->
  s_log s' = s_log s ++ new -> chunks_used E s = Ok chunks -> observes E O s d ->
  forall f, cf_mode cf = Stepped -> cf_freq cf = Some f ->
  forall v, In v (sky_views (d_id d) new) ->
    exists l, v_hwp v = Some (HArray l) /\ length l = length (v_bore v)
      /\ forall j, (j < length l)%nat -> exists a w,
           nth_error (hwp_angles cf)
             (Z.to_nat ((v_start v + Z.of_nat j) / trunc (cf_fsamp cf / f)) mod length (hwp_angles cf)) = Some a
           /\ nth_error l j = Some w /\ same_phase w (radians a)
           /\ ((forall b, In b (hwp_angles cf) -> 0 <= b < 360) -> w = radians a).
Proof. exact (fun B E O s s' new cs d cf W H1 H2 H3 H4 H5 => lw_hwp_stepped _ _ _ _ _ _ (laws_of E O s s' new cs d cf W H1 H2 H3 H4 H5)). Qed.
Print Assumptions C80_stepped_hwp.

(** Spinning: the phase advances with the sample, less one sample for each
    stretch of the mission before this one (the drift of C13). *)
Theorem C80_spinning_hwp : forall B (E : env B) O s s' new chunks d cf,
  well_set E O s -> configure cf = Ok (s_strat s) -> scan_instrument E O s = Ok s' ->
  s_log s' = s_log s ++ new -> chunks_used E s = Ok chunks -> observes E O s d ->
  forall f, cf_mode cf = Continuous -> cf_freq cf = Some f -> f <> 0 -> 0 < cf_fsamp cf ->
  forall i v, nth_error (sky_views (d_id d) new) i = Some v ->
    exists l, v_hwp v = Some (HArray l) /\ length l = length (v_bore v)
      /\ forall j, (j < length l)%nat -> exists w, nth_error l j = Some w
           /\ same_phase w (radians (cf_hwp_start cf)
                + 2 * PI * f / cf_fsamp cf * (IZR (v_start v + Z.of_nat j) - INR i)).
Proof. exact (fun B E O s s' new cs d cf W H1 H2 H3 H4 H5 => lw_hwp_spinning _ _ _ _ _ _ (laws_of E O s s' new cs d cf W H1 H2 H3 H4 H5)). Qed.
Print Assumptions C80_spinning_hwp.

Theorem C80_still_hwp : forall B (E : env B) O s s' new chunks d cf,
  well_set E O s -> configure cf = Ok (s_strat s) -> scan_instrument E O s = Ok s' ->
  s_log s' = s_log s ++ new -> chunks_used E s = Ok chunks -> observes E O s d ->
  cf_mode cf = NoMode \/ ~ on (cf_freq cf) ->
  forall v, In v (sky_views (d_id d) new) -> v_hwp v = Some (HScalar (radians (cf_hwp_start cf))).
Proof. exact (fun B E O s s' new cs d cf W H1 H2 H3 H4 H5 => lw_hwp_still _ _ _ _ _ _ (laws_of E O s s' new cs d cf W H1 H2 H3 H4 H5)). Qed.
Print Assumptions C80_still_hwp.

Example C80_hwp_case :
  (forall m, m <> OtherMode -> well_set ex_env mv_opts (hwp_state m))
  /\ (forall m, configure (hwp_cfg m) = Ok (s_strat (hwp_state m)))
  /\ (forall m, observes ex_env mv_opts (hwp_state m) ex_b)
  /\ (exists s', scan_instrument ex_env mv_opts (hwp_state Stepped) = Ok s')
  /\ (exists s', scan_instrument ex_env mv_opts (hwp_state Continuous) = Ok s').
Proof. exact (conj hwp_well (conj hwp_configured (conj hwp_observes (conj stepped_runs spinning_runs)))). Qed.

(** C55 again.  From settings that were not reset after an earlier scan, the detectors do
    not see the same: the first pair goes on where the earlier scan ended, the
    other pairs start from the beginning. *)
Theorem C55_second_scan_refuted : exists (E : env nat) O s s1 s2 new d d2,
  well_set E O s /\ scan_instrument E O s = Ok s1 /\ scan_instrument E O s1 = Ok s2
  /\ s_log s2 = s_log s1 ++ new /\ observes E O s1 d /\ observes E O s1 d2
  /\ map v_rot (sky_views (d_id d) new) <> map v_rot (sky_views (d_id d2) new).
Proof. exact second_scan_differs. Qed.
Print Assumptions C55_second_scan_refuted.

(** ** C86 *)

(** With [save_point], the positions (pixel and position angle) of every stretch
    of the sky a detector was scanned for are found in the saved data
    afterwards, in the arrays of its chunk and detector, at these samples: they
    are those of the view its main beam was scanned with, not those of a ghost,
    another detector or another sub-chunk. *)
Theorem C86_saved_positions : forall B (E : env B) O s s',
  o_save_point O = true -> o_ground O = false -> filters_keep_length O ->
  covers_mission E s -> rotation_ok s -> chunks_unmarked O s ->
  NoDup (map d_id (dets (s_beams s))) ->
  scan_instrument E O s = Ok s' ->
  exists new chunks, s_log s' = s_log s ++ new
    /\ tiles 0 (e_nsamp E) (map span chunks)
    /\ (forall l, s_chunks s = Some l \/ s_chunks s' = Some l -> chunks = map fst l)
    /\ forall i v t, In (EScan (Main i) v t) new -> v_ground v = false ->
         saved_in chunks (fun c => data_point s' c i) (v_start v) (map (e_pos E i v) (seq 0 (length t))).
Proof. exact (@saved_point). Qed.
Print Assumptions C86_saved_positions.

Example C86_positions_case :
  let E := ex_env in let O := ex_opts false true in let s := ex_state ex_beams in
  o_save_point O = true /\ o_ground O = false /\ filters_keep_length O
  /\ covers_mission E s /\ rotation_ok s /\ chunks_unmarked O s
  /\ NoDup (map d_id (dets (s_beams s)))
  /\ exists s', scan_instrument E O s = Ok s'.
Proof.
  exact (conj eq_refl (conj eq_refl (conj (proj1 (ex_filters _ _))
    (conj (ex_covers _ ex_env eq_refl) (conj (ex_rotation _)
    (conj (ex_unmarked _ _) (conj ex_nodup point_runs))))))).
Qed.

(** The saved positions of all other detectors, dead or absent, are as before. *)
Theorem C86_nothing_else : forall B (E : env B) O s s' chunks,
  o_save_point O = true -> o_ground O = false ->
  covers_mission E s -> rotation_ok s -> chunks_unmarked O s ->
  NoDup (map d_id (dets (s_beams s))) ->
  scan_instrument E O s = Ok s' -> chunks_used E s = Ok chunks ->
  forall c i, In c chunks -> (forall d, In d (dets (s_beams s)) -> d_dead d = false -> d_id d <> i) ->
  data_point s' c i = data_point s c i.
Proof. exact (@point_absent). Qed.
Print Assumptions C86_nothing_else.

(** There is one saved array of HWP angles for each chunk, written again and
    again by all detectors.  From freshly configured settings it holds, for
    every detector, the angle the detector was scanned with, in degrees. *)
Theorem C86_saved_hwp : forall B (E : env B) O s s' new chunks d v,
  well_set E O s -> o_save_point O = true -> o_ground O = false -> filters_keep_length O ->
  scan_instrument E O s = Ok s' -> s_log s' = s_log s ++ new -> chunks_used E s = Ok chunks ->
  observes E O s d -> In v (sky_views (d_id d) new) ->
  saved_in chunks (data_hwp s') (v_start v) (map (hwp_reading v) (seq 0 (length (v_bore v)))).
Proof. exact (@saved_hwp). Qed.
Print Assumptions C86_saved_hwp.

Example C86_hwp_case :
  let E := ex_env in let O := ex_opts false true in let s := hwp_two in
  well_set E O s /\ o_save_point O = true /\ o_ground O = false /\ filters_keep_length O
  /\ (exists s', scan_instrument E O s = Ok s') /\ observes E O s ex_b /\ observes E O s ex_c.
Proof. exact (conj two_well (conj eq_refl (conj eq_refl (conj (proj1 (ex_filters _ _)) (conj two_runs two_observes))))). Qed.

(** After a second scan without a reset (C55), the saved HWP angles are not
    those of the first pair. *)
Theorem C86_second_scan_refuted : exists (E : env nat) O s s1 s2 new chunks d v,
  well_set E O s /\ o_save_point O = true /\ o_ground O = false
  /\ scan_instrument E O s = Ok s1 /\ scan_instrument E O s1 = Ok s2
  /\ s_log s2 = s_log s1 ++ new /\ chunks_used E s1 = Ok chunks
  /\ observes E O s1 d /\ In v (sky_views (d_id d) new)
  /\ ~ saved_in chunks (data_hwp s2) (v_start v) (map (hwp_reading v) (seq 0 (length (v_bore v)))).
Proof. exact second_hwp_wrong. Qed.
Print Assumptions C86_second_scan_refuted.
