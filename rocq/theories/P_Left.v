(** * What a scan leaves of the data of earlier scans: C107 *)
From Coq Require Import Reals.
From Verif Require Import Common M_Chunks M_Hwp M_Detpair M_Scan S_Chunks S_Hwp S_Scan S_Saved
  L_ScanEx L_ScanEx4 L_Left L_Left2 L_LeftEx.
Open Scope R_scope.

(** After a scan that was not asked to save timestreams (positions), [data]
    finds none for the detectors that were scanned, whatever earlier scans had
    saved: a detector's data in a chunk are never those of an earlier scan. *)
Theorem C107_nothing_stale : forall B (E : env B) O s s' chunks,
  (o_ground O = true -> o_preview O = false) ->
  covers_mission E s -> rotation_ok s -> chunks_unmarked O s ->
  scan_instrument E O s = Ok s' -> chunks_used E s = Ok chunks ->
  forall c d, In c chunks -> observes E O s d ->
  (o_save_tod O = false -> data_tod s' c (d_id d) = Err KeyError)
  /\ (o_save_point O = false -> data_point s' c (d_id d) = Err KeyError).
Proof. exact (@nothing_stale). Qed.
Print Assumptions C107_nothing_stale.

(** A first scan that saves, new settings, and a second scan that does not. *)
Example C107_case : exists s1 s2 r, let u := set_strat s1 (lf_strat 30) in
  scan_instrument ex_env (lf_opts true) (lf_state 0) = Ok s1
  /\ covers_mission ex_env u /\ rotation_ok u /\ chunks_unmarked (lf_opts false) u
  /\ scan_instrument ex_env (lf_opts false) u = Ok s2 /\ chunks_used ex_env u = Ok [whole]
  /\ observes ex_env (lf_opts false) u ex_b /\ data_tod u whole (d_id ex_b) = Ok r.
Proof. exact lf_case. Qed.

(** Timestreams of all others stay: those of detectors that are dead by now,
    were taken out, or are worked on by another process. *)
Theorem C107_others_kept : forall B (E : env B) O s s',
  (o_ground O = true -> o_preview O = false) ->
  covers_mission E s -> rotation_ok s -> chunks_unmarked O s ->
  scan_instrument E O s = Ok s' ->
  forall c i, (forall d, observes E O s d -> d_id d <> i) -> data_tod s' c i = data_tod s c i.
Proof. exact (@dead_left). Qed.
Print Assumptions C107_others_kept.

(** So do their positions, in the chunks that are scanned. *)
Theorem C107_other_positions_kept : forall B (E : env B) O s s' chunks,
  (o_ground O = true -> o_preview O = false) -> (o_save_point O = true -> o_ground O = false) ->
  covers_mission E s -> rotation_ok s -> chunks_unmarked O s -> NoDup (map d_id (dets (s_beams s))) ->
  scan_instrument E O s = Ok s' -> chunks_used E s = Ok chunks ->
  forall c i, In c chunks -> (forall d, observes E O s d -> d_id d <> i) ->
  data_point s' c i = data_point s c i.
Proof. exact (@others_rest). Qed.
Print Assumptions C107_other_positions_kept.

(** A detector taken out after a scan and another one put in. *)
Example C107_others_case : exists s1 s2 r r4, let u := set_beams s1 [(Some lf_other, None)] in
  scan_instrument ex_env (lf_opts true) (lf_state 0) = Ok s1
  /\ covers_mission ex_env u /\ rotation_ok u /\ chunks_unmarked (lf_opts true) u
  /\ NoDup (map d_id (dets (s_beams u))) /\ chunks_used ex_env u = Ok [whole]
  /\ scan_instrument ex_env (lf_opts true) u = Ok s2
  /\ (forall d, observes ex_env (lf_opts true) u d -> d_id d <> 1%Z)
  /\ data_point u whole 1 = Ok r /\ data_point s2 whole 4 = Ok r4.
Proof. exact lf_swap_case. Qed.

(** HWP angles stay too, unless the scan saves positions itself. *)
Theorem C107_hwp_kept : forall B (E : env B) O s s',
  (o_ground O = true -> o_preview O = false) ->
  covers_mission E s -> rotation_ok s -> chunks_unmarked O s ->
  o_save_point O = false -> scan_instrument E O s = Ok s' ->
  forall c, data_hwp s' c = data_hwp s c.
Proof. exact (@hwp_left). Qed.
Print Assumptions C107_hwp_kept.

(** So [data] may give HWP angles that are not those of the last scan: here a
    scan with [save_point], new settings, and a scan without. *)
Theorem C107_hwp_refuted : exists (E : env nat) O1 O2 s s1 cf st s2 new chunks d v c ar,
  scan_instrument E O1 s = Ok s1 /\ configure cf = Ok st
  /\ scan_instrument E O2 (set_strat s1 st) = Ok s2 /\ s_log s2 = s_log s1 ++ new
  /\ chunks_used E (set_strat s1 st) = Ok chunks /\ In c chunks
  /\ observes E O2 (set_strat s1 st) d /\ In v (sky_views (d_id d) new)
  /\ o_save_point O2 = false /\ data_hwp s2 c = Ok ar
  /\ ~ saved_in chunks (data_hwp s2) (v_start v) (map (hwp_reading v) (seq 0 (length (v_bore v)))).
Proof. exact hwp_stale. Qed.
Print Assumptions C107_hwp_refuted.
