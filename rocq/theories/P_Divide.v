(** * Data belong to the division of the mission in force: C108 *)
From Coq Require Import Reals QArith.
From Verif Require Import Common M_Chunks M_Sched M_Hwp M_Detpair M_Scan M_Divide S_Chunks S_Scan S_Saved S_Divide
  L_ScanEx L_LeftEx L_Divide L_DivideEx.
Open Scope R_scope.

(** After [partition_mission] no chunk of the new division has data. *)
Theorem C108_divided_anew : forall B (E : env B) n s s' l,
  divide E n s = Ok s' -> s_chunks s' = Some l ->
  forall c, In c (map fst l) -> no_data s' c.
Proof. exact (@divided_anew). Qed.
Print Assumptions C108_divided_anew.

(** Through all scans and changes of settings that follow, the chunks in use
    are those of the division, and every array [data] gives for one of them
    has an element for each of its samples. *)
Theorem C108_right_size : forall B (E : env B) n s s1 s2,
  divide E n s = Ok s1 -> campaign s1 s2 ->
  exists division chunks, partition_mission (e_nsamp E) n = Ok division
    /\ s_chunks s2 = Some chunks /\ map fst chunks = division
    /\ forall c, In c division -> right_size s2 c.
Proof. exact (@right_after). Qed.
Print Assumptions C108_right_size.

(** A mission scanned whole, divided into chunks of two samples and scanned
    again. *)
Example C108_case : exists s s1 s2 r r2, divide ex_env (Some 2%Z) s = Ok s1 /\ campaign s1 s2
  /\ data_tod s dv_c0 1 = Ok r /\ length r = 5%nat /\ data_tod s2 dv_c1 1 = Ok r2.
Proof. exact dv_case. Qed.

(** One scan, whatever the division: arrays of the right size stay so. *)
Theorem C108_scan_keeps_size : forall B (E : env B) O s s' chunks,
  (o_ground O = true -> o_preview O = false) -> (o_save_point O = true -> o_ground O = false) ->
  covers_mission E s -> rotation_ok s -> chunks_unmarked O s -> NoDup (map d_id (dets (s_beams s))) ->
  scan_instrument E O s = Ok s' -> chunks_used E s = Ok chunks ->
  (forall c, In c chunks -> right_size s c) ->
  forall c, In c chunks -> right_size s' c.
Proof. exact (@scan_keeps_size). Qed.
Print Assumptions C108_scan_keeps_size.

(** A division after a schedule will do too if nothing was saved before ... *)
Theorem C108_schedule_first : forall B (E : env B) rows n fs s s1 s2,
  (forall c, no_data s c) -> divide_schedule E rows n fs s = Ok s1 -> campaign s1 s2 ->
  exists division chunks, partition_schedule rows n (e_nsamp E) fs = Ok division
    /\ s_chunks s2 = Some chunks /\ map fst chunks = map e_chunk division
    /\ forall c, In c (map e_chunk division) -> right_size s2 c.
Proof. exact (@schedule_fresh). Qed.
Print Assumptions C108_schedule_first.

Example C108_schedule_case : exists s1 s2 r, (forall c, no_data (lf_state 0) c)
  /\ divide_schedule ex_env dv_rows None 1 (lf_state 0) = Ok s1 /\ campaign s1 s2 /\ data_hwp s2 dv_c0 = Ok r.
Proof. exact dv_fresh_case. Qed.

(** ... but leaves old data in place, ... *)
Theorem C108_schedule_keeps : forall B (E : env B) rows n fs s s',
  divide_schedule E rows n fs s = Ok s' ->
  forall c, (forall i, data_tod s' c i = data_tod s c i) /\ (forall i, data_point s' c i = data_point s c i)
    /\ data_hwp s' c = data_hwp s c.
Proof. exact (@schedule_kept). Qed.
Print Assumptions C108_schedule_keeps.

(** ... so that [data] may give arrays of the wrong size, even after a scan
    of the new division. *)
Theorem C108_schedule_refuted : exists (E : env nat) O1 O2 rows n fs s s1 s2 s3 l c g a,
  scan_instrument E O1 s = Ok s1 /\ divide_schedule E rows n fs s1 = Ok s2
  /\ scan_instrument E O2 s2 = Ok s3 /\ s_chunks s3 = Some l /\ In (c, g) l
  /\ data_hwp s3 c = Ok a /\ ~ right_size s3 c.
Proof. exact sched_stale. Qed.
Print Assumptions C108_schedule_refuted.
