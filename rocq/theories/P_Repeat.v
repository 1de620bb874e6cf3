(** * Repeating a scan: C55 *)
From Coq Require Import Reals.
From Verif Require Import Common M_Hwp M_Detpair M_Scan S_Detpair S_Scan L_Scan11 L_ScanEx L_ScanEx2.
Open Scope R_scope.

(** C55: with rotation, HWP and elevation steps reset between scans, [n] scans
    in a row do exactly what the first one did, [n] times: same pointing, same
    rotation and HWP angles, same samples scanned and binned.  (No ground
    template, coefficients from the settings, spin maps not reused.) *)
Theorem C55_reset_partial : forall B (E : env B) O s s1 n,
  repeatable E O s -> freshly_set (s_strat s) -> scan_instrument E O s = Ok s1 ->
  exists new sn, s_log s1 = s_log s ++ new
    /\ scans E O n s = Ok sn /\ s_log sn = s_log s ++ concat (repeat new n).
Proof. exact (@repeat_reset). Qed.
Print Assumptions C55_reset_partial.

Example C55_reset_case :
  repeatable ex_env (ex_opts false false) (rep_state rot_strat ex_beams) /\ freshly_set rot_strat
  /\ exists s', scan_instrument ex_env (ex_opts false false) (rep_state rot_strat ex_beams) = Ok s'.
Proof.
  exact (conj rot_ok (conj rot_fresh rot_runs)).
Qed.

(** Without resets, when nothing rotates or steps. *)
Theorem C55_still_partial : forall B (E : env B) O s s1 n,
  repeatable E O s -> freshly_set (s_strat s) -> still (s_strat s) -> scan_instrument E O s = Ok s1 ->
  exists new sn, s_log s1 = s_log s ++ new
    /\ plain_scans E O n s = Ok sn /\ s_log sn = s_log s ++ concat (repeat new n).
Proof. exact (@repeat_still). Qed.
Print Assumptions C55_still_partial.

Example C55_still_case :
  repeatable ex_env (ex_opts false false) (rep_state still_strat ex_beams)
  /\ freshly_set still_strat /\ still still_strat
  /\ exists s', scan_instrument ex_env (ex_opts false false) (rep_state still_strat ex_beams) = Ok s'.
Proof.
  exact (conj still_ok
    (conj still_fresh (conj still_still still_runs))).
Qed.

(** Without resets the second scan starts where the first one ended. *)
Theorem C55_rotation_refuted : exists (E : env nat) O s s1 s2,
  repeatable E O s /\ freshly_set (s_strat s)
  /\ scan_instrument E O s = Ok s1 /\ scan_instrument E O s1 = Ok s2
  /\ ~ exists new, s_log s1 = s_log s ++ new /\ s_log s2 = s_log s1 ++ new.
Proof. exact rotation_again. Qed.
Print Assumptions C55_rotation_refuted.

(** Beam coefficients assigned by the user are gone after the first scan. *)
Theorem C55_assigned_refuted : exists (E : env nat) O s s1 s2,
  o_ground O = false /\ freshly_set (s_strat s) /\ still (s_strat s)
  /\ (exists p d, In p (s_beams s) /\ In d (pair_dets p) /\ d_blm d <> None)
  /\ scan_instrument E O s = Ok s1
  /\ scan_instrument E O (set_strat s1 (reset (s_strat s1))) = Ok s2
  /\ ~ exists new, s_log s1 = s_log s ++ new /\ s_log s2 = s_log s1 ++ new.
Proof. exact assigned_again. Qed.
Print Assumptions C55_assigned_refuted.

(** After a scan with a ground template, a scan that works on a fresh strategy
    fails. *)
Theorem C55_ground_refuted : exists (E : env nat) s s1,
  freshly_set (s_strat s) /\ still (s_strat s) /\ (forall p, In p (s_beams s) -> from_settings p)
  /\ chunks_unmarked (ex_opts false false) s
  /\ (exists s', scan_instrument E (ex_opts false false) s = Ok s')
  /\ scan_instrument E (ex_opts true false) s = Ok s1
  /\ scan_instrument E (ex_opts false false) s1 = Err UnboundLocalError.
Proof. exact ground_again. Qed.
Print Assumptions C55_ground_refuted.
