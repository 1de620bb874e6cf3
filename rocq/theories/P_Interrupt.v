(** * An interrupted scan: C101 *)
From Coq Require Import Reals.
From Verif Require Import Common M_Hwp M_Detpair M_Scan S_Detpair S_Scan S_Interrupt
  L_ScanEx L_ScanEx2 L_Interrupt2 L_InterruptEx.
Open Scope R_scope.

(** C101: a scan cut off anywhere has done an initial part of what the whole
    scan does, and nothing else.  After the rotation, HWP and elevation steps
    have been reset, scanning with the same objects succeeds and does all of
    it, from the beginning.  (The part is then done twice: allocate new maps
    before.)  Partial: no ground template, coefficients from the settings,
    spin maps not reused. *)
Theorem C101_restart_partial : forall B (E : env B) O s s2 s1,
  repeatable E O s -> freshly_set (s_strat s) -> scan_instrument E O s = Ok s2 -> can_stop E O s s1 ->
  exists part rest t, s_log s2 = s_log s ++ part ++ rest /\ s_log s1 = s_log s ++ part
    /\ scan_instrument E O (set_strat s1 (reset (s_strat s1))) = Ok t
    /\ s_log t = s_log s1 ++ part ++ rest.
Proof. exact (@restart). Qed.
Print Assumptions C101_restart_partial.

(** Before the first statement and after the last one are among the places. *)
Theorem C101_ends : forall B (E : env B) O s s2, scan_instrument E O s = Ok s2 ->
  can_stop E O s s /\ can_stop E O s s2.
Proof. exact (@stop_at_ends). Qed.
Print Assumptions C101_ends.

(** So is the place between two chunks. *)
Example C101_case :
  repeatable ex_env (ex_opts false false) (rep_state rot_strat one_b) /\ freshly_set rot_strat
  /\ exists s1 s2, can_stop ex_env (ex_opts false false) (rep_state rot_strat one_b) s1
  /\ scan_instrument ex_env (ex_opts false false) (rep_state rot_strat one_b) = Ok s2
  /\ (0 < length (s_log s1) < length (s_log s2))%nat.
Proof.
  exact (conj (rep_ok rot_strat one_b one_settings ltac:(discriminate)) (conj rot_fresh cut_between)).
Qed.

(** C101 needs the reset: an instrument that rotates goes on where it was. *)
Theorem C101_no_reset_refuted : exists (E : env nat) O s s1 s2 t,
  repeatable E O s /\ freshly_set (s_strat s) /\ scan_instrument E O s = Ok s2
  /\ can_stop E O s s1 /\ (length (s_log s) < length (s_log s1) < length (s_log s2))%nat
  /\ scan_instrument E O s1 = Ok t
  /\ ~ exists new, s_log s2 = s_log s ++ new /\ s_log t = s_log s1 ++ new.
Proof. exact not_reset. Qed.
Print Assumptions C101_no_reset_refuted.
