(** * Saving does not change a scan: C87 *)
From Coq Require Import Reals.
From Verif Require Import Common M_Chunks M_Hwp M_Scan S_Scan S_Save L_Save3 L_ScanEx L_ScanEx4.
Open Scope R_scope.

(** ** C87 *)

(** Two scans of the same instrument in the same state, with the same arguments
    except [save_tod] and [save_point]: the same timestreams are scanned and
    binned with the same pointing in the same order, and the scan strategy is
    left in the same state, saved arrays apart. *)
Theorem C87_saving_changes_nothing : forall B (E : env B) O O' s s1 s2,
  same_but_saving O O' -> scan_instrument E O s = Ok s1 -> scan_instrument E O' s = Ok s2 ->
  same_outcome s1 s2.
Proof. exact (@changes_nothing). Qed.
Print Assumptions C87_saving_changes_nothing.

Example C87_case : same_but_saving (ex_opts false false) (ex_opts false true)
  /\ (exists s1, scan_instrument ex_env (ex_opts false false) (ex_state ex_beams) = Ok s1)
  /\ (exists s2, scan_instrument ex_env (ex_opts false true) (ex_state ex_beams) = Ok s2).
Proof. exact (conj ex_all (conj ex_runs point_runs)). Qed.

(** A scan that completes also completes without saving anything: nothing reads
    the saved arrays. *)
Theorem C87_saving_not_needed : forall B (E : env B) O O' s s1,
  same_but_saving O O' -> o_save_tod O' = false -> o_save_point O' = false ->
  scan_instrument E O s = Ok s1 -> exists s2, scan_instrument E O' s = Ok s2.
Proof. exact (@not_needed). Qed.
Print Assumptions C87_saving_not_needed.

(** A scan that completes also completes when asked to save (more): not with
    [preview_pointing], which excludes saving; [save_point] not with a ground
    template, and only for the HWP modes there are. *)
Theorem C87_saving_never_fails : forall B (E : env B) O O' s s1,
  same_but_saving O O' -> o_preview O = false ->
  (o_save_point O' = true ->
     o_ground O = false /\ chunks_unmarked O s /\ h_mode (sg_hwp (s_strat s)) <> OtherMode) ->
  scan_instrument E O s = Ok s1 -> exists s2, scan_instrument E O' s = Ok s2.
Proof. exact (@never_fails). Qed.
Print Assumptions C87_saving_never_fails.

Example C87_fails_case : same_but_saving ex_bare (ex_opts false true)
  /\ o_save_tod ex_bare = false /\ o_save_point ex_bare = false
  /\ o_preview ex_bare = false /\ o_save_point (ex_opts false true) = true /\ o_ground ex_bare = false
  /\ chunks_unmarked ex_bare (ex_state ex_beams) /\ h_mode (sg_hwp (s_strat (ex_state ex_beams))) <> OtherMode
  /\ exists s1, scan_instrument ex_env ex_bare (ex_state ex_beams) = Ok s1.
Proof.
  exact (conj (proj2 ex_bare_same) (conj eq_refl (conj eq_refl (conj eq_refl (conj eq_refl (conj eq_refl
    (conj (ex_unmarked _ _) (conj (ex_known _) ex_bare_runs)))))))).
Qed.

(** With a ground template, saving the pointing stops a scan that completes
    otherwise. *)
Theorem C87_ground_refuted : exists (E : env nat) O O' s s1,
  same_but_saving O O' /\ o_preview O = false /\ o_ground O = true
  /\ scan_instrument E O s = Ok s1 /\ scan_instrument E O' s = Err UnboundLocalError.
Proof. exact ground_stops. Qed.
Print Assumptions C87_ground_refuted.
