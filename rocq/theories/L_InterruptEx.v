(** * A concrete scan that is interrupted *)
From Coq Require Import Reals Lra.
From Verif Require Import Common LibList M_Chunks M_Steps M_Hwp M_Mpi M_Detpair M_Scan
  S_Chunks S_Detpair S_Scan S_Interrupt L_Hwp L_ScanEx L_ScanEx2 L_Interrupt L_Interrupt2.
Open Scope R_scope.

(** Between the two chunks of the only pair. *)
Lemma cut_between : exists s1 s2, can_stop ex_env (ex_opts false false) (rep_state rot_strat one_b) s1
  /\ scan_instrument ex_env (ex_opts false false) (rep_state rot_strat one_b) = Ok s2
  /\ (0 < length (s_log s1) < length (s_log s2))%nat.
Proof.
  do 2 eexists. split.
  { right. left. right. right. cbv zeta. right. eexists. split; [run; reflexivity|]. right. right.
    eexists. split; [run; reflexivity|]. right. right. eexists. split; [run; reflexivity|].
    left. left. left. reflexivity. }
  split; [run; reflexivity|]. cbn. lia.
Qed.

(** And started again without a reset. *)
Lemma not_reset : exists (E : env nat) O s s1 s2 t,
  repeatable E O s /\ freshly_set (s_strat s) /\ scan_instrument E O s = Ok s2
  /\ can_stop E O s s1 /\ (length (s_log s) < length (s_log s1) < length (s_log s2))%nat
  /\ scan_instrument E O s1 = Ok t
  /\ ~ exists new, s_log s2 = s_log s ++ new /\ s_log t = s_log s1 ++ new.
Proof.
  exists ex_env, (ex_opts false false), (rep_state rot_strat one_b). do 3 eexists.
  split; [apply rep_ok; [apply one_settings|discriminate]|]. split; [apply rot_fresh|].
  split; [run; reflexivity|]. split.
  { right. left. right. right. cbv zeta. right. eexists. split; [run; reflexivity|]. right. right.
    eexists. split; [run; reflexivity|]. right. right. eexists. split; [run; reflexivity|].
    left. left. left. reflexivity. }
  split; [cbn; lia|]. split; [run; reflexivity|].
  intros (new & H1 & H2). cbn [s_log rep_state app] in H1.
  apply (f_equal (@length _)) in H1. apply (f_equal (@length _)) in H2. rewrite app_length in H2.
  cbn in H1, H2. lia.
Qed.
