(** * Concrete scans that are repeated *)
From Coq Require Import Reals Lra.
From Verif Require Import Common LibList M_Chunks M_Steps M_Hwp M_Mpi M_Detpair M_Scan
  S_Chunks S_Detpair S_Scan L_Hwp L_ScanEx.
Open Scope R_scope.

(** Set by [set_instr_rot(period=3, angles=[0, 45])] at 1 Hz. *)
Definition rot_cfg : config := mkconfig 1 0 (Some 3) 0 (Some [0; 45]) NoMode None 0 (Some [0]) None.
Definition rot_strat : strat :=
  mkstrat 1 (mkirot (fresh_rot 3) 0 [0; 45] 0 (angle_gen [0; 45]))
    (mkhwp NoMode None 0 [0] (mksteps 0 0 0 (angle_gen [0]))) None.
Lemma rot_fresh : freshly_set rot_strat.
Proof.
  exists rot_cfg. unfold configure, set_instr_rot, rot_cfg. cbn.
  destruct (Req_EM_T 3 0); [lra|]. replace (3 * 1) with (IZR 3) by ring. rewrite trunc_Z. reflexivity.
Qed.
(** Nothing moves. *)
Definition still_cfg : config := mkconfig 1 0 None 0 (Some [0]) NoMode None 0 (Some [0]) None.
Definition still_strat : strat :=
  mkstrat 1 (mkirot (mkrot false 0 0) 0 [0] 0 (angle_gen [0]))
    (mkhwp NoMode None 0 [0] (mksteps 0 0 0 (angle_gen [0]))) None.
Lemma still_fresh : freshly_set still_strat.
Proof. exists still_cfg. reflexivity. Qed.
Lemma still_still : still still_strat.
Proof. split; [reflexivity|]. split; [left; reflexivity|exact I]. Qed.

Definition rep_state (u : strat) (beams : list (bpair nat)) : state nat :=
  mkstate u beams (Some ex_chunks) None None [] None None None (fun _ => None) (fun _ _ => None) (fun _ _ => []) (fun _ => []) [].
Lemma rep_ok u beams : (forall p, In p beams -> from_settings p) -> h_mode (sg_hwp u) <> OtherMode ->
  repeatable ex_env (ex_opts false false) (rep_state u beams).
Proof.
  intros Hf Hm. do 2 (split; [reflexivity|]). split; auto. split; [apply (ex_unmarked beams)|].
  split; auto.
Qed.
Lemma ex_settings : forall p, In p ex_beams -> from_settings p.
Proof.
  intros p Hp d Hd. unfold ex_beams in Hp.
  destruct Hp as [<-|[<-|[<-|[]]]]; cbn in Hd;
    repeat (destruct Hd as [<-|Hd]; [split; [reflexivity|]; cbn; intros g Hg;
      repeat (destruct Hg as [<-|Hg]; [split; [reflexivity|discriminate]|]); destruct Hg|]); destruct Hd.
Qed.
Lemma rot_runs : exists s', scan_instrument ex_env (ex_opts false false) (rep_state rot_strat ex_beams) = Ok s'.
Proof. eexists. run. reflexivity. Qed.
Lemma still_runs : exists s', scan_instrument ex_env (ex_opts false false) (rep_state still_strat ex_beams) = Ok s'.
Proof. eexists. run. reflexivity. Qed.

(** Twice in a row. *)
Definition one_b : list (bpair nat) := [(Some ex_b, None)].
Lemma one_settings : forall p, In p one_b -> from_settings p.
Proof. intros p [<-|[]] d [<-|[]]. split; [reflexivity|intros g []]. Qed.

Lemma rotation_again : exists (E : env nat) O s s1 s2,
  repeatable E O s /\ freshly_set (s_strat s)
  /\ scan_instrument E O s = Ok s1 /\ scan_instrument E O s1 = Ok s2
  /\ ~ exists new, s_log s1 = s_log s ++ new /\ s_log s2 = s_log s1 ++ new.
Proof.
  exists ex_env, (ex_opts false false), (rep_state rot_strat one_b). do 2 eexists.
  split; [apply rep_ok; [apply one_settings|discriminate]|]. split; [apply rot_fresh|].
  split; [run; reflexivity|]. split; [run; reflexivity|].
  intros (new & H1 & H2). cbn [s_log rep_state app] in H1.
  apply (f_equal (@length _)) in H1. apply (f_equal (@length _)) in H2. rewrite app_length in H2.
  cbn in H1, H2. lia.
Qed.

(** Assigned coefficients (resets or not). *)
Definition asg : list (bpair nat) := [(Some (mkdet 1 false false [] (Some 9%nat) (Ok 1%nat)), None)].
Lemma assigned_again : exists (E : env nat) O s s1 s2,
  o_ground O = false /\ freshly_set (s_strat s) /\ still (s_strat s)
  /\ (exists p d, In p (s_beams s) /\ In d (pair_dets p) /\ d_blm d <> None)
  /\ scan_instrument E O s = Ok s1
  /\ scan_instrument E O (set_strat s1 (reset (s_strat s1))) = Ok s2
  /\ ~ exists new, s_log s1 = s_log s ++ new /\ s_log s2 = s_log s1 ++ new.
Proof.
  exists ex_env, (ex_opts false false), (rep_state still_strat asg). do 2 eexists.
  split; [reflexivity|]. split; [apply still_fresh|]. split; [apply still_still|].
  split; [do 2 eexists; split; [left; reflexivity|]; split; [left; reflexivity|discriminate]|].
  split; [run; reflexivity|]. split; [run; reflexivity|].
  intros (new & H1 & H2). cbn [s_log rep_state app] in H1. subst new. cbn [s_log app] in H2.
  injection H2 as H2 _. cbn in H2. lra.
Qed.

(** A ground template in an earlier scan. *)
Lemma ground_again : exists (E : env nat) s s1,
  freshly_set (s_strat s) /\ still (s_strat s) /\ (forall p, In p (s_beams s) -> from_settings p)
  /\ chunks_unmarked (ex_opts false false) s
  /\ (exists s', scan_instrument E (ex_opts false false) s = Ok s')
  /\ scan_instrument E (ex_opts true false) s = Ok s1
  /\ scan_instrument E (ex_opts false false) s1 = Err UnboundLocalError.
Proof.
  exists ex_env, (rep_state still_strat one_b). eexists.
  split; [apply still_fresh|]. split; [apply still_still|]. split; [apply one_settings|].
  split; [apply (ex_unmarked one_b)|]. split; [eexists; run; reflexivity|].
  split; [run; reflexivity|]. run. reflexivity.
Qed.
Lemma rot_ok : repeatable ex_env (ex_opts false false) (rep_state rot_strat ex_beams).
Proof. apply rep_ok; [exact ex_settings|discriminate]. Qed.
Lemma still_ok : repeatable ex_env (ex_opts false false) (rep_state still_strat ex_beams).
Proof. apply rep_ok; [exact ex_settings|discriminate]. Qed.
