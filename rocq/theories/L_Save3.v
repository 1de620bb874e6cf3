(** * Saving: the results in the terms of the specification *)
From Coq Require Import Reals.
From Verif Require Import Common M_Chunks M_Hwp M_Scan S_Scan S_Save L_Save L_Save2 L_ScanEx.
Open Scope R_scope.

Lemma only_saving O O' : same_but_saving O O' -> O' = saving O (o_save_tod O') (o_save_point O').
Proof. destruct O, O'. intros []. cbn in *. now subst. Qed.
Lemma saving_saving O a b c d : saving (saving O a b) c d = saving O c d.
Proof. reflexivity. Qed.
Lemma saving_id O : saving O (o_save_tod O) (o_save_point O) = O.
Proof. now destruct O. Qed.

Lemma same_dress {B} (s : state B) d p h : same_outcome s (dress s d p h).
Proof. constructor; reflexivity. Qed.
Lemma same_via {B} (s1 s2 : state B) d1 p1 h1 d2 p2 h2 :
  dress s1 d1 p1 h1 = dress s2 d2 p2 h2 -> same_outcome s1 s2.
Proof.
  intros H. destruct s1, s2. unfold dress in H. cbn in H. injection H as <- <- <- <- <- <- <- <- <- <- _ _ _ <-.
  constructor; reflexivity.
Qed.

Lemma changes_nothing {B} (E : env B) O O' s s1 s2 : same_but_saving O O' ->
  scan_instrument E O s = Ok s1 -> scan_instrument E O' s = Ok s2 -> same_outcome s1 s2.
Proof.
  intros SB H1 H2. rewrite (only_saving _ _ SB) in H2. apply saving_only in H1. apply saving_only in H2.
  rewrite saving_saving in H2. destruct H1 as (d1 & p1 & H1), H2 as (d2 & p2 & H2).
  apply (same_via _ _ d1 p1 (s_hwps s) d2 p2 (s_hwps s)). congruence.
Qed.

Lemma not_needed {B} (E : env B) O O' s s1 : same_but_saving O O' ->
  o_save_tod O' = false -> o_save_point O' = false ->
  scan_instrument E O s = Ok s1 -> exists s2, scan_instrument E O' s = Ok s2.
Proof.
  intros SB T P H1. apply only_saving in SB. rewrite T, P in SB. subst O'. apply saving_only in H1.
  destruct H1 as (d & p & H). eauto.
Qed.

Lemma never_fails {B} (E : env B) O O' s s1 : same_but_saving O O' ->
  o_preview O = false ->
  (o_save_point O' = true -> o_ground O = false /\ chunks_unmarked O s /\ h_mode (sg_hwp (s_strat s)) <> OtherMode) ->
  scan_instrument E O s = Ok s1 -> exists s2, scan_instrument E O' s = Ok s2.
Proof.
  intros SB PV HP H1. pose proof (only_saving _ _ SB) as EQ. apply saving_only in H1. destruct H1 as (d & p & H).
  apply (saving_completes E O (o_save_tod O') (o_save_point O')) in H; auto.
  - destruct H as (d' & p' & h' & H). rewrite EQ. eauto.
  - intros T. now apply HP.
  - intros T. destruct (HP T) as (G & U & M). split; [exact M|]. specialize (U) . unfold chunks_unmarked in U.
    destruct (s_chunks s) as [l|]; [|exact I]. apply Forall_forall. intros x Hx. now apply (U l eq_refl G).
Qed.

(** The examples. *)
Lemma ex_all : same_but_saving (ex_opts false false) (ex_opts false true).
Proof. constructor; reflexivity. Qed.
Definition ex_bare : opts := saving (ex_opts false false) false false.
Lemma ex_bare_same : same_but_saving (ex_opts false true) ex_bare /\ same_but_saving ex_bare (ex_opts false true).
Proof. split; constructor; reflexivity. Qed.
Lemma ex_bare_runs : exists s', scan_instrument ex_env ex_bare (ex_state ex_beams) = Ok s'.
Proof. destruct ex_runs as [s' H]. refine (not_needed _ _ ex_bare _ _ _ eq_refl eq_refl H). constructor; reflexivity. Qed.

Lemma ground_stops : exists (E : env nat) O O' s s1,
  same_but_saving O O' /\ o_preview O = false /\ o_ground O = true
  /\ scan_instrument E O s = Ok s1 /\ scan_instrument E O' s = Err UnboundLocalError.
Proof.
  destruct ex_runs_ground as [s1 H]. exists ex_env, (ex_opts true false), (ex_opts true true), (ex_state ex_beams_g), s1.
  split; [constructor; reflexivity|]. split; [reflexivity|]. split; [reflexivity|]. split; [exact H|exact ground_point_fails].
Qed.

Lemma ex_known beams : h_mode (sg_hwp (s_strat (ex_state beams))) <> OtherMode.
Proof. discriminate. Qed.
