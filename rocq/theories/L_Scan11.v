(** * Repeating a scan *)
From Coq Require Import Reals Lra.
From Verif Require Import Common LibList M_Chunks M_Steps M_Hwp M_Mpi M_Detpair M_Scan
  S_Chunks S_Detpair S_Scan L_Chunks L_Hwp L_Detpair L_Scan L_Scan2 L_Scan4 L_Scan5 L_Scan10.
Open Scope R_scope.

Lemma configured_plain c u : configure c = Ok u -> sim (reset u) u.
Proof. apply configured_is_reset. Qed.

Lemma sim_sym u v : sim u v -> sim v u.
Proof.
  intros (A & B & C & D). split; auto. split; auto. split; auto. unfold sim_el in *.
  destruct (sg_el u), (sg_el v); auto. destruct D as (D1 & D2 & D3). do 2 (split; auto).
  unfold sim_steps in *. intuition congruence.
Qed.
Lemma reset_sim u v : sim u v -> sim (reset u) (reset v).
Proof. intros H. apply (sim_run_op OReset u v H). Qed.
Lemma reset_idem u : sim (reset (reset u)) (reset u).
Proof. apply (reset_after_op OReset u). Qed.

(** A strategy that stands still does not change. *)
Definition calm (u : strat) : Prop := still u /\ sim (reset u) u.
Lemma calm_op o u : calm u -> calm (snd (run_op o u)).
Proof.
  intros [(Hr & Hh & He) Hs]. destruct o; cbn [run_op].
  - unfold subpart_chunk. rewrite Hr. cbn. destruct u as [f i h e], i. cbn. split; auto. split; auto.
  - unfold rotate_instr. rewrite Hr. cbn. destruct u; cbn. split; auto. split; auto.
  - assert (E : exists o, rotate_hwp (sg_fsamp u) hwpang n (sg_hwp u) = Ok (o, sg_hwp u)).
    { unfold rotate_hwp. destruct Hh as [-> | Hf]; [eauto|].
      destruct (h_mode (sg_hwp u)), (h_freq (sg_hwp u)) as [f|]; eauto; rewrite Hf; cbn; eauto. }
    destruct E as [x ->]. cbn. destruct u; cbn. split; auto. split; auto.
  - assert (K : calm u) by (split; auto; split; auto).
    destruct (sg_el u) as [e|] eqn:Ee; [|exact K]. rewrite He. exact K.
  - split; [|apply reset_idem]. split; auto. split; auto. cbn. destruct (sg_el u); auto.
Qed.

Section L.
  Context {B : Type}.
  Variables (E : env B) (O : opts).
  Implicit Types s t : state B.

  Lemma eff_unmarked s : repeatable E O s -> forall l, eff E (s_chunks s) = Ok l -> no_stale O l.
  Proof.
    intros (_ & _ & _ & Hu & _) l. unfold eff. destruct (s_chunks s) as [c|] eqn:Ec.
    - intros H Hg cg Hc. injection H as <-. apply (Hu c Ec Hg cg Hc).
    - intros H Hg cg Hc. inv_bind H x Hx. injection H as <-. apply in_map_iff in Hc.
      destruct Hc as (z & <- & _). reflexivity.
  Qed.

  (** A scan from [s] and one from a state that looks like it. *)
  Lemma twin (Inv : strat -> Prop) s t : (forall o u, Inv u -> Inv (snd (run_op o u))) ->
    repeatable E O s -> Inv (s_strat s) -> sim (s_strat s) (s_strat t) ->
    s_beams t = s_beams s -> eff E (s_chunks t) = eff E (s_chunks s) ->
    (o_memmap O && negb (e_ext E) = false -> s_mmap t = None) ->
    forall s1, scan_instrument E O s = Ok s1 ->
    exists t1 new, scan_instrument E O t = Ok t1
      /\ s_log s1 = s_log s ++ new /\ s_log t1 = s_log t ++ new
      /\ sim (reset (s_strat s1)) (reset (s_strat s)) /\ Inv (s_strat s1)
      /\ h_mode (sg_hwp (s_strat s1)) <> OtherMode
      /\ s_beams s1 = s_beams s /\ eff E (s_chunks s1) = eff E (s_chunks s)
      /\ (o_memmap O && negb (e_ext E) = false -> s_mmap s1 = None).
  Proof.
    intros HI Rp Hi Hs Hb Hc Hm s1 H. assert (Rp' := Rp).
    destruct Rp' as (Hg & Hre & Hf & Hu & Hmode & Hmm).
    assert (R := scan_instrument_rel E O (s_strat s) (s_beams s) (s_log s) (s_log t)
      (o_memmap O && negb (e_ext E) = false) Inv HI Hf Hg Hre s t (eff_unmarked s Rp)).
    rewrite H in R.
    assert (R1 : orel (fun x y => agree E (s_strat s) (s_beams s) (s_log s) (s_log t)
        (o_memmap O && negb (e_ext E) = false) Inv x y /\ eff E (s_chunks x) = eff E (s_chunks s))
        (Ok s1) (scan_instrument E O t)).
    { apply R; auto.
      - split; auto. split; [apply sim_refl|]. auto.
      - destruct (o_memmap O && negb (e_ext E)); auto. right.
        destruct Hmm as [|Hmm]; [discriminate|]. rewrite Hmm, Hm; auto.
      - intros Hn. split; auto. destruct Hmm as [Hmm|Hmm]; congruence. }
    clear R. destruct (scan_instrument E O t) as [t1|] eqn:Et; [|contradiction].
    cbn in R1. destruct R1 as [[A1 A2 A3 A4 (new & L1 & L2)] C].
    exists t1, new. destruct A1 as (S1 & S2 & S3 & S4). destruct A2 as [A2 _]. destruct A4 as [_ A4].
    repeat (split; auto).
  Qed.

  Lemma repeatable_again s s1 u : repeatable E O s -> s_beams s1 = s_beams s ->
    eff E (s_chunks s1) = eff E (s_chunks s) ->
    (o_memmap O && negb (e_ext E) = false -> s_mmap s1 = None) ->
    h_mode (sg_hwp u) <> OtherMode ->
    repeatable E O (set_strat s1 u).
  Proof.
    intros Rp Hb Hc Hm Hh. assert (F := eff_unmarked s Rp).
    destruct Rp as (Hg & Hre & Hf & Hu & Hmode & Hmm). do 2 (split; auto).
    split; [cbn; rewrite Hb; auto|]. split; [|split; auto].
    - intros l Hl Hg' cg Hin. cbn in Hl. rewrite <- Hc, Hl in F. apply (F l eq_refl Hg' cg Hin).
    - cbn. destruct (o_memmap O && negb (e_ext E)); auto.
  Qed.

  (** With resets in between. *)
  Lemma scans_same : forall n s s1 t, repeatable E O s -> sim (reset (s_strat s)) (s_strat s) ->
    scan_instrument E O s = Ok s1 ->
    repeatable E O t -> sim (s_strat s) (s_strat t) ->
    s_beams t = s_beams s -> eff E (s_chunks t) = eff E (s_chunks s) ->
    exists new tn, s_log s1 = s_log s ++ new
      /\ scans E O n t = Ok tn /\ s_log tn = s_log t ++ concat (repeat new n).
  Proof.
    induction n as [|n IH]; intros s s1 t Rp Hs H Rt Hst Hb Hc.
    - destruct (twin (fun _ => True) s s) with (s1 := s1) as (t1 & new & _ & L & _); auto using sim_refl.
      { intros Hn. destruct Rp as (_ & _ & _ & _ & _ & [X|X]); congruence. }
      exists new, t. cbn. rewrite app_nil_r. auto.
    - destruct (twin (fun _ => True) s t) with (s1 := s1) as (t1 & new & Et & L & Lt & _); auto.
      { intros Hn. destruct Rt as (_ & _ & _ & _ & _ & [X|X]); congruence. }
      destruct (twin (fun _ => True) t t) with (s1 := t1) as (t2 & new2 & _ & _ & _ & S1 & _ & Mo & B1 & C1 & M1);
        auto using sim_refl.
      { intros Hn. destruct Rt as (_ & _ & _ & _ & _ & [X|X]); congruence. }
      set (t1' := set_strat t1 (reset (s_strat t1))).
      destruct (IH s s1 t1') as (new' & tn & L' & En & Ln); auto.
      + unfold t1'. eapply repeatable_again; eauto.
      + cbn. eapply sim_trans; [apply sim_sym; exact Hs|]. eapply sim_trans; [apply reset_sim; exact Hst|].
        apply sim_sym. exact S1.
      + cbn. congruence.
      + cbn. congruence.
      + assert (new' = new) by (rewrite L in L'; apply app_inv_head in L'; auto). subst new'.
        exists new, tn. cbn [scans]. rewrite Et. cbn [bind]. fold t1'. split; auto. split; auto.
        rewrite Ln. cbn. rewrite Lt, <- app_assoc. reflexivity.
  Qed.

  Lemma repeat_reset s s1 n : repeatable E O s -> freshly_set (s_strat s) ->
    scan_instrument E O s = Ok s1 ->
    exists new sn, s_log s1 = s_log s ++ new
      /\ scans E O n s = Ok sn /\ s_log sn = s_log s ++ concat (repeat new n).
  Proof.
    intros Rp (c & Hc) H. apply scans_same with (s := s); auto using sim_refl.
    eapply configured_is_reset; eauto.
  Qed.

  (** Without, when nothing moves. *)
  Lemma plain_same : forall n s s1 t, repeatable E O s -> calm (s_strat s) ->
    scan_instrument E O s = Ok s1 ->
    repeatable E O t -> sim (s_strat s) (s_strat t) -> calm (s_strat t) ->
    s_beams t = s_beams s -> eff E (s_chunks t) = eff E (s_chunks s) ->
    exists new tn, s_log s1 = s_log s ++ new
      /\ plain_scans E O n t = Ok tn /\ s_log tn = s_log t ++ concat (repeat new n).
  Proof.
    induction n as [|n IH]; intros s s1 t Rp Hs H Rt Hst Hct Hb Hc.
    - destruct (twin (fun _ => True) s s) with (s1 := s1) as (t1 & new & _ & L & _); auto using sim_refl.
      { intros Hn. destruct Rp as (_ & _ & _ & _ & _ & [X|X]); congruence. }
      exists new, t. cbn. rewrite app_nil_r. auto.
    - destruct (twin (fun _ => True) s t) with (s1 := s1) as (t1 & new & Et & L & Lt & _); auto.
      { intros Hn. destruct Rt as (_ & _ & _ & _ & _ & [X|X]); congruence. }
      destruct (twin calm t t) with (s1 := t1) as (t2 & new2 & _ & _ & _ & S1 & Ca & Mo & B1 & C1 & M1);
        auto using sim_refl, calm_op.
      { intros Hn. destruct Rt as (_ & _ & _ & _ & _ & [X|X]); congruence. }
      destruct (IH s s1 t1) as (new' & tn & L' & En & Ln); auto.
      + replace t1 with (set_strat t1 (s_strat t1)) by (destruct t1; reflexivity).
        eapply repeatable_again; eauto.
      + eapply sim_trans; [exact Hst|]. eapply sim_trans; [apply sim_sym; apply Hct|].
        eapply sim_trans; [apply sim_sym; exact S1|]. apply Ca.
      + congruence.
      + congruence.
      + assert (new' = new) by (rewrite L in L'; apply app_inv_head in L'; auto). subst new'.
        exists new, tn. cbn [plain_scans]. rewrite Et. cbn [bind]. split; auto. split; auto.
        rewrite Ln. cbn. rewrite Lt, <- app_assoc. reflexivity.
  Qed.

  Lemma repeat_still s s1 n : repeatable E O s -> freshly_set (s_strat s) -> still (s_strat s) ->
    scan_instrument E O s = Ok s1 ->
    exists new sn, s_log s1 = s_log s ++ new
      /\ plain_scans E O n s = Ok sn /\ s_log sn = s_log s ++ concat (repeat new n).
  Proof.
    intros Rp (c & Hc) Hst H. assert (C : calm (s_strat s)) by (split; auto; eapply configured_is_reset; eauto).
    apply plain_same with (s := s); auto using sim_refl.
  Qed.
End L.
