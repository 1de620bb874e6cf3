(** * What is left of the data of earlier scans *)
From Coq Require Import Reals Lra.
From Verif Require Import Common LibList M_Chunks M_Steps M_Hwp M_Mpi M_Detpair M_Scan
  S_Chunks S_Detpair S_Scan S_Saved L_Chunks L_Hwp L_Mpi L_Detpair L_Scan L_Scan2 L_Scan3 L_Scan4 L_Scan5
  L_Scan6 L_Scan7 L_Scan8 L_Scan12 L_Scan13 L_Scan14 L_Scan16 L_Scan17 L_Scan18 L_Scan19 L_Scan20 L_Absent.
Open Scope R_scope.

Section L.
  Context {B : Type}.
  Implicit Types (s : state B) (E : env B) (d : det B) (p q : bpair B).

  (** ** Without [save_point] no step touches the position arrays *)
  Definition quiet s s' : Prop := s_point s' = s_point s /\ s_hwps s' = s_hwps s.
  Lemma quiet_refl s : quiet s s.
  Proof. split; reflexivity. Qed.
  Lemma quiet_trans s1 s2 s3 : quiet s1 s2 -> quiet s2 s3 -> quiet s1 s3.
  Proof. intros [A A'] [C C']. split; congruence. Qed.

  Lemma lift_quiet o s x s' : lift_op o s = Ok (x, s') -> quiet s s'.
  Proof. intros H. apply lift_op_inv in H. destruct H as (st & _ & ->). split; reflexivity. Qed.
  Lemma store_quiet add t s s' : store_tod add t s = Ok s' -> quiet s s'.
  Proof.
    unfold store_tod. destruct add; [destruct (s_tod s)|]; intros H;
      [inv_bind H u Hu; injection H as <-|injection H as <-..]; split; reflexivity.
  Qed.
  Lemma scan_quiet E w dead gi add rt rp skip ground c s t s' :
    scan E w dead gi add rt rp skip ground c s = Ok (t, s') -> quiet s s'.
  Proof.
    unfold scan. destruct dead; [discriminate|]. destruct (skip && (rt || rp)); [discriminate|].
    set (s1 := match w with Main _ => _ | Ghost _ _ => s end).
    assert (Q : quiet s s1) by (unfold s1; destruct w; split; reflexivity). clearbody s1.
    destruct skip; intros H.
    - inv_bind H s2 H2. injection H as _ <-. apply store_quiet in H2. eapply quiet_trans; eauto.
    - inv_bind H b Hb. inv_bind H a Ha. inv_bind H bore Hbo. destruct (negb _); [discriminate|].
      inv_bind H s2 H2. injection H as _ <-. apply store_quiet in H2.
      eapply quiet_trans; [exact Q|]. destruct H2 as [X Y]. split; [exact X|exact Y].
  Qed.
  Lemma ghosts_quiet E i skip ground x : forall gs j n s n' s',
    scan_ghosts E i j n gs skip ground x s = Ok (n', s') -> quiet s s'.
  Proof.
    induction gs as [|g gs IH]; intros j n s n' s' H; cbn [scan_ghosts] in H.
    - injection H as <- <-. apply quiet_refl.
    - destruct (gh_dead g); [eapply IH; eauto|]. inv_bind H y Hy. destruct y as [t s1].
      apply scan_quiet in Hy. eapply quiet_trans; eauto.
  Qed.
  Lemma put_quiet i x t s s' : put_tod i x t s = Ok s' -> quiet s s'.
  Proof.
    unfold put_tod. intros H. inv_bind H ij Hij. destruct ij as [a b]. destruct (c_cidx x); [|discriminate].
    destruct (s_data s n i); [|discriminate]. destruct (a <? 0)%Z; [discriminate|]. injection H as <-.
    split; reflexivity.
  Qed.
  Lemma bin_quiet O d tod x s t s' : bin_tod O d tod x s = Ok (t, s') -> quiet s s'.
  Proof.
    unfold bin_tod. intros H. destruct (s_hwp s); [|discriminate]. inv_bind H bore Hb.
    destruct (s_qoff s (d_id d)); [|discriminate]. inv_bind H t0 H0. inv_bind H t1 H1. injection H as <- <-.
    destruct tod; split; reflexivity.
  Qed.

  Lemma detector_quiet E O d ground x s s' : o_save_point O = false ->
    scan_detector E O d ground x s = Ok s' -> quiet s s'.
  Proof.
    intros Hsp H. unfold scan_detector in H. rewrite Hsp in H.
    destruct (d_ghost d); [discriminate|]. destruct (o_preview O && _); [discriminate|].
    inv_bind H ns Hns. destruct ns as [n s1]. apply ghosts_quiet in Hns.
    inv_bind H y Hy. destruct y as [te s2].
    assert (Q2 : quiet s1 s2).
    { destruct ground; [|injection Hy as _ <-; apply quiet_refl].
      inv_bind Hy z Hz. destruct z as [t s3]. injection Hy as _ <-. eapply scan_quiet; eauto. }
    inv_bind H ts Hts. destruct ts as [t s3]. apply scan_quiet in Hts.
    inv_bind H s4 H4. injection H as <-.
    eapply quiet_trans; [exact Hns|]. eapply quiet_trans; [exact Q2|]. eapply quiet_trans; [exact Hts|].
    destruct (o_save_tod O); [eapply put_quiet; eauto|injection H4 as <-; apply quiet_refl].
  Qed.

  Lemma sub_quiet E O p ground x s s' : o_save_point O = false ->
    scan_sub E O p ground x s = Ok s' -> quiet s s'.
  Proof.
    intros Hsp H. unfold scan_sub in H. destruct p as [oa ob].
    inv_bind H x0 Hx0. destruct x0 as [x0 s1].
    assert (F1 : quiet s s1).
    { destruct (c_norot x); [injection Hx0 as <- <-; apply quiet_refl|eapply lift_quiet; eauto]. }
    inv_bind H y Hy. destruct y as [y s2].
    set (s3 := match y with XHwp HStale => s2 | XHwp h => set_hwp s2 (Some h) | _ => s2 end) in H.
    assert (F3 : quiet s s3).
    { eapply quiet_trans; [exact F1|]. eapply quiet_trans; [eapply lift_quiet; exact Hy|].
      unfold s3. destruct y as [| |[]| |]; split; reflexivity. }
    clearbody s3. clear F1 Hx0 Hy s1 s2 x0 y.
    inv_bind H z Hz. destruct z as [ca s4].
    assert (F4 : quiet s s4).
    { destruct (live oa) as [a|]; [|injection Hz as <- <-; exact F3].
      inv_bind Hz s5 H5. apply detector_quiet in H5; auto. cbv zeta in Hz.
      assert (F5 : quiet s s5) by (eapply quiet_trans; eauto).
      destruct (match live ob with Some _ => if Req_EM_T (o_ctalk O) 0 then false else true | None => false end);
        [injection Hz as <- <-; exact F5|].
      destruct (o_binning O); [|injection Hz as <- <-; exact F5].
      inv_bind Hz w Hw. destruct w as [w s6]. injection Hz as <- <-.
      eapply quiet_trans; [exact F5|eapply bin_quiet; exact Hw]. }
    inv_bind H s5 H5.
    assert (F5 : quiet s s5).
    { destruct (live ob) as [b|]; [|injection H5 as <-; exact F4].
      inv_bind H5 s6 H6. apply detector_quiet in H6; auto.
      assert (F6 : quiet s s6) by (eapply quiet_trans; eauto).
      destruct ca; [injection H5 as <-; exact F6|].
      destruct (o_binning O); [|injection H5 as <-; exact F6].
      inv_bind H5 w Hw. destruct w as [w s7]. injection H5 as <-.
      eapply quiet_trans; [exact F6|eapply bin_quiet; exact Hw]. }
    destruct ca as [ta|]; [|injection H as <-; exact F5].
    destruct (live oa) as [a|]; [|injection H as <-; exact F5].
    destruct (live ob) as [b|]; [|injection H as <-; exact F5]. cbv zeta in H.
    inv_bind H tts Htt. destruct tts as [ta' tb'].
    inv_bind H s6 H6.
    assert (F6 : quiet s s6).
    { assert (F : quiet s (set_tod s5 (Some tb'))) by exact F5.
      destruct (o_save_tod O); [|injection H6 as <-; exact F].
      inv_bind H6 s7 H7. eapply quiet_trans; [exact F|]. eapply quiet_trans; eapply put_quiet; eauto. }
    destruct (o_binning O); [|injection H as <-; exact F6].
    inv_bind H w Hw. destruct w as [w s7]. inv_bind H w' Hw'. destruct w' as [w' s8]. injection H as <-.
    eapply quiet_trans; [exact F6|]. eapply quiet_trans; [eapply bin_quiet; exact Hw|].
    apply bin_quiet in Hw'. exact Hw'.
  Qed.

  Lemma subs_quiet E O p : o_save_point O = false -> forall subs s s',
    scan_subs E O p subs s = Ok s' -> quiet s s'.
  Proof.
    intros Hsp. induction subs as [|[x g] subs IH]; intros s s' H; cbn [scan_subs] in H.
    { injection H as <-. apply quiet_refl. }
    inv_bind H s1 H1. apply sub_quiet in H1; auto. eapply quiet_trans; eauto.
  Qed.

  (** ** Nothing old is left *)
  Definition clean O k i s : Prop :=
    (o_save_tod O = false -> s_data s k i = None) /\ (o_save_point O = false -> s_point s k i = []).

  (** Timestreams of others, and HWP angles. *)
  Definition still O p s s' : Prop :=
    (forall k i, ~ live_id p i -> s_data s' k i = s_data s k i)
    /\ (o_save_point O = false -> forall k, s_hwps s' k = s_hwps s k).

  Lemma still_trans O p s1 s2 s3 : still O p s1 s2 -> still O p s2 s3 -> still O p s1 s3.
  Proof.
    intros [A A'] [C C']. split.
    - intros k i H. rewrite C; auto.
    - intros H k. rewrite C'; auto.
  Qed.

  Lemma subs_left E O p : (o_ground O = true -> o_preview O = false) -> forall subs s s',
    scan_subs E O p (map (fun c => (c, o_ground O)) subs) s = Ok s' ->
    (forall k i, clean O k i s -> clean O k i s') /\ still O p s s'.
  Proof.
    intros Hg. induction subs as [|x subs IH]; intros s s' H; cbn [map scan_subs] in H.
    { injection H as <-. split; [auto|]. split; auto. }
    inv_bind H s1 H1.
    assert (Q : o_save_point O = false -> quiet s s1) by (intros Hsp; eapply sub_quiet; eauto).
    destruct (scan_sub_spec _ _ _ _ _ _ _ Hg H1) as (st & h & la & lb & _ & _ & _ & _ & _ & D1 & D2 & _).
    destruct (IH _ _ H) as [I1 I2]. split.
    - intros k i [C1 C2]. apply I1. split.
      + intros Es. rewrite (D2 Es). auto.
      + intros Es. destruct (Q Es) as [Q1 _]. rewrite Q1. auto.
    - apply still_trans with s1; [|exact I2]. split.
      + intros k i Hi. destruct (live_dec p i) as [L|L]; [contradiction|]. rewrite D1; auto.
      + intros Es k. rewrite (proj2 (Q Es)). reflexivity.
  Qed.

  Lemma chunk_left E O bidx p k c s s' : (o_ground O = true -> o_preview O = false) ->
    no_stale O (chunks_of s) -> nth_error (map fst (chunks_of s)) k = Some c -> c_cidx c = Some k ->
    scan_chunk E O bidx p k s = Ok s' ->
    (forall k i, clean O k i s -> clean O k i s') /\ (forall i, live_id p i -> clean O k i s') /\ still O p s s'.
  Proof.
    intros Hg Hst Hk Hc H. rewrite nth_error_map in Hk.
    destruct (nth_error (chunks_of s) k) as [[c' g]|] eqn:Ek; [|discriminate]. injection Hk as ->.
    destruct (deep_chunk _ _ _ _ _ _ _ _ _ Hst Ek H)
      as (s1 & subs & r1 & s6 & H1 & _ & _ & _ & _ & _ & _ & _ & _ & (A1 & A2) & A3 & Hs).
    destruct (A3 k Hc) as (P1 & P2 & P3 & P4).
    apply implement_data in H1. apply subs_left in Hs; auto. destruct Hs as [S1 S2].
    assert (L6 : forall i, live_id p i -> clean O k i s6).
    { intros i (d & Hd & <-). split; intros Es.
      - destruct (A2 d Hd) as (ci & Hci & Hn). assert (ci = k) by congruence. subst ci. rewrite Hn, Es. reflexivity.
      - rewrite (P2 d Hd), Es. reflexivity. }
    split; [|split; [auto|]].
    - intros k' i [C1 C2]. apply S1. destruct (live_dec p i) as [L|L].
      + destruct (Nat.eq_dec k' k) as [->|N]; [apply L6; exact L|]. split; intros Es.
        * rewrite A1 by (left; congruence). rewrite H1. auto.
        * rewrite P1 by auto. auto.
      + split; intros Es.
        * rewrite A1 by auto. rewrite H1. auto.
        * rewrite P1 by auto. auto.
    - apply still_trans with s6; [|exact S2]. split.
      + intros k' i Hi. rewrite A1, H1; auto. right. intros d Hd Ed. apply Hi. exists d. split; auto.
      + intros Es k'. destruct (Nat.eq_dec k' k) as [->|N]; [|auto].
        rewrite P4, Es, andb_false_r. reflexivity.
  Qed.

  Lemma chunks_left E O bidx p cs : (o_ground O = true -> o_preview O = false) ->
    numbered cs -> pos_chunks cs -> forall ks s s', (forall k, In k ks -> (k < length cs)%nat) ->
    map fst (chunks_of s) = cs -> no_stale O (chunks_of s) -> rot_fine (ir_rot (sg_rot (s_strat s))) ->
    scan_chunks E O bidx p ks s = Ok s' ->
    (forall k i, clean O k i s -> clean O k i s') /\ (forall k i, In k ks -> live_id p i -> clean O k i s')
    /\ still O p s s'.
  Proof.
    intros Hg Hnum Hpos. induction ks as [|k ks IH]; intros s s' Hks Hcs Hst Hrot H; cbn [scan_chunks] in H.
    { injection H as <-. split; [auto|]. split; [intros k i []|]. split; auto. }
    inv_bind H s1 H1.
    destruct (nth_error cs k) as [c|] eqn:Ek.
    2:{ apply nth_error_None in Ek. specialize (Hks k (or_introl eq_refl)). lia. }
    assert (X := H1). apply (chunk_left E O bidx p k c) in X; auto; [|congruence].
    destruct X as (X1 & X2 & X3).
    apply scan_chunk_like in H1; auto; [|apply pos_positive; rewrite Hcs; auto]. destruct H1 as (_ & _ & _ & K1 & N1 & F1).
    destruct (IH s1 s') as (Y1 & Y2 & Y3); auto.
    { intros k' Hk'. apply Hks. now right. }
    { rewrite (k2_chunks _ _ K1). auto. }
    split; [auto|]. split.
    - intros k' i [<-|Hk'] Hi; auto.
    - apply still_trans with s1; auto.
  Qed.

  Definition still_all O (bs : list (bpair B)) (ws : list (option nat)) s s' : Prop :=
    (forall k i, ~ some_live bs ws i -> s_data s' k i = s_data s k i)
    /\ (o_save_point O = false -> forall k, s_hwps s' k = s_hwps s k).

  Lemma pairs_left E O cs (bs : list (bpair B)) : (o_ground O = true -> o_preview O = false) ->
    numbered cs -> pos_chunks cs -> forall ws bidx s s', NoDup (somes ws) ->
    (forall w, In w ws -> pair_at s w = at_ bs w) -> no_stale O (chunks_of s) -> used_chunks E s = Ok cs ->
    rot_fine (ir_rot (sg_rot (s_strat s))) -> scan_pairs E O bidx ws s = Ok s' ->
    (forall k i, clean O k i s -> clean O k i s')
    /\ (forall k i, (k < length cs)%nat -> some_live bs ws i -> clean O k i s')
    /\ still_all O bs ws s s'.
  Proof.
    intros Hg Hnum Hpos. induction ws as [|w ws IH]; intros bidx s s' NW Hat Hst Hcs Hrot H; cbn [scan_pairs] in H.
    { injection H as <-. split; [auto|]. split; [intros k i _ (w & [] & _)|]. split; auto. }
    inv_bind H s1 H1.
    assert (G : (forall k i, clean O k i s -> clean O k i s1)
      /\ (forall k i, (k < length cs)%nat -> live_id (at_ bs w) i -> clean O k i s1) /\ still O (at_ bs w) s s1).
    { destruct (deep_pair _ _ _ _ _ _ _ Hst Hcs H1)
        as (q & s2 & Sa & Sb & S2 & _ & D2 & _ & _ & F2 & _ & N2 & _ & _ & (P2 & W2) & H2).
      rewrite <- Hat by now left.
      apply (chunks_left E O bidx q cs) in H2; auto.
      - destruct H2 as (Y1 & Y2 & (Y3 & Y4)).
        assert (Fw : forall i, live_id (pair_at s w) i -> live_id q i).
        { intros i (d & Hd & Hi). apply same_live in Sa, Sb. destruct Hd as [Hd|Hd]; rewrite Hd in *.
          - destruct (live (fst q)) as [d'|] eqn:El; [|contradiction]. exists d'. split; [now left|].
            destruct Sa as [Sa _]. congruence.
          - destruct (live (snd q)) as [d'|] eqn:El; [|contradiction]. exists d'. split; [now right|].
            destruct Sb as [Sb _]. congruence. }
        split; [|split; [|split]].
        + intros k i [C1 C2]. apply Y1. split; [rewrite D2|rewrite P2]; auto.
        + intros k i Hk Hi. apply Y2; auto. apply in_seq. lia.
        + intros k i Hi. rewrite Y3, D2; auto. intros L. apply Hi. eapply same_live_id; eauto.
        + intros Es k. rewrite Y4, W2; auto.
      - intros k Hk. apply in_seq in Hk. lia.
      - rewrite S2. destruct (bidx =? 0)%nat; auto. apply reset_fine; auto. }
    destruct G as (G1 & G2 & (G3 & G4)).
    eapply scan_pair_like in H1; eauto. destruct H1 as (_ & _ & _ & Bm & C1 & N1 & F1).
    assert (NW' : NoDup (somes ws)).
    { destruct w; cbn in NW; auto. inversion NW; auto. }
    apply (IH _ s1) in H; auto.
    - destruct H as (Y1 & Y2 & (Y3 & Y4)). split; [auto|]. split; [|split].
      + intros k i Hk (w' & [<-|Hw'] & Hi); [auto|]. apply Y2; auto. exists w'. auto.
      + intros k i Hi. rewrite Y3, G3; auto.
        * intros L. apply Hi. exists w. split; [now left|exact L].
        * intros (w' & Hw' & L). apply Hi. exists w'. split; [now right|exact L].
      + intros Es k. rewrite Y4, G4; auto.
    - intros w' Hw'. rewrite <- Hat by now right. destruct w' as [j|]; cbn; auto. rewrite Bm; auto.
      intros ->. cbn in NW. inversion NW; subst. match goal with K : ~ In _ _ |- _ => apply K end.
      apply somes_in. auto.
  Qed.

  Lemma scan_left E O s s' cs : (o_ground O = true -> o_preview O = false) ->
    covers_mission E s -> rotation_ok s -> chunks_unmarked O s ->
    scan_instrument E O s = Ok s' -> chunks_used E s = Ok cs ->
    numbered cs
    /\ (forall k i, (k < length cs)%nat -> my_live E O s i -> clean O k i s')
    /\ still_all O (s_beams s) (my_pairs E O s) s s'.
  Proof.
    intros Hg Hm Hr Hu H Hc.
    destruct (used_facts E s Hm) as (cs' & Hcs & Hcs' & T & Hnum).
    assert (cs' = cs) by congruence. subst cs'. split; [exact Hnum|].
    assert (Hst : no_stale O (chunks_of s)).
    { unfold no_stale, chunks_of. destruct (s_chunks s) as [l|] eqn:El.
      - intros Ho. apply (Hu l El Ho).
      - intros _ cg []. }
    assert (Hpos : pos_chunks cs) by (intros x Hx; apply (tiles_pos _ _ _ _ T Hx)).
    unfold scan_instrument in H.
    destruct (negb (o_alm O) && negb (o_preview O)); [discriminate|].
    destruct (o_preview O && (o_save_tod O || o_save_point O)); [discriminate|].
    set (s0 := if o_memmap O && negb (e_ext E) then _ else s) in H.
    assert (X : s_data s0 = s_data s /\ s_hwps s0 = s_hwps s /\ s_beams s0 = s_beams s /\ s_chunks s0 = s_chunks s
                /\ s_strat s0 = s_strat s).
    { unfold s0. destruct (o_memmap O && negb (e_ext E)); repeat split; auto. }
    destruct X as (D0 & W0 & B0 & C0 & S0). clearbody s0.
    apply (pairs_left E O cs (s_beams s)) in H; auto.
    - destruct H as (_ & Y2 & (Y3 & Y4)). rewrite B0, D0 in *. rewrite W0 in *. split; [exact Y2|]. split; [exact Y3|exact Y4].
    - apply rank_nodup. apply seq_NoDup.
    - intros w _. unfold pair_at, at_. rewrite B0. reflexivity.
    - unfold chunks_of in *. rewrite C0. auto.
    - unfold used_chunks in *. rewrite C0. auto.
    - rewrite S0. auto.
  Qed.

  Lemma observes_live E O s d : observes E O s d -> my_live E O s (d_id d).
  Proof.
    intros (Hd & j & p & Ej & Hp & Hw). exists (Some j). split; [exact Hw|]. exists d. split; [|reflexivity].
    cbn. rewrite Ej. unfold is_live, live. destruct p as [[a|] [b|]]; cbn in *;
      repeat match goal with h : _ \/ _ |- _ => destruct h as [h|h] end; subst; try contradiction;
      rewrite ?Hd; auto.
  Qed.

  Lemma nothing_stale E O s s' cs : (o_ground O = true -> o_preview O = false) ->
    covers_mission E s -> rotation_ok s -> chunks_unmarked O s ->
    scan_instrument E O s = Ok s' -> chunks_used E s = Ok cs ->
    forall c d, In c cs -> observes E O s d ->
    (o_save_tod O = false -> data_tod s' c (d_id d) = Err KeyError)
    /\ (o_save_point O = false -> data_point s' c (d_id d) = Err KeyError).
  Proof.
    intros Hg Hm Hr Hu H Hc c d Hin Hd.
    destruct (scan_left E O s s' cs Hg Hm Hr Hu H Hc) as (Hnum & L & _).
    apply In_nth_error in Hin. destruct Hin as [k Hk].
    destruct (L k (d_id d)) as [C1 C2].
    - apply nth_error_Some. congruence.
    - apply observes_live. exact Hd.
    - unfold data_tod, data_point. rewrite (Hnum _ _ Hk). split; intros Es; [rewrite C1|rewrite C2]; auto.
  Qed.

  Lemma hwp_left E O s s' : (o_ground O = true -> o_preview O = false) ->
    covers_mission E s -> rotation_ok s -> chunks_unmarked O s ->
    o_save_point O = false -> scan_instrument E O s = Ok s' ->
    forall c, data_hwp s' c = data_hwp s c.
  Proof.
    intros Hg Hm Hr Hu Hs H c.
    destruct (used_facts E s Hm) as (cs & _ & Hcs & _).
    destruct (scan_left E O s s' cs Hg Hm Hr Hu H Hcs) as (_ & _ & (_ & L)).
    unfold data_hwp. destruct (c_cidx c) as [k|]; [|reflexivity]. rewrite L; auto.
  Qed.

  Lemma dead_left E O s s' : (o_ground O = true -> o_preview O = false) ->
    covers_mission E s -> rotation_ok s -> chunks_unmarked O s ->
    scan_instrument E O s = Ok s' ->
    forall c i, (forall d, observes E O s d -> d_id d <> i) -> data_tod s' c i = data_tod s c i.
  Proof.
    intros Hg Hm Hr Hu H c i Hi.
    destruct (used_facts E s Hm) as (cs & _ & Hcs & _).
    destruct (scan_left E O s s' cs Hg Hm Hr Hu H Hcs) as (_ & _ & (L & _)).
    unfold data_tod. destruct (c_cidx c) as [k|]; [|reflexivity]. rewrite L; auto.
    intros Hl. apply live_observes in Hl. destruct Hl as (d & Ed & Hd). exact (Hi d Hd Ed).
  Qed.
End L.
