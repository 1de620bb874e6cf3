(** * Sizes of the saved arrays *)
From Coq Require Import Reals QArith Lra Lia.
From Verif Require Import Common LibList M_Chunks M_Sched M_Steps M_Hwp M_Mpi M_Detpair M_Scan M_Divide
  S_Chunks S_Detpair S_Scan S_Saved S_Divide L_Chunks L_Hwp L_Mpi L_Detpair L_Scan L_Scan2 L_Scan3 L_Scan4 L_Scan5
  L_Scan6 L_Scan7 L_Scan8 L_Scan12 L_Scan13 L_Scan14 L_Scan16 L_Scan17 L_Scan18 L_Scan19 L_Scan20 L_Absent L_Left.
Open Scope R_scope.

Section L.
  Context {B : Type}.
  Implicit Types (s : state B) (E : env B) (d : det B) (p q : bpair B).

  Definition sized (cs : list chunk) s : Prop := forall k c i a, nth_error cs k = Some c ->
    s_data s k i = Some a -> length a = csize c.

  (** Without [save_point], positions too. *)
  Definition psized O (cs : list chunk) s : Prop := o_save_point O = false ->
    forall k c i, nth_error cs k = Some c -> s_point s k i = [] \/ length (s_point s k i) = csize c.

  Lemma chunk_psized E O bidx p k s s' c cs : no_stale O (chunks_of s) -> map fst (chunks_of s) = cs ->
    numbered cs -> nth_error cs k = Some c -> psized O cs s ->
    scan_chunk E O bidx p k s = Ok s' -> psized O cs s'.
  Proof.
    intros Hst Hcs Hnum Hk Hsz H Es k' c' i Hk'.
    assert (Hn := Hk). rewrite <- Hcs, nth_error_map in Hn. destruct (nth_error (chunks_of s) k) as [[c0 g]|] eqn:Ek; [|discriminate].
    cbn in Hn. injection Hn as ->.
    destruct (deep_chunk _ _ _ _ _ _ _ _ _ Hst Ek H)
      as (s1 & subs & r1 & s6 & _ & _ & _ & _ & _ & _ & _ & _ & _ & _ & A3 & Hs).
    destruct (A3 k (Hnum _ _ Hk)) as (P1 & P2 & _ & _).
    apply subs_quiet in Hs; auto. destruct Hs as [-> _].
    destruct (live_dec p i) as [(d & Hd & Ed)|L].
    - destruct (Nat.eq_dec k' k) as [->|N].
      + subst i. rewrite (P2 d Hd), Es. now left.
      + rewrite P1 by auto. eapply Hsz; eauto.
    - rewrite P1 by auto. eapply Hsz; eauto.
  Qed.

  Lemma subs_sized E O p cs c k : (o_ground O = true -> o_preview O = false) -> apart p ->
    nth_error cs k = Some c -> forall subs a s s',
    tiles a (c_end c) (map span subs) -> (c_start c <= a)%Z ->
    (forall x, In x subs -> c_cidx x = Some k) -> nth_error (plain_chunks s) k = Some c ->
    sized cs s ->
    scan_subs E O p (map (fun c => (c, o_ground O)) subs) s = Ok s' -> sized cs s'.
  Proof.
    intros Hg Hap Hk. induction subs as [|x subs IH]; intros a s s' T Hle Hci Hpc Hsz H; cbn [map scan_subs] in H.
    { injection H as <-. exact Hsz. }
    inv_bind H s1 H1. cbn [map] in T. destruct x as [xa xb xc xn]. cbn in T. destruct T as (-> & Hlt & T).
    set (x := mkchunk a xb xc xn) in *.
    assert (Tle : (xb <= c_end c)%Z) by (eapply tiles_le; exact T).
    assert (Sp := scan_sub_spec _ _ _ _ _ _ _ Hg H1).
    destruct Sp as (st & h & la & lb & Hm & Ha & Hb & F & El & D1 & D2 & D3).
    set (vw := the_views x (moved s st h)) in *.
    assert (PC1 : plain_chunks s1 = plain_chunks s).
    { unfold plain_chunks. rewrite (f_chunks _ _ F). reflexivity. }
    assert (Xc : xc = Some k) by (apply (Hci x); now left).
    assert (C2 : chunk2idx (plain_chunks s) x = Ok (a - c_start c, xb - c_start c)%Z).
    { unfold chunk2idx. cbn. rewrite Xc, Hpc. reflexivity. }
    assert (Fl : forall u w, length (final E O p (csize x) vw u w) = csize x).
    { intros u w. unfold final, mix. cbv zeta. destruct (ctalk_on O (fst p) (snd p)); apply L_Tod.arr_len. }
    assert (Use : forall i t r, length t = csize x -> saved s s1 x i t -> s_data s1 k i = Some r -> length r = csize c).
    { intros i t r Ht (i0 & j & ci & ar' & Hij & Hi0 & Hx & Har' & Hs) Hr. rewrite C2 in Hij. injection Hij as <- <-.
      cbn in Hx. assert (ci = k) by congruence. subst ci. assert (Hal := Hsz _ _ _ _ Hk Har').
      assert (Fit : (Z.to_nat (a - c_start c) + length t <= length ar')%nat).
      { rewrite Hal, Ht. unfold csize. cbn. lia. }
      rewrite Hs in Hr by exact Fit. injection Hr as <-. rewrite splice_length by exact Fit. exact Hal. }
    apply (IH xb s1 s'); auto.
    { lia. }
    { intros y Hy. apply Hci. now right. }
    { rewrite PC1. exact Hpc. }
    intros k' c' i r Hk' Hr.
    destruct (o_save_tod O) eqn:Es; [|rewrite (D2 eq_refl) in Hr; eapply Hsz; eauto].
    destruct (Nat.eq_dec k' k) as [->|N].
    2:{ rewrite D1 in Hr by (left; cbn; congruence). eapply Hsz; eauto. }
    assert (c' = c) by congruence. subst c'. destruct (D3 eq_refl) as [Da Db].
    destruct (live_dec p i) as [(d & Hd & Ed)|L]; [|rewrite D1 in Hr by auto; eapply Hsz; eauto].
    subst i. destruct Hd as [Hd|Hd].
    - refine (Use _ _ _ _ (Da _ Hd _) Hr); [apply Fl|]. intros b Hb'. now apply Hap.
    - refine (Use _ _ _ _ (Db _ Hd _) Hr); [apply Fl|]. intros b Hb'. now apply Hap.
  Qed.

  Lemma chunk_sized E O bidx p k s s' c cs : (o_ground O = true -> o_preview O = false) ->
    apart p -> no_stale O (chunks_of s) -> map fst (chunks_of s) = cs -> pos_chunks cs ->
    numbered cs -> rot_fine (ir_rot (sg_rot (s_strat s))) ->
    nth_error cs k = Some c -> sized cs s ->
    scan_chunk E O bidx p k s = Ok s' -> sized cs s'.
  Proof.
    intros Hg Hap Hst Hcs Hpos Hnum Hrot Hk Hsz H.
    assert (Hk' := Hk). rewrite <- Hcs, nth_error_map in Hk'. destruct (nth_error (chunks_of s) k) as [[c0 g]|] eqn:Ek; [|discriminate].
    cbn in Hk'. injection Hk' as ->.
    destruct (deep_chunk _ _ _ _ _ _ _ _ _ Hst Ek H) as (s1 & subs & r1 & s6 & H1 & Hsub & St & _ & _ & _ & _ & PC & L6 & (A1 & A2) & _ & Hs).
    assert (D1 := implement_data _ _ _ _ _ _ H1). apply implement_scan_like in H1.
    destruct H1 as (bore & L1 & K1 & R1).
    assert (Hpos' : (c_start c < c_end c)%Z) by (apply Hpos; eapply nth_error_In; exact Hk).
    rewrite R1 in Hsub.
    destruct (subpart_tiles _ _ _ _ Hrot Hpos' Hsub) as (T & _ & Hci & _).
    apply (subs_sized E O p cs c k Hg Hap Hk subs (c_start c) s6 s'); auto.
    { lia. }
    { intros x Hx. rewrite Hci; auto. }
    { rewrite PC, plain_of, Hcs. exact Hk. }
    intros k' c' i a Hk' Ha. destruct (Nat.eq_dec k' k) as [->|N].
    2:{ rewrite A1, D1 in Ha by (left; rewrite (Hnum _ _ Hk); congruence). eapply Hsz; eauto. }
    assert (c' = c) by congruence. subst c'.
    destruct (live_dec p i) as [(d & Hd & Ed)|L].
    - destruct (A2 d Hd) as (ci & Hc & Hdat). rewrite (Hnum _ _ Hk) in Hc. injection Hc as <-.
      subst i. rewrite Ha in Hdat. destruct (o_save_tod O); [|discriminate]. injection Hdat as ->. apply repeat_length.
    - rewrite A1, D1 in Ha by auto. eapply Hsz; eauto.
  Qed.

  Lemma chunks_sized E O bidx p cs : (o_ground O = true -> o_preview O = false) ->
    apart p -> numbered cs -> pos_chunks cs -> forall ks s s', (forall k, In k ks -> (k < length cs)%nat) ->
    map fst (chunks_of s) = cs -> no_stale O (chunks_of s) -> rot_fine (ir_rot (sg_rot (s_strat s))) ->
    sized cs s -> psized O cs s -> scan_chunks E O bidx p ks s = Ok s' ->
    (sized cs s' /\ psized O cs s') /\ map fst (chunks_of s') = cs.
  Proof.
    intros Hg Hap Hnum Hpos. induction ks as [|k ks IH]; intros s s' Hks Hcs Hst Hrot Hsz Hpz H; cbn [scan_chunks] in H.
    { injection H as <-. auto. }
    inv_bind H s1 H1.
    destruct (nth_error cs k) as [c|] eqn:Ek.
    2:{ apply nth_error_None in Ek. specialize (Hks k (or_introl eq_refl)). lia. }
    assert (X := H1). apply (chunk_sized E O bidx p k s s1 c cs) in X; auto.
    assert (Y := H1). apply (chunk_psized E O bidx p k s s1 c cs) in Y; auto.
    apply scan_chunk_like in H1; auto; [|apply pos_positive; rewrite Hcs; auto]. destruct H1 as (_ & _ & _ & K1 & N1 & F1).
    apply (IH s1 s'); auto.
    { intros k' Hk'. apply Hks. now right. }
    { rewrite (k2_chunks _ _ K1). auto. }
  Qed.

  Lemma pairs_sized E O cs (bs : list (bpair B)) : (o_ground O = true -> o_preview O = false) ->
    numbered cs -> pos_chunks cs -> NoDup (map d_id (dets bs)) -> forall ws bidx s s', NoDup (somes ws) ->
    (forall w, In w ws -> pair_at s w = at_ bs w) -> no_stale O (chunks_of s) -> used_chunks E s = Ok cs ->
    rot_fine (ir_rot (sg_rot (s_strat s))) -> sized cs s -> psized O cs s -> scan_pairs E O bidx ws s = Ok s' ->
    sized cs s' /\ psized O cs s' /\ (map fst (chunks_of s) = cs -> map fst (chunks_of s') = cs).
  Proof.
    intros Hg Hnum Hpos ND. induction ws as [|w ws IH]; intros bidx s s' NW Hat Hst Hcs Hrot Hsz Hpz H; cbn [scan_pairs] in H.
    { injection H as <-. auto. }
    inv_bind H s1 H1.
    assert (Pw : pair_at s w = at_ bs w) by (apply Hat; now left).
    assert (Ap : apart (at_ bs w)).
    { destruct w as [j|]; cbn; [|intros a b Ha; discriminate].
      destruct (nth_error bs j) as [q|] eqn:Ej; [|intros a b Ha; discriminate].
      intros a b Ha Hb. destruct (dets_split bs j q Ej) as (l1 & l2 & Ed). rewrite Ed in ND.
      destruct q as [[a0|] [b0|]]; cbn in Ha, Hb; try discriminate.
      destruct (d_dead a0); [discriminate|]. destruct (d_dead b0); [discriminate|].
      injection Ha as <-. injection Hb as <-. rewrite !map_app in ND. cbn in ND.
      apply NoDup_remove_2 in ND. intros E0. apply ND. apply in_or_app. right. left. auto. }
    assert (G : (sized cs s1 /\ psized O cs s1) /\ map fst (chunks_of s1) = cs).
    { destruct (deep_pair _ _ _ _ _ _ _ Hst Hcs H1)
        as (q & s2 & Sa & Sb & S2 & _ & D2 & _ & _ & F2 & _ & N2 & _ & _ & (P2 & _) & H2).
      apply (chunks_sized E O bidx q cs) in H2; auto.
      - rewrite <- Pw in Ap. eapply same_apart; eauto.
      - intros k Hk. apply in_seq in Hk. lia.
      - rewrite S2. destruct (bidx =? 0)%nat; auto. apply reset_fine; auto.
      - intros k c i a Hk Ha. rewrite D2 in Ha. eapply Hsz; eauto.
      - intros Es k c i Hk. rewrite P2. eapply Hpz; eauto. }
    destruct G as [[G Gp] Gc].
    eapply scan_pair_like in H1; eauto. destruct H1 as (_ & _ & _ & Bm & C1 & N1 & F1).
    assert (NW' : NoDup (somes ws)).
    { destruct w; cbn in NW; auto. inversion NW; auto. }
    apply (IH _ s1) in H; auto.
    { destruct H as (Y1 & Y2 & Y3). auto. }
    intros w' Hw'. rewrite <- Hat by now right. destruct w' as [j|]; cbn; auto. rewrite Bm; auto.
    intros ->. cbn in NW. inversion NW; subst. match goal with K : ~ In _ _ |- _ => apply K end.
    apply somes_in. auto.
  Qed.

  Lemma scan_sized E O s s' cs : (o_ground O = true -> o_preview O = false) ->
    covers_mission E s -> rotation_ok s -> chunks_unmarked O s -> NoDup (map d_id (dets (s_beams s))) ->
    scan_instrument E O s = Ok s' -> chunks_used E s = Ok cs -> sized cs s -> psized O cs s ->
    sized cs s' /\ psized O cs s' /\ (map fst (chunks_of s) = cs -> map fst (chunks_of s') = cs).
  Proof.
    intros Hg Hm Hr Hu ND H Hc Hsz Hpz.
    destruct (used_facts E s Hm) as (cs' & Hcs & Hcs' & T & Hnum).
    assert (cs' = cs) by congruence. subst cs'.
    assert (Hst : no_stale O (chunks_of s)).
    { unfold no_stale, chunks_of. destruct (s_chunks s) as [l|] eqn:El.
      - intros Ho. apply (Hu l El Ho).
      - intros _ cg []. }
    assert (Hpos : pos_chunks cs) by (intros x Hx; apply (tiles_pos _ _ _ _ T Hx)).
    unfold scan_instrument in H.
    destruct (negb (o_alm O) && negb (o_preview O)); [discriminate|].
    destruct (o_preview O && (o_save_tod O || o_save_point O)); [discriminate|].
    set (s0 := if o_memmap O && negb (e_ext E) then _ else s) in H.
    assert (X : s_data s0 = s_data s /\ s_point s0 = s_point s /\ s_beams s0 = s_beams s /\ s_chunks s0 = s_chunks s
                /\ s_strat s0 = s_strat s).
    { unfold s0. destruct (o_memmap O && negb (e_ext E)); repeat split; auto. }
    destruct X as (D0 & P0 & B0 & C0 & S0). clearbody s0.
    apply (pairs_sized E O cs (s_beams s)) in H; auto.
    - destruct H as (Y1 & Y2 & Y3). unfold chunks_of in *. rewrite C0 in *. auto.
    - apply rank_nodup. apply seq_NoDup.
    - intros w _. unfold pair_at, at_. rewrite B0. reflexivity.
    - unfold chunks_of in *. rewrite C0. auto.
    - unfold used_chunks in *. rewrite C0. auto.
    - rewrite S0. auto.
    - intros k c i a Hk Ha. rewrite D0 in Ha. eapply Hsz; eauto.
    - intros Es k c i Hk. rewrite P0. eapply Hpz; eauto.
  Qed.

  Lemma some_live_dec (bs : list (bpair B)) ws i : some_live bs ws i \/ ~ some_live bs ws i.
  Proof.
    induction ws as [|w ws IH]; [right; intros (w & [] & _)|].
    destruct (live_id_dec (at_ bs w) i) as [L|L]; [left; exists w; split; [now left|exact L]|].
    destruct IH as [(w' & Hw & Hi)|N]; [left; exists w'; split; [now right|exact Hi]|right].
    intros (w' & [<-|Hw] & Hi); [contradiction|]. apply N. exists w'. auto.
  Qed.

  Definition pieces s (cs : list chunk) : Prop := forall c, In c cs -> right_size s c.

  Lemma scan_right E O s s' cs : (o_ground O = true -> o_preview O = false) ->
    (o_save_point O = true -> o_ground O = false) ->
    covers_mission E s -> rotation_ok s -> chunks_unmarked O s -> NoDup (map d_id (dets (s_beams s))) ->
    scan_instrument E O s = Ok s' -> chunks_used E s = Ok cs -> pieces s cs ->
    pieces s' cs /\ (map fst (chunks_of s) = cs -> map fst (chunks_of s') = cs).
  Proof.
    intros Hg Hsg Hm Hr Hu ND H Hc Hp.
    destruct (used_facts E s Hm) as (cs' & Hcs & Hcs' & T & Hnum).
    assert (cs' = cs) by congruence. subst cs'.
    assert (Hpos : pos_chunks cs) by (intros x Hx; apply (tiles_pos _ _ _ _ T Hx)).
    assert (Sz : forall c, In c cs -> Z.of_nat (csize c) = (c_end c - c_start c)%Z).
    { intros c Hin. specialize (Hpos c Hin). unfold csize. lia. }
    assert (S1 : sized cs s).
    { intros k c i a Hk Ha. assert (Hin := nth_error_In _ _ Hk). destruct (Hp c Hin) as [X _]. specialize (X i a).
      unfold data_tod in X. rewrite (Hnum _ _ Hk), Ha in X. specialize (X eq_refl). specialize (Sz c Hin). lia. }
    assert (S2 : psized O cs s).
    { intros _ k c i Hk. assert (Hin := nth_error_In _ _ Hk). destruct (Hp c Hin) as (_ & X & _). specialize (X i).
      unfold data_point in X. rewrite (Hnum _ _ Hk) in X. destruct (s_point s k i) as [|u r]; [now left|right].
      specialize (X _ eq_refl). specialize (Sz c Hin). lia. }
    destruct (scan_sized E O s s' cs Hg Hm Hr Hu ND H Hc S1 S2) as (R1 & R2 & R3). split; [|exact R3].
    intros c Hin. assert (Hk := In_nth_error _ _ Hin). destruct Hk as [k Hk]. split; [|split].
    - intros i a Ha. unfold data_tod in Ha. rewrite (Hnum _ _ Hk) in Ha. destruct (s_data s' k i) eqn:Ed; [|discriminate].
      injection Ha as <-. rewrite (R1 _ _ _ _ Hk Ed). auto.
    - intros i a Ha. destruct (o_save_point O) eqn:Es.
      2:{ unfold data_point in Ha. rewrite (Hnum _ _ Hk) in Ha. destruct (R2 Es k c i Hk) as [X|X].
          - rewrite X in Ha. discriminate.
          - rewrite <- (Sz c Hin), <- X. destruct (s_point s' k i); [discriminate|]. injection Ha as <-. reflexivity. }
      destruct (some_live_dec (s_beams s) (my_pairs E O s) i) as [L|L].
      + destruct (scan_point E O s s' Es (Hsg eq_refl) Hm Hr Hu ND H) as (new & cs2 & _ & C2 & _ & _ & _ & W & G).
        assert (cs2 = cs) by congruence. subst cs2. destruct (G k c Hk) as (G1 & _). specialize (G1 i L).
        assert (Fit : forall w, In w (point_writes (e_pos E) i c new) -> (fst w + length (snd w) <= length (zero_point c))%nat).
        { intros w Hw. apply point_writes_in in Hw. destruct Hw as (v' & t' & Hi' & Hv' & Hb' & ->).
          destruct (write_fits cs _ _ k c i v' t' T Hk (W _ Hi') Hv' Hb') as (_ & F1 & F2 & F3 & _).
          cbn [fst snd]. rewrite map_length, seq_length. unfold zero_point, offset. rewrite repeat_length. unfold csize. lia. }
        assert (Len : length (s_point s' k i) = csize c).
        { rewrite G1, apply_length by exact Fit. apply repeat_length. }
        unfold data_point in Ha. rewrite (Hnum _ _ Hk) in Ha. rewrite <- (Sz c Hin), <- Len.
        destruct (s_point s' k i); [discriminate|]. injection Ha as <-. reflexivity.
      + rewrite (point_others E O s s' cs Es (Hsg eq_refl) Hm Hr Hu ND H Hc c i Hin L) in Ha.
        destruct (Hp c Hin) as (_ & X & _). eauto.
    - intros a Ha. destruct (o_save_point O) eqn:Es.
      2:{ rewrite (hwp_left E O s s' Hg Hm Hr Hu Es H) in Ha. destruct (Hp c Hin) as (_ & _ & X). auto. }
      destruct (my_pairs E O s) as [|w0 ws] eqn:Ew.
      + unfold scan_instrument in H.
        destruct (negb (o_alm O) && negb (o_preview O)); [discriminate|].
        destruct (o_preview O && (o_save_tod O || o_save_point O)); [discriminate|].
        set (s0 := if o_memmap O && negb (e_ext E) then _ else s) in H.
        assert (X : s_hwps s0 = s_hwps s /\ s_beams s0 = s_beams s).
        { unfold s0. destruct (o_memmap O && negb (e_ext E)); repeat split; auto. }
        destruct X as [W0 B0]. clearbody s0. unfold my_pairs in Ew. rewrite B0 in H. rewrite Ew in H. cbn in H. injection H as <-.
        destruct (Hp c Hin) as (_ & _ & X). apply X. unfold data_hwp in *. rewrite <- W0. exact Ha.
      + destruct (scan_point E O s s' Es (Hsg eq_refl) Hm Hr Hu ND H) as (new & cs2 & _ & C2 & _ & _ & _ & W & G).
        assert (cs2 = cs) by congruence. subst cs2. destruct (G k c Hk) as (_ & G2).
        rewrite Ew in G2. specialize (G2 ltac:(discriminate)).
        assert (Len : length (s_hwps s' k) = csize c).
        { rewrite G2, apply_length; [apply repeat_length|]. intros w Hw. apply hwp_writes_in in Hw.
          destruct Hw as (i & v' & t' & Hi' & Hv' & Hb' & ->).
          destruct (write_fits cs _ _ k c i v' t' T Hk (W _ Hi') Hv' Hb') as (_ & F1 & F2 & F3 & F4 & _).
          cbn [fst snd]. rewrite (ret_length _ _ _ F4). unfold zero_hwp, offset. rewrite repeat_length. unfold csize. lia. }
        unfold data_hwp in Ha. rewrite (Hnum _ _ Hk) in Ha. rewrite <- (Sz c Hin), <- Len.
        destruct (s_hwps s' k); [discriminate|]. injection Ha as <-. reflexivity.
  Qed.

  Lemma scan_keeps_size E O s s' cs : (o_ground O = true -> o_preview O = false) ->
    (o_save_point O = true -> o_ground O = false) ->
    covers_mission E s -> rotation_ok s -> chunks_unmarked O s -> NoDup (map d_id (dets (s_beams s))) ->
    scan_instrument E O s = Ok s' -> chunks_used E s = Ok cs ->
    (forall c, In c cs -> right_size s c) -> forall c, In c cs -> right_size s' c.
  Proof. intros Hg Hs Hm Hr Hu ND H Hc Hp. apply (scan_right E O s s' cs Hg Hs Hm Hr Hu ND H Hc Hp). Qed.

  (** ** Histories *)
  Lemma store_right s u c : same_store s u -> right_size s c -> right_size u c.
  Proof.
    intros (_ & D & P & W). unfold right_size, data_tod, data_point, data_hwp. rewrite D, P, W. auto.
  Qed.

  Definition in_force s (cs : list chunk) : Prop := exists l, s_chunks s = Some l /\ map fst l = cs.

  Lemma campaign_right s s' cs : campaign s s' -> in_force s cs -> pieces s cs ->
    in_force s' cs /\ pieces s' cs.
  Proof.
    intros H. induction H as [s|s s1 u H IH St|s s1 s2 E O H IH Hg Hsg Hm Hr Hu ND Hs]; intros Hf Hp; [auto|..].
    - destruct (IH Hf Hp) as [(l & Hl & El) Q]. split.
      + exists l. destruct St as (-> & _). auto.
      + intros c Hin. eapply store_right; eauto.
    - destruct (IH Hf Hp) as [(l & Hl & El) Q].
      assert (Hc : chunks_used E s1 = Ok cs) by (unfold chunks_used; rewrite Hl, El; reflexivity).
      destruct (scan_right E O s1 s2 cs Hg Hsg Hm Hr Hu ND Hs Hc Q) as [Q' C']. split; [|exact Q'].
      unfold chunks_of in C'. rewrite Hl in C'. specialize (C' El).
      destruct (s_chunks s2) as [l2|] eqn:E2; [exists l2; auto|]. cbn in C'.
      destruct Hm as [Hn Hm]. destruct (Hm l Hl) as [T _].
      destruct l; [cbn in T; lia|]. rewrite <- C' in El. discriminate.
  Qed.

  Lemma plain_map (l : list chunk) : map fst (map (fun c => (c, false)) l) = l.
  Proof. rewrite map_map. cbn. apply map_id. Qed.

  Lemma mission_cidx n size l k c : partition_mission n size = Ok l -> nth_error l k = Some c -> c_cidx c = Some k.
  Proof.
    unfold partition_mission. destruct (_ =? 0)%Z; [discriminate|]. intros H Hk. injection H as <-.
    apply mission_loop_nth in Hk. subst c. reflexivity.
  Qed.

  Lemma divided E n s s' : divide E n s = Ok s' ->
    exists l, partition_mission (e_nsamp E) n = Ok l /\ s_chunks s' = Some (map (fun c => (c, false)) l)
      /\ (forall c, In c l -> no_data s' c)
      /\ (forall k i, (length l <= k)%nat -> s_data s' k i = s_data s k i
             /\ s_point s' k i = s_point s k i /\ s_hwps s' k = s_hwps s k)
      /\ s_strat s' = s_strat s /\ s_beams s' = s_beams s /\ s_log s' = s_log s.
  Proof.
    unfold divide. intros H. inv_bind H l Hl. injection H as <-. exists l. split; [exact Hl|].
    split; [reflexivity|]. split; [|split; [|auto]].
    - intros c Hin. apply In_nth_error in Hin. destruct Hin as [k Hk].
      assert (Lt : (k <? length l)%nat = true) by (apply Nat.ltb_lt, nth_error_Some; congruence).
      unfold no_data, data_tod, data_point, data_hwp. rewrite (mission_cidx _ _ _ _ _ Hl Hk). cbn -[Nat.ltb]. rewrite Lt. auto.
    - intros k i Hk. cbn -[Nat.ltb]. destruct (Nat.ltb_spec k (length l)); [lia|]. auto.
  Qed.

  Lemma divided_anew E n s s' l : divide E n s = Ok s' -> s_chunks s' = Some l ->
    forall c, In c (map fst l) -> no_data s' c.
  Proof.
    intros H Hl. apply divided in H. destruct H as (l' & _ & Hl' & Hn & _). rewrite Hl in Hl'. injection Hl' as ->.
    rewrite plain_map. exact Hn.
  Qed.

  Lemma empty_right s c : no_data s c -> right_size s c.
  Proof. intros (A & D & G). split; [|split]; intros; congruence. Qed.

  Lemma right_after E n s s1 s2 : divide E n s = Ok s1 -> campaign s1 s2 ->
    exists l l2, partition_mission (e_nsamp E) n = Ok l /\ s_chunks s2 = Some l2 /\ map fst l2 = l
      /\ forall c, In c l -> right_size s2 c.
  Proof.
    intros H Hc. apply divided in H. destruct H as (l & Hl & Hl' & Hn & _).
    destruct (campaign_right s1 s2 l Hc) as [(l2 & F1 & F2) P].
    - eexists. split; [exact Hl'|apply plain_map].
    - intros c Hin. apply empty_right. auto.
    - exists l, l2. auto.
  Qed.

  Lemma schedule_kept E rows n fs s s' : divide_schedule E rows n fs s = Ok s' ->
    forall c, (forall i, data_tod s' c i = data_tod s c i) /\ (forall i, data_point s' c i = data_point s c i)
      /\ data_hwp s' c = data_hwp s c.
  Proof.
    unfold divide_schedule. intros H. inv_bind H l Hl. injection H as <-. intros c. repeat split; reflexivity.
  Qed.

  Lemma schedule_fresh E rows n fs s s1 s2 : (forall c, no_data s c) ->
    divide_schedule E rows n fs s = Ok s1 -> campaign s1 s2 ->
    exists l l2, partition_schedule rows n (e_nsamp E) fs = Ok l /\ s_chunks s2 = Some l2
      /\ map fst l2 = map e_chunk l /\ forall c, In c (map e_chunk l) -> right_size s2 c.
  Proof.
    intros Hn H Hc. assert (K := schedule_kept _ _ _ _ _ _ H).
    unfold divide_schedule in H. inv_bind H l Hl. injection H as <-.
    destruct (campaign_right _ s2 (map e_chunk l) Hc) as [(l2 & F1 & F2) P].
    - eexists. split; [reflexivity|]. rewrite map_map. reflexivity.
    - intros c _. apply empty_right. destruct (K c) as (K1 & K2 & K3). destruct (Hn c) as (N1 & N2 & N3).
      split; [|split]; intros; [rewrite K1|rewrite K2|rewrite K3]; auto.
    - exists l, l2. auto.
  Qed.
End L.
