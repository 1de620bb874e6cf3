(** * Saved data exist only for live detectors, and only when asked for *)
From Coq Require Import Reals Lra.
From Verif Require Import Common LibList M_Chunks M_Steps M_Hwp M_Mpi M_Detpair M_Scan
  S_Chunks S_Detpair S_Scan S_Saved L_Chunks L_Hwp L_Mpi L_Detpair L_Scan L_Scan2 L_Scan3 L_Scan4 L_Scan5
  L_Scan6 L_Scan7 L_Scan8 L_Scan12 L_Scan13 L_Scan14 L_Scan16 L_Scan17 L_Scan18 L_Scan19 L_Scan20.
Open Scope R_scope.

Section L.
  Context {B : Type}.
  Implicit Types (s : state B) (E : env B) (d : det B) (p q : bpair B).

  Definition grows O p s s' : Prop := forall ci i, s_data s' ci i <> None ->
    s_data s ci i <> None \/ (o_save_tod O = true /\ live_id p i).

  Lemma grows_trans O p s1 s2 s3 : grows O p s1 s2 -> grows O p s2 s3 -> grows O p s1 s3.
  Proof. intros H1 H2 ci i H. destruct (H2 ci i H) as [H'|H']; auto. Qed.

  Lemma live_dec p i : live_id p i \/ forall d, is_live p d -> d_id d <> i.
  Proof.
    destruct (live (fst p)) as [a|] eqn:Ea.
    - destruct (Z.eq_dec (d_id a) i) as [E|E]; [left; exists a; split; [now left|auto]|].
      destruct (live (snd p)) as [b|] eqn:Eb.
      + destruct (Z.eq_dec (d_id b) i) as [F|F]; [left; exists b; split; [now right|auto]|].
        right. intros d [Hd|Hd]; congruence.
      + right. intros d [Hd|Hd]; congruence.
    - destruct (live (snd p)) as [b|] eqn:Eb.
      + destruct (Z.eq_dec (d_id b) i) as [F|F]; [left; exists b; split; [now right|auto]|].
        right. intros d [Hd|Hd]; congruence.
      + right. intros d [Hd|Hd]; congruence.
  Qed.

  Lemma subs_grow E O p : (o_ground O = true -> o_preview O = false) -> forall subs s s',
    scan_subs E O p (map (fun c => (c, o_ground O)) subs) s = Ok s' -> grows O p s s'.
  Proof.
    intros Hg. induction subs as [|x subs IH]; intros s s' H; cbn [map scan_subs] in H.
    { injection H as <-. intros ci i; auto. }
    inv_bind H s1 H1. apply grows_trans with s1; [|eauto].
    destruct (scan_sub_spec _ _ _ _ _ _ _ Hg H1) as (st & h & la & lb & _ & _ & _ & _ & _ & D1 & D2 & _).
    intros ci i Hi. destruct (live_dec p i) as [L|L].
    - destruct (o_save_tod O) eqn:Es; [right; auto|]. left. rewrite <- (D2 eq_refl). exact Hi.
    - left. rewrite <- D1; auto.
  Qed.

  Lemma chunk_grow E O bidx p k s s' : (o_ground O = true -> o_preview O = false) -> no_stale O (chunks_of s) ->
    scan_chunk E O bidx p k s = Ok s' -> grows O p s s'.
  Proof.
    intros Hg Hst H. destruct (nth_error (chunks_of s) k) as [[c g]|] eqn:Ek.
    2:{ unfold scan_chunk in H. fold (chunks_of s) in H. rewrite Ek in H. injection H as <-. intros ci i; auto. }
    destruct (deep_chunk _ _ _ _ _ _ _ _ _ Hst Ek H)
      as (s1 & subs & r1 & s6 & H1 & _ & _ & _ & _ & _ & _ & _ & _ & (A1 & A2) & _ & Hs).
    apply implement_data in H1. apply grows_trans with s6; [|eapply subs_grow; eauto].
    intros ci i Hi. destruct (live_dec p i) as [L|L].
    - destruct (o_save_tod O) eqn:Es; [right; auto|]. left.
      destruct L as (d & Hd & <-). destruct (A2 d Hd) as (ci' & Hc & Hn).
      destruct (Nat.eq_dec ci ci') as [->|N]; [congruence|]. rewrite A1 in Hi by (left; congruence). congruence.
    - left. rewrite A1 in Hi by auto. congruence.
  Qed.

  Lemma chunks_grow E O bidx p : (o_ground O = true -> o_preview O = false) -> forall ks s s',
    no_stale O (chunks_of s) -> pos_chunks (map fst (chunks_of s)) -> rot_fine (ir_rot (sg_rot (s_strat s))) ->
    scan_chunks E O bidx p ks s = Ok s' -> grows O p s s'.
  Proof.
    intros Hg. induction ks as [|k ks IH]; intros s s' Hst Hpos Hrot H; cbn [scan_chunks] in H.
    { injection H as <-. intros ci i; auto. }
    inv_bind H s1 H1. apply grows_trans with s1; [eapply chunk_grow; eauto|].
    apply scan_chunk_like in H1; auto; [|apply pos_positive; auto]. destruct H1 as (_ & _ & _ & K1 & N1 & F1).
    apply IH in H; auto. rewrite ?(k2_chunks _ _ K1); auto.
  Qed.

  Definition grown O (bs : list (bpair B)) s s' : Prop := forall ci i, s_data s' ci i <> None ->
    s_data s ci i <> None \/ (o_save_tod O = true /\ exists d, In d (dets bs) /\ d_dead d = false /\ d_id d = i).

  Lemma live_alive p d : is_live p d -> In d (pair_dets p) /\ d_dead d = false.
  Proof.
    intros H. split; [apply live_in; exact H|]. unfold is_live, live in H.
    destruct H as [H|H]; [destruct (fst p) as [a|]|destruct (snd p) as [a|]]; try discriminate;
      destruct (d_dead a) eqn:E; try discriminate; injection H as <-; exact E.
  Qed.

  Lemma pairs_grow E O cs (bs : list (bpair B)) : (o_ground O = true -> o_preview O = false) ->
    pos_chunks cs -> forall ws bidx s s', NoDup (somes ws) ->
    (forall w, In w ws -> pair_at s w = at_ bs w) -> no_stale O (chunks_of s) -> used_chunks E s = Ok cs ->
    rot_fine (ir_rot (sg_rot (s_strat s))) -> scan_pairs E O bidx ws s = Ok s' -> grown O bs s s'.
  Proof.
    intros Hg Hpos. induction ws as [|w ws IH]; intros bidx s s' NW Hat Hst Hcs Hrot H; cbn [scan_pairs] in H.
    { injection H as <-. intros ci i; auto. }
    inv_bind H s1 H1.
    assert (G1 : grown O bs s s1).
    { destruct (deep_pair _ _ _ _ _ _ _ Hst Hcs H1) as (q & s2 & Sa & Sb & S2 & _ & D2 & _ & _ & F2 & _ & N2 & _ & _ & _ & H2).
      assert (G : grows O q s2 s1).
      { eapply chunks_grow; [exact Hg|exact N2|now rewrite F2| |exact H2].
        rewrite S2. destruct (bidx =? 0)%nat; auto. apply reset_fine; auto. }
      intros ci i Hi. destruct (G ci i Hi) as [Hi'|[Hs Hl]]; [left; congruence|]. right. split; [exact Hs|].
      apply (same_live_id (pair_at s w) q) in Hl; auto. rewrite Hat in Hl by now left.
      destruct Hl as (d & Hd & Hi'). apply live_alive in Hd as [Hd Hdd]. exists d. split; [|auto].
      destruct w as [j|]; cbn in Hd; [|destruct Hd].
      destruct (nth_error bs j) as [pp|] eqn:Ej; [|destruct Hd]. unfold dets. apply in_flat_map. exists pp.
      split; [eapply nth_error_In; eauto|exact Hd]. }
    eapply scan_pair_like in H1; eauto. destruct H1 as (_ & _ & _ & Bm & C1 & N1 & F1).
    assert (NW' : NoDup (somes ws)).
    { destruct w; cbn in NW; auto. inversion NW; auto. }
    apply (IH _ s1) in H; auto.
    - intros ci i Hi. destruct (H ci i Hi) as [Hi'|Hi']; auto.
    - intros w' Hw'. rewrite <- Hat by now right. destruct w' as [j|]; cbn; auto. rewrite Bm; auto.
      intros ->. cbn in NW. inversion NW; subst. match goal with K : ~ In _ _ |- _ => apply K end.
      apply somes_in. auto.
  Qed.

  Lemma absent E O s s' : (o_ground O = true -> o_preview O = false) ->
    covers_mission E s -> rotation_ok s -> chunks_unmarked O s -> scan_instrument E O s = Ok s' ->
    (forall c i, data_tod s c i = Err KeyError) ->
    forall c i, (o_save_tod O = true -> forall d, In d (dets (s_beams s)) -> d_dead d = false -> d_id d <> i) ->
    data_tod s' c i = Err KeyError.
  Proof.
    intros Hg Hm Hr Hu H Hno c i Hi.
    destruct (mission_used E s Hm) as (cs & Hcs & T).
    assert (Hst : no_stale O (chunks_of s)).
    { unfold no_stale, chunks_of. destruct (s_chunks s) as [l|] eqn:El.
      - intros Ho. apply (Hu l El Ho).
      - intros _ cg []. }
    assert (Hpos : pos_chunks cs) by (intros x Hx; apply (tiles_pos _ _ _ _ T Hx)).
    unfold scan_instrument in H.
    destruct (negb (o_alm O) && negb (o_preview O)); [discriminate|].
    destruct (o_preview O && (o_save_tod O || o_save_point O)); [discriminate|].
    set (s0 := if o_memmap O && negb (e_ext E) then _ else s) in H.
    assert (X : s_data s0 = s_data s /\ s_beams s0 = s_beams s /\ s_chunks s0 = s_chunks s
                /\ s_strat s0 = s_strat s).
    { unfold s0. destruct (o_memmap O && negb (e_ext E)); auto. }
    destruct X as (D0 & B0 & C0 & S0). clearbody s0.
    apply (pairs_grow E O cs (s_beams s)) in H; auto.
    - unfold data_tod. destruct (c_cidx c) as [k|] eqn:Ek; [|reflexivity].
      destruct (s_data s' k i) as [a|] eqn:Ed; [|reflexivity]. exfalso.
      destruct (H k i) as [Hi'|(Hs & d & Hd1 & Hd2 & Hd3)]; [congruence| |exact (Hi Hs d Hd1 Hd2 Hd3)].
      specialize (Hno c i). unfold data_tod in Hno. rewrite Ek in Hno. rewrite D0 in Hi'.
      destruct (s_data s k i); congruence.
    - apply rank_nodup. apply seq_NoDup.
    - intros w _. unfold pair_at, at_. rewrite B0. reflexivity.
    - unfold chunks_of in *. rewrite C0. auto.
    - unfold used_chunks in *. rewrite C0. auto.
    - rewrite S0. auto.
  Qed.

  (** Positions: those of other detectors are as before. *)
  Lemma point_others E O s s' cs : o_save_point O = true -> o_ground O = false ->
    covers_mission E s -> rotation_ok s -> chunks_unmarked O s ->
    NoDup (map d_id (dets (s_beams s))) ->
    scan_instrument E O s = Ok s' -> chunks_used E s = Ok cs ->
    forall c i, In c cs -> ~ my_live E O s i -> data_point s' c i = data_point s c i.
  Proof.
    intros Hsp Hgr Hm Hr Hu ND H Hc.
    destruct (used_facts E s Hm) as (cs' & Hcs & Hcs' & T & Hnum).
    assert (cs' = cs) by congruence. subst cs'.
    assert (Hst : no_stale O (chunks_of s)).
    { unfold no_stale, chunks_of. destruct (s_chunks s) as [l|] eqn:El.
      - intros Ho. apply (Hu l El Ho).
      - intros _ cg []. }
    unfold scan_instrument in H.
    destruct (negb (o_alm O) && negb (o_preview O)); [discriminate|].
    destruct (o_preview O && (o_save_tod O || o_save_point O)); [discriminate|].
    set (s0 := if o_memmap O && negb (e_ext E) then _ else s) in H.
    assert (X : s_point s0 = s_point s /\ s_beams s0 = s_beams s /\ s_chunks s0 = s_chunks s
                /\ s_strat s0 = s_strat s).
    { unfold s0. destruct (o_memmap O && negb (e_ext E)); auto. }
    destruct X as (P0 & B0 & C0 & S0). clearbody s0.
    apply (pairs_point E O cs 0 (e_nsamp E) (s_beams s)) in H; auto.
    - destruct H as (evs & L & C1 & W & G). rewrite B0 in *.
      intros c i Hin Hi. apply In_nth_error in Hin. destruct Hin as [k Hk].
      destruct (G k c Hk) as (_ & G1 & _).
      unfold data_point. rewrite (Hnum _ _ Hk), G1, P0; [reflexivity|exact Hi].
    - apply rank_nodup. apply seq_NoDup.
    - intros w _. unfold pair_at, at_. rewrite B0. reflexivity.
    - unfold chunks_of in *. rewrite C0. auto.
    - unfold used_chunks in *. rewrite C0. auto.
    - rewrite S0. auto.
  Qed.

  Lemma point_absent E O s s' cs : o_save_point O = true -> o_ground O = false ->
    covers_mission E s -> rotation_ok s -> chunks_unmarked O s ->
    NoDup (map d_id (dets (s_beams s))) ->
    scan_instrument E O s = Ok s' -> chunks_used E s = Ok cs ->
    forall c i, In c cs -> (forall d, In d (dets (s_beams s)) -> d_dead d = false -> d_id d <> i) ->
    data_point s' c i = data_point s c i.
  Proof.
    intros Hsp Hgr Hm Hr Hu ND H Hc c i Hin Hi. eapply point_others; eauto.
    intros L. apply live_observes in L. destruct L as (d & Ed & Hd & j & p & Ej & Hp & _).
    apply (Hi d); auto. unfold dets. apply in_flat_map. exists p. split; [eapply nth_error_In; eauto|exact Hp].
  Qed.
End L.
