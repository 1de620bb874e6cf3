(** * Positions of detectors that are not scanned *)
From Coq Require Import Reals Lra.
From Verif Require Import Common LibList M_Chunks M_Steps M_Hwp M_Mpi M_Detpair M_Scan
  S_Chunks S_Detpair S_Scan S_Saved L_Chunks L_Hwp L_Mpi L_Detpair L_Scan L_Scan2 L_Scan3 L_Scan4 L_Scan5
  L_Scan6 L_Scan7 L_Scan8 L_Scan12 L_Scan13 L_Scan14 L_Scan16 L_Scan17 L_Scan18 L_Scan19 L_Scan20 L_Absent L_Left.
Open Scope R_scope.

Section L.
  Context {B : Type}.
  Implicit Types (s : state B) (E : env B) (d : det B) (p q : bpair B).

  Lemma chunk_rest E O bidx p k c s s' : o_save_point O = false ->
    no_stale O (chunks_of s) -> nth_error (map fst (chunks_of s)) k = Some c -> c_cidx c = Some k ->
    scan_chunk E O bidx p k s = Ok s' -> forall k i, ~ live_id p i -> s_point s' k i = s_point s k i.
  Proof.
    intros Es Hst Hk Hc H k' i Hi. rewrite nth_error_map in Hk.
    destruct (nth_error (chunks_of s) k) as [[c' g]|] eqn:Ek; [|discriminate]. injection Hk as ->.
    destruct (deep_chunk _ _ _ _ _ _ _ _ _ Hst Ek H)
      as (s1 & subs & r1 & s6 & _ & _ & _ & _ & _ & _ & _ & _ & _ & _ & A3 & Hs).
    destruct (A3 k Hc) as (P1 & _). apply subs_quiet in Hs; auto. destruct Hs as [-> _].
    apply P1. right. intros d Hd Ed. apply Hi. exists d. split; auto.
  Qed.

  Lemma chunks_rest E O bidx p cs : (o_ground O = true -> o_preview O = false) ->
    o_save_point O = false ->
    numbered cs -> pos_chunks cs -> forall ks s s', (forall k, In k ks -> (k < length cs)%nat) ->
    map fst (chunks_of s) = cs -> no_stale O (chunks_of s) -> rot_fine (ir_rot (sg_rot (s_strat s))) ->
    scan_chunks E O bidx p ks s = Ok s' -> forall k i, ~ live_id p i -> s_point s' k i = s_point s k i.
  Proof.
    intros Hg Es Hnum Hpos. induction ks as [|k ks IH]; intros s s' Hks Hcs Hst Hrot H; cbn [scan_chunks] in H.
    { injection H as <-. auto. }
    inv_bind H s1 H1.
    destruct (nth_error cs k) as [c|] eqn:Ek.
    2:{ apply nth_error_None in Ek. specialize (Hks k (or_introl eq_refl)). lia. }
    assert (Ek' : nth_error (map fst (chunks_of s)) k = Some c) by congruence.
    assert (X := chunk_rest E O bidx p k c s s1 Es Hst Ek' (Hnum _ _ Ek) H1).
    apply scan_chunk_like in H1; auto; [|apply pos_positive; rewrite Hcs; auto]. destruct H1 as (_ & _ & _ & K1 & N1 & F1).
    intros k' i Hi. rewrite (IH s1 s'); auto.
    { intros k0 Hk0. apply Hks. now right. }
    { rewrite (k2_chunks _ _ K1). auto. }
  Qed.

  Lemma pairs_rest E O cs (bs : list (bpair B)) : (o_ground O = true -> o_preview O = false) ->
    o_save_point O = false ->
    numbered cs -> pos_chunks cs -> forall ws bidx s s', NoDup (somes ws) ->
    (forall w, In w ws -> pair_at s w = at_ bs w) -> no_stale O (chunks_of s) -> used_chunks E s = Ok cs ->
    rot_fine (ir_rot (sg_rot (s_strat s))) -> scan_pairs E O bidx ws s = Ok s' ->
    forall k i, ~ some_live bs ws i -> s_point s' k i = s_point s k i.
  Proof.
    intros Hg Es Hnum Hpos. induction ws as [|w ws IH]; intros bidx s s' NW Hat Hst Hcs Hrot H; cbn [scan_pairs] in H.
    { injection H as <-. auto. }
    inv_bind H s1 H1.
    assert (G : forall k i, ~ live_id (at_ bs w) i -> s_point s1 k i = s_point s k i).
    { destruct (deep_pair _ _ _ _ _ _ _ Hst Hcs H1)
        as (q & s2 & Sa & Sb & S2 & _ & D2 & _ & _ & F2 & _ & N2 & _ & _ & (P2 & W2) & H2).
      rewrite <- Hat by now left. intros k i Hi. rewrite <- P2.
      apply (chunks_rest E O bidx q cs Hg Es Hnum Hpos (seq 0 (length cs)) s2 s1); auto.
      - intros k' Hk. apply in_seq in Hk. lia.
      - rewrite S2. destruct (bidx =? 0)%nat; auto. apply reset_fine; auto.
      - intros L. apply Hi. eapply same_live_id; eauto. }
    eapply scan_pair_like in H1; eauto. destruct H1 as (_ & _ & _ & Bm & C1 & N1 & F1).
    assert (NW' : NoDup (somes ws)).
    { destruct w; cbn in NW; auto. inversion NW; auto. }
    intros k i Hi. rewrite <- (G k i); [apply (IH (S bidx) s1 s'); auto|].
    3:{ intros L. apply Hi. exists w. split; [now left|exact L]. }
    - intros w' Hw'. rewrite <- Hat by now right. destruct w' as [j|]; cbn; auto. rewrite Bm; auto.
      intros ->. cbn in NW. inversion NW; subst. match goal with K : ~ In _ _ |- _ => apply K end.
      apply somes_in. auto.
    - intros (w' & Hw' & L). apply Hi. exists w'. split; [now right|exact L].
  Qed.

  Lemma others_rest E O s s' cs : (o_ground O = true -> o_preview O = false) ->
    (o_save_point O = true -> o_ground O = false) ->
    covers_mission E s -> rotation_ok s -> chunks_unmarked O s -> NoDup (map d_id (dets (s_beams s))) ->
    scan_instrument E O s = Ok s' -> chunks_used E s = Ok cs ->
    forall c i, In c cs -> (forall d, observes E O s d -> d_id d <> i) -> data_point s' c i = data_point s c i.
  Proof.
    intros Hg Hsg Hm Hr Hu ND H Hc c i Hin Hi.
    assert (Hi' : ~ my_live E O s i).
    { intros L. apply live_observes in L. destruct L as (d & Ed & Hd). apply (Hi d); auto. }
    destruct (o_save_point O) eqn:Es; [eapply point_others; eauto|].
    destruct (used_facts E s Hm) as (cs' & Hcs & Hcs' & T & Hnum).
    assert (cs' = cs) by congruence. subst cs'.
    assert (Hst : no_stale O (chunks_of s)).
    { unfold no_stale, chunks_of. destruct (s_chunks s) as [l|] eqn:El.
      - intros Ho. apply (Hu l El Ho).
      - intros _ cg []. }
    assert (Hpos : pos_chunks cs) by (intros x Hx; apply (tiles_pos _ _ _ _ T Hx)).
    apply In_nth_error in Hin. destruct Hin as [k Hk].
    unfold data_point. rewrite (Hnum _ _ Hk).
    unfold my_live in Hi'. unfold scan_instrument in H.
    destruct (negb (o_alm O) && negb (o_preview O)); [discriminate|].
    destruct (o_preview O && (o_save_tod O || o_save_point O)); [discriminate|].
    set (s0 := if o_memmap O && negb (e_ext E) then _ else s) in H.
    assert (X : s_point s0 = s_point s /\ s_beams s0 = s_beams s /\ s_chunks s0 = s_chunks s
                /\ s_strat s0 = s_strat s).
    { unfold s0. destruct (o_memmap O && negb (e_ext E)); repeat split; auto. }
    destruct X as (P0 & B0 & C0 & S0). clearbody s0. rewrite <- P0.
    eapply (pairs_rest E O cs (s_beams s) Hg Es Hnum Hpos) in H; [rewrite H; reflexivity|..].
    - apply rank_nodup. apply seq_NoDup.
    - intros w _. unfold pair_at, at_. rewrite B0. reflexivity.
    - unfold chunks_of in *. rewrite C0. auto.
    - unfold used_chunks in *. rewrite C0. auto.
    - rewrite S0. auto.
    - unfold my_pairs in Hi'. rewrite B0. exact Hi'.
  Qed.
End L.
