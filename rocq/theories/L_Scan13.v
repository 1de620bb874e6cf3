(** * What is saved is what is binned *)
From Coq Require Import Reals Lra.
From Verif Require Import Common LibList M_Chunks M_Steps M_Hwp M_Mpi M_Detpair M_Scan
  S_Chunks S_Detpair S_Scan S_Saved L_Chunks L_Hwp L_Mpi L_Detpair L_Scan L_Scan2 L_Scan3 L_Scan4 L_Scan5
  L_Scan6 L_Scan7 L_Scan8 L_Scan12.
Open Scope R_scope.

Section L.
  Context {B : Type}.
  Implicit Types (s : state B) (E : env B) (d : det B) (p q : bpair B).

  Lemma implement_data E pre ground c s s' : implement_scan E pre ground c s = Ok s' -> s_data s' = s_data s.
  Proof.
    unfold implement_scan. destruct (e_ext E).
    - intros H. injection H as <-. reflexivity.
    - destruct (if pre then s_mmap s else None).
      + intros H. injection H as <-. reflexivity.
      + intros H. inv_bind H x Hx. destruct x as [x s1]. injection H as <-.
        apply lift_op_inv in Hx. destruct Hx as (st & _ & ->). destruct ground; reflexivity.
  Qed.

  Definition bins_of p (evs : list event) : Prop :=
    forall i v t, In (EBin i v t) evs -> exists d, is_live p d /\ d_id d = i.
  Definition rest_same p (k : nat) s s' : Prop :=
    forall ci i, (ci <> k \/ (forall d, is_live p d -> d_id d <> i)) -> s_data s' ci i = s_data s ci i.

  Lemma good_same c k s s' e : (forall i v t, e = EBin i v t -> s_data s' k i = s_data s k i) ->
    good c k s e -> good c k s' e.
  Proof. destruct e as [|w v t|i v t]; cbn; auto. intros H. rewrite (H i v t eq_refl). auto. Qed.

  Definition numbered (cs : list chunk) : Prop := forall k c, nth_error cs k = Some c -> c_cidx c = Some k.

  Lemma plain_of s : plain_chunks s = map fst (chunks_of s).
  Proof. unfold plain_chunks, chunks_of. destruct (s_chunks s); reflexivity. Qed.

  Lemma chunk_data E O bidx p k s s' c : (o_ground O = true -> o_preview O = false) -> no_filters O ->
    o_save_tod O = true -> apart p -> no_stale O (chunks_of s) -> pos_chunks (map fst (chunks_of s)) ->
    numbered (map fst (chunks_of s)) -> rot_fine (ir_rot (sg_rot (s_strat s))) ->
    nth_error (map fst (chunks_of s)) k = Some c ->
    scan_chunk E O bidx p k s = Ok s' ->
    exists evs, s_log s' = s_log s ++ evs /\ rest_same p k s s' /\ bins_of p evs
      /\ forall e, In e evs -> good c k s' e.
  Proof.
    intros Hg Hf Hsv Hap Hst Hpos Hnum Hrot Hk H.
    assert (Hk' := Hk). rewrite nth_error_map in Hk'. destruct (nth_error (chunks_of s) k) as [[c0 g]|] eqn:Ek; [|discriminate].
    cbn in Hk'. injection Hk' as ->.
    destruct (deep_chunk _ _ _ _ _ _ _ _ _ Hst Ek H) as (s1 & subs & r1 & s6 & H1 & Hsub & St & _ & _ & _ & _ & PC & L6 & (A1 & A2) & _ & Hs).
    assert (D1 := implement_data _ _ _ _ _ _ H1). apply implement_scan_like in H1.
    destruct H1 as (bore & L1 & K1 & R1).
    assert (Hpos' : (c_start c < c_end c)%Z) by (apply Hpos; eapply nth_error_In; exact Hk).
    rewrite R1 in Hsub.
    destruct (subpart_tiles _ _ _ _ Hrot Hpos' Hsub) as (T & _ & Hci & _).
    destruct (subs_data E O p c k Hg Hf Hsv Hap subs (c_start c) s6 s') as (evs & L2 & P1 & _ & P3 & P4); auto.
    { lia. }
    { intros x Hx. rewrite Hci; auto. }
    { rewrite PC, plain_of. exact Hk. }
    { intros d Hd. destruct (A2 d Hd) as (ci & Hc & Hdat). rewrite Hsv in Hdat.
      rewrite (Hnum _ _ Hk) in Hc. injection Hc as <-. eexists. split; [exact Hdat|]. apply repeat_length. }
    exists (EPoint c bore :: evs). split; [rewrite L2, L6, L1, <- app_assoc; reflexivity|].
    split.
    { intros ci i Hi. rewrite P1 by auto. rewrite A1.
      - rewrite D1. reflexivity.
      - destruct Hi as [Hi|Hi]; auto. left. rewrite (Hnum _ _ Hk). congruence. }
    split.
    { intros i v t [Hi|Hi]; [discriminate|]. eapply P3; eauto. }
    intros e [<-|He]; [exact I|auto].
  Qed.

  (** ** A list of chunks *)
  Definition Good (cs : list chunk) s e : Prop :=
    match e with
    | EBin _ _ _ => exists k c, nth_error cs k = Some c /\ good c k s e
    | _ => True
    end.

  Lemma chunks_data E O bidx p : (o_ground O = true -> o_preview O = false) -> no_filters O ->
    o_save_tod O = true -> apart p -> forall ks s s', NoDup ks ->
    no_stale O (chunks_of s) -> pos_chunks (map fst (chunks_of s)) ->
    numbered (map fst (chunks_of s)) -> rot_fine (ir_rot (sg_rot (s_strat s))) ->
    (forall k, In k ks -> (k < length (map fst (chunks_of s)))%nat) ->
    scan_chunks E O bidx p ks s = Ok s' ->
    exists evs, s_log s' = s_log s ++ evs
      /\ (forall ci i, ~ In ci ks \/ (forall d, is_live p d -> d_id d <> i) -> s_data s' ci i = s_data s ci i)
      /\ bins_of p evs /\ forall e, In e evs -> Good (map fst (chunks_of s)) s' e.
  Proof.
    intros Hg Hf Hsv Hap. induction ks as [|k ks IH]; intros s s' Hnd Hst Hpos Hnum Hrot Hin H; cbn [scan_chunks] in H.
    { injection H as <-. exists []. rewrite app_nil_r. split; auto. split; auto. split; [intros ? ? ? []|intros ? []]. }
    inv_bind H s1 H1. inversion Hnd as [|? ? Hk Hnd' Ea]. subst.
    destruct (nth_error (map fst (chunks_of s)) k) as [c|] eqn:Ek.
    2:{ apply nth_error_None in Ek. specialize (Hin k (or_introl eq_refl)). lia. }
    assert (X := H1). apply chunk_data with (c := c) in X; auto. destruct X as (e1 & L1 & R1 & B1 & G1).
    apply scan_chunk_like in H1; auto; [|apply pos_positive; auto]. destruct H1 as (_ & _ & _ & K1 & N1 & F1).
    apply IH in H; auto; rewrite ?(k2_chunks _ _ K1); auto; [|intros; apply Hin; now right].
    destruct H as (e2 & L2 & R2 & B2 & G2). rewrite (k2_chunks _ _ K1) in G2.
    exists (e1 ++ e2). split; [rewrite L2, L1, app_assoc; reflexivity|].
    split.
    { intros ci i Hi. rewrite R2, R1; auto.
      - destruct Hi as [Hi|Hi]; auto. left. intros ->. apply Hi. now left.
      - destruct Hi as [Hi|Hi]; auto. left. intros Hc. apply Hi. now right. }
    split.
    { intros i v t Hi. apply in_app_or in Hi. destruct Hi; [eapply B1|eapply B2]; eauto. }
    intros e He. apply in_app_or in He. destruct He as [He|He]; [|auto].
    specialize (G1 e He). destruct e as [|w v t|i v t]; cbn; auto. exists k, c. split; auto.
    apply (good_same c k s1 s' (EBin i v t)); [|exact G1]. intros i' v' t' _. apply R2. now left.
  Qed.

  (** ** Pairs *)
  Definition live_id p i : Prop := exists d, is_live p d /\ d_id d = i.

  Lemma same_live_id p q i : same_odet (fst p) (fst q) -> same_odet (snd p) (snd q) ->
    live_id q i -> live_id p i.
  Proof.
    intros Ha Hb (d & Hd & Hi). apply same_live in Ha, Hb. destruct Hd as [Hd|Hd]; [rewrite Hd in Ha|rewrite Hd in Hb].
    - destruct (live (fst p)) as [a|] eqn:Ea; [|contradiction]. exists a. split; [left; auto|].
      destruct Ha as [Ha _]. congruence.
    - destruct (live (snd p)) as [a|] eqn:Ea; [|contradiction]. exists a. split; [right; auto|].
      destruct Hb as [Hb _]. congruence.
  Qed.
  Lemma same_apart p q : same_odet (fst p) (fst q) -> same_odet (snd p) (snd q) -> apart p -> apart q.
  Proof.
    intros Ha Hb H a b Ea Eb. apply same_live in Ha, Hb. rewrite Ea in Ha. rewrite Eb in Hb.
    destruct (live (fst p)) as [a0|] eqn:Ea0; [|contradiction]. destruct (live (snd p)) as [b0|] eqn:Eb0; [|contradiction].
    destruct Ha as [Ha _]. destruct Hb as [Hb _]. rewrite Ha, Hb. apply H; auto.
  Qed.

  Lemma pair_data E O bidx w s s' cs : (o_ground O = true -> o_preview O = false) -> no_filters O ->
    o_save_tod O = true -> apart (pair_at s w) -> no_stale O (chunks_of s) -> used_chunks E s = Ok cs ->
    pos_chunks cs -> numbered cs -> rot_fine (ir_rot (sg_rot (s_strat s))) ->
    scan_pair E O bidx w s = Ok s' ->
    exists evs, s_log s' = s_log s ++ evs
      /\ (forall ci i, ~ live_id (pair_at s w) i -> s_data s' ci i = s_data s ci i)
      /\ (forall i v t, In (EBin i v t) evs -> live_id (pair_at s w) i)
      /\ forall e, In e evs -> Good cs s' e.
  Proof.
    intros Hg Hf Hsv Hap Hst Hcs Hpos Hnum Hrot H.
    destruct (deep_pair _ _ _ _ _ _ _ Hst Hcs H) as (q & s2 & Sa & Sb & S2 & L2 & D2 & _ & _ & F2 & _ & N2 & _ & _ & _ & H2).
    apply chunks_data in H2; auto; rewrite ?F2; auto.
    - destruct H2 as (evs & L & R & Bo & G). rewrite F2 in G. exists evs. rewrite L, L2. split; auto. split; [|split; auto].
      + intros ci i Hi. rewrite R, D2; auto. right. intros d Hd E0. apply Hi.
        apply (same_live_id _ q); auto. exists d. auto.
      + intros i v t Hi. apply (same_live_id _ q); auto. eapply Bo; eauto.
    - eapply same_apart; eauto.
    - apply seq_NoDup.
    - rewrite S2. destruct (bidx =? 0)%nat; auto. apply reset_fine; auto.
    - intros k Hk. apply in_seq in Hk. lia.
  Qed.

  Lemma pairs_data E O cs (bs : list (bpair B)) : (o_ground O = true -> o_preview O = false) -> no_filters O ->
    o_save_tod O = true -> pos_chunks cs -> numbered cs -> NoDup (map d_id (dets bs)) ->
    forall ws bidx s s', NoDup (somes ws) ->
    (forall w, In w ws -> pair_at s w = at_ bs w) ->
    no_stale O (chunks_of s) -> used_chunks E s = Ok cs ->
    rot_fine (ir_rot (sg_rot (s_strat s))) ->
    scan_pairs E O bidx ws s = Ok s' ->
    exists evs, s_log s' = s_log s ++ evs /\ used_chunks E s' = Ok cs
      /\ (forall ci i, (forall w, In w ws -> ~ live_id (at_ bs w) i) -> s_data s' ci i = s_data s ci i)
      /\ (forall i v t, In (EBin i v t) evs -> exists w, In w ws /\ live_id (at_ bs w) i)
      /\ forall e, In e evs -> Good cs s' e.
  Proof.
    intros Hg Hf Hsv Hpos Hnum ND. induction ws as [|w ws IH]; intros bidx s s' NW Hat Hst Hcs Hrot H; cbn [scan_pairs] in H.
    { injection H as <-. exists []. rewrite app_nil_r. split; auto. split; auto. split; auto. split; [intros ? ? ? []|intros ? []]. }
    inv_bind H s1 H1.
    assert (Pw : pair_at s w = at_ bs w) by (apply Hat; now left).
    assert (X := H1). apply (pair_data E O bidx w s s1 cs) in X; auto.
    2:{ rewrite Pw. destruct w as [j|]; cbn; [|intros a b Ha; discriminate].
        destruct (nth_error bs j) as [q|] eqn:Ej; [|intros a b Ha; discriminate].
        intros a b Ha Hb. destruct (dets_split bs j q Ej) as (l1 & l2 & Ed). rewrite Ed in ND.
        destruct q as [[a0|] [b0|]]; cbn in Ha, Hb; try discriminate.
        destruct (d_dead a0); [discriminate|]. destruct (d_dead b0); [discriminate|].
        injection Ha as <-. injection Hb as <-. rewrite !map_app in ND. cbn in ND.
        apply NoDup_remove_2 in ND. intros E0. apply ND. apply in_or_app. right. left. auto. }
    destruct X as (e1 & L1 & R1 & B1 & G1). rewrite Pw in R1, B1.
    eapply scan_pair_like in H1; eauto. destruct H1 as (_ & _ & _ & Bm & C1 & N1 & F1).
    assert (NW' : NoDup (somes ws)).
    { destruct w; cbn in NW; auto. inversion NW; auto. }
    assert (Wn : forall j, w = Some j -> In (Some j) ws -> False).
    { intros j -> Hj. cbn in NW. inversion NW; subst. match goal with K : ~ In _ _ |- _ => apply K end.
      apply somes_in. auto. }
    apply (IH _ s1) in H; auto.
    2:{ intros w' Hw'. rewrite <- Hat by now right. destruct w' as [j|]; cbn; auto. rewrite Bm; auto.
        intros ->. apply (Wn j); auto. }
    destruct H as (e2 & L2 & C2 & R2 & B2 & G2).
    exists (e1 ++ e2). split; [rewrite L2, L1, app_assoc; reflexivity|]. split; auto.
    split.
    { intros ci i Hi. rewrite R2, R1; auto.
      - apply Hi. now left.
      - intros w' Hw'. apply Hi. now right. }
    split.
    { intros i v t Hi. apply in_app_or in Hi. destruct Hi as [Hi|Hi].
      - exists w. split; [now left|eapply B1; eauto].
      - destruct (B2 _ _ _ Hi) as (w' & Hw' & Hl). exists w'. split; [now right|auto]. }
    intros e He. apply in_app_or in He. destruct He as [He|He]; [|auto].
    specialize (G1 e He). destruct e as [|w' v t|i v t]; cbn in *; auto. destruct G1 as (k & c & Hk & G1).
    exists k, c. split; auto. rewrite R2; auto.
    intros w' Hw' Hl. destruct (B1 _ _ _ He) as (d & Hd & Hi). destruct Hl as (d' & Hd' & Hi').
    destruct w as [j|]; [|cbn in Hd; destruct Hd; discriminate].
    destruct w' as [j'|]; [|cbn in Hd'; destruct Hd'; discriminate].
    assert (Hjj : j <> j') by (intros ->; apply (Wn j'); auto).
    cbn in Hd, Hd'. destruct (nth_error bs j) as [q|] eqn:Ej; [|destruct Hd; discriminate].
    destruct (nth_error bs j') as [q'|] eqn:Ej'; [|destruct Hd'; discriminate].
    apply (dets_apart bs j j' q q' d d'); auto; try (apply live_in; auto). congruence.
  Qed.

  Lemma slice_nth {A} (l : list A) i n j : (j < n)%nat -> nth_error (slice l i (i + n)) j = nth_error l (i + j).
  Proof.
    intros H. unfold slice. replace (i + n - i)%nat with n by lia.
    rewrite nth_error_firstn by lia. apply nth_error_skipn.
  Qed.

  Lemma saved_all E O s s' :
    (o_ground O = true -> o_preview O = false) -> o_save_tod O = true -> no_filters O ->
    covers_mission E s -> rotation_ok s -> chunks_unmarked O s ->
    NoDup (map d_id (dets (s_beams s))) ->
    scan_instrument E O s = Ok s' ->
    exists new chunks, s_log s' = s_log s ++ new
      /\ tiles 0 (e_nsamp E) (map span chunks)
      /\ (forall l, s_chunks s = Some l \/ s_chunks s' = Some l -> chunks = map fst l)
      /\ forall i v t, In (EBin i v t) new -> saved_in chunks (fun c => data_tod s' c i) (v_start v) t.
  Proof.
    intros Hg Hsv Hf Hm Hr Hu ND H.
    destruct (mission_used E s Hm) as (cs & Hcs & T).
    assert (Hst : no_stale O (chunks_of s)).
    { unfold no_stale, chunks_of. destruct (s_chunks s) as [l|] eqn:El.
      - intros Ho. apply (Hu l El Ho).
      - intros _ cg []. }
    assert (Hpos : pos_chunks cs) by (intros c Hc; apply (tiles_pos _ _ _ _ T Hc)).
    assert (Hnum : numbered cs).
    { destruct Hm as [Hn Hc]. unfold used_chunks in Hcs. destruct (s_chunks s) as [l|].
      - injection Hcs as <-. destruct (Hc l eq_refl) as [_ Hk]. intros k c Ek. rewrite nth_error_map in Ek.
        destruct (nth_error l k) as [cg|] eqn:El; [|discriminate]. injection Ek as <-. apply Hk. auto.
      - destruct (partition_mission_ok (e_nsamp E) None Hn I) as (cs' & Hcs' & _ & Hk).
        rewrite Hcs in Hcs'. injection Hcs' as <-. intros k c Ek. apply Hk. auto. }
    unfold scan_instrument in H.
    destruct (negb (o_alm O) && negb (o_preview O)); [discriminate|].
    destruct (o_preview O && (o_save_tod O || o_save_point O)); [discriminate|].
    set (s0 := if o_memmap O && negb (e_ext E) then _ else s) in H.
    assert (X : s_log s0 = s_log s /\ s_beams s0 = s_beams s /\ s_chunks s0 = s_chunks s
                /\ s_strat s0 = s_strat s).
    { unfold s0. destruct (o_memmap O && negb (e_ext E)); auto. }
    destruct X as (L0 & B0 & C0 & S0). clearbody s0.
    apply (pairs_data E O cs (s_beams s)) in H; auto.
    - destruct H as (evs & L & C1 & _ & _ & G). exists evs, cs. split; [congruence|]. split; auto.
      split.
      { intros l [Hl|Hl]; [rename Hcs into C|rename C1 into C]; unfold used_chunks in C; rewrite Hl in C;
          injection C as <-; reflexivity. }
      intros i v t Hi. specialize (G _ Hi). cbn in G. destruct G as (k & c & Hk & ar & Hd & Hl & H1 & H2 & H3).
      exists k, c, ar. split; auto. split; [unfold data_tod; rewrite (Hnum _ _ Hk), Hd; reflexivity|]. split.
      { rewrite Hl. unfold csize. rewrite Z2Nat.id; auto. assert (P := Hpos c (nth_error_In _ _ Hk)). lia. }
      split; auto. split; auto. intros j Hj. rewrite <- (slice_nth ar _ (length t) j Hj), H3. reflexivity.
    - apply rank_nodup. apply seq_NoDup.
    - intros w _. unfold pair_at, at_. rewrite B0. reflexivity.
    - unfold chunks_of in *. rewrite C0. auto.
    - unfold used_chunks in *. rewrite C0. auto.
    - rewrite S0. auto.
  Qed.
End L.
