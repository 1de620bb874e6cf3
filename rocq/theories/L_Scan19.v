(** * Saved positions and HWP angles: chunks and pairs *)
From Coq Require Import Reals Lra.
From Verif Require Import Common LibList M_Chunks M_Steps M_Hwp M_Mpi M_Detpair M_Scan
  S_Chunks S_Detpair S_Scan S_Saved L_Chunks L_Hwp L_Mpi L_Detpair L_Scan L_Scan2 L_Scan3 L_Scan4 L_Scan5
  L_Scan6 L_Scan7 L_Scan8 L_Scan12 L_Scan13 L_Scan18.
Open Scope R_scope.

(** ** Writes that agree *)
Lemma apply_length {A} : forall (ws : list (nat * list A)) ar,
  (forall w, In w ws -> (fst w + length (snd w) <= length ar)%nat) -> length (apply ws ar) = length ar.
Proof.
  induction ws as [|w ws IH]; intros ar H; [reflexivity|]. cbn.
  assert (L : length (splice ar (fst w) (snd w)) = length ar) by (apply splice_length, H; now left).
  change (length (apply ws (splice ar (fst w) (snd w))) = length ar). rewrite IH; auto.
  intros w' Hw'. rewrite L. apply H. now right.
Qed.
Lemma splice_nth {A} (ar : list A) i (t : list A) j : (i + length t <= length ar)%nat ->
  nth_error (splice ar i t) j
  = if (i <=? j)%nat && (j <? i + length t)%nat then nth_error t (j - i) else nth_error ar j.
Proof.
  intros H. unfold splice. assert (L : length (firstn i ar) = i) by (rewrite firstn_length; lia).
  destruct (Nat.leb_spec i j) as [H1|H1]; cbn [andb].
  - rewrite nth_error_app2 by lia. rewrite L. destruct (Nat.ltb_spec j (i + length t)) as [H2|H2].
    + rewrite nth_error_app1 by lia. reflexivity.
    + rewrite nth_error_app2 by lia. rewrite nth_error_skipn. f_equal. lia.
  - rewrite nth_error_app1 by lia. apply nth_error_firstn. lia.
Qed.
Lemma apply_nth {A} (x : option A) j : forall (ws : list (nat * list A)) ar,
  (forall w, In w ws -> (fst w + length (snd w) <= length ar)%nat) ->
  (forall w, In w ws -> (fst w <= j < fst w + length (snd w))%nat -> nth_error (snd w) (j - fst w) = x) ->
  nth_error ar j = x \/ (exists w, In w ws /\ (fst w <= j < fst w + length (snd w))%nat) ->
  nth_error (apply ws ar) j = x.
Proof.
  induction ws as [|w ws IH]; intros ar H Ha Hc.
  { destruct Hc as [Hc|(w & [] & _)]. exact Hc. }
  change (nth_error (apply ws (splice ar (fst w) (snd w))) j = x).
  assert (Hw := H w (or_introl eq_refl)).
  apply IH.
  - intros w' Hw'. rewrite splice_length by exact Hw. apply H. now right.
  - intros w' Hw'. apply Ha. now right.
  - rewrite splice_nth by exact Hw.
    destruct (Nat.leb_spec (fst w) j) as [H1|H1]; cbn [andb];
      [destruct (Nat.ltb_spec j (fst w + length (snd w))) as [H2|H2]|].
    + left. apply Ha; auto. now left.
    + destruct Hc as [Hc|(w' & [<- |Hw'] & Hin)]; [auto|lia|eauto].
    + destruct Hc as [Hc|(w' & [<- |Hw'] & Hin)]; [auto|lia|eauto].
Qed.

(** ** Chunks do not overlap *)
Lemma tiles_apart : forall (cs : list chunk) lo hi k k' c c', tiles lo hi (map span cs) ->
  nth_error cs k = Some c -> nth_error cs k' = Some c' -> (k < k')%nat -> (c_end c <= c_start c')%Z.
Proof.
  induction cs as [|x cs IH]; intros lo hi k k' c c' T H H' L; [destruct k; discriminate|].
  cbn [map] in T. destruct x as [xa xb xc xn]. cbn in T. destruct T as (-> & Hlt & T).
  destruct k' as [|k']; [lia|]. cbn in H'. destruct k as [|k].
  - cbn in H. injection H as <-. cbn. clear IH.
    assert (G : forall cs lo k' c', tiles lo hi (map span cs) -> nth_error cs k' = Some c' -> (lo <= c_start c')%Z).
    { clear. induction cs as [|y cs IH]; intros lo k' c' T H; [destruct k'; discriminate|].
      cbn [map] in T. destruct y as [ya yb yc yn]. cbn in T. destruct T as (-> & Hlt & T).
      destruct k' as [|k']; cbn in H; [injection H as <-; cbn; lia|]. specialize (IH _ _ _ T H). lia. }
    eapply G; eauto.
  - cbn in H. eapply IH; eauto. lia.
Qed.

Section L.
  Context {B : Type}.
  Implicit Types (s : state B) (E : env B) (d : det B) (p q : bpair B).

  Lemma writes_none E P c c' i evs : (forall e, In e evs -> sound_write P c e) ->
    ~ P i -> point_writes (e_pos E) i c' evs = [].
  Proof.
    intros H Hi. induction evs as [|e evs IH]; [reflexivity|].
    assert (He := H e (or_introl eq_refl)). specialize (IH (fun e' h => H e' (or_intror h))).
    destruct e as [|[d|] v t|]; cbn; auto. cbn in He.
    destruct (Z.eqb_spec d i) as [-> |]; cbn [andb]; auto.
    destruct He as [-> |He]; [exact IH|]. tauto.
  Qed.

  Definition disjoint (c c' : chunk) : Prop := (c_end c <= c_start c' \/ c_end c' <= c_start c)%Z.

  (** Every event writes into one of the chunks [ks]. *)
  Definition in_chunks (cs : list chunk) (ks : list nat) (P : Z -> Prop) (e : event) : Prop :=
    exists k c, nth_error cs k = Some c /\ In k ks /\ sound_write P c e.
  Lemma writes_elsewhere E P cs lo hi ks k c evs : tiles lo hi (map span cs) ->
    nth_error cs k = Some c -> ~ In k ks -> (forall e, In e evs -> in_chunks cs ks P e) ->
    (forall i, point_writes (e_pos E) i c evs = []) /\ hwp_writes c evs = [].
  Proof.
    intros T Hk Hn H. induction evs as [|e evs IH]; [split; reflexivity|].
    destruct (H e (or_introl eq_refl)) as (k' & c' & Hk' & Hi & W).
    destruct IH as [I1 I2]; [intros e' He'; apply H; now right|].
    destruct e as [|[d|] v t|]; cbn; auto. cbn in W. destruct W as [W|(_ & W1 & W2 & _)].
    - rewrite W. cbn. split; auto. intros i. rewrite andb_false_r. cbn. auto.
    - assert (D : (c_end c <= c_start c' \/ c_end c' <= c_start c)%Z).
      { destruct (Nat.lt_total k k') as [L|[L|L]]; [left|subst; contradiction|right]; eapply tiles_apart; eauto. }
      assert (Bi : begins_in c v = false).
      { unfold begins_in. destruct (Z.leb_spec (c_start c) (v_start v)); cbn; auto.
        destruct (Z.ltb_spec (v_start v) (c_end c)); auto. lia. }
      rewrite Bi, !andb_false_r. split; auto. intros i. rewrite !andb_false_r. auto.
  Qed.

  Lemma in_chunks_more cs ks ks' (P Q : Z -> Prop) e : (forall k, In k ks -> In k ks') -> (forall i, P i -> Q i) ->
    in_chunks cs ks P e -> in_chunks cs ks' Q e.
  Proof.
    intros H1 H2 (k & c & Hk & Hi & W). exists k, c. split; auto. split; auto.
    destruct e as [|[d|] v t|]; cbn in *; auto. intuition.
  Qed.

  Definition zero_point (c : chunk) : list (Z * R) := repeat (0%Z, 0) (csize c).
  Definition zero_hwp (c : chunk) : list R := repeat 0 (csize c).

  Lemma live_id_dec p i : {live_id p i} + {~ live_id p i}.
  Proof.
    destruct p as [oa ob]. unfold live_id, is_live; cbn [fst snd].
    assert (D : forall o : option (det B), {exists d, live o = Some d /\ d_id d = i} + {~ exists d, live o = Some d /\ d_id d = i}).
    { intros o. destruct (live o) as [d|].
      - destruct (Z.eq_dec (d_id d) i) as [H|H]; [left; eauto|right]. intros (d' & E & E'). congruence.
      - right. intros (d & E & _). discriminate. }
    destruct (D oa) as [H|H]; [left; destruct H as (d & H1 & H2); eauto|].
    destruct (D ob) as [H'|H']; [left; destruct H' as (d & H1 & H2); eauto|].
    right. intros (d & [H1|H1] & H2); eauto.
  Qed.

  Lemma chunk_point E O bidx p k s s' c : o_save_point O = true -> o_ground O = false ->
    no_stale O (chunks_of s) -> pos_chunks (map fst (chunks_of s)) ->
    numbered (map fst (chunks_of s)) -> rot_fine (ir_rot (sg_rot (s_strat s))) ->
    nth_error (map fst (chunks_of s)) k = Some c ->
    scan_chunk E O bidx p k s = Ok s' ->
    exists evs, s_log s' = s_log s ++ evs /\ (forall e, In e evs -> sound_write (live_id p) c e)
      /\ (forall ci i, ci <> k -> s_point s' ci i = s_point s ci i)
      /\ (forall ci, ci <> k -> s_hwps s' ci = s_hwps s ci)
      /\ (forall i, live_id p i -> s_point s' k i = apply (point_writes (e_pos E) i c evs) (zero_point c))
      /\ (forall i, ~ live_id p i -> s_point s' k i = s_point s k i)
      /\ s_hwps s' k = apply (hwp_writes c evs) (if (bidx =? 0)%nat then zero_hwp c else s_hwps s k).
  Proof.
    intros Hsp Hgr Hst Hpos Hnum Hrot Hk H.
    assert (Hk' := Hk). rewrite nth_error_map in Hk'. destruct (nth_error (chunks_of s) k) as [[c0 g]|] eqn:Ek; [|discriminate].
    cbn in Hk'. injection Hk' as ->.
    destruct (deep_chunk _ _ _ _ _ _ _ _ _ Hst Ek H) as (s1 & subs & r1 & s6 & H1 & Hsub & St & _ & _ & _ & _ & PC & L6 & _ & PA & Hs).
    apply implement_scan_like in H1. destruct H1 as (bore & L1 & K1 & R1).
    assert (Hpos' : (c_start c < c_end c)%Z) by (apply Hpos; eapply nth_error_In; exact Hk).
    rewrite R1 in Hsub.
    destruct (subpart_tiles _ _ _ _ Hrot Hpos' Hsub) as (T & _ & Hci & _).
    rewrite Hgr in Hs.
    assert (Hc := Hnum _ _ Hk). destruct (PA k Hc) as (PA1 & PA2 & PA3 & PA4). rewrite Hsp in PA2, PA4.
    apply (follows_subs E (live_id p) O p c k) with (a := c_start c) in Hs; auto.
    - destruct Hs as (_ & evs & L & W & A & Hw). exists (EPoint c bore :: evs).
      split; [rewrite L, L6, L1, <- app_assoc; reflexivity|].
      split; [intros e [<-|He]; [exact I|auto]|].
      split; [intros ci i Hn; rewrite A; destruct (Nat.eqb_spec ci k); [contradiction|]; apply PA1; auto|].
      split; [intros ci Hn; rewrite Hw; destruct (Nat.eqb_spec ci k); [contradiction|]; auto|].
      split.
      { intros i (d & Hd & <-). rewrite A, Nat.eqb_refl, PA2 by exact Hd. reflexivity. }
      split.
      { intros i Hi. rewrite A, Nat.eqb_refl. rewrite (writes_none E (live_id p) c) by auto. cbn.
        apply PA1. right. intros d Hd Ei. apply Hi. exists d. auto. }
      rewrite Hw, Nat.eqb_refl, PA4, andb_true_r. reflexivity.
    - intros d Hd. exists d. auto.
    - lia.
    - intros x Hx. rewrite Hci; auto.
    - rewrite PC, plain_of. exact Hk.
  Qed.

  Lemma chunks_point E O bidx p cs lo hi : o_save_point O = true -> o_ground O = false ->
    tiles lo hi (map span cs) -> numbered cs ->
    forall ks s s', NoDup ks -> no_stale O (chunks_of s) -> map fst (chunks_of s) = cs ->
    rot_fine (ir_rot (sg_rot (s_strat s))) -> (forall k, In k ks -> (k < length cs)%nat) ->
    scan_chunks E O bidx p ks s = Ok s' ->
    exists evs, s_log s' = s_log s ++ evs /\ (forall e, In e evs -> in_chunks cs ks (live_id p) e)
      /\ forall k c, nth_error cs k = Some c ->
         (forall i, live_id p i -> In k ks -> s_point s' k i = apply (point_writes (e_pos E) i c evs) (zero_point c))
         /\ (forall i, ~ live_id p i \/ ~ In k ks -> s_point s' k i = s_point s k i)
         /\ (In k ks -> s_hwps s' k = apply (hwp_writes c evs) (if (bidx =? 0)%nat then zero_hwp c else s_hwps s k))
         /\ (~ In k ks -> s_hwps s' k = s_hwps s k).
  Proof.
    intros Hsp Hgr T Hnum. assert (Hpos : pos_chunks cs) by (intros c Hc; apply (tiles_pos _ _ _ _ T Hc)).
    induction ks as [|k0 ks IH]; intros s s' Hnd Hst Hcs Hrot Hin H; cbn [scan_chunks] in H.
    { injection H as <-. exists []. rewrite app_nil_r. split; auto. split; [intros ? []|].
      intros k c Hk. repeat split; auto; intros; contradiction. }
    inv_bind H s1 H1. inversion Hnd as [|? ? Hk0 Hnd' Ea]. subst x l.
    destruct (nth_error cs k0) as [c0|] eqn:Ek.
    2:{ apply nth_error_None in Ek. specialize (Hin k0 (or_introl eq_refl)). lia. }
    assert (X := H1). apply chunk_point with (c := c0) in X; auto; try (rewrite Hcs; auto).
    destruct X as (e1 & L1 & W1 & P1 & Q1 & A1 & A1' & B1).
    apply scan_chunk_like in H1; auto; [|congruence|apply pos_positive; rewrite Hcs; auto]. destruct H1 as (_ & _ & _ & K1 & N1 & F1).
    apply IH in H; auto; rewrite ?(k2_chunks _ _ K1); auto; [|intros; apply Hin; now right].
    destruct H as (e2 & L2 & W2 & G2).
    assert (W1' : forall e, In e e1 -> in_chunks cs [k0] (live_id p) e).
    { intros e He. exists k0, c0. split; auto. split; [now left|auto]. }
    exists (e1 ++ e2). split; [rewrite L2, L1, app_assoc; reflexivity|].
    split.
    { intros e He. apply in_app_or in He. destruct He as [He|He];
        [apply (in_chunks_more cs [k0] _ (live_id p) (live_id p)); auto; intros ? [<-|[]]; now left|].
      apply (in_chunks_more cs ks _ (live_id p) (live_id p)); auto. intros; now right. }
    intros k c Hk. destruct (G2 k c Hk) as (G2a & G2b & G2c & G2d).
    destruct (Nat.eq_dec k k0) as [-> |Hn].
    - rewrite Hk in Ek. injection Ek as <-.
      destruct (writes_elsewhere E _ _ _ _ _ _ _ _ T Hk Hk0 W2) as [Z1 Z2].
      rewrite G2d by exact Hk0. split; [|split; [|split]].
      + intros i Hi _. rewrite G2b by auto. rewrite point_writes_app, Z1, app_nil_r. auto.
      + intros i [Hi|Hi]; [|exfalso; apply Hi; now left]. rewrite G2b by auto. auto.
      + intros _. rewrite hwp_writes_app, Z2, app_nil_r. auto.
      + intros Hi. exfalso. apply Hi. now left.
    - assert (Hn' : ~ In k [k0]) by (intros [E0|[]]; congruence).
      destruct (writes_elsewhere E _ _ _ _ _ _ _ _ T Hk Hn' W1') as [Z1 Z2].
      split; [|split; [|split]].
      + intros i Hi Hik. rewrite G2a; [|auto|destruct Hik; [congruence|auto]].
        rewrite point_writes_app, Z1. reflexivity.
      + intros i Hi. rewrite G2b, P1; auto. destruct Hi as [Hi|Hi]; auto. right. intros Hx. apply Hi. now right.
      + intros Hik. rewrite G2c; [|destruct Hik; [congruence|auto]]. rewrite Q1, hwp_writes_app, Z2 by auto. reflexivity.
      + intros Hik. rewrite G2d, Q1; auto. intros Hx. apply Hik. now right.
  Qed.

  Lemma same_live_id' p q i : same_odet (fst p) (fst q) -> same_odet (snd p) (snd q) ->
    live_id p i -> live_id q i.
  Proof.
    intros Ha Hb (d & Hd & Hi). apply same_live in Ha, Hb. destruct Hd as [Hd|Hd]; [rewrite Hd in Ha|rewrite Hd in Hb].
    - destruct (live (fst q)) as [a|] eqn:Ea; [|contradiction]. exists a. split; [left; auto|].
      destruct Ha as [Ha _]. congruence.
    - destruct (live (snd q)) as [a|] eqn:Ea; [|contradiction]. exists a. split; [right; auto|].
      destruct Hb as [Hb _]. congruence.
  Qed.

  Lemma pair_point E O bidx w s s' cs lo hi : o_save_point O = true -> o_ground O = false ->
    no_stale O (chunks_of s) -> used_chunks E s = Ok cs ->
    tiles lo hi (map span cs) -> numbered cs -> rot_fine (ir_rot (sg_rot (s_strat s))) ->
    scan_pair E O bidx w s = Ok s' ->
    exists evs, s_log s' = s_log s ++ evs
      /\ (forall e, In e evs -> in_chunks cs (seq 0 (length cs)) (live_id (pair_at s w)) e)
      /\ forall k c, nth_error cs k = Some c ->
         (forall i, live_id (pair_at s w) i -> s_point s' k i = apply (point_writes (e_pos E) i c evs) (zero_point c))
         /\ (forall i, ~ live_id (pair_at s w) i -> s_point s' k i = s_point s k i)
         /\ s_hwps s' k = apply (hwp_writes c evs) (if (bidx =? 0)%nat then zero_hwp c else s_hwps s k).
  Proof.
    intros Hsp Hgr Hst Hcs T Hnum Hrot H.
    destruct (deep_pair _ _ _ _ _ _ _ Hst Hcs H) as (q & s2 & Sa & Sb & S2 & L2 & _ & _ & _ & F2 & _ & N2 & _ & _ & [P2 W2] & H2).
    assert (Lv : forall i, live_id (pair_at s w) i <-> live_id q i).
    { intros i. split; [apply same_live_id'; auto|apply same_live_id; auto]. }
    apply (chunks_point E O bidx q cs lo hi) in H2; auto.
    - destruct H2 as (evs & L & W & G). exists evs. rewrite L, L2. split; auto. split.
      { intros e He. apply (in_chunks_more cs (seq 0 (length cs)) _ (live_id q) _); auto. intros i Hi. apply Lv. exact Hi. }
      intros k c Hk. destruct (G k c Hk) as (Ga & Gb & Gc & _).
      assert (Hks : In k (seq 0 (length cs))).
      { apply in_seq. assert (X : nth_error cs k <> None) by congruence. apply nth_error_Some in X. lia. }
      rewrite P2 in Gb. rewrite W2 in Gc. split; [|split].
      + intros i Hi. apply Ga; auto. apply Lv. exact Hi.
      + intros i Hi. apply Gb. left. intros Hq. apply Hi. apply Lv. exact Hq.
      + apply Gc. exact Hks.
    - apply seq_NoDup.
    - rewrite S2. destruct (bidx =? 0)%nat; auto. apply reset_fine; auto.
    - intros k Hk. apply in_seq in Hk. lia.
  Qed.

  Definition some_live (bs : list (bpair B)) (ws : list (option nat)) (i : Z) : Prop :=
    exists w, In w ws /\ live_id (at_ bs w) i.

  Lemma pairs_point E O cs lo hi (bs : list (bpair B)) : o_save_point O = true -> o_ground O = false ->
    tiles lo hi (map span cs) -> numbered cs -> NoDup (map d_id (dets bs)) ->
    forall ws bidx s s', NoDup (somes ws) ->
    (forall w, In w ws -> pair_at s w = at_ bs w) ->
    no_stale O (chunks_of s) -> used_chunks E s = Ok cs ->
    rot_fine (ir_rot (sg_rot (s_strat s))) ->
    scan_pairs E O bidx ws s = Ok s' ->
    exists evs, s_log s' = s_log s ++ evs /\ used_chunks E s' = Ok cs
      /\ (forall e, In e evs -> in_chunks cs (seq 0 (length cs)) (some_live bs ws) e)
      /\ forall k c, nth_error cs k = Some c ->
         (forall i, some_live bs ws i -> s_point s' k i = apply (point_writes (e_pos E) i c evs) (zero_point c))
         /\ (forall i, ~ some_live bs ws i -> s_point s' k i = s_point s k i)
         /\ (s_hwps s' k = apply (hwp_writes c evs)
               (match ws with [] => s_hwps s k | _ => if (bidx =? 0)%nat then zero_hwp c else s_hwps s k end)).
  Proof.
    intros Hsp Hgr T Hnum ND. assert (Hpos : pos_chunks cs) by (intros c Hc; apply (tiles_pos _ _ _ _ T Hc)).
    induction ws as [|w ws IH]; intros bidx s s' NW Hat Hst Hcs Hrot H; cbn [scan_pairs] in H.
    { injection H as <-. exists []. rewrite app_nil_r. split; auto. split; auto. split; [intros ? []|].
      intros k c Hk. split; [intros i (w & [] & _)|]. auto. }
    inv_bind H s1 H1.
    assert (Pw : pair_at s w = at_ bs w) by (apply Hat; now left).
    assert (X := H1). apply (pair_point E O bidx w s s1 cs lo hi) in X; auto.
    destruct X as (e1 & L1 & W1 & G1). rewrite Pw in W1, G1.
    eapply scan_pair_like in H1; eauto; [|congruence]. destruct H1 as (_ & _ & _ & Bm & C1 & N1 & F1).
    assert (NW' : NoDup (somes ws)).
    { destruct w; cbn in NW; auto. inversion NW; auto. }
    assert (Wn : forall j, w = Some j -> In (Some j) ws -> False).
    { intros j -> Hj. cbn in NW. inversion NW; subst. match goal with K : ~ In _ _ |- _ => apply K end.
      apply somes_in. auto. }
    apply (IH _ s1) in H; auto.
    2:{ intros w' Hw'. rewrite <- Hat by now right. destruct w' as [j|]; cbn; auto. rewrite Bm; auto.
        intros ->. apply (Wn j); auto. }
    destruct H as (e2 & L2 & C2 & W2 & G2).
    assert (Ap : forall i, live_id (at_ bs w) i -> ~ some_live bs ws i).
    { intros i (d & Hd & Hi) (w' & Hw' & d' & Hd' & Hi').
      destruct w as [j|]; [|cbn in Hd; destruct Hd; discriminate].
      destruct w' as [j'|]; [|cbn in Hd'; destruct Hd'; discriminate].
      assert (Hjj : j <> j') by (intros ->; apply (Wn j'); auto).
      cbn in Hd, Hd'. destruct (nth_error bs j) as [q|] eqn:Ej; [|destruct Hd; discriminate].
      destruct (nth_error bs j') as [q'|] eqn:Ej'; [|destruct Hd'; discriminate].
      apply (dets_apart bs j j' q q' d d'); auto; try (apply live_in; auto). congruence. }
    assert (Z1 : forall i c, ~ live_id (at_ bs w) i -> point_writes (e_pos E) i c e1 = []).
    { intros i c Hi. clear - W1 Hi. induction e1 as [|e e1 IH]; [reflexivity|].
      destruct (W1 e (or_introl eq_refl)) as (k & c' & _ & _ & W).
      specialize (IH (fun e' h => W1 e' (or_intror h))). destruct e as [|[d|] v t|]; cbn; auto.
      cbn in W. destruct (Z.eqb_spec d i) as [-> |]; cbn [andb]; auto.
      destruct W as [-> |W]; [exact IH|tauto]. }
    assert (Z2 : forall i c, ~ some_live bs ws i -> point_writes (e_pos E) i c e2 = []).
    { intros i c Hi. clear - W2 Hi. induction e2 as [|e e2 IH]; [reflexivity|].
      destruct (W2 e (or_introl eq_refl)) as (k & c' & _ & _ & W).
      specialize (IH (fun e' h => W2 e' (or_intror h))). destruct e as [|[d|] v t|]; cbn; auto.
      cbn in W. destruct (Z.eqb_spec d i) as [-> |]; cbn [andb]; auto.
      destruct W as [-> |W]; [exact IH|tauto]. }
    exists (e1 ++ e2). split; [rewrite L2, L1, app_assoc; reflexivity|]. split; auto.
    split.
    { intros e He. apply in_app_or in He. destruct He as [He|He].
      - eapply in_chunks_more; [| |apply W1; exact He]; auto. intros i Hi. exists w. split; [now left|auto].
      - eapply in_chunks_more; [| |apply W2; exact He]; auto. intros i (w' & Hw' & Hi). exists w'. split; [now right|auto]. }
    intros k c Hk. destruct (G1 k c Hk) as (G1a & G1b & G1c). destruct (G2 k c Hk) as (G2a & G2b & G2c).
    split; [|split].
    - intros i (w' & [<- |Hw'] & Hi).
      + rewrite G2b, G1a, point_writes_app, Z2, app_nil_r; auto.
      + assert (Hs : some_live bs ws i) by (exists w'; auto).
        rewrite G2a, point_writes_app, Z1; auto. intros Hl. apply (Ap i Hl Hs).
    - intros i Hi. rewrite G2b, G1b; auto.
      + intros Hl. apply Hi. exists w. split; [now left|auto].
      + intros (w' & Hw' & Hl). apply Hi. exists w'. split; [now right|auto].
    - rewrite G2c, hwp_writes_app, apply_app. f_equal. destruct ws; rewrite G1c; reflexivity.
  Qed.
End L.
