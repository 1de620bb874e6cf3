(** * Counting what a scan does for each beam *)
From Coq Require Import Reals Lra.
From Verif Require Import Common LibList M_Chunks M_Steps M_Hwp M_Mpi M_Detpair M_Scan
  S_Chunks S_Detpair S_Scan L_Chunks L_Hwp L_Mpi L_Detpair L_Scan L_Scan2 L_Scan3 L_Scan4 L_Scan5.
From Verif Require L_Tod.
Open Scope R_scope.

(** ** Reading traces *)
Lemma scanned_app w g a b : scanned w g (a ++ b) = scanned w g a ++ scanned w g b.
Proof.
  induction a as [|[c l|w' v t|i v t] a IH]; cbn; auto.
  destruct (same_who w w' && Bool.eqb (v_ground v) g); cbn; rewrite IH; reflexivity.
Qed.
Lemma binned_app i a b : binned i (a ++ b) = binned i a ++ binned i b.
Proof.
  induction a as [|[c l|w' v t|j v t] a IH]; cbn; auto.
  destruct (j =? i)%Z; cbn; rewrite IH; reflexivity.
Qed.

Lemma tiles_pos lo hi l c : tiles lo hi (map span l) -> In c l -> (c_start c < c_end c)%Z.
Proof.
  intros T Hc. apply (in_map span) in Hc.
  destruct (tiles_in lo hi _ (c_start c) (c_end c) T Hc) as (_ & H & _). exact H.
Qed.

(** A reading of traces that ignores pointing events. *)
Record reading (f : list event -> list (Z * Z)) : Prop := mkreading {
  rd_nil : f [] = [];
  rd_app : forall a b, f (a ++ b) = f a ++ f b;
  rd_point : forall c l, f [EPoint c l] = [] }.
Lemma scanned_reading w g : reading (scanned w g).
Proof. constructor; auto. apply scanned_app. Qed.
Lemma binned_reading i : reading (binned i).
Proof. constructor; auto. apply binned_app. Qed.

Section L.
  Context {B : Type}.
  Implicit Types (s : state B) (E : env B) (d : det B).

  (** ** Lifting from sub-chunks *)
  Section Lift.
    Variables (f : list event -> list (Z * Z)) (E : env B) (O : opts).
    Hypothesis Hf : reading f.

    Definition counts (p : bpair B) (m : nat) : Prop :=
      forall maps c evs, (c_start c < c_end c)%Z -> sub_like E O p maps c evs ->
        f evs = repeat (span c) m.

    Lemma f_concat l : f (concat l) = concat (map f l).
    Proof. induction l; cbn; [apply Hf|]. rewrite (rd_app _ Hf), IHl. reflexivity. Qed.

    Lemma chunk_none p maps c evs : counts p 0 -> chunk_like E O p maps c evs -> f evs = [].
    Proof.
      intros H (bore & subs & evss & T & F & ->).
      change (EPoint c bore :: concat evss) with ([EPoint c bore] ++ concat evss).
      rewrite (rd_app _ Hf), (rd_point _ Hf), f_concat. cbn [app].
      assert (P : forall x, In x subs -> (c_start x < c_end x)%Z).
      { intros x Hx. apply (tiles_pos _ _ _ _ T Hx). }
      clear T. induction F as [|x e subs evss Hx F IH]; cbn; auto.
      rewrite (H maps x e) by (auto; apply P; now left). cbn. apply IH.
      intros y Hy. apply P. now right.
    Qed.

    Lemma chunk_once p maps c evs : counts p 1 -> chunk_like E O p maps c evs ->
      tiles (c_start c) (c_end c) (f evs).
    Proof.
      intros H (bore & subs & evss & T & F & ->).
      change (EPoint c bore :: concat evss) with ([EPoint c bore] ++ concat evss).
      rewrite (rd_app _ Hf), (rd_point _ Hf), f_concat. cbn [app].
      assert (P : forall x, In x subs -> (c_start x < c_end x)%Z).
      { intros x Hx. apply (tiles_pos _ _ _ _ T Hx). }
      replace (concat (map f evss)) with (map span subs); auto. clear T.
      induction F as [|x e subs evss Hx F IH]; cbn; auto.
      rewrite (H maps x e) by (auto; apply P; now left). cbn. f_equal. apply IH.
      intros y Hy. apply P. now right.
    Qed.

    Lemma pair_none p maps cs evs : counts p 0 -> pair_like E O p maps cs evs -> f evs = [].
    Proof.
      intros H (evss & F & ->). rewrite f_concat. induction F as [|c e cs evss Hc F IH]; cbn; auto.
      rewrite (chunk_none p maps c e) by auto. exact IH.
    Qed.
    Lemma pair_once p maps lo hi cs evs : counts p 1 -> pair_like E O p maps cs evs ->
      tiles lo hi (map span cs) -> tiles lo hi (f evs).
    Proof.
      intros H (evss & F & ->) T. rewrite f_concat. revert lo T.
      induction F as [|c e cs evss Hc F IH]; intros lo T; cbn in T |- *; auto.
      destruct T as (E1 & Hlt & T). subst lo.
      apply tiles_app with (c_end c); [|apply IH; exact T].
      apply (chunk_once p maps c e); auto.
    Qed.
  End Lift.

  (** ** Calls for one beam *)
  Definition matches (w : who) (g : bool) (x : @call B) : bool :=
    let '(w', _, g') := x in same_who w w' && Bool.eqb g' g.

  Definition n_match w g (l : list (@call B)) : nat := length (filter (matches w g) l).
  Lemma n_match_app w g a b : n_match w g (a ++ b) = (n_match w g a + n_match w g b)%nat.
  Proof. unfold n_match. rewrite filter_app, app_length. reflexivity. Qed.

  Lemma scanned_calls E n vw c w g l :
    (forall g, v_start (vw g) = c_start c /\ v_ground (vw g) = g) ->
    scanned w g (map (call_event E n vw) l)
    = repeat (c_start c, (c_start c + Z.of_nat n)%Z) (n_match w g l).
  Proof.
    intros Hv. unfold n_match. induction l as [|[[w' b] g'] l IH]; auto.
    cbn [map scanned filter matches call_event].
    destruct (Hv g') as [Hs Hg]. rewrite Hg.
    destruct (same_who w w' && Bool.eqb g' g); cbn [length repeat]; rewrite IH; auto.
    unfold stretch. rewrite Hs, L_Tod.arr_len. reflexivity.
  Qed.

  Definition hits (O : opts) d (w : who) (g : bool) : nat :=
    if o_preview O then 0
    else match w with
         | Main i => if (i =? d_id d)%Z then (if g then if o_ground O then 1 else 0 else 1) else 0
         | Ghost i k =>
             if (i =? d_id d)%Z && Bool.eqb (o_ground O) g then
               match nth_error (d_ghosts d) k with
               | Some h => if gh_dead h then 0 else 1
               | None => 0
               end
             else 0
         end%nat.

  Lemma ghost_calls_main maps i ground j g : forall gs k l,
    ghost_calls maps i ground k gs = Ok l -> n_match (Main j) g l = 0%nat.
  Proof.
    induction gs as [|h gs IH]; intros k l H; cbn [ghost_calls] in H.
    - injection H as <-. reflexivity.
    - destruct (gh_dead h); [eapply IH; eauto|].
      inv_bind H b Hb. inv_bind H l' Hl'. injection H as <-. apply IH in Hl'.
      unfold n_match in *. cbn. exact Hl'.
  Qed.

  Lemma ghost_calls_ghost maps i ground j g kk : forall gs k l,
    ghost_calls maps i ground k gs = Ok l ->
    n_match (Ghost j kk) g l
    = (if (j =? i)%Z && Bool.eqb ground g && (k <=? kk)%nat then
         match nth_error gs (kk - k) with
         | Some h => if gh_dead h then 0 else 1
         | None => 0
         end
       else 0)%nat.
  Proof.
    induction gs as [|h gs IH]; intros k l H; cbn [ghost_calls] in H.
    - injection H as <-. cbn. destruct (_ && _); auto. destruct (kk - k)%nat; reflexivity.
    - assert (X : forall l', ghost_calls maps i ground (S k) gs = Ok l' ->
                (n_match (Ghost j kk) g l' + (if (j =? i)%Z && Bool.eqb ground g && (kk =? k)%nat
                                              then if gh_dead h then 0 else 1 else 0)
                = (if (j =? i)%Z && Bool.eqb ground g && (k <=? kk)%nat then
                     match nth_error (h :: gs) (kk - k) with
                     | Some h => if gh_dead h then 0 else 1
                     | None => 0
                     end
                   else 0))%nat).
      { intros l' Hl'. rewrite (IH _ _ Hl').
        destruct ((j =? i)%Z && Bool.eqb ground g); cbn [andb]; auto.
        destruct (Nat.eqb_spec kk k) as [->|Hn].
        - rewrite Nat.leb_refl, Nat.sub_diag. cbn [nth_error].
          destruct (Nat.leb_spec (S k) k); [lia|]. reflexivity.
        - destruct (Nat.leb_spec (S k) kk), (Nat.leb_spec k kk); try lia.
          replace (kk - k)%nat with (S (kk - S k)) by lia. cbn [nth_error]. lia. }
      destruct (gh_dead h) eqn:Ed.
      + specialize (X _ H). destruct (_ && (kk =? k)%nat) in X; rewrite Nat.add_0_r in X; exact X.
      + inv_bind H b Hb. inv_bind H l' Hl'. injection H as <-. specialize (X _ Hl').
        unfold n_match in *. cbn [filter matches same_who].
        rewrite <- X. rewrite <- !andb_assoc, (andb_comm (kk =? k)%nat), !andb_assoc.
        destruct (_ && (kk =? k)%nat); cbn [length]; lia.
  Qed.

  Lemma det_calls_match maps d ground l w g : det_calls maps d ground = Ok l ->
    n_match w g l
    = match w with
      | Main i => if (i =? d_id d)%Z then (if g then if ground then 1 else 0 else 1) else 0
      | Ghost i k =>
          if (i =? d_id d)%Z && Bool.eqb ground g then
            match nth_error (d_ghosts d) k with
            | Some h => if gh_dead h then 0 else 1
            | None => 0
            end
          else 0
      end%nat.
  Proof.
    unfold det_calls. intros H. inv_bind H gs Hgs. inv_bind H gr Hgr. inv_bind H m Hm.
    injection H as <-. rewrite !n_match_app.
    assert (G : match w with
                | Main i => n_match w g gr = if (i =? d_id d)%Z && ground && g then 1 else 0
                | Ghost i k => n_match w g gr = 0
                end%nat).
    { destruct ground.
      - inv_bind Hgr b Hb. injection Hgr as <-. unfold n_match. destruct w; cbn; auto.
        destruct (d0 =? d_id d)%Z, g; reflexivity.
      - injection Hgr as <-. unfold n_match. destruct w; cbn; auto.
        rewrite andb_false_r. reflexivity. }
    destruct w as [i|i k].
    - rewrite (ghost_calls_main _ _ _ _ _ _ _ _ Hgs), G. unfold n_match. cbn.
      destruct (i =? d_id d)%Z, g, ground; reflexivity.
    - rewrite (ghost_calls_ghost _ _ _ _ _ _ _ _ _ Hgs), G. cbn [Nat.leb]. rewrite Nat.sub_0_r.
      unfold n_match. cbn [filter matches same_who andb length]. rewrite andb_true_r, !Nat.add_0_r.
      reflexivity.
  Qed.

  Lemma calls_for_match (O : opts) maps (dd : option (det B)) l w g :
    calls_for O maps dd (o_ground O) l ->
    n_match w g l = match live dd with Some d => hits O d w g | None => 0%nat end.
  Proof.
    unfold calls_for, calls_of, hits. destruct (live dd) as [d|]; [|intros ->; reflexivity].
    intros [H _]. destruct (o_preview O).
    - injection H as <-. reflexivity.
    - eapply det_calls_match; eauto.
  Qed.

  Definition phits O (p : bpair B) w g : nat :=
    (match live (fst p) with Some d => hits O d w g | None => 0 end
     + match live (snd p) with Some d => hits O d w g | None => 0 end)%nat.

  Lemma scanned_bin (O : opts) w g m d v t : scanned w g (bin_event O m d v t) = [].
  Proof. unfold bin_event. destruct (o_binning O); reflexivity. Qed.

  Lemma csize_span c : (c_start c < c_end c)%Z ->
    (c_start c, (c_start c + Z.of_nat (csize c))%Z) = span c.
  Proof. intros H. unfold csize, span. rewrite Z2Nat.id by lia. f_equal. lia. Qed.

  Lemma scanned_counts E O p w g : counts (scanned w g) E O p (phits O p w g).
  Proof.
    intros maps c evs Hc (vw & m & la & lb & Hv' & Ha & Hb & ->).
    assert (Hv : forall g, v_start (vw g) = c_start c /\ v_ground (vw g) = g)
      by (intros h; destruct (Hv' h) as (? & ? & _); auto).
    apply (calls_for_match O _ _ _ w g) in Ha, Hb. unfold phits, sub_events.
    assert (SA := scanned_calls E (csize c) vw c w g la Hv).
    assert (SB := scanned_calls E (csize c) vw c w g lb Hv).
    rewrite csize_span in SA, SB by auto.
    destruct (live (fst p)) as [a|], (live (snd p)) as [b|].
    - destruct (ctalk_on O (fst p) (snd p)); rewrite !scanned_app, !scanned_bin, SA, SB, Ha, Hb;
        cbn [app]; rewrite ?app_nil_r, <- repeat_app; reflexivity.
    - rewrite scanned_app, scanned_bin, SA, Ha, app_nil_r, Nat.add_0_r. reflexivity.
    - rewrite scanned_app, scanned_bin, SB, Hb, app_nil_r. reflexivity.
    - reflexivity.
  Qed.

  (** ** Binning *)
  Definition bhits O (p : bpair B) (i : Z) : nat :=
    if o_binning O then
      (match live (fst p) with Some d => if (d_id d =? i)%Z then 1 else 0 | None => 0 end
       + match live (snd p) with Some d => if (d_id d =? i)%Z then 1 else 0 | None => 0 end)%nat
    else 0%nat.

  Lemma binned_calls E n vw i l : binned i (map (@call_event B E n vw) l) = [].
  Proof. induction l as [|[[w b] g] l IH]; auto. Qed.

  Lemma fval_len (O : opts) m t : same_length O -> length (fval O m t) = length t.
  Proof. intros H. unfold fval. destruct (o_filter O m t) eqn:Ef; auto. eapply H; eauto. Qed.

  Lemma binned_bin (O : opts) m d v t i n c : same_length O -> length t = n ->
    v_start v = c_start c ->
    binned i (bin_event O m d v t)
    = repeat (c_start c, (c_start c + Z.of_nat n)%Z)
        (if o_binning O then if (d_id d =? i)%Z then 1 else 0 else 0).
  Proof.
    intros Hs Hl Hv. unfold bin_event. destruct (o_binning O); auto. cbn [binned].
    destruct (d_id d =? i)%Z; auto. cbn. unfold stretch. rewrite fval_len, Hv, Hl by auto.
    reflexivity.
  Qed.

  Lemma binned_counts E O p i : same_length O -> counts (binned i) E O p (bhits O p i).
  Proof.
    intros Hs maps c evs Hc (vw & m & la & lb & Hv & Ha & Hb & ->). unfold bhits, sub_events.
    destruct (Hv false) as [Hv0 _].
    assert (X : forall d t, length t = csize c -> binned i (bin_event O m d (vw false) t)
              = repeat (span c) (if o_binning O then if (d_id d =? i)%Z then 1 else 0 else 0)).
    { intros d t Ht. rewrite (binned_bin O m d (vw false) t i (csize c) c) by auto.
      rewrite csize_span by auto. reflexivity. }
    destruct (live (fst p)) as [a|], (live (snd p)) as [b|].
    - destruct (ctalk_on O (fst p) (snd p)); rewrite !binned_app, !binned_calls; cbn [app];
        rewrite !X by (unfold mix; rewrite L_Tod.arr_len; reflexivity);
        destruct (o_binning O); cbn; rewrite <- ?repeat_app; reflexivity.
    - rewrite binned_app, binned_calls. cbn [app]. rewrite X by (rewrite L_Tod.arr_len; reflexivity).
      destruct (o_binning O); rewrite ?Nat.add_0_r; reflexivity.
    - rewrite binned_app, binned_calls. cbn [app]. rewrite X by (rewrite L_Tod.arr_len; reflexivity).
      destruct (o_binning O); reflexivity.
    - destruct (o_binning O); reflexivity.
  Qed.

  (** ** Detectors that are left alone *)
  Definition untouched (p : bpair B) (i : Z) : Prop :=
    (forall d, live (fst p) = Some d -> d_id d <> i) /\ (forall d, live (snd p) = Some d -> d_id d <> i).

  Lemma ghost_calls_id maps i ground : forall gs k l x,
    ghost_calls (B := B) maps i ground k gs = Ok l -> In x l -> exists kk b, x = (Ghost i kk, b, ground).
  Proof.
    induction gs as [|h gs IH]; intros k l x H Hx; cbn [ghost_calls] in H.
    - injection H as <-. destruct Hx.
    - destruct (gh_dead h); [eapply IH; eauto|].
      inv_bind H b Hb. inv_bind H l' Hl'. injection H as <-. destruct Hx as [<-|Hx]; eauto.
  Qed.

  Lemma det_calls_id maps d ground l x : det_calls maps d ground = Ok l -> In x l ->
    (exists k, fst (fst x) = Ghost (d_id d) k) \/ fst (fst x) = Main (d_id d).
  Proof.
    unfold det_calls. intros H Hx. inv_bind H gs Hgs. inv_bind H gr Hgr. inv_bind H m Hm.
    injection H as <-. apply in_app_or in Hx. destruct Hx as [Hx|Hx].
    - left. destruct (ghost_calls_id _ _ _ _ _ _ _ Hgs Hx) as (k & b & ->). exists k. reflexivity.
    - apply in_app_or in Hx. destruct Hx as [Hx|[<-|[]]]; [|auto].
      destruct ground.
      + inv_bind Hgr b Hb. injection Hgr as <-. destruct Hx as [<-|[]]. auto.
      + injection Hgr as <-. destruct Hx.
  Qed.

  Lemma calls_events_about E n vw (O : opts) maps dd l i e :
    calls_for O maps dd (o_ground O) l -> (forall d, live dd = Some d -> d_id d <> i) ->
    In e (map (@call_event B E n vw) l) -> ~ about i e.
  Proof.
    unfold calls_for, calls_of. intros H Hi He. apply in_map_iff in He.
    destruct He as ([[w b] g] & <- & Hx).
    destruct (live dd) as [d|]; [|subst l; destruct Hx].
    destruct H as [H _]. destruct (o_preview O); [injection H as <-; destruct Hx|].
    destruct (det_calls_id _ _ _ _ _ H Hx) as [[k Hk]|Hk]; cbn in Hk; subst w; cbn; apply Hi; auto.
  Qed.

  Lemma bin_event_about (O : opts) m d v t i e : d_id d <> i ->
    In e (bin_event O m d v t) -> ~ about i e.
  Proof.
    unfold bin_event. destruct (o_binning O); intros H He; [|destruct He].
    destruct He as [<-|[]]. cbn. auto.
  Qed.

  Lemma sub_untouched E O p maps c evs i e : untouched p i -> sub_like E O p maps c evs ->
    In e evs -> ~ about i e.
  Proof.
    intros [Ua Ub] (vw & m & la & lb & Hv & Ha & Hb & ->) He. unfold sub_events in He.
    cbv zeta in He.
    assert (XA : forall e, In e (map (call_event E (csize c) vw) la) -> ~ about i e)
      by (intros; eapply (calls_events_about E (csize c) vw O maps (fst p)); eauto).
    assert (XB : forall e, In e (map (call_event E (csize c) vw) lb) -> ~ about i e)
      by (intros; eapply (calls_events_about E (csize c) vw O maps (snd p)); eauto).
    assert (BA : forall a v t, live (fst p) = Some a -> In e (bin_event O m a v t) -> ~ about i e)
      by (intros a v t Ea Hin; apply (bin_event_about O m a v t i e (Ua a Ea) Hin)).
    assert (BB : forall a v t, live (snd p) = Some a -> In e (bin_event O m a v t) -> ~ about i e)
      by (intros a v t Ea Hin; apply (bin_event_about O m a v t i e (Ub a Ea) Hin)).
    destruct (live (fst p)) as [a|], (live (snd p)) as [b|].
    - destruct (ctalk_on O (fst p) (snd p)); repeat (apply in_app_or in He; destruct He as [He|He]);
        try (apply (BA a _ _ eq_refl He)); try (apply (BB b _ _ eq_refl He)); auto.
    - apply in_app_or in He; destruct He as [He|He]; auto. apply (BA a _ _ eq_refl He).
    - apply in_app_or in He; destruct He as [He|He]; auto. apply (BB b _ _ eq_refl He).
    - destruct He.
  Qed.

  Lemma pair_untouched E O p maps cs evs i e : untouched p i -> pair_like E O p maps cs evs ->
    In e evs -> ~ about i e.
  Proof.
    intros U (evss & F & ->) He. apply in_concat in He. destruct He as (l & Hl & He).
    assert (X : exists c, chunk_like E O p maps c l).
    { clear -F Hl. induction F; [destruct Hl|]. destruct Hl as [<-|Hl]; eauto. }
    destruct X as (c & bore & subs & es & _ & F2 & ->). destruct He as [<-|He]; [cbn; auto|].
    apply in_concat in He. destruct He as (l & Hl2 & He).
    assert (X : exists c, sub_like E O p maps c l).
    { clear -F2 Hl2. induction F2; [destruct Hl2|]. destruct Hl2 as [<-|Hl2]; eauto. }
    destruct X as (c' & X). eapply sub_untouched; eauto.
  Qed.

  (** ** A pair that has been initialised counts as it did before *)
  Lemma same_live (o o' : option (det B)) : same_odet o o' ->
    match live o, live o' with
    | Some d, Some d' => same_det d d'
    | None, None => True
    | _, _ => False
    end.
  Proof.
    destruct o as [d|], o' as [d'|]; cbn; try contradiction; auto. intros H. assert (H' := H).
    destruct H' as (_ & H2 & _). rewrite H2. destruct (d_dead d); auto.
  Qed.

  Lemma same_hits O d d' w g : same_det d d' -> hits O d' w g = hits O d w g.
  Proof.
    intros (H1 & _ & _ & _ & H5). unfold hits. destruct (o_preview O); auto.
    destruct w as [i|i k]; rewrite H1; auto.
    destruct (_ && _); auto. revert k. induction H5 as [|x y l l' [Hd _] _ IH]; intros [|k]; cbn; auto.
    rewrite Hd. reflexivity.
  Qed.

  Lemma same_phits O p q w g : same_odet (fst p) (fst q) -> same_odet (snd p) (snd q) ->
    phits O q w g = phits O p w g.
  Proof.
    intros Ha Hb. apply same_live in Ha, Hb. unfold phits.
    destruct (live (fst p)), (live (fst q)); try contradiction;
      destruct (live (snd p)), (live (snd q)); try contradiction; auto.
    - rewrite (same_hits O _ _ w g Ha), (same_hits O _ _ w g Hb). reflexivity.
    - rewrite (same_hits O _ _ w g Ha). reflexivity.
    - rewrite (same_hits O _ _ w g Hb). reflexivity.
  Qed.
  Lemma same_bhits O p q i : same_odet (fst p) (fst q) -> same_odet (snd p) (snd q) ->
    bhits O q i = bhits O p i.
  Proof.
    intros Ha Hb. apply same_live in Ha, Hb. unfold bhits.
    destruct (live (fst p)), (live (fst q)); try contradiction;
      destruct (live (snd p)), (live (snd q)); try contradiction;
      repeat match goal with H : same_det _ _ |- _ => destruct H as (H & _); rewrite H end; auto.
  Qed.
  Lemma same_untouched p q i : same_odet (fst p) (fst q) -> same_odet (snd p) (snd q) ->
    untouched p i -> untouched q i.
  Proof.
    intros Ha Hb [Ua Ub]. apply same_live in Ha, Hb. split; intros d Hd.
    - rewrite Hd in Ha. destruct (live (fst p)) as [a|]; [|contradiction].
      destruct Ha as (E1 & _). rewrite E1. apply Ua. reflexivity.
    - rewrite Hd in Hb. destruct (live (snd p)) as [a|]; [|contradiction].
      destruct Hb as (E1 & _). rewrite E1. apply Ub. reflexivity.
  Qed.

  Lemma untouched_hits O p w g i : untouched p i ->
    (w = Main i \/ exists k, w = Ghost i k) -> phits O p w g = 0%nat.
  Proof.
    intros [Ua Ub] Hw.
    assert (X : forall d, d_id d <> i -> hits O d w g = 0%nat).
    { intros d Hd. unfold hits. destruct (o_preview O); auto.
      destruct Hw as [->|[k ->]]; destruct (Z.eqb_spec i (d_id d)); cbn; auto; congruence. }
    unfold phits. destruct (live (fst p)) as [a|], (live (snd p)) as [b|]; rewrite ?X; auto.
  Qed.
  Lemma untouched_bhits O p i : untouched p i -> bhits O p i = 0%nat.
  Proof.
    intros [Ua Ub]. unfold bhits. destruct (o_binning O); auto.
    destruct (live (fst p)) as [a|] eqn:Ea, (live (snd p)) as [b|] eqn:Eb; auto;
      try (rewrite (proj2 (Z.eqb_neq _ _) (Ua a eq_refl)));
      try (rewrite (proj2 (Z.eqb_neq _ _) (Ub b eq_refl))); auto.
  Qed.

  (** ** The whole scan *)
  Section Whole.
    Variables (E : env B) (O : opts) (beams : list (bpair B)) (cs : list chunk) (n : Z).
    Variables (ws : list (option nat)) (evss : list (list event)).
    Hypothesis T : tiles 0 n (map span cs).
    Hypothesis ND : NoDup (map d_id (dets beams)).
    Hypothesis NW : NoDup (somes ws).

    Definition at_ (w : option nat) : bpair B :=
      match w with
      | Some i => match nth_error beams i with Some p => p | None => (None, None) end
      | None => (None, None)
      end.
    Hypothesis F : Forall2 (fun w => pair_run E O (at_ w) cs) ws evss.

    Variables (i : nat) (p : bpair B) (d : det B).
    Hypothesis Hp : nth_error beams i = Some p.
    Hypothesis Hd : In d (pair_dets p).

    Lemma live_in (q : bpair B) x : live (fst q) = Some x \/ live (snd q) = Some x -> In x (pair_dets q).
    Proof.
      destruct q as [[a|] [b|]]; cbn; unfold live; intros [H|H];
        repeat match type of H with (if ?x then _ else _) = _ => destruct x end;
        try discriminate; injection H as <-; auto.
    Qed.

    Lemma dets_split : forall (l : list (bpair B)) j q, nth_error l j = Some q ->
      exists a b, dets l = a ++ pair_dets q ++ b.
    Proof.
      induction l as [|x l IH]; intros [|j] q H; cbn in H; try discriminate.
      - injection H as <-. exists [], (dets l). reflexivity.
      - destruct (IH _ _ H) as (a & b & Eab). exists (pair_dets x ++ a), b.
        unfold dets in *. cbn. rewrite Eab, <- app_assoc. reflexivity.
    Qed.

    Lemma dets_apart : forall (l : list (bpair B)) j k q r x y, NoDup (map d_id (dets l)) ->
      nth_error l j = Some q -> nth_error l k = Some r -> j <> k ->
      In x (pair_dets q) -> In y (pair_dets r) -> d_id x <> d_id y.
    Proof.
      assert (ND2 : forall (u v : list Z) z, NoDup (u ++ v) -> In z u -> In z v -> False).
      { induction u as [|h u IH]; intros v z H Hu Hv; [destruct Hu|]. cbn in H. inversion H; subst.
        destruct Hu as [->|Hu]; [|eapply IH; eauto]. apply H2. apply in_or_app. auto. }
      induction l as [|z l IH]; intros [|j] [|k] q r x y H Hj Hk Hne Hx Hy; cbn in Hj, Hk;
        try discriminate; try congruence.
      - injection Hj as <-. intros Exy. unfold dets in H. cbn in H. rewrite map_app in H.
        apply (ND2 _ _ (d_id x) H); [apply in_map; auto|]. rewrite Exy.
        destruct (dets_split l k r Hk) as (a & b & Eab). fold (dets l).
        rewrite Eab, !map_app. apply in_or_app. right. apply in_or_app. left. apply in_map. auto.
      - injection Hk as <-. intros Exy. unfold dets in H. cbn in H. rewrite map_app in H.
        apply (ND2 _ _ (d_id y) H); [apply in_map; auto|]. rewrite <- Exy.
        destruct (dets_split l j q Hj) as (a & b & Eab). fold (dets l).
        rewrite Eab, !map_app. apply in_or_app. right. apply in_or_app. left. apply in_map. auto.
      - unfold dets in H. cbn in H. rewrite map_app in H. apply nodup_r in H.
        apply (IH j k q r x y); auto.
    Qed.

    Lemma others_untouched w : w <> Some i -> untouched (at_ w) (d_id d).
    Proof.
      intros Hw. destruct w as [j|]; cbn.
      - destruct (nth_error beams j) as [q|] eqn:Ej; [|split; intros x H; discriminate].
        assert (j <> i) by congruence.
        split; intros x Hx; apply (dets_apart beams j i q p x d); auto; apply live_in; auto.
      - split; intros x H; discriminate.
    Qed.

    Lemma run_untouched q evs e : untouched q (d_id d) -> pair_run E O q cs evs -> In e evs ->
      ~ about (d_id d) e.
    Proof.
      intros U (q' & maps & L & Sa & Sb & _) He.
      eapply pair_untouched; [|exact L|exact He]. eapply same_untouched; eauto.
    Qed.

    (** Pairs this process does not get. *)
    Lemma not_mine e : ~ In (Some i) ws -> In e (concat evss) -> ~ about (d_id d) e.
    Proof.
      intros Hn He. apply in_concat in He. destruct He as (l & Hl & He).
      assert (X : exists w, w <> Some i /\ pair_run E O (at_ w) cs l).
      { clear -F Hn Hl. induction F; [destruct Hl|].
        destruct Hl as [<-|Hl].
        - exists x. split; auto. intros ->. apply Hn. now left.
        - apply IHf; auto. intros Hi. apply Hn. now right. }
      destruct X as (w & Hw & R). eapply run_untouched; eauto. apply others_untouched. auto.
    Qed.

    (** Dead detectors. *)
    Lemma dead_untouched e : d_dead d = true -> In e (concat evss) -> ~ about (d_id d) e.
    Proof.
      intros Hdead He. apply in_concat in He. destruct He as (l & Hl & He).
      assert (X : exists w, pair_run E O (at_ w) cs l).
      { clear -F Hl. induction F; [destruct Hl|]. destruct Hl as [<-|Hl]; eauto. }
      destruct X as (w & R). eapply run_untouched; eauto.
      destruct w as [j|]; [|apply others_untouched; discriminate].
      destruct (Nat.eq_dec j i) as [->|Hj]; [|apply others_untouched; congruence].
      cbn. rewrite Hp.
      assert (NDp : NoDup (map d_id (pair_dets p))).
      { destruct (dets_split beams i p Hp) as (a & b & Eab).
        assert (ND' := ND). rewrite Eab, !map_app in ND'. apply nodup_middle in ND'. exact ND'. }
      destruct p as [[a|] [b|]]; cbn in Hd, NDp; unfold untouched, live; cbn.
      - assert (d_id a <> d_id b).
        { intros Eq. inversion NDp; subst. apply H1. rewrite Eq. now left. }
        destruct Hd as [<-|[<-|[]]]; rewrite Hdead; split; intros x Hx; try discriminate;
          match type of Hx with (if ?y then _ else _) = _ => destruct y end; try discriminate;
          injection Hx as <-; auto.
      - destruct Hd as [<-|[]]. rewrite Hdead. split; intros; discriminate.
      - destruct Hd as [<-|[]]. rewrite Hdead. split; intros; discriminate.
      - destruct Hd.
    Qed.

    (** A reading that counts [m] for the pair and nothing for others. *)
    Lemma read_whole f m : reading f ->
      (forall q, same_odet (fst p) (fst q) -> same_odet (snd p) (snd q) -> counts f E O q m) ->
      (forall q, untouched q (d_id d) -> counts f E O q 0) ->
      In (Some i) ws ->
      (m = 1%nat -> tiles 0 n (f (concat evss))) /\ (m = 0%nat -> f (concat evss) = []).
    Proof.
      intros Hf Hm H0 Hin. rewrite f_concat by auto.
      assert (None_ : forall ws evss, Forall2 (fun w => pair_run E O (at_ w) cs) ws evss ->
                ~ In (Some i) ws -> concat (map f evss) = []).
      { clear -Hf H0 Hp Hd ND. intros ws0 evss0 H. induction H as [|w e ws0 evss0 R _ IH]; intros Hn; cbn; auto.
        rewrite IH by (intros Hi; apply Hn; now right). rewrite app_nil_r.
        destruct R as (q & maps & L & Sa & Sb & _). eapply pair_none; eauto. apply H0.
        eapply same_untouched; eauto. apply others_untouched. intros ->. apply Hn. now left. }
      revert Hin NW. clear -F Hf Hm None_ Hp T H0 ND Hd. induction F as [|w e ws evss R F' IH]; intros Hin NW; [destruct Hin|].
      cbn. destruct (Nat.eq_dec 0 0) as [_|]; [|congruence].
      assert (Dec : w = Some i \/ w <> Some i).
      { destruct w as [j|]; [|right; discriminate]. destruct (Nat.eq_dec j i); [left|right]; congruence. }
      destruct Dec as [->|Hw].
      - cbn in NW. inversion NW; subst. rewrite (None_ ws evss F') by (rewrite <- somes_in; auto).
        rewrite app_nil_r. destruct R as (q & maps & L & Sa & Sb & _). cbn in Sa, Sb. rewrite Hp in Sa, Sb.
        split; intros ->.
        + eapply pair_once; eauto.
        + eapply pair_none; eauto.
      - destruct Hin as [Hin|Hin]; [congruence|].
        assert (Z : f e = []).
        { destruct R as (q & maps & L & Sa & Sb & _). eapply pair_none; eauto. apply H0.
          eapply same_untouched; eauto. apply others_untouched. auto. }
        rewrite Z. cbn [app]. apply IH; auto.
        destruct w; cbn in NW; auto. inversion NW; auto.
    Qed.

    Lemma live_pair : d_dead d = false -> forall w g,
      (w = Main (d_id d) \/ exists k, w = Ghost (d_id d) k) ->
      phits O p w g = hits O d w g
      /\ bhits O p (d_id d) = if o_binning O then 1%nat else 0%nat.
    Proof.
      intros Hl w g Hw.
      assert (NDp : NoDup (map d_id (pair_dets p))).
      { destruct (dets_split beams i p Hp) as (a & b & Eab).
        assert (ND' := ND). rewrite Eab, !map_app in ND'. apply nodup_middle in ND'. exact ND'. }
      assert (X : forall x, d_id x <> d_id d -> hits O x w g = 0%nat).
      { intros x Hx. unfold hits. destruct (o_preview O); auto.
        destruct Hw as [->|[k ->]]; destruct (Z.eqb_spec (d_id d) (d_id x)); cbn; auto; congruence. }
      unfold phits, bhits.
      destruct p as [[a|] [b|]]; cbn in Hd, NDp; cbn [fst snd live]; unfold live.
      - assert (Hab : d_id a <> d_id b).
        { intros Eq. inversion NDp; subst. apply H1. rewrite Eq. now left. }
        destruct Hd as [<-|[<-|[]]]; rewrite Hl, Z.eqb_refl.
        + destruct (d_dead b); [rewrite Nat.add_0_r; auto|]. rewrite (X b) by congruence.
          rewrite (proj2 (Z.eqb_neq (d_id b) (d_id a))) by congruence. rewrite Nat.add_0_r. auto.
        + destruct (d_dead a); [auto|]. rewrite (X a) by congruence.
          rewrite (proj2 (Z.eqb_neq (d_id a) (d_id b))) by congruence. auto.
      - destruct Hd as [<-|[]]. rewrite Hl, Z.eqb_refl, Nat.add_0_r. auto.
      - destruct Hd as [<-|[]]. rewrite Hl, Z.eqb_refl. auto.
      - destruct Hd.
    Qed.

    Lemma read_scanned w g : In (Some i) ws -> d_dead d = false ->
      (w = Main (d_id d) \/ exists k, w = Ghost (d_id d) k) ->
      (hits O d w g = 1%nat -> tiles 0 n (scanned w g (concat evss)))
      /\ (hits O d w g = 0%nat -> scanned w g (concat evss) = []).
    Proof.
      intros Hin Hl Hw. destruct (live_pair Hl w g Hw) as [<- _].
      apply (read_whole (scanned w g) (phits O p w g)); auto.
      - apply scanned_reading.
      - intros q Sa Sb. rewrite <- (same_phits O p q w g Sa Sb). apply scanned_counts.
      - intros q U. rewrite <- (untouched_hits O q w g (d_id d) U Hw). apply scanned_counts.
    Qed.

    Lemma read_binned : same_length O -> In (Some i) ws -> d_dead d = false ->
      (o_binning O = true -> tiles 0 n (binned (d_id d) (concat evss)))
      /\ (o_binning O = false -> binned (d_id d) (concat evss) = []).
    Proof.
      intros Hs Hin Hl. destruct (live_pair Hl (Main (d_id d)) false (or_introl eq_refl)) as [_ Hb].
      destruct (read_whole (binned (d_id d)) (bhits O p (d_id d))) as [H1 H0]; auto.
      - apply binned_reading.
      - intros q Sa Sb. rewrite <- (same_bhits O p q (d_id d) Sa Sb). apply binned_counts; auto.
      - intros q U. rewrite <- (untouched_bhits O q (d_id d) U). apply binned_counts; auto.
      - rewrite Hb in H1, H0. destruct (o_binning O); split; intros; try discriminate; auto.
    Qed.
  End Whole.
End L.
