(** * Reused spin maps *)
From Coq Require Import Reals Lra.
From Verif Require Import Common LibList M_Chunks M_Steps M_Hwp M_Mpi M_Detpair M_Scan
  S_Chunks S_Detpair S_Scan S_Reuse L_Chunks L_Hwp L_Mpi L_Detpair L_Scan L_Scan2 L_Scan3 L_Scan4 L_Scan5
  L_Scan6 L_Scan7 L_Scan8 L_Scan9 L_Scan10 L_Scan12.
Open Scope R_scope.

Section L.
  Context {B : Type}.
  Implicit Types (s : state B) (E : env B) (d : det B) (p q : bpair B).

  (** ** The maps depend on the beam only *)
  Definition alike (g h : gh B) : Prop :=
    gh_idx g = gh_idx h /\ get_blm (gh_blm g) (gh_gen g) = get_blm (gh_blm h) (gh_gen h).

  Lemma prepare_alike gs : (forall g, In g gs -> gh_blm g = None /\ gh_gen g <> Err AttributeError) ->
    forall f gs', prepare (B := B) f gs = Ok gs' -> Forall2 alike gs gs'.
  Proof.
    induction gs as [|g gs IH]; intros Hs f gs' H; cbn [prepare] in H; [injection H as <-; constructor|].
    destruct (Hs g (or_introl eq_refl)) as [Hb Hg].
    unfold hasattr_blm in H. rewrite Hb in H. cbn [get_blm] in H.
    destruct (gh_gen g) as [b|e] eqn:Eg.
    - cbn [bind] in H. inv_bind H r Hr. injection H as <-. constructor.
      + split; [reflexivity|]. rewrite Hb, Eg. reflexivity.
      + eapply IH; eauto. intros; apply Hs; now right.
    - destruct e; try discriminate. congruence.
  Qed.

  Lemma settings_alike (gs hs : list (gh B)) :
    (forall g, In g gs -> gh_blm g = None /\ gh_gen g <> Err AttributeError) ->
    (forall g, In g hs -> gh_blm g = None /\ gh_gen g <> Err AttributeError) ->
    map (fun g => (gh_idx g, gh_gen g)) gs = map (fun g => (gh_idx g, gh_gen g)) hs ->
    Forall2 alike gs hs.
  Proof.
    revert hs. induction gs as [|g gs IH]; intros [|h hs] Hg Hh E; try discriminate; constructor.
    - cbn in E. injection E as E1 E2 _. split; auto.
      destruct (Hg g (or_introl eq_refl)) as [-> _]. destruct (Hh h (or_introl eq_refl)) as [-> _].
      cbn. congruence.
    - apply IH; [intros; apply Hg; now right|intros; apply Hh; now right|]. cbn in E. now injection E.
  Qed.

  Lemma alike_trans gs hs ks : Forall2 alike gs hs -> Forall2 alike hs ks -> Forall2 alike gs ks.
  Proof.
    intros F. revert ks. induction F as [|g h gs hs [A1 A2] F IH]; intros ks G; inversion G; subst; constructor; auto.
    match goal with K : alike h _ |- _ => destruct K as [A3 A4] end. split; congruence.
  Qed.
  Lemma alike_sym gs hs : Forall2 alike gs hs -> Forall2 alike hs gs.
  Proof. induction 1 as [|g h gs hs [A1 A2] F IH]; constructor; auto. split; auto. Qed.

  Lemma alike_first u gs hs : Forall2 alike gs hs ->
    match first_with u gs, first_with u hs with
    | Some g, Some h => get_blm (gh_blm g) (gh_gen g) = get_blm (gh_blm h) (gh_gen h)
    | None, None => True
    | _, _ => False
    end.
  Proof.
    unfold first_with. induction 1 as [|g h gs hs [A1 A2] F IH]; cbn; auto.
    rewrite A1. destruct (gh_idx h =? u)%nat; auto.
  Qed.

  Lemma alike_maps gs hs : Forall2 alike gs hs -> forall us acc last,
    ghost_maps us gs acc last = ghost_maps us hs acc last.
  Proof.
    intros F. induction us as [|u us IH]; intros acc last; cbn [ghost_maps]; auto.
    pose proof (alike_first u gs hs F) as A.
    destruct (_ <? _)%nat; auto. destruct (first_with u gs) as [g|], (first_with u hs) as [h|]; try contradiction; auto.
    rewrite A. destruct (get_blm (gh_blm h) (gh_gen h)); cbn; auto.
  Qed.
  Lemma alike_idx gs hs : Forall2 alike gs hs -> map (@gh_idx B) gs = map (@gh_idx B) hs.
  Proof. induction 1 as [|g h gs hs [A1 A2] F IH]; cbn; congruence. Qed.

  Lemma same_maps p q g m m' p' q' : from_settings p -> from_settings q -> same_beam p q ->
    init_detpair (fst p) (snd p) g = Ok (m, p') -> init_detpair (fst q) (snd q) g = Ok (m', q') -> m = m'.
  Proof.
    destruct p as [[a|] oa], q as [[b|] ob]; unfold same_beam; cbn [fst snd]; try tauto.
    intros Fp Fq [Eg Em] Hp Hq.
    destruct (Fp a) as [Da Ga]; [destruct oa; now left|]. destruct (Fq b) as [Db Gb]; [destruct ob; now left|].
    unfold init_detpair in Hp, Hq.
    inv_bind Hp ga Hga. inv_bind Hp xa Hxa. inv_bind Hp ma Hma. injection Hp as <- _.
    inv_bind Hq gb Hgb. inv_bind Hq xb Hxb. inv_bind Hq mb Hmb. injection Hq as <- _.
    assert (A : Forall2 alike ga gb).
    { eapply alike_trans; [apply alike_sym; exact (prepare_alike _ Ga _ _ Hga)|].
      eapply alike_trans; [exact (settings_alike _ _ Ga Gb Em)|exact (prepare_alike _ Gb _ _ Hgb)]. }
    clear - A Da Db Eg Hma Hmb. unfold init_spinmaps in Hma, Hmb. cbn [d_blm d_gen d_ghosts with_gs] in Hma, Hmb.
    rewrite Da in Hma. rewrite Db in Hmb. cbn [get_blm] in Hma, Hmb. rewrite Eg in Hma.
    destruct (d_gen b) as [x|]; [|discriminate]. cbn [bind] in Hma, Hmb.
    destruct A as [|x0 y0 ga gb A0 A]; [congruence|].
    assert (A' : Forall2 alike (x0 :: ga) (y0 :: gb)) by (constructor; auto).
    rewrite (alike_idx _ _ A'), (alike_maps _ _ A') in Hma. rewrite Hma in Hmb. congruence.
  Qed.

  (** ** The option is read in one place *)
  Lemma subs_reusing E O p : forall l s, scan_subs E (reusing O) p l s = scan_subs E O p l s.
  Proof.
    induction l as [|[c g] l IH]; intros s; cbn [scan_subs]; auto.
    change (scan_sub E (reusing O) p g c s) with (scan_sub E O p g c s).
    destruct (scan_sub E O p g c s); cbn; auto.
  Qed.
  Lemma chunk_reusing E O bidx p k s : scan_chunk E (reusing O) bidx p k s = scan_chunk E O bidx p k s.
  Proof.
    unfold scan_chunk.
    destruct (nth_error _ k) as [[c g]|]; auto.
    change (o_ground (reusing O)) with (o_ground O).
    change (fun d => allocate (reusing O) d c) with (fun d : det B => allocate O d c).
    change (allocate_hwp (B := B) (reusing O) c) with (allocate_hwp (B := B) O c).
    destruct (implement_scan _ _ _ _ _) as [s1|]; cbn [bind]; auto.
    destruct (if (bidx =? 0)%nat then _ else _) as [s2|]; cbn [bind]; auto.
    destruct (on_live (fst p) _ _) as [s3|]; cbn [bind]; auto.
    destruct (on_live (snd p) _ _) as [s4|]; cbn [bind]; auto.
    cbv zeta. destruct (lift_op _ _) as [[x s5]|]; cbn [bind]; auto.
    destruct (rot_period _); apply subs_reusing.
  Qed.
  Lemma chunks_reusing E O bidx p : forall ks s,
    scan_chunks E (reusing O) bidx p ks s = scan_chunks E O bidx p ks s.
  Proof.
    induction ks as [|k ks IH]; intros s; cbn [scan_chunks]; auto.
    rewrite chunk_reusing. destruct (scan_chunk E O bidx p k s); cbn; auto.
  Qed.

  (** ** Pairs *)
  Lemma is_none_pair (p : bpair B) : p = (None, None) \/ p <> (None, None).
  Proof. destruct p as [[a|] [b|]]; [right; discriminate..|now left]. Qed.

  Lemma pair_at_some s w p : pair_at s w = p -> p <> (None, None) ->
    exists i, w = Some i /\ nth_error (s_beams s) i = Some p.
  Proof.
    intros E N. destruct w as [i|]; cbn in E; [|congruence]. exists i. split; auto.
    destruct (nth_error (s_beams s) i); congruence.
  Qed.

  (** The maps made for one of the pairs in [ws]. *)
  Definition made (g : bool) (ws : list (option nat)) s (mm : option (spinmaps B)) : Prop :=
    mm = None \/ exists w m q, In w ws /\ pair_at s w <> (None, None)
      /\ init_detpair (fst (pair_at s w)) (snd (pair_at s w)) g = Ok (m, q) /\ mm = Some m.

  Lemma pair_reusing E O all bidx w s s' cs :
    o_preview O = false -> In w all ->
    (forall w, In w all -> from_settings (pair_at s w)) ->
    (forall w v, In w all -> In v all -> pair_at s w <> (None, None) -> pair_at s v <> (None, None) ->
       same_beam (pair_at s w) (pair_at s v)) ->
    made (o_ground O) all s (s_maps s) ->
    no_stale O (chunks_of s) -> used_chunks E s = Ok cs -> pos_chunks cs ->
    rot_fine (ir_rot (sg_rot (s_strat s))) ->
    scan_pair E O bidx w s = Ok s' ->
    (o_reuse O = false -> scan_pair E (reusing O) bidx w s = Ok s')
    /\ s_beams s' = s_beams s /\ made (o_ground O) all s (s_maps s').
  Proof.
    intros Hp Hw Fs Sb Hm Hst Hcs Hpos Hrot H.
    unfold scan_pair in H |- *. change (o_preview (reusing O)) with (o_preview O).
    change (o_ground (reusing O)) with (o_ground O). change (o_reuse (reusing O)) with true. rewrite Hp in H |- *.
    set (s0 := if (bidx =? 0)%nat then s else set_strat s (reset (s_strat s))) in H |- *.
    assert (X0 : s_beams s0 = s_beams s /\ s_chunks s0 = s_chunks s
                 /\ s_maps s0 = s_maps s /\ rot_fine (ir_rot (sg_rot (s_strat s0)))).
    { unfold s0. destruct (bidx =? 0)%nat; do 3 (split; [reflexivity|]); auto. apply reset_fine; auto. }
    destruct X0 as (B0 & C0 & M0 & R0). clearbody s0.
    fold (pair_at s0 w) in H |- *.
    assert (P0 : pair_at s0 w = pair_at s w) by (unfold pair_at; rewrite B0; reflexivity).
    rewrite P0 in H |- *. set (p := pair_at s w) in *.
    match type of H with bind ?e ?k = _ => set (e1 := e) in H; set (k1 := k) in H end.
    match goal with |- (_ -> bind ?e ?k = _) /\ _ => set (e2 := e); set (k2 := k) end.
    assert (K : forall x, k2 x = k1 x).
    { intros [q t]. unfold k1, k2. destruct (match s_chunks t with Some _ => Ok t | None => _ end); cbn [bind]; auto.
      destruct (if forallb _ _ then _ else _); cbn [bind]; auto. apply chunks_reusing. }
    inv_bind H x Hx. destruct x as [q s1].
    assert (X : (o_reuse O = false -> e2 = Ok (q, s1)) /\ s_beams s1 = s_beams s /\ s_chunks s1 = s_chunks s0
      /\ s_strat s1 = s_strat s0 /\ made (o_ground O) all s (s_maps s1)).
    { assert (G : forall a b, p = (a, b) -> p <> (None, None) ->
        (if match s_maps s0 with Some _ => true | None => false end && o_reuse O then Ok (p, s0)
         else do (m, p') <- init_detpair a b (o_ground O);
              let s := set_maps s0 (Some m) in
              Ok (p', match w with Some i => set_beams s (put_pair (s_beams s) i p') | None => s end)) = Ok (q, s1) ->
        (o_reuse O = false ->
         (if match s_maps s0 with Some _ => true | None => false end && true then Ok (p, s0)
          else do (m, p') <- init_detpair a b (o_ground O);
              let s := set_maps s0 (Some m) in
              Ok (p', match w with Some i => set_beams s (put_pair (s_beams s) i p') | None => s end)) = Ok (q, s1))
        /\ s_beams s1 = s_beams s /\ s_chunks s1 = s_chunks s0
        /\ s_strat s1 = s_strat s0 /\ made (o_ground O) all s (s_maps s1)).
      { intros a b Ep Np Hi.
        destruct (match s_maps s0 with Some _ => true | None => false end && o_reuse O) eqn:Er.
        { injection Hi as <- <-. split; [intros R; rewrite R, andb_false_r in Er; discriminate|].
          split; [exact B0|]. split; [reflexivity|]. split; [reflexivity|]. rewrite M0. exact Hm. }
        rewrite andb_true_r.
        inv_bind Hi y Hy. destruct y as [m q'].
        destruct (pair_at_some s w p eq_refl Np) as (i & -> & Ei).
        assert (Eq : q' = p).
        { rewrite Ep. eapply init_settings; [|exact Hy]. rewrite <- Ep. apply Fs. exact Hw. }
        subst q'. injection Hi as <- <-.
        assert (Es : put_pair (s_beams s0) i p = s_beams s0) by (apply put_pair_same; rewrite B0; exact Ei).
        cbn [s_beams set_maps]. rewrite Es.
        split; [|split; [exact B0|split; [reflexivity|split; [reflexivity|]]]].
        - intros _. destruct (s_maps s0) as [m0|] eqn:Em0.
          + assert (m0 = m).
            { destruct Hm as [Hm|(v & m1 & q1 & Hv & Nv & Iv & Ev)]; [congruence|].
              assert (m1 = m0) by congruence. subst m1. symmetry. eapply (same_maps p (pair_at s v)); eauto.
              rewrite Ep. exact Hy. }
            subst m0. do 2 f_equal. clear - Em0. destruct s0; cbn in Em0. rewrite Em0. reflexivity.
          + rewrite Hy. cbn [bind]. cbn [s_beams set_maps]. rewrite Es. reflexivity.
        - right. exists (Some i), m, p. split; auto. split; [exact Np|]. split; [|reflexivity].
          fold p. rewrite Ep at 1 2. cbn [fst snd]. exact Hy. }
      clear K. unfold e1, e2 in *. clear e1 e2 k1 k2 H.
      destruct p as [[a|] [b|]] eqn:Ep; try (apply (G _ _ eq_refl); [discriminate|exact Hx]).
      injection Hx as <- <-. split; [reflexivity|]. split; [exact B0|]. split; [reflexivity|]. split; [reflexivity|].
      rewrite M0. exact Hm. }
    destruct X as (X1 & B1 & C1 & S1 & M1).
    split.
    { intros R. rewrite (X1 R). cbn [bind]. rewrite K. exact H. }
    clear K X1 k2 e2. unfold k1 in H. clear k1 e1 Hx.
    inv_bind H s2 Hs2.
    assert (X2 : s_maps s2 = s_maps s1 /\ s_beams s2 = s_beams s1 /\ s_strat s2 = s_strat s1
               /\ map fst (chunks_of s2) = cs /\ no_stale O (chunks_of s2)).
    { rewrite C1, C0 in Hs2. unfold used_chunks in Hcs. unfold chunks_of in Hst.
      destruct (s_chunks s) as [l|] eqn:El.
      - injection Hs2 as <-. unfold chunks_of. rewrite C1, C0. injection Hcs as <-. repeat split; auto.
      - rewrite Hcs in Hs2. cbn in Hs2. injection Hs2 as <-. cbn. repeat split; auto.
        + unfold chunks_of. cbn. rewrite map_map. cbn. apply map_id.
        + apply no_stale_fresh. }
    destruct X2 as (M2 & B2 & S2 & F2 & St2).
    inv_bind H u Hu.
    apply scan_chunks_like in H; auto; [|rewrite F2; auto|rewrite S2, S1; auto].
    destruct H as (evss & _ & _ & K3 & _).
    rewrite (k2_beams _ _ K3), (k2_maps _ _ K3), B2, M2, B1. auto.
  Qed.

  Lemma made_eq g ws s t mm : s_beams t = s_beams s -> made g ws s mm -> made g ws t mm.
  Proof.
    intros E [H|(w & m & q & H1 & H2 & H3 & H4)]; [now left|]. right. exists w, m, q.
    assert (P : pair_at t w = pair_at s w) by (unfold pair_at; rewrite E; reflexivity). rewrite P. auto.
  Qed.

  Lemma pairs_reusing E O all cs : o_preview O = false -> pos_chunks cs -> forall ws bidx s s',
    incl ws all ->
    (forall w, In w all -> from_settings (pair_at s w)) ->
    (forall w v, In w all -> In v all -> pair_at s w <> (None, None) -> pair_at s v <> (None, None) ->
       same_beam (pair_at s w) (pair_at s v)) ->
    made (o_ground O) all s (s_maps s) ->
    no_stale O (chunks_of s) -> used_chunks E s = Ok cs ->
    rot_fine (ir_rot (sg_rot (s_strat s))) ->
    scan_pairs E O bidx ws s = Ok s' ->
    (o_reuse O = false -> scan_pairs E (reusing O) bidx ws s = Ok s')
    /\ s_beams s' = s_beams s /\ made (o_ground O) all s (s_maps s').
  Proof.
    intros Hp Hpos. induction ws as [|w ws IH]; intros bidx s s' Hin Fs Sb Hm Hst Hcs Hrot H; cbn [scan_pairs] in H |- *.
    { injection H as <-. auto. }
    inv_bind H s1 H1.
    destruct (pair_reusing E O all bidx w s s1 cs) as (A1 & A2 & A3); auto; [apply Hin; now left|].
    apply scan_pair_like with (cs := cs) in H1; auto.
    destruct H1 as (_ & _ & _ & _ & C1 & N1 & F1).
    assert (P : forall v, pair_at s1 v = pair_at s v) by (intros; unfold pair_at; rewrite A2; reflexivity).
    apply IH in H; auto.
    - destruct H as (D1 & D2 & D3). split; [|split].
      + intros R. rewrite (A1 R). cbn [bind]. auto.
      + congruence.
      + eapply made_eq; [symmetry; exact A2|exact D3].
    - intros x Hx. apply Hin. now right.
    - intros v Hv. rewrite P. auto.
    - intros v v' Hv Hv'. rewrite !P. auto.
    - eapply made_eq; eauto.
  Qed.

  Lemma scan_reusing E O s s' : o_preview O = false -> covers_mission E s -> rotation_ok s -> chunks_unmarked O s ->
    one_beam E O s -> made (o_ground O) (my_pairs E O s) s (s_maps s) ->
    scan_instrument E O s = Ok s' ->
    (o_reuse O = false -> scan_instrument E (reusing O) s = Ok s')
    /\ s_beams s' = s_beams s /\ made (o_ground O) (my_pairs E O s) s (s_maps s').
  Proof.
    intros Hp Hmi Hr Hu [Fs Sb] Hm H.
    destruct (mission_used E s Hmi) as (cs & Hcs & T).
    assert (Hst : no_stale O (chunks_of s)).
    { unfold no_stale, chunks_of. destruct (s_chunks s) as [l|] eqn:El.
      - intros Ho. apply (Hu l El Ho).
      - intros _ cg []. }
    assert (Hpos : pos_chunks cs) by (intros x Hx; apply (tiles_pos _ _ _ _ T Hx)).
    unfold scan_instrument in H |- *.
    change (o_alm (reusing O)) with (o_alm O). change (o_preview (reusing O)) with (o_preview O).
    change (o_save_tod (reusing O)) with (o_save_tod O). change (o_save_point (reusing O)) with (o_save_point O).
    change (o_memmap (reusing O)) with (o_memmap O). change (o_scatter (reusing O)) with (o_scatter O).
    destruct (negb (o_alm O) && negb (o_preview O)); [discriminate|].
    destruct (o_preview O && (o_save_tod O || o_save_point O)); [discriminate|].
    set (s0 := if o_memmap O && negb (e_ext E) then _ else s) in H |- *.
    assert (X : s_maps s0 = s_maps s /\ s_beams s0 = s_beams s /\ s_chunks s0 = s_chunks s
                /\ s_strat s0 = s_strat s).
    { unfold s0. destruct (o_memmap O && negb (e_ext E)); auto. }
    destruct X as (M0 & B0 & C0 & S0). clearbody s0.
    assert (P : forall v, pair_at s0 v = pair_at s v) by (intros; unfold pair_at; rewrite B0; reflexivity).
    cbv zeta in H |- *.
    apply (pairs_reusing E O (my_pairs E O s) cs) in H; auto.
    - rewrite B0 in H. destruct H as (D1 & D2 & D3). rewrite B0. split; [exact D1|]. split; [exact D2|].
      eapply made_eq; [symmetry; exact B0|exact D3].
    - unfold my_pairs. rewrite B0. apply incl_refl.
    - intros w _. rewrite P. destruct w as [i|]; cbn; [|intros d []].
      destruct (nth_error (s_beams s) i) as [p|] eqn:Ei; [|intros d []]. apply Fs. eapply nth_error_In; eauto.
    - intros w v Hw Hv. rewrite !P. intros Nw Nv.
      destruct (pair_at_some s w _ eq_refl Nw) as (i & -> & Ei). destruct (pair_at_some s v _ eq_refl Nv) as (j & -> & Ej).
      exact (Sb i j _ _ Hw Hv Ei Ej Nw Nv).
    - rewrite M0. eapply made_eq; eauto.
    - unfold chunks_of in *. rewrite C0. auto.
    - unfold used_chunks in *. rewrite C0. auto.
    - rewrite S0. auto.
  Qed.

  Lemma reuse_first E O s s' : o_preview O = false -> o_reuse O = false ->
    covers_mission E s -> rotation_ok s -> chunks_unmarked O s -> one_beam E O s -> s_maps s = None ->
    scan_instrument E O s = Ok s' -> scan_instrument E (reusing O) s = Ok s'.
  Proof.
    intros Hp Hre Hm Hr Hu Ho Hn H. apply (scan_reusing E O s s'); auto. now left.
  Qed.

  Lemma reuse_again E O O2 s s1 t t' : o_preview O = false -> o_preview O2 = false -> o_reuse O2 = false ->
    o_ground O2 = o_ground O -> o_scatter O2 = o_scatter O ->
    covers_mission E s -> rotation_ok s -> chunks_unmarked O s -> one_beam E O s -> s_maps s = None ->
    scan_instrument E O s = Ok s1 ->
    s_beams t = s_beams s1 -> s_maps t = s_maps s1 ->
    covers_mission E t -> rotation_ok t -> chunks_unmarked O2 t ->
    scan_instrument E O2 t = Ok t' -> scan_instrument E (reusing O2) t = Ok t'.
  Proof.
    intros Hp Hp2 Hre Hg Hsc Hm Hr Hu Ho Hn H Bt Mt Hm2 Hr2 Hu2 H2.
    destruct (scan_reusing E O s s1) as (_ & B1 & M1); auto; [now left|].
    assert (Bs : s_beams t = s_beams s) by congruence.
    assert (Em : my_pairs E O2 t = my_pairs E O s) by (unfold my_pairs; rewrite Hsc, Bs; reflexivity).
    apply (scan_reusing E O2 t t'); auto.
    - destruct Ho as [Fs Sb]. split.
      + intros p. rewrite Bs. apply Fs.
      + intros i j p q. rewrite Em, Bs. apply Sb.
    - rewrite Em, Mt, Hg. eapply made_eq; eauto.
  Qed.
End L.
