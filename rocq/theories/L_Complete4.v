(** * Scanning the focal plane succeeds *)
From Coq Require Import Reals Lra.
From Verif Require Import Common LibList M_Chunks M_Steps M_Hwp M_Mpi M_Detpair M_Scan S_Chunks S_Detpair S_Scan S_Complete
  L_Chunks L_Mpi L_Detpair L_Scan L_Scan2 L_Scan4 L_Scan5 L_Scan7 L_Scan8 L_Scan9 L_Scan10 L_Complete L_Complete2 L_Complete3.
Open Scope R_scope.

Section L.
  Context {B : Type}.
  Implicit Types (s : state B) (E : env B) (d : det B) (p : bpair B).

  Definition pair_sound p : Prop :=
    (forall d, In d (pair_dets p) -> d_ghost d = false)
    /\ (p = (None, None) \/ exists a ob, p = (Some a, ob) /\ pair_ready a ob).

  Lemma live_is (x : option (det B)) d : live x = Some d -> x = Some d.
  Proof. destruct x as [e|]; cbn; [|discriminate]. destruct (d_dead e); [discriminate|auto]. Qed.

  Lemma pair_init (O : opts) a ob : pair_sound (Some a, ob) -> pair_ready a ob ->
    exists m q, init_detpair (Some a) ob (o_ground O) = Ok (m, q) /\ pair_fine O (Some m) (o_ground O) q.
  Proof.
    intros [Dg _] Rdy. assert (Rdy' := Rdy). destruct Rdy' as (Hav & Hn & Hc & _).
    destruct (consistent_found a ob (o_ground O) Hav Hn Hc) as (m & q & Ei & _).
    exists m, q. split; auto.
    destruct (ready_beams a ob _ m q Rdy Ei) as (x & ba & bb & (_ & Hx) & (_ & Fa) & Fb).
    destruct (init_shape a ob _ m q Hav Ei) as (a' & Ea' & Sa & Sb).
    assert (Gm : o_ground O = true -> exists b, sm_ground m = Some b).
    { intros G. rewrite G in Ei. unfold init_detpair in Ei. inv_bind Ei gs H1. inv_bind Ei ob' H2. inv_bind Ei mm H3.
      injection Ei as <- _. unfold init_spinmaps in H3. inv_bind H3 mn H4. inv_bind H3 gl H5. destruct gl as [gm l].
      injection H3 as <-. cbn. eauto. }
    assert (One : forall d d' bs, same_shape d d' ->
      Forall2 (fun g y => find_maps (Some m) (Some (gh_idx g)) false = Ok y) (d_ghosts d) bs -> served (Some m) (o_ground O) d').
    { intros d d' bs (_ & _ & F) Fs. split; [|split].
      - intros g' Ig _. destruct (o_ground O) eqn:G.
        + destruct (Gm eq_refl) as (b & Eb). exists b. unfold find_maps. rewrite Eb. reflexivity.
        + clear -F Fs Ig. revert bs Fs. induction F as [|g0 g0' l l' [_ Hi] _ IH]; intros bs Fs; [destruct Ig|].
          inversion Fs; subst. destruct Ig as [<-|Ig]; [rewrite Hi; eauto|eapply IH; eauto].
      - intros G. destruct (Gm G) as (b & Eb). exists b. unfold find_maps. rewrite Eb. reflexivity.
      - eauto. }
    destruct (init_same _ _ _ _ _ Ei) as [Za Zb].
    intros d Id.
    assert (X : (d_ghost d = false) /\ served (Some m) (o_ground O) d).
    { destruct Id as [Id|Id]; apply live_is in Id.
      - rewrite Ea' in Id. injection Id as <-. rewrite Ea' in Za. cbn in Za. destruct Za as (_ & _ & Zg & _).
        split; [rewrite Zg; apply Dg; destruct ob; cbn; auto|eapply One; eauto].
      - rewrite Id in Sb, Zb. destruct ob as [b|]; [|contradiction]. cbn in Zb. destruct Zb as (_ & _ & Zg & _).
        split; [rewrite Zg; apply Dg; cbn; auto|]. destruct (Fb b eq_refl) as [_ Fb']. eapply One; eauto. }
    destruct X; auto.
  Qed.

  Section Run.
    Variables (E : env B) (O : opts) (m : hmode) (cs : list chunk).
    Hypotheses (Pv : preview_opts O) (Pg : o_preview O = true -> o_ground O = false)
      (Go : ground_opts O (o_ground O)) (Ff : filter_fine O m) (Re : o_reuse O = false)
      (Ge : o_ground O = true -> e_ext E = false)
      (El : forall c, Z.of_nat (length (e_elev E c)) = Z.max 0 (c_end c - c_start c))
      (Cl : chunk_list E cs).

    Record between s : Prop := mkbetween {
      bt_setting : setting E O m (o_ground O) s;
      bt_chunks : used_chunks E s = Ok cs;
      bt_marks : no_stale O (chunks_of s) }.

    Lemma pair_ok bidx w s : between s -> pair_sound (pair_at s w) ->
      exists s', scan_pair E O bidx w s = Ok s' /\ between s'
        /\ (forall j, w <> Some j -> nth_error (s_beams s') j = nth_error (s_beams s) j)
        /\ (from_settings (pair_at s w) -> s_beams s' = s_beams s).
    Proof.
      intros [Se Uc Nm] Sp. unfold scan_pair.
      set (s0 := if (bidx =? 0)%nat then s else set_strat s (reset (s_strat s))).
      assert (X0 : setting E O m (o_ground O) s0 /\ s_beams s0 = s_beams s /\ s_chunks s0 = s_chunks s).
      { unfold s0. destruct (bidx =? 0)%nat; (split; [|auto]); auto. destruct Se.
        constructor; cbn; auto using steady_reset. }
      destruct X0 as (Se0 & B0 & C0). clearbody s0.
      fold (pair_at s0 w).
      assert (P0 : pair_at s0 w = pair_at s w) by (unfold pair_at; rewrite B0; reflexivity).
      rewrite P0. set (p := pair_at s w) in *.
      match goal with |- exists s', bind ?X _ = Ok _ /\ _ => assert (X1 : exists q s1, X = Ok (q, s1)
        /\ setting E O m (o_ground O) s1 /\ s_chunks s1 = s_chunks s
        /\ pair_fine O (s_maps s1) (o_ground O) q
        /\ (forall j, w <> Some j -> nth_error (s_beams s1) j = nth_error (s_beams s) j)
        /\ (from_settings p -> s_beams s1 = s_beams s)) end.
      { destruct (proj2 Sp) as [Ep|(a & ob & Ep & Rdy)].
        - rewrite Ep. eexists _, _. split; [reflexivity|]. split; [exact Se0|]. split; [exact C0|].
          split; [intros d [Id|Id]; discriminate|]. split; intros; rewrite B0; reflexivity.
        - assert (Sk : o_preview O = true -> pair_fine O (s_maps s0) (o_ground O) p).
          { intros P d Id. split; [|congruence]. apply (proj1 Sp).
            destruct Id as [Id|Id]; apply live_is in Id; rewrite Ep in Id |- *; cbn [fst snd] in Id; [|rewrite Id; cbn; auto].
            injection Id as <-. destruct ob; cbn; auto. }
          rewrite Ep in Sp, Sk |- *.
          destruct (pair_init O a ob Sp Rdy) as (mm & q & Ei & Fi).
          destruct (o_preview O).
          + destruct ob; eexists _, _; (split; [reflexivity|]); (split; [exact Se0|]); (split; [exact C0|]);
              (split; [apply Sk; reflexivity|]); split; intros; rewrite B0; reflexivity.
          + rewrite Re, Bool.andb_false_r. rewrite Ei. cbn [bind].
            destruct ob; eexists _, _; (split; [reflexivity|]); cbv zeta;
              (destruct Se0; destruct w as [i|]; (split; [constructor; auto|]); (split; [exact C0|]);
               (split; [exact Fi|]); (split; [intros j Hj; cbn; rewrite B0; auto; apply put_pair_other; congruence|]));
              intros Fs; cbn; auto; apply (init_settings _ _ _ _ _ Fs) in Ei; subst q; rewrite B0;
              unfold p, pair_at in Ep; destruct (nth_error (s_beams s) i) as [p0|] eqn:En; try discriminate;
              subst p0; apply put_pair_same; exact En. }
      destruct X1 as (q & s1 & E1 & Se1 & C1 & Pf & B1 & F1). rewrite E1. cbn [bind].
      assert (X2 : exists s2, (match s_chunks s1 with
            | Some _ => Ok s1
            | None =>
                do l <- partition_mission (e_nsamp E) None;
                Ok (set_chunks s1 (Some (map (fun c => (c, false)) l)))
            end) = Ok s2 /\ setting E O m (o_ground O) s2 /\ s_maps s2 = s_maps s1 /\ s_beams s2 = s_beams s1
          /\ s_chunks s2 <> None /\ map fst (chunks_of s2) = cs /\ no_stale O (chunks_of s2)).
      { rewrite C1. unfold used_chunks in Uc. destruct (s_chunks s) as [l|] eqn:Es.
        - injection Uc as Uc. exists s1. split; auto. split; auto. split; auto. split; auto.
          split; [congruence|]. unfold chunks_of. rewrite C1. split; auto. unfold chunks_of in Nm. rewrite Es in Nm. exact Nm.
        - rewrite Uc. cbn [bind]. eexists. split; [reflexivity|]. split; [destruct Se1; constructor; auto|].
          split; auto. split; auto. split; [discriminate|]. unfold chunks_of. cbn.
          split; [rewrite map_map; apply map_id|apply no_stale_fresh]. }
      destruct X2 as (s2 & E2 & Se2 & M2 & B2 & N2 & C2 & Nm2). rewrite E2. cbn [bind].
      assert (Fa : forallb (fun c => match c_cidx c with Some _ => true | None => false end) (plain_chunks s2) = true).
      { apply forallb_forall. intros c Ic. rewrite plain_of, C2 in Ic. apply In_nth_error in Ic as (k & Hk).
        rewrite (proj2 Cl _ _ Hk). reflexivity. }
      rewrite Fa. cbn [bind].
      destruct (chunks_ok E O m bidx q cs Pv Go Ff Ge El Cl (seq 0 (length (plain_chunks s2))) s2)
        as (s3 & E3 & Se3 & K3 & Nm3); auto.
      { rewrite plain_of. exact C2. } { rewrite M2. exact Pf. }
      rewrite E3. exists s3. split; auto. split.
      - constructor; auto. unfold used_chunks. destruct (s_chunks s3) as [l|] eqn:E4.
        + f_equal. rewrite <- C2, <- (k2_chunks _ _ K3). unfold chunks_of. rewrite E4. reflexivity.
        + exfalso. apply N2. apply (proj1 (k2_set _ _ K3)). exact E4.
      - rewrite (k2_beams _ _ K3), B2. auto.
    Qed.

    Lemma pairs_ok : forall ws bidx s, between s -> NoDup (somes ws) ->
      (forall w, In w ws -> pair_sound (pair_at s w)) ->
      exists s', scan_pairs E O bidx ws s = Ok s' /\ between s'
        /\ ((forall w, In w ws -> from_settings (pair_at s w)) -> s_beams s' = s_beams s).
    Proof.
      induction ws as [|w ws IH]; intros bidx s Bt Nd Sp; cbn [scan_pairs]; [eauto|].
      destruct (pair_ok bidx w s Bt (Sp w (or_introl eq_refl))) as (s1 & -> & Bt1 & Bm & Fm). cbn [bind].
      destruct (IH (S bidx) s1) as (s2 & E2 & Bt2 & Fm2); auto.
      - destruct w; cbn in Nd; auto. inversion Nd; auto.
      - intros w' I'. assert (Eq : pair_at s1 w' = pair_at s w').
        { destruct w' as [j|]; cbn; auto. rewrite Bm; auto. intros ->. cbn in Nd. inversion Nd; subst.
          match goal with K : ~ In _ _ |- _ => apply K end. apply somes_in. auto. }
        rewrite Eq. apply Sp. now right.
      - exists s2. split; auto. split; auto. intros Fs. assert (Eb := Fm (Fs w (or_introl eq_refl))).
        rewrite Fm2, Eb; auto. intros w' I'. unfold pair_at. rewrite Eb. apply Fs. now right.
    Qed.
  End Run.

  Lemma mission_list E s : covers_mission E s -> exists cs, used_chunks E s = Ok cs /\ chunk_list E cs.
  Proof.
    intros Hm. destruct (mission_used E s Hm) as (cs & Hcs & T). exists cs. split; auto. split; auto.
    destruct Hm as [Hn Hc]. unfold used_chunks in Hcs. destruct (s_chunks s) as [l|].
    - injection Hcs as <-. destruct (Hc l eq_refl) as [_ Hk]. intros k c Ek. rewrite nth_error_map in Ek.
      destruct (nth_error l k) as [cg|] eqn:El; [|discriminate]. injection Ek as <-. apply Hk. auto.
    - destruct (partition_mission_ok (e_nsamp E) None Hn I) as (cs' & Hcs' & _ & Hk).
      rewrite Hcs in Hcs'. injection Hcs' as <-. intros k c Ek. apply Hk. auto.
  Qed.

  Lemma sound_at E O s s' : sound_options E O s -> s_mmap s' = s_mmap s -> h_mode (sg_hwp (s_strat s')) = h_mode (sg_hwp (s_strat s)) ->
    sound_options E O s'.
  Proof. intros [] H1 H2. constructor; rewrite ?H1, ?H2; auto. Qed.

  Lemma instrument_ok E O m cs s : sound_options E O s ->
    (forall c, Z.of_nat (length (e_elev E c)) = Z.max 0 (c_end c - c_start c)) ->
    sound_pairs (s_beams s) -> (1 <= e_nsamp E)%Z -> chunk_list E cs -> between E O m cs s ->
    exists s', scan_instrument E O s = Ok s' /\ between E O m cs s'
      /\ ((forall p, In p (s_beams s) -> from_settings p) -> s_beams s' = s_beams s).
  Proof.
    intros [Sky Prev Gr Re Fi] El Sp Mi Cl Bt0. unfold scan_instrument.
    assert (X : negb (o_alm O) && negb (o_preview O) = false).
    { destruct Sky as [->| ->]; cbn; auto. apply Bool.andb_false_r. }
    rewrite X. clear X.
    assert (X : o_preview O && (o_save_tod O || o_save_point O) = false).
    { destruct (o_preview O); [|reflexivity]. destruct (Prev eq_refl) as (-> & -> & _). reflexivity. }
    rewrite X. clear X.
    set (s0 := if o_memmap O && negb (e_ext E) then _ else s).
    assert (Bt : between E O m cs s0).
    { destruct Bt0 as [[St Mm Nm] Uc Ns]. unfold s0. destruct (o_memmap O && negb (e_ext E)) eqn:Em; [|constructor; auto; constructor; auto].
      apply andb_prop in Em as [Em Ex]. constructor; auto. constructor; cbn; auto.
      - intros x Hx. injection Hx as <-. rewrite repeat_length. lia.
      - intros G. destruct (Gr G) as (_ & Nm' & _). congruence. }
    assert (B0 : s_beams s0 = s_beams s) by (unfold s0; destruct (o_memmap O && negb (e_ext E)); reflexivity).
    rewrite <- B0 in Sp |- *.
    assert (Ff : filter_fine O m).
    { intros Bn. rewrite <- (sy_mode _ _ (se_steady _ _ _ _ _ (bt_setting _ _ _ _ _ Bt0))). auto. }
    clearbody s0. clear Bt0.
    assert (Run : forall ws, NoDup (somes ws) -> exists s', scan_pairs E O 0 ws s0 = Ok s' /\ between E O m cs s'
        /\ ((forall w, In w ws -> from_settings (pair_at s0 w)) -> s_beams s' = s_beams s0)).
    { intros ws0 Nd. apply pairs_ok; auto.
      - intros P. destruct (Prev P) as (? & ? & _). auto.
      - intros P. apply (Prev P).
      - intros G. destruct (Gr G) as (_ & _ & _ & Np). split; auto. destruct (o_preview O) eqn:Pr; auto.
        destruct (Prev eq_refl) as (_ & _ & ?). congruence.
      - intros G. apply (Gr G).
      - intros w _. unfold pair_at. destruct w as [i|]; [|split; [intros d []|left; reflexivity]].
        destruct (nth_error (s_beams s0) i) as [p|] eqn:Ep; [|split; [intros d []|left; reflexivity]].
        apply Sp. eapply nth_error_In; eauto. }
    match goal with |- exists s', scan_pairs E O 0 ?ws s0 = _ /\ _ => destruct (Run ws) as (s' & E' & Bt' & Fm) end.
    { apply rank_nodup. apply seq_NoDup. }
    exists s'. split; auto. split; auto. intros Fs. apply Fm. intros w _. unfold pair_at.
    destruct w as [i|]; [|intros d []].
    destruct (nth_error (s_beams s0) i) as [p|] eqn:Ep; [|intros d []]. apply Fs. eapply nth_error_In; eauto.
  Qed.

  Lemma scannable_between E O s f cs : scannable E O s -> sound_settings f -> configure f = Ok (s_strat s) ->
    used_chunks E s = Ok cs -> between E O (cf_mode f) cs s.
  Proof.
    intros [_ [Sky Prev Gr Re Fi] Sp Mi Ma Mm El] Sf Cf Uc. assert (St := sound_steady _ _ Sf Cf). constructor; auto.
    - constructor; auto. intros G. apply (Gr G).
    - intros G cg I0. unfold chunks_of in I0. destruct (s_chunks s) as [l|] eqn:Es; [|destruct I0]. eapply Ma; eauto.
  Qed.

  Lemma completes E O s : scannable E O s -> exists s', scan_instrument E O s = Ok s'.
  Proof.
    intros Sc. destruct (sc_settings _ _ _ Sc) as (f & Sf & Cf).
    destruct (mission_list E s (sc_mission _ _ _ Sc)) as (cs & Uc & Cl).
    assert (Bt := scannable_between E O s f cs Sc Sf Cf Uc). destruct Sc as [_ So Sp Mi Ma Mm El].
    destruct (instrument_ok E O (cf_mode f) cs s) as (s' & Es & _); eauto. apply Mi.
  Qed.

  (** ** One scan after another *)
  Lemma histories_run E m cs g : (1 <= e_nsamp E)%Z -> chunk_list E cs ->
    (forall c, Z.of_nat (length (e_elev E c)) = Z.max 0 (c_end c - c_start c)) ->
    forall h s, sound_pairs (s_beams s) -> (forall p, In p (s_beams s) -> from_settings p) ->
    steady m (s_strat s) -> (forall x, s_mmap s = Some x -> Z.of_nat (length x) = e_nsamp E) ->
    (g = true -> s_mmap s = None) -> used_chunks E s = Ok cs ->
    (g = false -> forall cg, In cg (chunks_of s) -> snd cg = false) ->
    (forall O r, In (O, r) h -> o_ground O = g /\ exists t, h_mode (sg_hwp (s_strat t)) = m /\ s_mmap t = None /\ sound_options E O t) ->
    exists s', history E h s = Ok s'.
  Proof.
    intros En Cl El. induction h as [|[O r] h IH]; intros s Sp Fs St Mm Nm Uc Ns Hh; cbn [history]; [eauto|].
    destruct (Hh O r (or_introl eq_refl)) as (Go & t & Hm & Ht & So).
    assert (So' : sound_options E O s).
    { destruct So as [S1 S2 S3 S4 S5]. constructor; auto.
      - intros G. rewrite Go in G. destruct (S3 ltac:(congruence)) as (? & ? & _ & ?). auto.
      - rewrite (sy_mode _ _ St), <- Hm. exact S5. }
    destruct (instrument_ok E O m cs s) as (s1 & E1 & Bt1 & Fm); auto.
    { constructor; auto; [constructor; auto; rewrite Go; auto|]. intros G. apply Ns. congruence. }
    rewrite E1. cbn [bind]. assert (Eb := Fm Fs). destruct Bt1 as [[St1 Mm1 Nm1] Uc1 Ns1]. rewrite Go in Nm1.
    assert (X : forall u, steady m u -> exists s', history E h (set_strat s1 u) = Ok s').
    { intros u Su. apply IH; auto.
      - cbn. rewrite Eb. exact Sp.
      - cbn. rewrite Eb. exact Fs.
      - intros G cg. change (chunks_of (set_strat s1 u)) with (chunks_of s1). apply Ns1. congruence.
      - intros O' r' I'. apply (Hh O' r'). now right. }
    destruct r; [apply X; apply steady_reset; exact St1|].
    replace s1 with (set_strat s1 (s_strat s1)) by (destruct s1; reflexivity). apply X. exact St1.
  Qed.

  Lemma histories E h s : s_mmap s = None ->
    (forall O r, In (O, r) h -> scannable E O s) ->
    (forall O r O' r', In (O, r) h -> In (O', r') h -> o_ground O = o_ground O') ->
    (forall p, In p (s_beams s) -> from_settings p) ->
    exists s', history E h s = Ok s'.
  Proof.
    intros Nm Sc Gs Fs. destruct h as [|[O r] h]; [cbn; eauto|].
    assert (S0 := Sc O r (or_introl eq_refl)). destruct (sc_settings _ _ _ S0) as (f & Sf & Cf).
    destruct (mission_list E s (sc_mission _ _ _ S0)) as (cs & Uc & Cl).
    apply (histories_run E (cf_mode f) cs (o_ground O)); auto.
    - apply (sc_mission _ _ _ S0).
    - apply (sc_elev _ _ _ S0).
    - apply (sc_pairs _ _ _ S0).
    - apply sound_steady; auto.
    - apply (sc_mmap _ _ _ S0).
    - intros G cg I0. unfold chunks_of in I0. destruct (s_chunks s) as [l|] eqn:Es; [|destruct I0].
      eapply (sc_marks _ _ _ S0); eauto.
    - intros O' r' I'. split; [apply (Gs O' r' O r); auto using in_eq|]. exists s.
      split; [apply (sy_mode _ _ (sound_steady _ _ Sf Cf))|]. split; auto. apply (Sc O' r' I').
  Qed.
End L.
