(** * Scanning and binning one stretch succeeds *)
From Coq Require Import Reals Lra.
From Verif Require Import Common LibList M_Chunks M_Steps M_Hwp M_Mpi M_Detpair M_Scan S_Chunks S_Detpair S_Scan S_Complete
  L_Chunks L_Scan L_Scan2 L_Complete.
From Verif Require M_Tod M_Blm L_Tod.
Open Scope R_scope.

Section L.
  Context {B : Type}.
  Implicit Types (s : state B) (E : env B) (d : det B).

  (** What is there stays there. *)
  Record grows s s' : Prop := mkgrows {
    g_frame : frame s s';
    g_data : forall i k, s_data s i k <> None -> s_data s' i k <> None;
    g_qoff : forall k, s_qoff s k <> None -> s_qoff s' k <> None }.
  Lemma grows_refl s : grows s s.
  Proof. constructor; auto using frame_refl. Qed.
  Lemma grows_trans a b c : grows a b -> grows b c -> grows a c.
  Proof. intros [] []. constructor; eauto using frame_trans. Qed.

  Definition has_tod (n : nat) s : Prop := exists t, s_tod s = Some t /\ length t = n.

  (** The stretch [c] lies in a chunk whose boresight positions are there. *)
  Definition placed (ground : bool) (c : chunk) s : Prop :=
    exists k P, c_cidx c = Some k /\ nth_error (plain_chunks s) k = Some P
      /\ (c_start P <= c_start c)%Z /\ (c_start c < c_end c)%Z /\ (c_end c <= c_end P)%Z
      /\ length (s_bore s) = csize P
      /\ (ground = true -> exists g, s_gbore s = Some g /\ length g = csize P).
  Lemma placed_frame ground c s s' : frame s s' -> placed ground c s -> placed ground c s'.
  Proof.
    intros [] (k & P & H). exists k, P. unfold plain_chunks in *. rewrite f_chunks, f_bore, f_gbore. exact H.
  Qed.
  Lemma placed_sky ground c s : placed ground c s -> placed false c s.
  Proof. intros (k & P & H1 & H2 & H3 & H4 & H5 & H6 & _). exists k, P. repeat split; auto. discriminate. Qed.

  Lemma slice_ok ground c s : placed ground c s ->
    exists a bore, bore_of ground s = Some a /\ chunk_slice s c a = Ok bore /\ length bore = csize c.
  Proof.
    intros (k & P & Hk & HP & L1 & L2 & L3 & LB & LG).
    assert (X : forall a, length a = csize P -> exists bore, chunk_slice s c a = Ok bore /\ length bore = csize c).
    { intros a La. unfold chunk_slice, chunk2idx. rewrite Hk, HP. cbn [bind].
      destruct (Z.ltb_spec (c_start c - c_start P) 0); [lia|]. eexists. split; [reflexivity|].
      unfold slice. rewrite firstn_length, skipn_length, La. unfold csize. lia. }
    destruct ground; cbn [bore_of].
    - destruct (LG eq_refl) as (g & -> & Lg). destruct (X g Lg) as (b & ?). exists g, b. auto.
    - destruct (X _ LB) as (b & ?). exists (s_bore s), b. auto.
  Qed.

  Lemma store_ok (add : bool) n tod s : length tod = n -> (add = true -> has_tod n s) ->
    exists t, store_tod add tod s = Ok (set_tod s (Some t)) /\ length t = n.
  Proof.
    intros L H. unfold store_tod. destruct add; [|eauto].
    destruct (H eq_refl) as (o & -> & Lo). unfold M_Tod.radd_arr. rewrite Lo, L, Nat.eqb_refl. cbn [bind].
    eexists. split; [reflexivity|]. unfold M_Blm.zipwith. rewrite map_length, combine_length. lia.
  Qed.

  Lemma scan_ok E w gidx (add rt rp skip ground : bool) c s :
    skip && (rt || rp) = false -> placed ground c s ->
    (skip = false -> exists b, find_maps (s_maps s) gidx ground = Ok b) ->
    (add = true -> has_tod (csize c) s) ->
    exists t s', scan E w false gidx add rt rp skip ground c s = Ok (t, s') /\ grows s s'
      /\ has_tod (csize c) s' /\ (forall k, w = Main k -> s_qoff s' k <> None).
  Proof.
    intros Hs Hp Hm Ha. unfold scan. rewrite Hs.
    set (s1 := match w with Main _ => _ | Ghost _ _ => s end).
    assert (E1 : s1 = qset w s) by (destruct w; reflexivity). rewrite E1. clear s1 E1.
    assert (G1 : grows s (qset w s)).
    { constructor; [apply frame_qset| |]; destruct w; cbn; auto.
      intros k Hk. unfold upd. destruct (k =? d)%Z; [discriminate|auto]. }
    assert (T1 : s_tod (qset w s) = s_tod s) by (destruct w; reflexivity).
    assert (Q1 : forall k, w = Main k -> s_qoff (qset w s) k <> None).
    { intros k ->. cbn. unfold upd. rewrite Z.eqb_refl. discriminate. }
    assert (Ha1 : add = true -> has_tod (csize c) (qset w s)) by (unfold has_tod in *; rewrite T1; auto).
    destruct skip.
    - destruct (store_ok add (csize c) (repeat 0 (csize c)) (qset w s)) as (t & Et & Lt); auto using repeat_length.
      rewrite Et. cbn [bind]. eexists _, _. split; [reflexivity|]. split.
      { eapply grows_trans; [exact G1|]. constructor; auto. apply frame_tod. }
      split; [exists t; auto|]. exact Q1.
    - destruct (Hm eq_refl) as (b & Hb). rewrite (f_maps _ _ (g_frame _ _ G1)), Hb. cbn [bind].
      destruct (slice_ok ground c (qset w s)) as (a & bore & Ea & Eb & Lb).
      { eapply placed_frame; [apply frame_qset|exact Hp]. }
      assert (Ea' : (if ground then match s_gbore (qset w s) with Some g => Ok g | None => Err AttributeError end
                     else Ok (s_bore (qset w s))) = Ok a).
      { destruct ground; cbn [bore_of] in Ea; [rewrite Ea; reflexivity|congruence]. }
      rewrite Ea'. cbn [bind]. rewrite Eb. cbn [bind]. rewrite Lb, Nat.eqb_refl. cbn [negb].
      match goal with |- context [store_tod add ?x _] => destruct (store_ok add (csize c) x (qset w s)) as (t & Et & Lt) end;
        [rewrite map_length, seq_length; reflexivity|exact Ha1|].
      rewrite Et. cbn [bind]. eexists _, _. split; [reflexivity|]. split.
      { eapply grows_trans; [exact G1|]. constructor; auto. constructor; reflexivity. }
      split; [exists t; auto|]. exact Q1.
  Qed.

  (** Everything a detector needs is found in the spin maps. *)
  Definition served (maps : option (spinmaps B)) (ground : bool) d : Prop :=
    (forall g, In g (d_ghosts d) -> gh_dead g = false -> exists b, find_maps maps (Some (gh_idx g)) ground = Ok b)
    /\ (ground = true -> exists b, find_maps maps None true = Ok b)
    /\ exists b, find_maps maps None false = Ok b.

  Lemma ghosts_ok E i (skip ground : bool) c : forall gs k n s,
    placed ground c s -> (n <> 0%nat -> has_tod (csize c) s) ->
    (skip = false -> forall g, In g gs -> gh_dead g = false -> exists b, find_maps (s_maps s) (Some (gh_idx g)) ground = Ok b) ->
    exists n' s', scan_ghosts E i k n gs skip ground c s = Ok (n', s') /\ grows s s'
      /\ (n' <> 0%nat -> has_tod (csize c) s').
  Proof.
    induction gs as [|g gs IH]; intros k n s Hp Hn Hm; cbn [scan_ghosts].
    - eauto using grows_refl.
    - destruct (gh_dead g) eqn:Dg.
      + apply IH; auto. intros Sk g' I. apply Hm; auto. now right.
      + destruct (scan_ok E (Ghost i k) (Some (gh_idx g)) (negb (n =? 0)%nat) false false skip ground c s)
          as (t & s1 & Es & G1 & T1 & _).
        { destruct skip; reflexivity. } { exact Hp. }
        { intros Sk. apply Hm; auto. now left. }
        { destruct (Nat.eqb_spec n 0); [discriminate|]. auto. }
        rewrite Es. cbn [bind].
        destruct (IH (S k) (S n) s1) as (n' & s' & E' & G' & T'); auto.
        { eapply placed_frame; [apply (g_frame _ _ G1)|exact Hp]. }
        { rewrite (f_maps _ _ (g_frame _ _ G1)). intros Sk g' I. apply Hm; auto. now right. }
        exists n', s'. split; auto. split; [eapply grows_trans; eauto|auto].
  Qed.

  Lemma put_tod_fine k c t s : placed false c s -> (forall ci, c_cidx c = Some ci -> s_data s ci k <> None) ->
    exists s', put_tod k c t s = Ok s' /\ grows s s' /\ s_tod s' = s_tod s.
  Proof.
    intros (ci & P & Hk & HP & L1 & L2 & L3 & _) Hd. unfold put_tod, chunk2idx. rewrite Hk, HP. cbn [bind].
    specialize (Hd ci Hk). destruct (s_data s ci k) as [a|]; [|congruence].
    destruct (Z.ltb_spec (c_start c - c_start P) 0); [lia|].
    eexists. split; [reflexivity|]. split; [|reflexivity]. constructor; auto; [constructor; reflexivity|].
    intros i' k' N. cbn. unfold upd2. destruct (_ && _); [discriminate|auto].
  Qed.

  Lemma put_point_fine E k c s h : placed false c s -> s_hwp s = Some h -> hwp_fit (csize c) h ->
    exists s', put_point E k c s = Ok s' /\ grows s s' /\ s_tod s' = s_tod s.
  Proof.
    intros Hp Hh Hf. destruct (slice_ok false c s Hp) as (a & bore & Ea & Eb & Lb). cbn in Ea. injection Ea as <-.
    destruct Hp as (ci & P & Hk & HP & L1 & L2 & L3 & _). unfold put_point.
    assert (X : chunk2idx (plain_chunks s) c = Ok (c_start c - c_start P, c_end c - c_start P)%Z).
    { unfold chunk2idx. rewrite Hk, HP. reflexivity. }
    rewrite X, Hk. cbn [bind]. destruct (Z.ltb_spec (c_start c - c_start P) 0); [lia|].
    rewrite Eb. cbn [bind]. rewrite Hh. unfold ret_hwp.
    assert (R : exists l, match h with
      | HScalar a => Ok (repeat (degrees a) (csize c))
      | HArray l => if (length l =? csize c)%nat then Ok (map degrees l)
                    else match l with [a] => Ok (repeat (degrees a) (csize c)) | _ => Err ValueError end
      | HStale => Err ValueError end = Ok l).
    { destruct h; cbn in Hf; [eauto| |contradiction]. rewrite Hf, Nat.eqb_refl. eauto. }
    destruct R as (l & ->). cbn [bind]. eexists. split; [reflexivity|]. split; [|reflexivity].
    constructor; auto. constructor; reflexivity.
  Qed.

  (** The ground template: options that go with it. *)
  Definition ground_opts (O : opts) (ground : bool) : Prop :=
    ground = true -> o_save_point O = false /\ o_preview O = false.
  Definition preview_opts (O : opts) : Prop := o_preview O = true -> o_save_tod O = false /\ o_save_point O = false.

  Lemma detector_ok E O d ground c s h :
    preview_opts O -> ground_opts O ground -> d_ghost d = false -> d_dead d = false ->
    placed ground c s -> (o_preview O = false -> served (s_maps s) ground d) ->
    s_hwp s = Some h -> hwp_fit (csize c) h ->
    (o_save_tod O = true -> forall ci, c_cidx c = Some ci -> s_data s ci (d_id d) <> None) ->
    exists s', scan_detector E O d ground c s = Ok s' /\ grows s s' /\ has_tod (csize c) s'
      /\ s_qoff s' (d_id d) <> None.
  Proof.
    intros Pv Go Dg Dd Hp Sv Hh Hf Hd. unfold scan_detector. rewrite Dg, Dd.
    assert (Sk : o_preview O && (o_save_tod O || o_save_point O) = false).
    { destruct (o_preview O) eqn:P; [|reflexivity]. destruct (Pv P) as [-> ->]. reflexivity. }
    rewrite Sk.
    destruct (ghosts_ok E (d_id d) (o_preview O) ground c (d_ghosts d) 0 0 s Hp) as (n & s1 & E1 & G1 & T1).
    { congruence. } { intros P. apply (Sv P). }
    rewrite E1. cbn [bind].
    assert (X : exists ex s2,
      (if ground then
            do (_, s) <- scan E (Main (d_id d)) false None (negb (n =? 0)%nat) false (o_save_point O)
                           false true c s1;
            if o_save_point O then Err UnboundLocalError else Ok (true, s)
          else Ok (negb (n =? 0)%nat, s1)) = Ok (ex, s2) /\ grows s s2 /\ (ex = true -> has_tod (csize c) s2)).
    { destruct ground.
      - destruct (Go eq_refl) as [Sp Pr].
        destruct (scan_ok E (Main (d_id d)) None (negb (n =? 0)%nat) false (o_save_point O) false true c s1)
          as (t & s2 & E2 & G2 & T2 & _); auto.
        { eapply placed_frame; [apply (g_frame _ _ G1)|exact Hp]. }
        { intros _. rewrite (f_maps _ _ (g_frame _ _ G1)). apply (Sv Pr). reflexivity. }
        { destruct (Nat.eqb_spec n 0); [discriminate|]. auto. }
        rewrite E2. cbn [bind]. rewrite Sp. eexists _, _. split; [reflexivity|].
        split; [eapply grows_trans; eauto|auto].
      - eexists _, _. split; [reflexivity|]. split; auto. destruct (Nat.eqb_spec n 0); [discriminate|auto]. }
    destruct X as (ex & s2 & E2 & G2 & T2). rewrite E2. cbn [bind].
    assert (Hp2 : placed false c s2).
    { eapply placed_frame; [apply (g_frame _ _ G2)|]. eapply placed_sky; eauto. }
    destruct (scan_ok E (Main (d_id d)) None ex (o_save_tod O) (o_save_point O) (o_preview O) false c s2)
      as (t & s3 & E3 & G3 & T3 & Q3); auto.
    { intros P. rewrite (f_maps _ _ (g_frame _ _ G2)). apply (Sv P). }
    rewrite E3. cbn [bind]. specialize (Q3 _ eq_refl).
    assert (G13 : grows s s3) by (eapply grows_trans; eauto).
    assert (Hp3 : placed false c s3) by (eapply placed_frame; [apply (g_frame _ _ G3)|exact Hp2]).
    assert (X : exists s4, (if o_save_tod O then put_tod (d_id d) c t s3 else Ok s3) = Ok s4
                /\ grows s3 s4 /\ s_tod s4 = s_tod s3).
    { destruct (o_save_tod O); [|eauto using grows_refl].
      apply put_tod_fine; auto. intros ci Hc. apply (g_data _ _ G13). auto. }
    destruct X as (s4 & E4 & G4 & T4). rewrite E4. cbn [bind].
    assert (G14 : grows s s4) by (eapply grows_trans; eauto).
    assert (X : exists s5, (if o_save_point O then put_point E (d_id d) c s4 else Ok s4) = Ok s5
                /\ grows s4 s5 /\ s_tod s5 = s_tod s4).
    { destruct (o_save_point O); [|eauto using grows_refl].
      apply put_point_fine with h; auto.
      - eapply placed_frame; [apply (g_frame _ _ G4)|exact Hp3].
      - rewrite (f_hwp _ _ (g_frame _ _ G14)). exact Hh. }
    destruct X as (s5 & E5 & G5 & T5). rewrite E5. exists s5. split; auto.
    split; [eapply grows_trans; eauto|]. split.
    - unfold has_tod in *. rewrite T5, T4. exact T3.
    - apply (g_qoff _ _ G5), (g_qoff _ _ G4). exact Q3.
  Qed.

  Lemma bin_ok (O : opts) d tod c s h m : placed false c s -> s_hwp s = Some h -> s_qoff s (d_id d) <> None ->
    (tod = None -> exists n, has_tod n s) -> h_mode (sg_hwp (s_strat s)) = m ->
    (forall t, exists t', o_filter O m t = Ok t') ->
    exists t s', bin_tod O d tod c s = Ok (t, s') /\ grows s s'.
  Proof.
    intros Hp Hh Hq Ht Hm Hf. unfold bin_tod. rewrite Hh.
    destruct (slice_ok false c s Hp) as (a & bore & Ea & Eb & Lb). cbn in Ea. injection Ea as <-.
    rewrite Eb. cbn [bind]. destruct (s_qoff s (d_id d)) as [ang|]; [|congruence]. rewrite Hm.
    destruct tod as [t|].
    - cbn [bind]. destruct (Hf t) as (t' & ->). cbn [bind]. eexists _, _. split; [reflexivity|].
      constructor; auto. constructor; reflexivity.
    - destruct (Ht eq_refl) as (n & t & -> & _). cbn [bind]. destruct (Hf t) as (t' & ->). cbn [bind].
      eexists _, _. split; [reflexivity|]. constructor; auto. constructor; reflexivity.
  Qed.
End L.
