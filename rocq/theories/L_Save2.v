(** * Saving never makes a scan fail *)
From Coq Require Import Reals.
From Verif Require Import Common M_Chunks M_Steps M_Hwp M_Mpi M_Detpair M_Scan L_Scan L_Save.
From Verif Require L_Scan10 L_Scan15 M_Tod.
Open Scope R_scope.

Section Save.
Context {B : Type}.
Variable E : env B.
Variable O : opts.
Variables st sp : bool.
Hypothesis PV : o_preview O = false.
Hypothesis GP : sp = true -> o_ground O = false.

Let P := saving O false false.
Let W := saving O st sp.
Implicit Types s : state B.

(** What saving needs of the rest of the state. *)
Definition ready s : Prop := sp = true ->
  h_mode (sg_hwp (s_strat s)) <> OtherMode
  /\ match s_chunks s with Some l => Forall (fun x => snd x = false) l | None => True end.

Record cfg s s' : Prop := mkcfg {
  g_mode : h_mode (sg_hwp (s_strat s')) = h_mode (sg_hwp (s_strat s));
  g_chunks : s_chunks s' = s_chunks s }.
Lemma cfg_refl s : cfg s s.
Proof. now constructor. Qed.
Lemma cfg_trans s1 s2 s3 : cfg s1 s2 -> cfg s2 s3 -> cfg s1 s3.
Proof. intros [] []. constructor; congruence. Qed.
Lemma cfg_ready s s' : cfg s s' -> ready s -> ready s'.
Proof. intros [A C] R H. rewrite A, C. now apply R. Qed.
Lemma frame_cfg s s' : frame s s' -> cfg s s'.
Proof. intros []. constructor; congruence. Qed.

Lemma store_frame add tod s s' : store_tod add tod s = Ok s' -> frame s s'.
Proof.
  unfold store_tod. destruct add; [destruct (s_tod s)|]; intros H; try (injection H as <-; constructor; reflexivity).
  inv_bind H x Hx. injection H as <-. constructor; reflexivity.
Qed.

Lemma scan_frame w dead g add rt rp skip ground c s x s' :
  scan E w dead g add rt rp skip ground c s = Ok (x, s') -> frame s s'
  /\ (skip = false -> ground = false -> exists b, chunk_slice s c (s_bore s) = Ok b).
Proof.
  unfold scan. destruct dead; [discriminate|]. destruct (skip && _)%bool; [discriminate|]. cbv zeta.
  set (s1 := match w with Main _ => _ | Ghost _ _ => s end).
  assert (F : frame s s1) by (unfold s1; destruct w; constructor; reflexivity).
  assert (SB : s_bore s1 = s_bore s) by apply F.
  assert (SC : forall q, chunk_slice s1 c q = chunk_slice s c q) by (intros; unfold s1; destruct w; reflexivity).
  clearbody s1. destruct skip; intros H.
  - inv_bind H s2 H2. apply store_frame in H2. injection H as <- <-. split; [now apply (frame_trans _ s1)|discriminate].
  - inv_bind H b Hb. inv_bind H q Hq. inv_bind H bo Hbo. destruct (negb _); [discriminate|].
    inv_bind H s2 H2. apply store_frame in H2. injection H as <- <-. split.
    + apply (frame_trans _ s1 _ F). apply (frame_trans _ s2 _ H2). constructor; reflexivity.
    + intros _ ->. injection Hq as <-. rewrite SC, SB in Hbo. eauto.
Qed.

Lemma slice_frame s s' c : frame s s' -> (exists b, chunk_slice s c (s_bore s) = Ok b) ->
  exists b, chunk_slice s' c (s_bore s') = Ok b.
Proof.
  intros F [b Hb]. exists b. unfold chunk_slice, plain_chunks in *. now rewrite (f_chunks _ _ F), (f_bore _ _ F).
Qed.

Lemma ghosts_frame i gs skip ground c : forall k n s x s',
  scan_ghosts E i k n gs skip ground c s = Ok (x, s') -> frame s s'.
Proof.
  induction gs as [|g gs IH]; cbn [scan_ghosts]; intros k n s x s' H.
  - injection H as <- <-. apply frame_refl.
  - destruct (gh_dead g); [now apply IH in H|]. inv_bind H r Hr. destruct r as [y s1].
    apply scan_frame in Hr. apply IH in H. eapply frame_trans; [apply Hr|exact H].
Qed.

(** ** Storing *)
Definition has (d : nat -> Z -> option (list R)) (c : chunk) (i : Z) : Prop :=
  exists ci, c_cidx c = Some ci /\ d ci i <> None.
Definition grows (d d' : nat -> Z -> option (list R)) : Prop := forall ci i, d ci i <> None -> d' ci i <> None.

Lemma grows_refl d : grows d d.
Proof. now intros ? ?. Qed.
Lemma grows_trans a b c : grows a b -> grows b c -> grows a c.
Proof. intros X Y ci i H. now apply Y, X. Qed.
Lemma grows_has d d' c i : grows d d' -> has d c i -> has d' c i.
Proof. intros G (ci & A & H). exists ci. split; [assumption|]. now apply G. Qed.

Lemma put_tod_ok i c tod s d p h : has d c i -> (exists b, chunk_slice s c (s_bore s) = Ok b) ->
  exists d', put_tod i c tod (dress s d p h) = Ok (dress s d' p h) /\ grows d d'.
Proof.
  intros (ci & EC & HD) (b & HB). unfold put_tod. unfold chunk_slice in HB.
  change (plain_chunks (dress s d p h)) with (plain_chunks s).
  inv_bind HB ij Hij. rewrite Hij. cbn [bind]. destruct ij as [a e]. rewrite EC.
  change (s_data (dress s d p h) ci i) with (d ci i). destruct (d ci i) as [ar|] eqn:D; [|tauto].
  destruct (a <? 0)%Z; [discriminate|].
  eexists. split; [reflexivity|]. intros ci' i' H. change (upd2 d ci i (Some (splice ar (Z.to_nat a) tod)) ci' i' <> None).
  unfold upd2. destruct (_ && _)%bool; [discriminate|assumption].
Qed.

Lemma put_point_ok i c s d p h : c_cidx c <> None -> (exists b, chunk_slice s c (s_bore s) = Ok b) ->
  (exists l, ret_hwp (s_hwp s) (csize c) = Ok l) ->
  exists p' h', put_point E i c (dress s d p h) = Ok (dress s d p' h').
Proof.
  intros EC (b & HB) (l & HL). unfold put_point.
  change (plain_chunks (dress s d p h)) with (plain_chunks s). rewrite slice_dress.
  change (s_bore (dress s d p h)) with (s_bore s). change (s_hwp (dress s d p h)) with (s_hwp s).
  rewrite HB, HL. unfold chunk_slice in HB. inv_bind HB ij Hij. rewrite Hij. cbn [bind]. destruct ij as [a e].
  destruct (c_cidx c) as [ci|]; [|tauto]. destruct (a <? 0)%Z; [discriminate|].
  eexists _, _. reflexivity.
Qed.

Lemma detector_add dd ground c s s' d p h :
  scan_detector E P dd ground c s = Ok s' ->
  (sp = true -> ground = false /\ exists l, ret_hwp (s_hwp s) (csize c) = Ok l) ->
  c_cidx c <> None -> (st = true -> has d c (d_id dd)) ->
  frame s s' /\ (exists b, chunk_slice s' c (s_bore s') = Ok b)
  /\ exists d' p' h', scan_detector E W dd ground c (dress s d p h) = Ok (dress s' d' p' h') /\ grows d d'.
Proof.
  unfold scan_detector. change (o_preview W) with (o_preview O). change (o_preview P) with (o_preview O). rewrite PV.
  change (o_save_tod P) with false. change (o_save_point P) with false.
  change (o_save_tod W) with st. change (o_save_point W) with sp. cbn [andb].
  destruct (d_ghost dd); [discriminate|]. intros H HS HC HD. rewrite ghosts_dress.
  inv_bind H r Hr. destruct r as [n s1]. rewrite Hr. cbn [bind lift2]. apply ghosts_frame in Hr.
  inv_bind H r Hg. destruct r as [te s2].
  assert (X : frame s1 s2 /\ (if ground then
      do (_, s) <- scan E (Main (d_id dd)) (d_dead dd) None (negb (n =? 0)%nat) false sp false true c (dress s1 d p h);
      if sp then Err UnboundLocalError else Ok (true, s)
    else Ok (negb (n =? 0)%nat, dress s1 d p h)) = Ok (te, dress s2 d p h)).
  { destruct ground.
    - destruct sp; [destruct (HS eq_refl); discriminate|].
      inv_bind Hg r H3. destruct r as [y s3]. rewrite scan_dress, H3. cbn [bind lift2]. apply scan_frame in H3.
      injection Hg as <- <-. split; [apply H3|reflexivity].
    - injection Hg as <- <-. split; [apply frame_refl|reflexivity]. }
  destruct X as [F2 X]. rewrite X. cbn [bind]. clear X Hg.
  inv_bind H r H3. destruct r as [tod s3].
  assert (X : scan E (Main (d_id dd)) (d_dead dd) None te st sp false false c s2 = Ok (tod, s3)) by exact H3.
  rewrite scan_dress, X. cbn [bind lift2]. clear X. apply scan_frame in H3. destruct H3 as [F3 SL].
  specialize (SL eq_refl eq_refl). injection H as <-.
  assert (F : frame s s3) by (eapply frame_trans; [exact Hr|eapply frame_trans; eassumption]).
  assert (SL3 : exists b, chunk_slice s3 c (s_bore s3) = Ok b).
  { now apply (slice_frame _ _ _ F3). }
  split; [exact F|]. split; [exact SL3|].
  assert (Y : exists d1, (if st then put_tod (d_id dd) c tod (dress s3 d p h) else Ok (dress s3 d p h)) = Ok (dress s3 d1 p h)
                /\ grows d d1).
  { destruct st; [apply put_tod_ok; auto|]. exists d. split; [reflexivity|apply grows_refl]. }
  destruct Y as (d1 & Y & G). rewrite Y. cbn [bind]. destruct sp.
  - destruct (put_point_ok (d_id dd) c s3 d1 p h) as (p' & h' & Z); auto.
    { rewrite (f_hwp _ _ F). now apply HS. }
    rewrite Z. eauto 6.
  - eauto 6.
Qed.

Lemma bin_frame O' dd tod c s x s' : bin_tod O' dd tod c s = Ok (x, s') -> frame s s' /\ exists b, chunk_slice s c (s_bore s) = Ok b.
Proof.
  unfold bin_tod. destruct (s_hwp s); [|discriminate]. intros H. inv_bind H b Hb. destruct (s_qoff s _); [|discriminate].
  inv_bind H t Ht. inv_bind H t' Ht'. injection H as <- <-. split; [|eauto]. destruct tod; constructor; reflexivity.
Qed.

Lemma op_cfg o s x s' : lift_op o s = Ok (x, s') -> cfg s s'.
Proof.
  unfold lift_op. destruct (run_op o (s_strat s)) as [[y|] st'] eqn:R; [|discriminate]. intros [= <- <-].
  constructor; [|reflexivity]. cbn [set_strat s_strat]. revert R. unfold run_op. destruct o.
  - destruct (subpart_chunk _ c) as [[l r]|]; intros R; [injection R as _ <-|discriminate]; reflexivity.
  - destruct (rotate_instr _); intros R; [injection R as _ <-|discriminate]; reflexivity.
  - destruct (rotate_hwp _ _ _ _) as [[ho hh]|] eqn:RH; intros R; [injection R as _ <-|discriminate].
    cbn [sg_hwp]. revert RH. unfold rotate_hwp.
    destruct (h_mode (sg_hwp (s_strat s))) eqn:M; destruct (h_freq (sg_hwp (s_strat s))) as [f|];
      try (destruct (negb _)); intros RH; try (injection RH as _ <-; exact M);
      inv_bind RH z Hz; try destruct z as [ar dd]; try (inv_bind RH z' Hz'); injection RH as _ <-; cbn; first [reflexivity | exact M].
  - destruct (sg_el _); [|intros R; injection R as _ <-; reflexivity].
    destruct (negb _); [intros R; injection R as _ <-; reflexivity|].
    destruct (step_array _ _ _) as [[l dd]|]; intros R; [injection R as _ <-|discriminate]; reflexivity.
  - intros R. injection R as _ <-. reflexivity.
Qed.

Lemma hwp_fits s n x s' : lift_op (OHwp None n) s = Ok (x, s') -> h_mode (sg_hwp (s_strat s)) <> OtherMode ->
  exists h, x = XHwp h /\ h <> HStale /\ exists l, ret_hwp (Some h) n = Ok l.
Proof.
  unfold lift_op, run_op. destruct (rotate_hwp _ _ _ _) as [[ho hh]|] eqn:RH; [|discriminate].
  intros [= <- _] M. exists ho. split; [reflexivity|]. revert RH. unfold rotate_hwp.
  assert (ARR : forall l : list R, length l = n -> HArray l <> HStale /\ exists k, ret_hwp (Some (HArray l)) n = Ok k).
  { intros l L. split; [discriminate|]. unfold ret_hwp. rewrite L, Nat.eqb_refl. eauto. }
  destruct (h_mode (sg_hwp (s_strat s))) eqn:MM; destruct (h_freq (sg_hwp (s_strat s))) as [f|];
    try (destruct (negb _)); intros RH;
    try (injection RH as <- <-; split; [discriminate|cbn; eauto]); try tauto.
  - inv_bind RH z Hz. destruct z as [ar dd]. inv_bind RH z' Hz'. injection RH as <- <-. apply ARR.
    rewrite map_length. apply L_Scan15.step_array_length in Hz. now rewrite Hz, repeat_length.
  - inv_bind RH z Hz. injection RH as <- <-. apply ARR. unfold linspace. now rewrite map_length, seq_length.
Qed.

Lemma W_opts : o_ctalk W = o_ctalk O /\ o_binning W = o_binning O /\ o_save_tod W = st /\ o_ctalk P = o_ctalk O
  /\ o_binning P = o_binning O /\ o_save_tod P = false.
Proof. repeat split. Qed.

Lemma bin_W dd tod c s d p h : bin_tod W dd tod c (dress s d p h) = lift2 d p h (bin_tod P dd tod c s).
Proof. exact (bin_dress P st sp dd tod c s d p h). Qed.

(** The arrays of the live detectors of a pair are there. *)
Definition ready2 (q : bpair B) (c : chunk) d : Prop := st = true ->
  (forall a, live (fst q) = Some a -> has d c (d_id a)) /\ (forall b, live (snd q) = Some b -> has d c (d_id b)).

Lemma grows_ready2 q c d d' : grows d d' -> ready2 q c d -> ready2 q c d'.
Proof. intros G R H. destruct (R H) as [A C]. split; intros x Hx; eapply grows_has; eauto. Qed.

Lemma sub_add q ground c s s' d p h :
  scan_sub E P q ground c s = Ok s' -> ready s -> (sp = true -> ground = false) -> c_cidx c <> None -> ready2 q c d ->
  cfg s s' /\ exists d' p' h', scan_sub E W q ground c (dress s d p h) = Ok (dress s' d' p' h') /\ grows d d'.
Proof.
  intros H RD GR HC R2. destruct W_opts as (W1 & W2 & W3 & P1 & P2 & P3).
  revert H. unfold scan_sub. rewrite W1, W2, W3, P1, P2, P3. destruct q as [a b]. intros H.
  inv_bind H r Hr. destruct r as [x1 s1].
  assert (X1 : cfg s s1 /\ (if c_norot c then Ok (XNone, dress s d p h) else lift_op ORotate (dress s d p h)) = Ok (x1, dress s1 d p h)).
  { destruct (c_norot c); [injection Hr as <- <-; split; [apply cfg_refl|reflexivity]|].
    rewrite op_dress, Hr. split; [now apply op_cfg in Hr|reflexivity]. }
  destruct X1 as [C1 X1]. rewrite X1. cbn [bind]. clear X1 Hr.
  inv_bind H r Hr. destruct r as [x2 s2]. rewrite op_dress, Hr. cbn [bind lift2].
  pose proof (op_cfg _ _ _ _ Hr) as C2.
  set (s3 := match x2 with XHwp HStale => s2 | XHwp h => set_hwp s2 (Some h) | _ => s2 end) in H.
  replace (match x2 with XHwp HStale => dress s2 d p h | XHwp h0 => set_hwp (dress s2 d p h) (Some h0) | _ => dress s2 d p h end)
    with (dress s3 d p h) by (unfold s3; destruct x2 as [| |[]| |]; reflexivity).
  assert (C3 : cfg s s3).
  { apply (cfg_trans _ s1 _ C1), (cfg_trans _ s2 _ C2). unfold s3. destruct x2 as [| |[]| |]; constructor; reflexivity. }
  assert (HW : sp = true -> ground = false /\ exists l, ret_hwp (s_hwp s3) (csize c) = Ok l).
  { intros S1. split; [now apply GR|]. destruct (hwp_fits _ _ _ _ Hr) as (ho & -> & NS & l & HL).
    { now apply (cfg_ready _ _ C1). }
    exists l. unfold s3. destruct ho; [exact HL..|now destruct NS]. }
  clear Hr. clearbody s3.
  inv_bind H r Hr. destruct r as [ct s4]. cbv zeta in H, Hr |- *.
  match goal with |- _ /\ exists _ _ _, bind ?r _ = _ /\ _ =>
    assert (X2 : frame s3 s4 /\ exists d' p' h', r = Ok (ct, dress s4 d' p' h') /\ grows d d') end.
  { cbn [fst snd] in R2. destruct (live a) as [da|] eqn:LA.
    2:{ injection Hr as <- <-. split; [apply frame_refl|]. exists d, p, h. split; [reflexivity|apply grows_refl]. }
    inv_bind Hr s5 H5. apply (detector_add _ _ _ _ _ d p h) in H5; auto.
    2:{ intros T. destruct (R2 T) as [RA _]. now apply RA. }
    destruct H5 as (F5 & _ & d' & p' & h' & X5 & G5). rewrite X5. cbn [bind]. clear X5.
    destruct (match live b with Some _ => _ | None => _ end).
    - injection Hr as <- <-. split; [exact F5|]. exists d', p', h'. now split.
    - destruct (o_binning O).
      2:{ injection Hr as <- <-. split; [exact F5|]. exists d', p', h'. now split. }
      inv_bind Hr r H6. destruct r as [t s6]. injection Hr as <- <-. rewrite bin_W, H6. cbn [bind lift2].
      apply bin_frame in H6. split; [eapply frame_trans; [exact F5|apply H6]|]. exists d', p', h'. now split. }
  destruct X2 as (F4 & d1 & p1 & h1 & X2 & G1). rewrite X2. cbn [bind]. clear X2 Hr.
  assert (R2' := grows_ready2 _ _ _ _ G1 R2).
  assert (HW4 : sp = true -> ground = false /\ exists l, ret_hwp (s_hwp s4) (csize c) = Ok l).
  { rewrite (f_hwp _ _ F4). exact HW. }
  inv_bind H s5 Hs.
  match goal with |- _ /\ exists _ _ _, bind ?r _ = _ /\ _ =>
    assert (X3 : frame s4 s5 /\ (live b <> None -> exists b, chunk_slice s5 c (s_bore s5) = Ok b) /\ exists d' p' h', r = Ok (dress s5 d' p' h') /\ grows d1 d') end.
  { destruct (live b) as [db|] eqn:LB.
    2:{ injection Hs as <-. split; [apply frame_refl|]. split; [tauto|]. exists d1, p1, h1. split; [reflexivity|apply grows_refl]. }
    inv_bind Hs s6 H6. apply (detector_add _ _ _ _ _ d1 p1 h1) in H6; auto.
    2:{ intros T. destruct (R2' T) as [_ RB]. now apply RB. }
    destruct H6 as (F6 & S6 & d' & p' & h' & X6 & G6). rewrite X6. cbn [bind]. clear X6.
    destruct ct.
    { injection Hs as <-. split; [exact F6|]. split; [tauto|]. exists d', p', h'. now split. }
    destruct (o_binning O).
    2:{ injection Hs as <-. split; [exact F6|]. split; [tauto|]. exists d', p', h'. now split. }
    inv_bind Hs r H7. destruct r as [t s7]. injection Hs as <-. rewrite bin_W, H7. cbn [bind lift2].
    apply bin_frame in H7. destruct H7 as [F7 S7]. split; [eapply frame_trans; [exact F6|apply F7]|].
    split; [intros _; exact (slice_frame _ _ _ F7 S7)|]. exists d', p', h'. now split. }
  destruct X3 as (F5 & S5 & d2 & p2 & h2 & X3 & G2). rewrite X3. cbn [bind]. clear X3 Hs.
  assert (R3 := grows_ready2 _ _ _ _ G2 R2').
  assert (C5 : cfg s s5) by (apply (cfg_trans _ s3 _ C3), frame_cfg; eapply frame_trans; eassumption).
  assert (G : grows d d2) by (eapply grows_trans; eassumption).
  assert (DONE : Ok s5 = Ok s' -> cfg s s' /\ exists d' p' h', @Ok (state B) (dress s5 d2 p2 h2) = Ok (dress s' d' p' h') /\ grows d d').
  { intros [= <-]. split; [exact C5|]. exists d2, p2, h2. now split. }
  destruct ct as [ta|]; [|now apply DONE].
  destruct (live a) as [da|] eqn:LA; [|now apply DONE].
  destruct (live b) as [db|] eqn:LB; [|now apply DONE].
  cbv zeta in *. change (s_tod (dress s5 d2 p2 h2)) with (s_tod s5).
  inv_bind H r Hc. destruct r as [ta' tb']. rewrite Hc. cbn [bind].
  change (set_tod (dress s5 d2 p2 h2) (Some tb')) with (dress (set_tod s5 (Some tb')) d2 p2 h2).
  assert (F6 : frame s5 (set_tod s5 (Some tb'))) by (constructor; reflexivity).
  set (s6 := set_tod s5 (Some tb')) in *. clearbody s6. cbn [bind] in H.
  assert (C6 : cfg s s6) by (apply (cfg_trans _ s5 _ C5), frame_cfg, F6).
  assert (S6 : exists b, chunk_slice s6 c (s_bore s6) = Ok b).
  { apply (slice_frame _ _ _ F6), S5. discriminate. }
  assert (X4 : exists d3, (if st then do s <- put_tod (d_id da) c ta' (dress s6 d2 p2 h2); put_tod (d_id db) c tb' s
                           else Ok (dress s6 d2 p2 h2)) = Ok (dress s6 d3 p2 h2) /\ grows d2 d3).
  { unfold ready2 in R3. cbn [fst snd] in R3. clear - R3 LA LB S6. destruct st.
    2:{ exists d2. split; [reflexivity|apply grows_refl]. }
    destruct (R3 eq_refl) as [RA RB].
    destruct (put_tod_ok (d_id da) c ta' s6 d2 p2 h2) as (d3 & X3 & G3); auto. rewrite X3. cbn [bind].
    destruct (put_tod_ok (d_id db) c tb' s6 d3 p2 h2) as (d4 & X4 & G4); auto.
    { eapply grows_has; [exact G3|]. auto. }
    exists d4. split; [exact X4|]. eapply grows_trans; eassumption. }
  destruct X4 as (d3 & X4 & G3). rewrite X4. cbn [bind]. clear X4.
  assert (G' : grows d d3) by (eapply grows_trans; eassumption).
  destruct (o_binning O).
  - rewrite bin_W. inv_bind H r H8. destruct r as [t8 s8]. rewrite H8. cbn [bind lift2].
    rewrite bin_W. inv_bind H r H9. destruct r as [t9 s9]. rewrite H9. cbn [bind lift2]. injection H as <-.
    apply bin_frame in H8. apply bin_frame in H9. split.
    + apply (cfg_trans _ s6 _ C6), frame_cfg. apply (frame_trans _ s8); [apply H8|].
      apply (frame_trans _ s9); [apply H9|]. constructor; reflexivity.
    + exists d3, p2, h2. now split.
  - injection H as <-. split; [exact C6|]. exists d3, p2, h2. now split.
Qed.

Lemma subs_add q : forall subs s s' d p h,
  scan_subs E P q subs s = Ok s' -> ready s ->
  (forall c g, In (c, g) subs -> (sp = true -> g = false) /\ c_cidx c <> None) ->
  (forall c g d', In (c, g) subs -> grows d d' -> ready2 q c d') ->
  cfg s s' /\ exists d' p' h', scan_subs E W q subs (dress s d p h) = Ok (dress s' d' p' h').
Proof.
  induction subs as [|[c g] r IH]; cbn [scan_subs]; intros s s' d p h H RD HI H2.
  - injection H as <-. split; [apply cfg_refl|]. eauto.
  - inv_bind H s1 H1. destruct (HI c g (or_introl eq_refl)) as [HG HC].
    destruct (sub_add _ _ _ _ _ d p h H1 RD HG HC) as (C1 & d1 & p1 & h1 & X1 & G1).
    { apply (H2 c g); [now left|apply grows_refl]. }
    rewrite X1. cbn [bind].
    destruct (IH s1 s' d1 p1 h1 H (cfg_ready _ _ C1 RD)) as (C2 & X2).
    + intros c' g' I. apply HI. now right.
    + intros c' g' d' I G. apply (H2 c' g'); [now right|]. eapply grows_trans; eassumption.
    + split; [eapply cfg_trans; eassumption|exact X2].
Qed.

Lemma implement_cfg pre g c s s' : implement_scan E pre g c s = Ok s' -> cfg s s'.
Proof.
  unfold implement_scan. destruct (e_ext E); [intros [= <-]; constructor; reflexivity|].
  destruct (if pre then s_mmap s else None); [intros [= <-]; constructor; reflexivity|].
  intros H. inv_bind H r Hr. destruct r as [x s1]. apply op_cfg in Hr. injection H as <-.
  apply (cfg_trans _ s1 _ Hr). destruct g; constructor; reflexivity.
Qed.

(** Allocation in the saving run, where the plain run allocates nothing. *)
Lemma allocate_add dd c s s' d p h : on_live dd (fun d => allocate P d c) s = Ok s' ->
  cfg s s' /\ exists d' p', on_live dd (fun d => allocate W d c) (dress s d p h) = Ok (dress s' d' p' h)
  /\ (st = true -> grows d d' /\ forall a, live dd = Some a -> has d' c (d_id a)).
Proof.
  unfold on_live. destruct (live dd) as [a|].
  2:{ intros [= <-]. split; [apply cfg_refl|]. exists d, p. split; [reflexivity|]. split; [apply grows_refl|discriminate]. }
  unfold allocate. destruct (c_cidx c) as [ci|] eqn:EC; [|discriminate]. intros [= <-].
  split; [constructor; reflexivity|]. eexists _, _. split; [reflexivity|]. intros T.
  change (o_save_tod W) with st. rewrite T. split.
  - intros ci' i H. change (s_data (dress s d p h)) with d. unfold upd2. destruct (_ && _)%bool; [discriminate|assumption].
  - intros a' [= <-]. exists ci. split; [exact EC|]. unfold upd2. rewrite Nat.eqb_refl, Z.eqb_refl. discriminate.
Qed.

Definition numbered s : Prop := forall c, In c (plain_chunks s) -> c_cidx c <> None.
Lemma cfg_numbered s s' : cfg s s' -> numbered s -> numbered s'.
Proof. intros [_ C] N. unfold numbered, plain_chunks in *. now rewrite C. Qed.

Lemma set_ground_plain l : forall k, map fst (set_ground l k) = map fst l.
Proof. induction l as [|[c g] r IH]; intros [|k]; cbn; try reflexivity. now rewrite IH. Qed.

Lemma chunk_add bidx q k s s' d p h : scan_chunk E P bidx q k s = Ok s' -> ready s -> numbered s ->
  (ready s' /\ numbered s') /\ exists d' p' h', scan_chunk E W bidx q k (dress s d p h) = Ok (dress s' d' p' h').
Proof.
  unfold scan_chunk. change (s_chunks (dress s d p h)) with (s_chunks s).
  destruct (nth_error _ k) as [[c g]|] eqn:N; [|intros [= <-] R; split; [now split|eauto]]. intros H RD NM.
  change (o_ground W) with (o_ground O). change (o_ground P) with (o_ground O) in *.
  assert (HG : sp = true -> g = false).
  { intros T. destruct (RD T) as [_ F]. destruct (s_chunks s) as [l|].
    - apply nth_error_In in N. rewrite Forall_forall in F. now apply F in N.
    - destruct k; discriminate. }
  assert (HC : c_cidx c <> None).
  { apply NM. unfold plain_chunks. destruct (s_chunks s) as [l|]; [|destruct k; discriminate].
    apply nth_error_In in N. now apply (in_map fst) in N. }
  rewrite implement_dress. inv_bind H s1 H1. rewrite H1. cbn [bind lift1]. apply implement_cfg in H1.
  inv_bind H s2 H2.
  assert (s2 = s1) as -> by (destruct (bidx =? 0)%nat; [unfold allocate_hwp in H2; change (o_save_point P) with false in H2|]; congruence).
  clear H2. inv_bind H s3 H3. inv_bind H s4 H4.
  assert (X : exists h1, (if (bidx =? 0)%nat then allocate_hwp W c (dress s1 d p h) else Ok (dress s1 d p h))
              = Ok (dress s1 d p h1)).
  { destruct (bidx =? 0)%nat; [|eauto]. unfold allocate_hwp. destruct (o_save_point W); [|eauto].
    destruct (c_cidx c); [|tauto]. eexists. reflexivity. }
  destruct X as [h1 X]. rewrite X. cbn [bind]. clear X.
  destruct (allocate_add _ _ _ _ d p h1 H3) as (C3 & d1 & p1 & X3 & G1). rewrite X3. cbn [bind]. clear X3.
  destruct (allocate_add _ _ _ _ d1 p1 h1 H4) as (C4 & d2 & p2 & X4 & G2). rewrite X4. cbn [bind]. clear X4.
  cbv zeta in *. change (s_strat (dress s4 d2 p2 h1)) with (s_strat s4).
  rewrite op_dress. inv_bind H r Hr. destruct r as [x s5]. rewrite Hr. cbn [bind lift2].
  assert (C5 : cfg s s5).
  { apply (cfg_trans _ s1 _ H1), (cfg_trans _ s3 _ C3), (cfg_trans _ s4 _ C4). now apply op_cfg in Hr. }
  set (subs := match x with XSub l => l | _ => [] end) in *.
  assert (SUB : forall x, In x subs -> c_cidx x = c_cidx c).
  { unfold subs. unfold lift_op, run_op in Hr. destruct (subpart_chunk _ c) as [[l r]|] eqn:ES; [|discriminate].
    injection Hr as <- _. exact (L_Scan10.subpart_cidx _ _ _ _ ES). }
  clearbody subs. clear Hr.
  assert (HS : forall (gg : bool), (sp = true -> gg = false) ->
     (forall c' g', In (c', g') (map (fun c => (c, gg)) subs) -> (sp = true -> g' = false) /\ c_cidx c' <> None)
     /\ (forall c' g' d', In (c', g') (map (fun c => (c, gg)) subs) -> grows d2 d' -> ready2 q c' d')).
  { intros gg GG. split.
    - intros c' g' I. apply in_map_iff in I. destruct I as (y & [= <- <-] & I). split; [exact GG|].
      rewrite (SUB _ I). exact HC.
    - intros c' g' d' I G. apply in_map_iff in I. destruct I as (y & [= <- <-] & I). intros T.
      destruct (G1 T) as [GA A1]. destruct (G2 T) as [GB A2].
      assert (EQ : forall i, has d2 c i -> has d' y i).
      { intros i Hi. apply (grows_has _ _ _ _ G). destruct Hi as (ci & Hc & Hd). exists ci. split; [|exact Hd].
        now rewrite (SUB _ I). }
      split; intros z Hz; apply EQ; [|now apply A2]. apply (grows_has _ _ _ _ GB). now apply A1. }
  assert (FIN : forall s6, cfg s s6 -> cfg s6 s' -> ready s' /\ numbered s').
  { intros s6 A1 A2. split; [apply (cfg_ready _ _ A2), (cfg_ready _ _ A1 RD)|apply (cfg_numbered _ _ A2), (cfg_numbered _ _ A1 NM)]. }
  destruct (rot_period _).
  { destruct (HS (o_ground O) GP) as [A1 A2].
    destruct (subs_add _ _ _ _ d2 p2 h1 H (cfg_ready _ _ C5 RD) A1 A2) as (C6 & X6). split; [now apply (FIN s5)|exact X6]. }
  assert (GG : sp = true -> (g || o_ground O)%bool = false) by (intros T; now rewrite (HG T), (GP T)).
  destruct (HS _ GG) as [A1 A2].
  case_eq (o_ground O); intros OG; rewrite OG in H, A1, A2.
  - change (set_chunks (dress s5 d2 p2 h1) _) with
      (dress (set_chunks s5 (option_map (fun l => set_ground l k) (s_chunks s5))) d2 p2 h1).
    set (s6 := set_chunks s5 (option_map (fun l => set_ground l k) (s_chunks s5))) in *.
    assert (R6 : ready s6) by (intros T; rewrite (GP T) in OG; discriminate).
    assert (N6 : numbered s6).
    { apply (cfg_numbered _ _ C5) in NM. intros y I. apply NM. unfold plain_chunks in *. unfold s6 in I.
      cbn [set_chunks s_chunks] in I. destruct (s_chunks s5); [|exact I]. cbn [option_map] in I. now rewrite set_ground_plain in I. }
    destruct (subs_add _ _ _ _ d2 p2 h1 H R6 A1 A2) as (C6 & X6). split; [|exact X6].
    split; [now apply (cfg_ready _ _ C6)|now apply (cfg_numbered _ _ C6)].
  - destruct (subs_add _ _ _ _ d2 p2 h1 H (cfg_ready _ _ C5 RD) A1 A2) as (C6 & X6). split; [now apply (FIN s5)|exact X6].
Qed.

Lemma chunks_add bidx q : forall ks s s' d p h, scan_chunks E P bidx q ks s = Ok s' -> ready s -> numbered s ->
  (ready s' /\ numbered s') /\ exists d' p' h', scan_chunks E W bidx q ks (dress s d p h) = Ok (dress s' d' p' h').
Proof.
  induction ks as [|k ks IH]; cbn [scan_chunks]; intros s s' d p h H R N; [injection H as <-; split; [now split|eauto]|].
  inv_bind H s1 H1. destruct (chunk_add _ _ _ _ _ d p h H1 R N) as ((R1 & N1) & d1 & p1 & h1 & X1). rewrite X1. cbn [bind].
  now apply IH.
Qed.

Lemma pair_add bidx which s s' d p h : scan_pair E P bidx which s = Ok s' -> ready s ->
  ready s' /\ exists d' p' h', scan_pair E W bidx which (dress s d p h) = Ok (dress s' d' p' h').
Proof.
  unfold scan_pair. change (o_preview W) with (o_preview O). change (o_reuse W) with (o_reuse O).
  change (o_ground W) with (o_ground O). change (o_preview P) with (o_preview O). change (o_reuse P) with (o_reuse O).
  change (o_ground P) with (o_ground O).
  set (s1 := if (bidx =? 0)%nat then s else set_strat s (reset (s_strat s))).
  replace (if (bidx =? 0)%nat then dress s d p h else set_strat (dress s d p h) (reset (s_strat (dress s d p h))))
    with (dress s1 d p h) by (unfold s1; destruct (bidx =? 0)%nat; reflexivity).
  assert (C1 : cfg s s1) by (unfold s1; destruct (bidx =? 0)%nat; constructor; reflexivity).
  clearbody s1. change (s_beams (dress s1 d p h)) with (s_beams s1). change (s_maps (dress s1 d p h)) with (s_maps s1).
  set (q := match which with Some i => match nth_error (s_beams s1) i with Some p => p | None => (None, None) end
            | None => (None, None) end). clearbody q.
  intros H RD. apply (cfg_ready _ _ C1) in RD. inv_bind H r Hr. destruct r as [q' s2].
  match goal with |- context [bind ?r _] => assert (X : cfg s1 s2 /\ r = Ok (q', dress s2 d p h)) end.
  { destruct q as [a b]. destruct a, b; try (injection Hr as <- <-; split; [apply cfg_refl|reflexivity]);
    (destruct (o_preview O); [injection Hr as <- <-; split; [apply cfg_refl|reflexivity]|]);
    (destruct (_ && o_reuse O)%bool; [injection Hr as <- <-; split; [apply cfg_refl|reflexivity]|]);
    inv_bind Hr r Hi; destruct r as [m q2]; rewrite Hi; cbn [bind]; destruct which; injection Hr as <- <-;
    (split; [constructor; reflexivity|reflexivity]). }
  destruct X as [C2 X]. rewrite X. cbn [bind]. clear X Hr. apply (cfg_ready _ _ C2) in RD.
  change (s_chunks (dress s2 d p h)) with (s_chunks s2).
  inv_bind H s3 H3.
  match goal with |- context [bind ?r _] => assert (X : ready s3 /\ r = Ok (dress s3 d p h)) end.
  { destruct (s_chunks s2) eqn:SC; [injection H3 as <-; now split|]. inv_bind H3 l Hl. rewrite Hl. cbn [bind].
    injection H3 as <-. split; [|reflexivity]. intros T. destruct (RD T) as [M _]. split; [exact M|].
    cbn [set_chunks s_chunks]. apply Forall_forall. intros z I. apply in_map_iff in I. now destruct I as (y & <- & _). }
  destruct X as [R3 X]. rewrite X. cbn [bind]. clear X H3.
  change (plain_chunks (dress s3 d p h)) with (plain_chunks s3).
  destruct (forallb _ (plain_chunks s3)) eqn:FB; cbn [bind] in *; [|discriminate].
  assert (N3 : numbered s3).
  { intros c I. rewrite forallb_forall in FB. apply FB in I. destruct (c_cidx c); [discriminate|discriminate I]. }
  destruct (chunks_add _ _ _ _ _ d p h H R3 N3) as ((A & _) & X). now split.
Qed.

Lemma pairs_add : forall l bidx s s' d p h, scan_pairs E P bidx l s = Ok s' -> ready s ->
  exists d' p' h', scan_pairs E W bidx l (dress s d p h) = Ok (dress s' d' p' h').
Proof.
  induction l as [|w l IH]; cbn [scan_pairs]; intros bidx s s' d p h H R; [injection H as <-; eauto|].
  inv_bind H s1 H1. destruct (pair_add _ _ _ _ d p h H1 R) as (R1 & d1 & p1 & h1 & E1). rewrite E1. cbn [bind].
  now apply IH.
Qed.

(** A scan that completes without saving completes when saving. *)
Lemma saving_completes s s' : scan_instrument E P s = Ok s' -> ready s ->
  exists d p h, scan_instrument E W s = Ok (dress s' d p h).
Proof.
  unfold scan_instrument. change (o_alm W) with (o_alm O). change (o_preview W) with (o_preview O).
  change (o_memmap W) with (o_memmap O). change (o_scatter W) with (o_scatter O).
  change (o_alm P) with (o_alm O). change (o_preview P) with (o_preview O).
  change (o_memmap P) with (o_memmap O). change (o_scatter P) with (o_scatter O). rewrite PV.
  destruct (negb (o_alm O) && negb false)%bool; [discriminate|]. cbn [andb]. cbv zeta.
  set (s1 := if (o_memmap O && negb (e_ext E))%bool then _ else s). intros H RD.
  assert (R1 : ready s1) by (unfold s1; destruct (_ && _)%bool; exact RD).
  destruct (pairs_add _ _ _ _ (s_data s1) (s_point s1) (s_hwps s1) H R1) as (d & p & h & X).
  rewrite dress_id in X. eauto.
Qed.
End Save.
