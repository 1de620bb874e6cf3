(** * Every detector follows the same course *)
From Coq Require Import Reals Lra.
From Verif Require Import Common LibList M_Chunks M_Steps M_Hwp M_Mpi M_Detpair M_Scan
  S_Chunks S_Detpair S_Scan S_Saved L_Chunks L_Steps L_Hwp L_Mpi L_Detpair L_Scan L_Scan2 L_Scan3 L_Scan4 L_Scan5
  L_Scan6 L_Scan7 L_Scan8 L_Scan10 L_Scan11 L_Scan12 L_Scan13.
Open Scope R_scope.

Lemma sky_app d a b : sky_views d (a ++ b) = sky_views d a ++ sky_views d b.
Proof.
  induction a as [|[c l|[i|i k] v t|i v t] a IH]; cbn; auto.
  destruct ((i =? d)%Z && negb (v_ground v)); cbn; rewrite IH; reflexivity.
Qed.
Lemma binv_app d a b : bin_views d (a ++ b) = bin_views d a ++ bin_views d b.
Proof.
  induction a as [|[c l|w v t|i v t] a IH]; cbn; auto. destruct (i =? d)%Z; cbn; rewrite IH; reflexivity.
Qed.

Record core (u v : strat) : Prop := mkcore {
  co_f : sg_fsamp u = sg_fsamp v; co_r : sg_rot u = sg_rot v; co_h : sg_hwp u = sg_hwp v }.

Lemma core_sym u v : core u v -> core v u.
Proof. intros []. constructor; congruence. Qed.
Lemma core_trans u v w : core u v -> core v w -> core u w.
Proof. intros [] []. constructor; congruence. Qed.

Section L.
  Context {B : Type}.
  Implicit Types (s : state B) (E : env B) (d : det B) (p q : bpair B).

  (** ** One stretch *)
  Lemma sky_ghosts E n vw (d : Z) maps i gr : forall gs k l, ghost_calls maps i gr k gs = Ok l ->
    sky_views d (map (@call_event B E n vw) l) = [].
  Proof.
    induction gs as [|g gs IH]; intros k l H; cbn [ghost_calls] in H.
    - injection H as <-. reflexivity.
    - destruct (gh_dead g); [eapply IH; eauto|]. inv_bind H b Hb. inv_bind H r Hr. injection H as <-.
      cbn. eapply IH; eauto.
  Qed.
  Lemma sky_calls E n vw O maps dd gr l (i : Z) :
    v_ground (vw false) = false -> v_ground (vw true) = true -> o_preview O = false ->
    calls_for O maps dd gr l ->
    sky_views i (map (@call_event B E n vw) l)
    = match live dd with Some d => if (d_id d =? i)%Z then [vw false] else [] | None => [] end.
  Proof.
    intros V0 V1 Hp H. unfold calls_for, calls_of in H. rewrite Hp in H. destruct (live dd) as [d|].
    - destruct H as [H _]. unfold det_calls in H. inv_bind H gs Hgs. inv_bind H gl Hgl. inv_bind H m Hm.
      injection H as <-. rewrite !map_app, !sky_app, (sky_ghosts _ _ _ _ _ _ _ _ _ _ Hgs). cbn [app].
      assert (X : sky_views i (map (call_event E n vw) gl) = []).
      { destruct gr; [inv_bind Hgl b Hb; injection Hgl as <-|injection Hgl as <-]; cbn; auto.
        rewrite V1. rewrite andb_false_r. reflexivity. }
      etransitivity; [apply (f_equal2 (@app _) X eq_refl)|]. cbn. rewrite V0, andb_true_r. destruct (d_id d =? i)%Z; reflexivity.
    - subst l. reflexivity.
  Qed.
  Lemma sky_bin O m d v t i : sky_views i (bin_event O m (d : det B) v t) = [].
  Proof. unfold bin_event. destruct (o_binning O); reflexivity. Qed.
  Lemma binv_bin O m d v t i : bin_views i (bin_event O m (d : det B) v t)
    = if o_binning O then if (d_id d =? i)%Z then [v] else [] else [].
  Proof. unfold bin_event. destruct (o_binning O); cbn; auto. Qed.
  Lemma binv_calls E n vw i l : bin_views i (map (@call_event B E n vw) l) = [].
  Proof. induction l as [|[[w b] g] l IH]; auto. Qed.

  Lemma sub_sky E O p n vw m la lb gr maps d :
    v_ground (vw false) = false -> v_ground (vw true) = true -> o_preview O = false -> apart p ->
    calls_for O maps (fst p) gr la -> calls_for O maps (snd p) gr lb -> is_live p d ->
    sky_views (d_id d) (sub_events E O p n vw m la lb) = [vw false]
    /\ (o_binning O = true -> bin_views (d_id d) (sub_events E O p n vw m la lb) = [vw false]).
  Proof.
    intros V0 V1 Hp Hap Ha Hb Hd.
    assert (SA := sky_calls E n vw O maps _ gr la (d_id d) V0 V1 Hp Ha).
    assert (SB := sky_calls E n vw O maps _ gr lb (d_id d) V0 V1 Hp Hb).
    unfold sub_events. cbv zeta.
    destruct (live (fst p)) as [a|] eqn:Ea, (live (snd p)) as [b|] eqn:Eb.
    - assert (Hab := Hap a b Ea Eb).
      assert (X : (a = d /\ (d_id b =? d_id d)%Z = false) \/ (b = d /\ (d_id a =? d_id d)%Z = false)).
      { destruct Hd as [Hd|Hd]; [left; split|right; split]; try congruence; apply Z.eqb_neq; congruence. }
      destruct (ctalk_on O (fst p) (snd p));
        rewrite !sky_app, !binv_app, SA, SB, !sky_bin, !binv_bin, !binv_calls;
        destruct X as [[-> X]|[-> X]]; rewrite X, Z.eqb_refl; split; auto; intros ->; reflexivity.
    - assert (a = d) by (destruct Hd; congruence). subst a.
      rewrite !sky_app, !binv_app, SA, !sky_bin, !binv_bin, !binv_calls, Z.eqb_refl. split; auto. intros ->. reflexivity.
    - assert (b = d) by (destruct Hd; congruence). subst b.
      rewrite !sky_app, !binv_app, SB, !sky_bin, !binv_bin, !binv_calls, Z.eqb_refl. split; auto. intros ->. reflexivity.
    - destruct Hd; congruence.
  Qed.

  Lemma move_course c x bore r u st h st' h' : core u st -> h_mode (sg_hwp u) <> OtherMode ->
    move x st h = Ok (st', h') ->
    exists u', core u' st' /\ sg_el u' = sg_el u /\ sg_el st' = sg_el st /\ h_mode (sg_hwp u') = h_mode (sg_hwp u)
      /\ sim (reset u') (reset u)
      /\ course_subs c bore (x :: r) u
         = do (l, u2) <- course_subs c bore r u';
           Ok (mkview false (ir_angle (sg_rot st')) h'
                 (slice bore (Z.to_nat (c_start x - c_start c)) (Z.to_nat (c_end x - c_start c))) (c_start x) :: l, u2).
  Proof.
    intros [Ef Er Eh] Hm H. unfold move in H.
    destruct u as [uf ur uh ue], st as [sf sr sh se]. cbn in Ef, Er, Eh, Hm. subst uf ur uh.
    assert (X : exists i, (if c_norot x then (Ok XNone, mkstrat sf sr sh ue) else run_op ORotate (mkstrat sf sr sh ue))
                  = (fst (if c_norot x then (Ok XNone, mkstrat sf sr sh se) else run_op ORotate (mkstrat sf sr sh se)), mkstrat sf i sh ue)
               /\ snd (if c_norot x then (Ok XNone, mkstrat sf sr sh se) else run_op ORotate (mkstrat sf sr sh se)) = mkstrat sf i sh se).
    { destruct (c_norot x); [exists sr; auto|]. cbn. destruct (rotate_instr sr) as [i|]; cbn; eauto. }
    destruct X as (i & X1 & X2). 
    assert (RX : sim (reset (mkstrat sf i sh ue)) (reset (mkstrat sf sr sh ue))).
    { assert (Y := reset_after_op ORotate (mkstrat sf sr sh ue)). destruct (c_norot x); [|rewrite X1 in Y; exact Y].
      injection X1 as <-. apply sim_refl. }
    destruct (if c_norot x then (Ok XNone, mkstrat sf sr sh se) else run_op ORotate (mkstrat sf sr sh se)) as [o st1] eqn:Eo.
    cbn [fst snd] in X1, X2. subst st1. destruct o as [o|]; [|discriminate].
    cbn [run_op sg_fsamp sg_hwp sg_rot sg_el] in H. fold (csize x) in *.
    destruct (rotate_hwp sf None (csize x) sh) as [[oh h1]|] eqn:Eh; [|discriminate].
    injection H as <- <-. exists (mkstrat sf i h1 ue). cbn [sg_fsamp sg_rot sg_hwp sg_el].
    assert (Hs : oh <> HStale).
    { intros ->. apply rotate_hwp_stale in Eh. auto. }
    split; [constructor; reflexivity|]. split; auto. split; auto.
    split; [eapply rotate_hwp_mode; eauto|].
    split.
    { eapply sim_trans; [|exact RX]. assert (Y := reset_after_op (OHwp None (csize x)) (mkstrat sf i sh ue)).
      cbn [run_op sg_fsamp sg_hwp sg_rot sg_el] in Y. rewrite Eh in Y. exact Y. }
    cbn [course_subs]. cbv zeta. rewrite X1. cbn [bind fst snd run_op sg_fsamp sg_hwp sg_rot sg_el].
    change (Z.to_nat (c_end x - c_start x)) with (csize x). rewrite Eh. cbn [bind fst snd sg_rot].
    destruct oh; try reflexivity. destruct (Hs eq_refl).
  Qed.

  Lemma subs_course E O p c k : (o_ground O = true -> o_preview O = false) -> o_preview O = false ->
    apart p -> forall subs a s s' u,
    tiles a (c_end c) (map span subs) -> (c_start c <= a)%Z ->
    (forall x, In x subs -> c_cidx x = Some k) -> nth_error (plain_chunks s) k = Some c ->
    core u (s_strat s) -> h_mode (sg_hwp u) <> OtherMode ->
    scan_subs E O p (map (fun c => (c, o_ground O)) subs) s = Ok s' ->
    exists evs V u', s_log s' = s_log s ++ evs
      /\ course_subs c (s_bore s) subs u = Ok (V, u') /\ core u' (s_strat s')
      /\ sg_el u' = sg_el u /\ sg_el (s_strat s') = sg_el (s_strat s)
      /\ h_mode (sg_hwp u') = h_mode (sg_hwp u) /\ sim (reset u') (reset u)
      /\ s_mmap s' = s_mmap s
      /\ forall d, is_live p d -> sky_views (d_id d) evs = V /\ (o_binning O = true -> bin_views (d_id d) evs = V).
  Proof.
    intros Hg Hp Hap. induction subs as [|x subs IH]; intros a s s' u T Hle Hci Hpc Hc Hm H; cbn [map scan_subs] in H.
    { injection H as <-. exists [], [], u. rewrite app_nil_r. do 2 (split; [reflexivity|]). split; auto. split; auto. split; auto.
      split; auto. split; [apply sim_refl|]. split; auto. }
    inv_bind H s1 H1. cbn [map] in T. destruct x as [xa xb xc xn]. cbn in T. destruct T as (-> & Hlt & T).
    set (x := mkchunk a xb xc xn) in *.
    assert (Sp := scan_sub_spec _ _ _ _ _ _ _ Hg H1).
    destruct Sp as (st & h & la & lb & Hmv & Ha & Hb & F & El & _).
    destruct (move_course c x (s_bore s) subs u _ _ _ _ Hc Hm Hmv) as (u1 & C1 & E1 & E2 & M1 & R1 & Cs).
    assert (Xc : xc = Some k) by (apply (Hci x); now left).
    assert (PC1 : plain_chunks s1 = plain_chunks s).
    { unfold plain_chunks. rewrite (f_chunks _ _ F). reflexivity. }
    destruct (IH xb s1 s' u1) as (evs & V & u' & L2 & Cr & C2 & E3 & E4 & M2 & R2 & MM & Vs); auto.
    { lia. }
    { intros y Hy. apply Hci. now right. }
    { rewrite PC1. exact Hpc. }
    { rewrite (f_strat _ _ F). exact C1. }
    { rewrite M1. exact Hm. }
    assert (Bo : s_bore s1 = s_bore s) by (rewrite (f_bore _ _ F); reflexivity).
    rewrite Bo in Cr. rewrite Cr in Cs. cbn [bind] in Cs.
    eexists _, _, u'. split; [rewrite L2, El, <- app_assoc; reflexivity|]. split; [exact Cs|]. split; auto.
    split; [congruence|]. split; [rewrite E4, (f_strat _ _ F); cbn; exact E2|].
    split; [congruence|]. split; [eapply sim_trans; eauto|].
    split; [rewrite MM, (f_mmap _ _ F); reflexivity|].
    intros d Hd. destruct (Vs d Hd) as [V1 V2].
    set (vw := the_views x (moved s st h)) in *.
    assert (Ev : vw false = mkview false (ir_angle (sg_rot st)) h
               (slice (s_bore s) (Z.to_nat (c_start x - c_start c)) (Z.to_nat (c_end x - c_start c))) (c_start x)).
    { unfold vw, the_views, view_of, bore_of, chunk_slice, chunk2idx.
      change (plain_chunks (moved s st h)) with (plain_chunks s). cbn [c_cidx x]. rewrite Xc, Hpc. cbn [bind].
      destruct (Z.ltb_spec (c_start x - c_start c) 0) as [Hn|_]; [cbn in Hn; lia|]. reflexivity. }
    destruct (sub_sky E O p (csize x) vw (h_mode (sg_hwp st)) la lb (o_ground O) (s_maps s) d) as [S1 S2]; auto.
    rewrite sky_app, S1, V1, Ev. split; [reflexivity|].
    intros Hbn. rewrite binv_app, S2, V2, Ev by auto. reflexivity.
  Qed.

  (** ** A chunk *)
  Lemma chunk_course E O bidx p k s s' c g u bore u1 :
    (o_ground O = true -> o_preview O = false) -> o_preview O = false -> apart p ->
    no_stale O (chunks_of s) -> (c_start c < c_end c)%Z -> c_cidx c = Some k ->
    rot_fine (ir_rot (sg_rot (s_strat s))) ->
    nth_error (chunks_of s) k = Some (c, g) -> core u (s_strat s) -> h_mode (sg_hwp u) <> OtherMode ->
    course_point (e_ext E) (e_elev E) c u = Ok (bore, u1) -> 
    (forall s1, implement_scan E (negb (bidx =? 0)%nat) (o_ground O) c s = Ok s1 -> s_bore s1 = bore) ->
    scan_chunk E O bidx p k s = Ok s' ->
    exists s1 evs V u', s_log s' = s_log s ++ evs
      /\ implement_scan E (negb (bidx =? 0)%nat) (o_ground O) c s = Ok s1
      /\ course_chunk (e_ext E) (e_elev E) c u = Ok (V, u') /\ core u' (s_strat s')
      /\ sg_el u' = sg_el u1 /\ sg_el (s_strat s') = sg_el (s_strat s1) /\ s_mmap s' = s_mmap s1
      /\ h_mode (sg_hwp u') = h_mode (sg_hwp u) /\ sim (reset u') (reset u)
      /\ forall d, is_live p d -> sky_views (d_id d) evs = V /\ (o_binning O = true -> bin_views (d_id d) evs = V).
  Proof.
    intros Hg Hp Hap Hst Hpos Hk Hrot Ek Hc Hm Hpt Hbo H.
    destruct (deep_chunk _ _ _ _ _ _ _ _ _ Hst Ek H) as
      (s1 & subs & r1 & s6 & H1 & Hsub & St & _ & Bo6 & M6 & _ & PC & L6 & _ & _ & Hs).
    specialize (Hbo _ H1). assert (H1' := H1). apply implement_scan_like in H1'. destruct H1' as (b' & L1 & K1 & R1).
    assert (C1 : core u1 (s_strat s1) /\ h_mode (sg_hwp u1) = h_mode (sg_hwp u) /\ sim (reset u1) (reset u)).
    { assert (Cs1 : core (s_strat s) (s_strat s1)).
      { unfold implement_scan in H1. destruct (e_ext E); [injection H1 as <-; constructor; reflexivity|].
        destruct (if negb (bidx =? 0)%nat then s_mmap s else None); [injection H1 as <-; constructor; reflexivity|].
        inv_bind H1 y Hy. destruct y as [y s0]. injection H1 as <-. apply lift_op_inv in Hy. destruct Hy as (st & Hy & ->).
        assert (X : core (s_strat s) st).
        { cbn in Hy. destruct (sg_el (s_strat s)) as [e|]; [|injection Hy as _ <-; constructor; reflexivity].
          destruct (el_on e); cbn in Hy; [|injection Hy as _ <-; constructor; reflexivity].
          destruct (step_array _ _ _) as [[]|]; [|discriminate]. injection Hy as _ <-. constructor; reflexivity. }
        destruct (o_ground O); exact X. }
      unfold course_point in Hpt. destruct (e_ext E).
      - injection Hpt as _ <-. destruct Hc, Cs1. split; [constructor; congruence|]. split; auto. apply sim_refl.
      - inv_bind Hpt y Hy. assert (X : core u (snd (run_op (OEl (e_elev E c)) u))).
        { cbn. destruct (sg_el u) as [e|]; [|constructor; reflexivity].
          destruct (el_on e); cbn; [|constructor; reflexivity].
          destruct (step_array _ _ _) as [[]|]; constructor; reflexivity. }
        assert (Y := reset_after_op (OEl (e_elev E c)) u).
        destruct y; try discriminate. injection Hpt as _ <-. split; [exact (core_trans _ _ _ (core_sym _ _ X) (core_trans _ _ _ Hc Cs1))|].
        split; [exact (f_equal h_mode (eq_sym (co_h _ _ X)))|exact Y]. }
    destruct C1 as (C1 & M1 & Re1).
    rewrite R1 in Hsub.
    destruct (subpart_tiles _ _ _ _ Hrot Hpos Hsub) as (T & _ & Hci & _).
    set (u2 := mkstrat (sg_fsamp u1) (mkirot r1 (ir_start (sg_rot u1)) (ir_angles (sg_rot u1)) (ir_angle (sg_rot u1)) (ir_gen (sg_rot u1)))
                 (sg_hwp u1) (sg_el u1)).
    assert (O2 : run_op (OSub c) u1 = (Ok (XSub subs), u2)).
    { cbn [run_op]. rewrite (co_r _ _ C1), R1, Hsub. unfold u2. rewrite (co_r _ _ C1). reflexivity. }
    destruct (subs_course E O p c k Hg Hp Hap subs (c_start c) s6 s' u2)
      as (evs & V & u' & L2 & Cr & C2 & E3 & E4 & M2 & R2 & MM & Vs); auto.
    { lia. }
    { intros x Hx. rewrite Hci; auto. }
    { rewrite PC, plain_of, nth_error_map, Ek. reflexivity. }
    { cbv zeta in St. rewrite St. destruct C1 as [F1 F2 F3]. constructor; cbn; congruence. }
    { cbn. congruence. }
    exists s1, (EPoint c b' :: evs), V, u'. split; [rewrite L2, L6, L1, <- app_assoc; reflexivity|].
    split; auto. split.
    { unfold course_chunk. rewrite Hpt. cbn [bind]. rewrite O2. cbn [bind fst snd].
      rewrite Bo6, Hbo in Cr. exact Cr. }
    split; auto. split; auto. split; [rewrite E4, St; reflexivity|]. split; [congruence|]. split; [rewrite M2; exact M1|].
    split; auto.
    eapply sim_trans; [exact R2|]. eapply sim_trans; [|exact Re1].
    assert (Y := reset_after_op (OSub c) u1). rewrite O2 in Y. exact Y.
  Qed.

  (** ** Chunks, for a rule [I] that tells where the boresight comes from *)
  Lemma chunks_course E O bidx p (I : list chunk -> strat -> state B -> Prop) :
    (o_ground O = true -> o_preview O = false) -> o_preview O = false -> apart p ->
    (forall c r u s s1, I (c :: r) u s -> implement_scan E (negb (bidx =? 0)%nat) (o_ground O) c s = Ok s1 ->
       exists bore u1, course_point (e_ext E) (e_elev E) c u = Ok (bore, u1) /\ s_bore s1 = bore
         /\ forall u' s', sg_el u' = sg_el u1 -> sg_el (s_strat s') = sg_el (s_strat s1) -> s_mmap s' = s_mmap s1 ->
              I r u' s') ->
    forall rest pre s s' u, map fst (chunks_of s) = pre ++ rest ->
    no_stale O (chunks_of s) -> pos_chunks (pre ++ rest) -> numbered (pre ++ rest) ->
    rot_fine (ir_rot (sg_rot (s_strat s))) -> core u (s_strat s) -> h_mode (sg_hwp u) <> OtherMode ->
    I rest u s -> scan_chunks E O bidx p (seq (length pre) (length rest)) s = Ok s' ->
    exists evs V u', s_log s' = s_log s ++ evs
      /\ course (e_ext E) (e_elev E) rest u = Ok (V, u') /\ core u' (s_strat s') /\ I [] u' s'
      /\ sim (reset u') (reset u)
      /\ forall d, is_live p d -> sky_views (d_id d) evs = V /\ (o_binning O = true -> bin_views (d_id d) evs = V).
  Proof.
    intros Hg Hp Hap Hstep. induction rest as [|c rest IH]; intros pre s s' u Hcs Hst Hpos Hnum Hrot Hc Hm HI H;
      cbn [length seq scan_chunks] in H.
    { injection H as <-. exists [], [], u. rewrite app_nil_r. do 2 (split; [reflexivity|]). do 2 (split; auto).
      split; [apply sim_refl|auto]. }
    inv_bind H s1 H1.
    assert (Ek : nth_error (map fst (chunks_of s)) (length pre) = Some c).
    { rewrite Hcs, nth_error_app2, Nat.sub_diag by lia. reflexivity. }
    assert (Eck : c_cidx c = Some (length pre)) by (apply Hnum; rewrite <- Hcs; exact Ek).
    rewrite nth_error_map in Ek. destruct (nth_error (chunks_of s) (length pre)) as [[c0 g]|] eqn:Eg; [|discriminate].
    cbn in Ek. injection Ek as ->.
    assert (Pc : (c_start c < c_end c)%Z) by (apply Hpos; apply in_or_app; right; now left).
    destruct (deep_chunk _ _ _ _ _ _ _ _ _ Hst Eg H1) as (sx & _ & _ & _ & Hsx & _).
    destruct (Hstep c rest u s sx HI Hsx) as (bore & u1 & Hpt & Hbo & Hnext).
    assert (X := H1).
    apply (chunk_course E O bidx p (length pre) s s1 c g u bore u1) in X; auto.
    2:{ intros s2 Hs2. rewrite Hsx in Hs2. injection Hs2 as <-. exact Hbo. }
    destruct X as (sy & e1 & V1 & u2 & L1 & Hsy & Cc & C2 & E2 & E2' & MM & M2 & R2 & Vs1).
    rewrite Hsx in Hsy. injection Hsy as <-.
    apply scan_chunk_like in H1; auto; [|apply pos_positive; rewrite Hcs; auto].
    destruct H1 as (_ & _ & _ & K1 & N1 & F1).
    replace (S (length pre)) with (length (pre ++ [c])) in H by (rewrite app_length; cbn; lia).
    apply (IH (pre ++ [c]) s1 s' u2) in H; rewrite <- ?app_assoc; auto.
    2:{ rewrite (k2_chunks _ _ K1). exact Hcs. }
    2:{ congruence. }
    destruct H as (e2 & V2 & u' & L2 & Cr & C3 & I3 & R3 & Vs2).
    exists (e1 ++ e2), (V1 ++ V2), u'. split; [rewrite L2, L1, app_assoc; reflexivity|].
    split; [cbn [course]; rewrite Cc; cbn [bind]; rewrite Cr; reflexivity|].
    split; auto. split; auto. split; [eapply sim_trans; eauto|].
    intros d Hd. destruct (Vs1 d Hd) as [A1 A2], (Vs2 d Hd) as [B1 B2].
    rewrite sky_app, binv_app, A1, B1. split; auto. intros Hb. rewrite A2, B2; auto.
  Qed.
End L.
