(** * Scanning a chunk succeeds *)
From Coq Require Import Reals Lra.
From Verif Require Import Common LibList M_Chunks M_Steps M_Hwp M_Mpi M_Detpair M_Scan S_Chunks S_Detpair S_Scan S_Complete
  L_Chunks L_Detpair L_Scan L_Scan2 L_Scan4 L_Scan5 L_Scan12 L_Complete L_Complete2.
From Verif Require M_Tod M_Blm L_Tod.
Open Scope R_scope.

Section L.
  Context {B : Type}.
  Implicit Types (s : state B) (E : env B) (d : det B) (p : bpair B).

  (** What scanning leaves alone. *)
  Record after s s' : Prop := mkafter {
    a_beams : s_beams s' = s_beams s;
    a_chunks : s_chunks s' = s_chunks s;
    a_maps : s_maps s' = s_maps s;
    a_mmap : s_mmap s' = s_mmap s;
    a_bore : s_bore s' = s_bore s;
    a_gbore : s_gbore s' = s_gbore s;
    a_data : forall i k, s_data s i k <> None -> s_data s' i k <> None }.
  Lemma after_refl s : after s s.
  Proof. constructor; auto. Qed.
  Lemma after_trans a b c : after a b -> after b c -> after a c.
  Proof. intros [] []. constructor; try congruence. auto. Qed.
  Lemma grows_after s s' : grows s s' -> after s s'.
  Proof. intros [[] D Q]. constructor; auto. Qed.
  Lemma grows_strat s s' : grows s s' -> s_strat s' = s_strat s.
  Proof. intros [[]]. auto. Qed.
  Lemma placed_after ground c s s' : after s s' -> placed ground c s -> placed ground c s'.
  Proof.
    intros [] (k & P & H). exists k, P. unfold plain_chunks in *. rewrite a_chunks0, a_bore0, a_gbore0. exact H.
  Qed.

  Definition in_pair p d : Prop := live (fst p) = Some d \/ live (snd p) = Some d.
  Definition pair_fine (O : opts) maps (ground : bool) p : Prop :=
    forall d, in_pair p d -> d_ghost d = false /\ (o_preview O = false -> served maps ground d).
  Definition stored (O : opts) (c : chunk) p s : Prop :=
    o_save_tod O = true -> forall d, in_pair p d -> forall ci, c_cidx c = Some ci -> s_data s ci (d_id d) <> None.

  Lemma live_dead (x : option (det B)) d : live x = Some d -> d_dead d = false.
  Proof. destruct x as [e|]; cbn; [|discriminate]. destruct (d_dead e) eqn:D; [discriminate|]. congruence. Qed.

  Lemma lift_ok o s x u : run_op o (s_strat s) = (Ok x, u) -> lift_op o s = Ok (x, set_strat s u).
  Proof. intros H. unfold lift_op. rewrite H. reflexivity. Qed.

  Lemma radd_ok n x y : length x = n -> length y = n -> exists z, M_Tod.radd_arr x y = Ok z /\ length z = n.
  Proof.
    intros Hx Hy. unfold M_Tod.radd_arr. rewrite Hx, Hy, Nat.eqb_refl. eexists. split; [reflexivity|].
    unfold M_Blm.zipwith. rewrite map_length, combine_length. lia.
  Qed.
  Lemma cross_ok n x y k : length x = n -> length y = n -> exists z, M_Tod.cross_talk x y k = Ok z.
  Proof.
    intros Hx Hy. unfold M_Tod.cross_talk. destruct (radd_ok n x y Hx Hy) as (z & -> & Lz). cbn [bind].
    destruct (radd_ok n (M_Tod.rscale (1 - k) x) (M_Tod.rscale k z)) as (a & -> & _);
      try (unfold M_Tod.rscale; rewrite map_length; auto). cbn [bind].
    destruct (radd_ok n (M_Tod.rscale (1 - k) y) (M_Tod.rscale k z)) as (b & -> & _);
      try (unfold M_Tod.rscale; rewrite map_length; auto). cbn [bind]. eauto.
  Qed.

  Definition filter_fine (O : opts) (m : hmode) : Prop :=
    o_binning O = true -> forall t, exists t', o_filter O m t = Ok t'.

  Lemma sub_ok E O m p ground c s :
    preview_opts O -> ground_opts O ground -> filter_fine O m ->
    steady m (s_strat s) -> placed ground c s ->
    pair_fine O (s_maps s) ground p -> stored O c p s ->
    exists s', scan_sub E O p ground c s = Ok s' /\ steady m (s_strat s') /\ after s s'.
  Proof.
    intros Pv Go Ff St Pl Pf Sd. destruct p as [a b]. unfold scan_sub.
    assert (X : exists y s1, (if c_norot c then Ok (XNone, s) else lift_op ORotate s) = Ok (y, s1)
      /\ steady m (s_strat s1) /\ after s s1).
    { destruct (c_norot c); [eexists _, _; split; [reflexivity|]; auto using after_refl|].
      destruct (steady_rotate m _ St) as (y & u & E1 & S1). rewrite (lift_ok _ _ _ _ E1).
      eexists _, _. split; [reflexivity|]. split; [exact S1|]. constructor; auto. }
    destruct X as (y & s1 & E1 & St1 & A1). rewrite E1. cbn [bind].
    assert (Cs : (0 < csize c)%nat).
    { destruct Pl as (k & P & _ & _ & _ & L & _). unfold csize. lia. }
    destruct (steady_hwp m _ (csize c) St1 Cs) as (h & u & E2 & St2 & Fit).
    rewrite (lift_ok _ _ _ _ E2). cbn [bind].
    assert (X : match XHwp h with XHwp HStale => set_strat s1 u | XHwp h => set_hwp (set_strat s1 u) (Some h) | _ => set_strat s1 u end
      = set_hwp (set_strat s1 u) (Some h)) by (destruct h; [reflexivity|reflexivity|destruct Fit]).
    rewrite X. clear X.
    set (s2 := set_hwp (set_strat s1 u) (Some h)).
    assert (A2 : after s s2) by (eapply after_trans; [exact A1|]; constructor; auto).
    assert (H2 : s_hwp s2 = Some h) by reflexivity.
    change (steady m (s_strat s2)) in St2. clearbody s2.
    assert (Det : forall d t, in_pair (a, b) d -> grows s2 t ->
      exists t', scan_detector E O d ground c t = Ok t' /\ grows s2 t' /\ has_tod (csize c) t'
        /\ s_qoff t' (d_id d) <> None).
    { intros d t Id G. destruct (Pf d Id) as [Dg Sv].
      destruct (detector_ok E O d ground c t h) as (t' & Et & Gt & Tt & Qt); auto.
      - destruct Id as [Id|Id]; eapply live_dead; eauto.
      - eapply placed_after; [|exact Pl]. eapply after_trans; [exact A2|]. now apply grows_after.
      - rewrite (a_maps _ _ (grows_after _ _ G)), (a_maps _ _ A2). exact Sv.
      - rewrite (f_hwp _ _ (g_frame _ _ G)). exact H2.
      - intros Sv1 ci Hc. apply (a_data _ _ (grows_after _ _ G)), (a_data _ _ A2). apply (Sd Sv1); auto.
      - exists t'. split; auto. split; [eapply grows_trans; eauto|auto]. }
    assert (Bin : forall d tod t, grows s2 t -> s_qoff t (d_id d) <> None -> (tod = None -> exists n, has_tod n t) ->
      o_binning O = true -> exists x t', bin_tod O d tod c t = Ok (x, t') /\ grows s2 t').
    { intros d tod t G Q T Bn.
      destruct (bin_ok O d tod c t h m) as (x & t' & Et & Gt); auto.
      - eapply placed_after; [|eapply placed_sky; exact Pl]. eapply after_trans; [exact A2|]. now apply grows_after.
      - rewrite (f_hwp _ _ (g_frame _ _ G)). exact H2.
      - rewrite (grows_strat _ _ G). apply (sy_mode _ _ St2).
      - exists x, t'. split; auto. eapply grows_trans; eauto. }
    assert (Fin : forall t, grows s2 t -> steady m (s_strat t) /\ after s t).
    { intros t G. split; [rewrite (grows_strat _ _ G); exact St2|].
      eapply after_trans; [exact A2|]. now apply grows_after. }
    assert (Put : forall d tod t, grows s2 t -> in_pair (a, b) d -> o_save_tod O = true ->
      exists t', put_tod (d_id d) c tod t = Ok t' /\ grows t t' /\ s_tod t' = s_tod t).
    { intros d tod t G Id Sv1. apply put_tod_fine.
      - eapply placed_after; [|eapply placed_sky; exact Pl]. eapply after_trans; [exact A2|]. now apply grows_after.
      - intros ci Hc. apply (a_data _ _ (grows_after _ _ G)), (a_data _ _ A2). apply (Sd Sv1); auto. }
    (* B alone, after A *)
    assert (OneB : forall t, grows s2 t -> exists t',
      (match live b with
       | None => Ok t
       | Some b =>
           do s <- scan_detector E O b ground c t;
           if o_binning O then do (_, s) <- bin_tod O b None c s; Ok s else Ok s
       end) = Ok t' /\ grows s2 t').
    { intros t G. destruct (live b) as [b'|] eqn:Lb; [|eauto].
      destruct (Det b' t) as (t1 & -> & G1 & T1 & Q1); [right; exact Lb|exact G|]. cbn [bind].
      destruct (o_binning O) eqn:Bn; [|eauto].
      destruct (Bin b' None t1 G1 Q1 (fun _ => ex_intro (fun n => has_tod n t1) (csize c) T1) eq_refl) as (x & t2 & -> & G2). cbn [bind]. eauto. }
    destruct (live a) as [a'|] eqn:La.
    - destruct (Det a' s2) as (s3 & -> & G3 & T3 & Q3); [left; exact La|apply grows_refl|]. cbn [bind].
      destruct (live b) as [b'|] eqn:Lb.
      + destruct (Req_EM_T (o_ctalk O) 0).
        * (* no cross-talk *)
          assert (X : exists s4, (if o_binning O then do (_, s) <- bin_tod O a' None c s3; Ok (@None (list R), s)
                          else Ok (None, s3)) = Ok (None, s4) /\ grows s2 s4).
          { destruct (o_binning O) eqn:Bn; [|eauto].
            destruct (Bin a' None s3 G3 Q3 (fun _ => ex_intro (fun n => has_tod n s3) (csize c) T3) eq_refl) as (x & s4 & -> & G4). cbn [bind]. eauto. }
          destruct X as (s4 & -> & G4). cbn [bind].
          destruct (OneB s4 G4) as (s5 & E5 & G5). rewrite E5. cbn [bind]. exists s5. split; auto.
        * destruct T3 as (ta & Ea & Lta). rewrite Ea. cbn [bind].
          destruct (Det b' s3) as (s4 & E4 & G4 & T4 & Q4); [right; exact Lb|exact G3|]. rewrite E4. cbn [bind].
          destruct T4 as (tb & Eb & Ltb). rewrite Eb.
          destruct (cross_ok (csize c) ta tb (o_ctalk O) Lta Ltb) as ([xa xb] & Ex). rewrite Ex. cbn [bind].
          set (s5 := set_tod s4 (Some xb)).
          assert (G5 : grows s2 s5).
          { eapply grows_trans; [exact G4|]. constructor; auto. constructor; reflexivity. }
          assert (QA : s_qoff s5 (d_id a') <> None).
          { destruct (Pf b' (or_intror Lb)) as [Dg Sv].
            destruct (detector_ok E O b' ground c s3 h) as (t' & Et & Gt & _); auto.
            - eapply live_dead; eauto.
            - eapply placed_after; [|exact Pl]. eapply after_trans; [exact A2|]. now apply grows_after.
            - rewrite (a_maps _ _ (grows_after _ _ G3)), (a_maps _ _ A2). exact Sv.
            - rewrite (f_hwp _ _ (g_frame _ _ G3)). exact H2.
            - intros Sv1 ci Hc. apply (a_data _ _ (grows_after _ _ G3)), (a_data _ _ A2). apply (Sd Sv1); auto. right; auto.
            - rewrite E4 in Et. injection Et as <-. apply (g_qoff _ _ Gt). exact Q3. }
          assert (QB : s_qoff s5 (d_id b') <> None) by exact Q4.
          clearbody s5.
          assert (X : exists s6, (if o_save_tod O then do s <- put_tod (d_id a') c xa s5; put_tod (d_id b') c xb s else Ok s5) = Ok s6
            /\ grows s5 s6).
          { destruct (o_save_tod O) eqn:Sv; [|eauto using grows_refl].
            destruct (Put a' xa s5 G5 (or_introl La) eq_refl) as (t1 & -> & Gt1 & _). cbn [bind].
            assert (G51 : grows s2 t1) by (eapply grows_trans; eauto).
            destruct (Put b' xb t1 G51 (or_intror Lb) eq_refl) as (t2 & -> & Gt2 & _).
            exists t2. split; auto. eapply grows_trans; eauto. }
          destruct X as (s6 & -> & G56). cbn [bind].
          assert (G6 : grows s2 s6) by (eapply grows_trans; eauto).
          destruct (o_binning O) eqn:Bn; [|exists s6; split; auto].
          assert (QB6 : s_qoff s6 (d_id b') <> None) by (apply (g_qoff _ _ G56), QB).
          destruct (bin_ok O a' (Some xa) c s6 h m) as (y1 & s7 & E7 & G67); auto.
          { eapply placed_after; [|eapply placed_sky; exact Pl]. eapply after_trans; [exact A2|]. now apply grows_after. }
          { rewrite (f_hwp _ _ (g_frame _ _ G6)). exact H2. }
          { apply (g_qoff _ _ G56), QA. }
          { discriminate. }
          { rewrite (grows_strat _ _ G6). apply (sy_mode _ _ St2). }
          rewrite E7. cbn [bind].
          destruct (Bin b' (Some xb) s7) as (y2 & s8 & E8 & G8); auto.
          { eapply grows_trans; eauto. } { apply (g_qoff _ _ G67), QB6. } { discriminate. }
          rewrite E8. cbn [bind]. eexists. split; [reflexivity|]. apply Fin.
          eapply grows_trans; [exact G8|]. constructor; auto. constructor; reflexivity.
      + assert (X : exists s4, (if o_binning O then do (_, s) <- bin_tod O a' None c s3; Ok (@None (list R), s)
                          else Ok (None, s3)) = Ok (None, s4) /\ grows s2 s4).
        { destruct (o_binning O) eqn:Bn; [|eauto].
          destruct (Bin a' None s3 G3 Q3 (fun _ => ex_intro (fun n => has_tod n s3) (csize c) T3) eq_refl) as (x & s4 & -> & G4). cbn [bind]. eauto. }
        destruct X as (s4 & -> & G4). cbn [bind]. exists s4. split; auto.
    - cbn [bind]. destruct (OneB s2 (grows_refl _)) as (s5 & E5 & G5). rewrite E5. cbn [bind].
      exists s5. split; auto.
  Qed.

  Lemma subs_ok E O m p ground : 
    preview_opts O -> ground_opts O ground -> filter_fine O m -> forall subs s,
    steady m (s_strat s) -> (forall c, In c subs -> placed ground c s) ->
    pair_fine O (s_maps s) ground p -> (forall c, In c subs -> stored O c p s) ->
    exists s', scan_subs E O p (map (fun c => (c, ground)) subs) s = Ok s' /\ steady m (s_strat s') /\ after s s'.
  Proof.
    intros Pv Go Ff. induction subs as [|c r IH]; intros s St Pl Pf Sd; cbn [map scan_subs].
    - eauto using after_refl.
    - destruct (sub_ok E O m p ground c s) as (s1 & -> & St1 & A1); auto using in_eq. cbn [bind].
      destruct (IH s1) as (s2 & -> & St2 & A2); auto.
      + intros c' I. eapply placed_after; [exact A1|]. apply Pl. now right.
      + rewrite (a_maps _ _ A1). exact Pf.
      + intros c' I Sv d Id ci Hc. apply (a_data _ _ A1). apply (Sd c' (or_intror I) Sv d Id ci Hc).
      + exists s2. split; auto. split; auto. eapply after_trans; eauto.
  Qed.

  (** ** A chunk *)
  Record setting E (O : opts) (m : hmode) (ground : bool) s : Prop := mksetting {
    se_steady : steady m (s_strat s);
    se_mmap : forall x, s_mmap s = Some x -> Z.of_nat (length x) = e_nsamp E;
    se_nomap : ground = true -> s_mmap s = None }.

  Lemma implement_ok E O m (pre ground : bool) c s :
    setting E O m ground s -> (ground = true -> e_ext E = false) ->
    (0 <= c_start c < c_end c)%Z -> (c_end c <= e_nsamp E)%Z ->
    (forall c, Z.of_nat (length (e_elev E c)) = Z.max 0 (c_end c - c_start c)) ->
    exists s', implement_scan E pre ground c s = Ok s' /\ setting E O m ground s'
      /\ s_beams s' = s_beams s /\ s_chunks s' = s_chunks s /\ s_maps s' = s_maps s
      /\ length (s_bore s') = csize c
      /\ (ground = true -> exists g, s_gbore s' = Some g /\ length g = csize c).
  Proof.
    intros [St Mm Nm] Ge C1 C2 El. unfold implement_scan.
    assert (Le : length (e_elev E c) = csize c) by (specialize (El c); unfold csize; lia).
    destruct (e_ext E) eqn:Ex.
    - eexists. split; [reflexivity|]. split; [constructor; auto|]. cbn. repeat split; auto.
      intros G. discriminate (Ge G).
    - destruct (if pre then s_mmap s else None) as [x|] eqn:Ep.
      + destruct pre; [|discriminate]. eexists. split; [reflexivity|]. split; [constructor; auto|]. cbn.
        repeat split; auto.
        * specialize (Mm _ Ep). unfold slice. rewrite firstn_length, skipn_length. unfold csize. lia.
        * intros G. rewrite (Nm G) in Ep. discriminate.
      + destruct (steady_el m _ (e_elev E c) St) as (l & u & Eo & St' & Ll). rewrite (lift_ok _ _ _ _ Eo). cbn [bind].
        rewrite Le in Ll. destruct ground; eexists; (split; [reflexivity|]); (split; [|cbn; repeat split; auto; eauto; discriminate]);
          (constructor; cbn; auto).
        * intros x. rewrite (Nm eq_refl). discriminate.
        * intros _. rewrite (Nm eq_refl). reflexivity.
        * intros x Hx. destruct (s_mmap s) as [y|]; [|discriminate]. injection Hx as <-.
          specialize (Mm y eq_refl). rewrite splice_length; auto. rewrite Ll. unfold csize. lia.
        * discriminate.
  Qed.

  Lemma allocate_fine (O : opts) x c s : c_cidx c <> None ->
    exists s', on_live x (fun d => allocate O d c) s = Ok s' /\ s_strat s' = s_strat s
      /\ s_beams s' = s_beams s /\ s_chunks s' = s_chunks s /\ s_maps s' = s_maps s /\ s_mmap s' = s_mmap s
      /\ s_bore s' = s_bore s /\ s_gbore s' = s_gbore s
      /\ (o_save_tod O = true ->
          (forall i k, s_data s i k <> None -> s_data s' i k <> None)
          /\ forall d ci, live x = Some d -> c_cidx c = Some ci -> s_data s' ci (d_id d) <> None).
  Proof.
    intros Hc. unfold on_live, allocate. destruct (live x) as [d|].
    - destruct (c_cidx c) as [ci|]; [|congruence]. eexists. split; [reflexivity|]. repeat split; auto.
      + intros i k N. cbn. unfold upd2. rewrite H. destruct (_ && _); [discriminate|auto].
      + intros d' ci' Ed Ei. injection Ed as <-. injection Ei as <-. cbn. unfold upd2.
        rewrite Nat.eqb_refl, Z.eqb_refl, H. discriminate.
    - eexists. split; [reflexivity|]. repeat split; auto. discriminate.
  Qed.

  Definition chunk_list E (cs : list chunk) : Prop :=
    tiles 0 (e_nsamp E) (map span cs) /\ forall k c, nth_error cs k = Some c -> c_cidx c = Some k.

  Lemma chunk_in E cs k c : chunk_list E cs -> nth_error cs k = Some c ->
    (0 <= c_start c < c_end c)%Z /\ (c_end c <= e_nsamp E)%Z.
  Proof.
    intros [T _] H. apply nth_error_In in H. apply (in_map span) in H.
    destruct (tiles_in _ _ _ _ _ T H) as (? & ? & ?). lia.
  Qed.

  Lemma plain_of s : plain_chunks s = map fst (chunks_of s).
  Proof. unfold plain_chunks, chunks_of. destruct (s_chunks s); reflexivity. Qed.

  Lemma chunk_ok E O m bidx p k cs s :
    preview_opts O -> ground_opts O (o_ground O) -> filter_fine O m ->
    (o_ground O = true -> e_ext E = false) ->
    (forall c, Z.of_nat (length (e_elev E c)) = Z.max 0 (c_end c - c_start c)) ->
    chunk_list E cs -> setting E O m (o_ground O) s ->
    s_chunks s <> None -> plain_chunks s = cs -> no_stale O (chunks_of s) ->
    pair_fine O (s_maps s) (o_ground O) p ->
    exists s', scan_chunk E O bidx p k s = Ok s' /\ setting E O m (o_ground O) s' /\ kept2 s s' /\ no_stale O (chunks_of s').
  Proof.
    intros Pv Go Ff Ge El Cl Se Sc Pc Ns Pf. unfold scan_chunk. fold (chunks_of s).
    assert (Ec : map fst (chunks_of s) = cs) by (rewrite <- plain_of; exact Pc).
    destruct (nth_error (chunks_of s) k) as [[c g]|] eqn:Ek.
    2:{ exists s. split; auto. split; auto. split; [apply kept2_refl|auto]. }
    assert (Hk : nth_error cs k = Some c) by (rewrite <- Ec, nth_error_map, Ek; reflexivity).
    destruct (chunk_in _ _ _ _ Cl Hk) as [C1 C2]. destruct Cl as [T Num]. assert (Ci := Num _ _ Hk).
    assert (Gg : g || o_ground O = o_ground O).
    { destruct (o_ground O) eqn:Go'; [apply Bool.orb_true_r|]. rewrite Bool.orb_false_r.
      apply (Ns Go' (c, g)). eapply nth_error_In; eauto. }
    rewrite Gg.
    destruct (implement_ok E O m (negb (bidx =? 0)%nat) (o_ground O) c s Se Ge C1 C2 El)
      as (s1 & -> & Se1 & B1 & Ch1 & M1 & Lb1 & Lg1). cbn [bind].
    assert (X : exists s2, (if (bidx =? 0)%nat then allocate_hwp O c s1 else Ok s1) = Ok s2
      /\ s_strat s2 = s_strat s1 /\ s_beams s2 = s_beams s1 /\ s_chunks s2 = s_chunks s1 /\ s_maps s2 = s_maps s1
      /\ s_mmap s2 = s_mmap s1 /\ s_bore s2 = s_bore s1 /\ s_gbore s2 = s_gbore s1).
    { destruct (bidx =? 0)%nat; [|exists s1; repeat split; auto]. unfold allocate_hwp. rewrite Ci.
      destruct (o_save_point O); eexists; (split; [reflexivity|]); repeat split; auto. }
    destruct X as (s2 & -> & U2 & B2 & Ch2 & M2 & Mm2 & Lb2 & Lg2). cbn [bind].
    destruct (allocate_fine O (fst p) c s2) as (s3 & -> & U3 & B3 & Ch3 & M3 & Mm3 & Lb3 & Lg3 & D3); [congruence|]. cbn [bind].
    destruct (allocate_fine O (snd p) c s3) as (s4 & -> & U4 & B4 & Ch4 & M4 & Mm4 & Lb4 & Lg4 & D4); [congruence|]. cbn [bind].
    assert (St4 : steady m (s_strat s4)) by (rewrite U4, U3, U2; apply (se_steady _ _ _ _ _ Se1)).
    assert (Mm : s_mmap s4 = s_mmap s1) by congruence.
    assert (Bs : s_beams s4 = s_beams s) by congruence.
    assert (Cs : s_chunks s4 = s_chunks s) by congruence.
    assert (Ms : s_maps s4 = s_maps s) by congruence.
    assert (Lb : length (s_bore s4) = csize c) by congruence.
    assert (Lg : o_ground O = true -> exists x, s_gbore s4 = Some x /\ length x = csize c).
    { intros G. destruct (Lg1 G) as (x & Hx & Lx). exists x. split; auto. congruence. }
    assert (Sd : forall ci, c_cidx c = Some ci -> o_save_tod O = true -> forall d, in_pair p d -> s_data s4 ci (d_id d) <> None).
    { intros ci Hc Sv d Id. destruct (D3 Sv) as [_ D3b]. destruct (D4 Sv) as [D4a D4b]. destruct Id as [Id|Id]; auto. }
    clear D3 D4 U4 U3 U2 B1 B2 B3 B4 Ch1 Ch2 Ch3 Ch4 M1 M2 M3 M4 Mm2 Mm3 Mm4 Lb1 Lb2 Lb3 Lb4 Lg1 Lg2 Lg3 Lg4.
    destruct (steady_sub m _ c St4) as (l & u & Eo & St5 & Tl & Il); [lia|].
    rewrite (lift_ok _ _ _ _ Eo). cbn [bind].
    assert (Run : forall t, s_strat t = u -> s_beams t = s_beams s -> map fst (chunks_of t) = cs -> s_chunks t <> None ->
      no_stale O (chunks_of t) -> s_maps t = s_maps s -> s_mmap t = s_mmap s1 ->
      s_bore t = s_bore s4 -> s_gbore t = s_gbore s4 -> s_data t = s_data s4 ->
      exists s', scan_subs E O p (map (fun c => (c, o_ground O)) l) t = Ok s' /\ setting E O m (o_ground O) s'
        /\ kept2 s s' /\ no_stale O (chunks_of s')).
    { intros t Ut Bt Ct Nt Nst Mt Mmt Lt Gt Dt.
      destruct (subs_ok E O m p (o_ground O) Pv Go Ff l t) as (s' & Es & St' & A').
      - rewrite Ut. exact St5.
      - intros x Ix. exists k, c. rewrite (Il x Ix). split; auto.
        split; [rewrite plain_of, Ct; exact Hk|].
        assert (Jx := in_map span _ _ Ix). destruct (tiles_in _ _ _ _ _ Tl Jx) as (? & ? & ?).
        rewrite Lt, Gt. auto.
      - rewrite Mt. exact Pf.
      - intros x Ix Sv d Id ci Hc. rewrite Dt. apply Sd; auto. rewrite <- (Il x Ix). exact Hc.
      - exists s'. split; auto. destruct A'. split; [|split].
        + constructor; auto; rewrite a_mmap0, Mmt; apply Se1.
        + assert (Cc : chunks_of s' = chunks_of t) by (unfold chunks_of; rewrite a_chunks0; reflexivity).
          constructor; try congruence. rewrite a_chunks0. split; congruence.
        + unfold chunks_of in *. rewrite a_chunks0. exact Nst. }
    assert (C4 : chunks_of (set_strat s4 u) = chunks_of s) by (unfold chunks_of; cbn; rewrite Cs; reflexivity).
    destruct (rot_period _).
    - apply Run; auto; cbn; try congruence; rewrite C4; auto.
    - destruct (o_ground O) eqn:Go'.
      + assert (Co : map fst (chunks_of (set_chunks (set_strat s4 u) (option_map (fun l => set_ground l k) (s_chunks (set_strat s4 u))))) = cs).
        { unfold chunks_of. cbn. rewrite Cs. destruct (s_chunks s) as [l0|] eqn:E0; [|congruence]. cbn.
          rewrite set_ground_fst. unfold chunks_of in Ec. rewrite E0 in Ec. exact Ec. }
        apply Run; auto; cbn; try congruence.
        * rewrite Cs. destruct (s_chunks s); cbn; congruence.

      + apply Run; auto; cbn; try congruence; rewrite C4; auto.
  Qed.

  Lemma chunks_ok E O m bidx p cs :
    preview_opts O -> ground_opts O (o_ground O) -> filter_fine O m ->
    (o_ground O = true -> e_ext E = false) ->
    (forall c, Z.of_nat (length (e_elev E c)) = Z.max 0 (c_end c - c_start c)) ->
    chunk_list E cs -> forall ks s, setting E O m (o_ground O) s ->
    s_chunks s <> None -> plain_chunks s = cs -> no_stale O (chunks_of s) ->
    pair_fine O (s_maps s) (o_ground O) p ->
    exists s', scan_chunks E O bidx p ks s = Ok s' /\ setting E O m (o_ground O) s' /\ kept2 s s' /\ no_stale O (chunks_of s').
  Proof.
    intros Pv Go Ff Ge El Cl. induction ks as [|k r IH]; intros s Se Sc Pc Ns Pf; cbn [scan_chunks].
    - exists s. split; auto. split; auto. split; [apply kept2_refl|auto].
    - destruct (chunk_ok E O m bidx p k cs s) as (s1 & -> & Se1 & K1 & N1); auto. cbn [bind].
      destruct (IH s1) as (s2 & -> & Se2 & K2 & N2); auto.
      + intros N. apply Sc. apply (proj1 (k2_set _ _ K1)). exact N.
      + rewrite <- Pc, !plain_of. apply (k2_chunks _ _ K1).
      + rewrite (k2_maps _ _ K1). exact Pf.
      + exists s2. split; auto. split; auto. split; auto. eapply kept2_trans; eauto.
  Qed.
End L.
