(** * One sub-chunk for a pair of detectors *)
From Coq Require Import Reals Lra.
From Verif Require Import Common LibList M_Chunks M_Steps M_Hwp M_Mpi M_Detpair M_Scan S_Chunks S_Scan L_Chunks L_Scan L_Scan2.
From Verif Require M_Tod L_Tod.
Open Scope R_scope.

Section L.
  Context {B : Type}.
  Implicit Types (s : state B) (E : env B) (d : det B).

  Lemma upd_same {X} (f : Z -> X) k x : upd f k x k = x.
  Proof. unfold upd. rewrite Z.eqb_refl. reflexivity. Qed.

  Definition data_put E O d (c : chunk) vw (l : list (@call B)) s s' : Prop :=
    (o_save_tod O = false -> s_data s' = s_data s)
    /\ (o_save_tod O = true ->
          exists i j ci a, chunk2idx (plain_chunks s) c = Ok (i, j) /\ (0 <= i)%Z
            /\ c_cidx c = Some ci /\ s_data s ci (d_id d) = Some a
            /\ s_data s' = upd2 (s_data s) ci (d_id d)
                 (Some (splice a (Z.to_nat i) (calls_tod E (csize c) vw l)))).

  (** Scanning a detector and, when asked, binning it at once. *)
  Lemma det_bin E O d ground c s s' :
    (ground = true -> o_preview O = false) ->
    (do s <- scan_detector E O d ground c s;
     if o_binning O then do (_, s) <- bin_tod O d None c s; Ok s else Ok s) = Ok s' ->
    exists l, calls_of O (s_maps s) d ground = Ok l
      /\ (ground = true -> o_save_point O = false)
      /\ frame s s'
      /\ s_log s' = s_log s ++ map (call_event E (csize c) (the_views c s)) l
           ++ bin_event O (h_mode (sg_hwp (s_strat s))) d (the_views c s false)
                (calls_tod E (csize c) (the_views c s) l)
      /\ data_put E O d c (the_views c s) l s s'.
  Proof.
    intros Hg H. inv_bind H s1 Hs1.
    apply scan_detector_any in Hs1; auto.
    destruct Hs1 as (l & _ & Hsp & Hl & F & Elog & Etod & Eq & Ed1 & Ed2).
    exists l. split; auto. split; auto. unfold bin_event. destruct (o_binning O).
    - inv_bind H ts Hts. destruct ts as [t s2]. injection H as <-.
      apply (bin_tod_spec O d None c s1 t s2 (ir_angle (sg_rot (s_strat s)))) in Hts.
      + destruct Hts as (t0 & Ht0 & Hf & _ & F2 & _ & Ed & El & _).
        rewrite Etod in Ht0. injection Ht0 as <-.
        rewrite (f_strat _ _ F) in Hf. unfold fval. rewrite Hf.
        split; [eapply frame_trans; eauto|]. split.
        * rewrite El, Elog, (the_views_frame c s s1 F), <- app_assoc. reflexivity.
        * unfold data_put. rewrite Ed. auto.
      + rewrite Eq. apply upd_same.
      + rewrite (f_strat _ _ F). reflexivity.
    - injection H as <-. split; auto. split; [rewrite Elog, app_nil_r; reflexivity|].
      unfold data_put. auto.
  Qed.

  Lemma data_put_step_one E O d c vw l s s' (p : bpair B) la lb :
    data_put E O d c vw l s s' -> ctalk_on O (fst p) (snd p) = false ->
    (live (fst p) = Some d /\ live (snd p) = None /\ la = l
     \/ live (fst p) = None /\ live (snd p) = Some d /\ lb = l) ->
    data_step E O p c vw la lb s s'.
  Proof.
    intros (H0 & H1) Ec Hd. unfold data_step, final. rewrite Ec.
    assert (Hlive : live (fst p) = Some d \/ live (snd p) = Some d) by tauto.
    split.
    { intros ci k Hk. destruct (o_save_tod O); [|rewrite H0; auto].
      destruct (H1 eq_refl) as (i & j & ci' & a & _ & _ & Eci & _ & ->).
      apply upd2_other. intros E1. injection E1 as -> ->.
      destruct Hk as [Hk|Hk]; [congruence|]. apply (Hk d); auto. }
    split; auto. intros Es. destruct (H1 Es) as (i & j & ci & a & A1 & A2 & A3 & A4 & A5).
    destruct Hd as [(Ea & Eb & ->)|(Ea & Eb & ->)]; rewrite Ea, Eb; split.
    - intros a' E1 _. injection E1 as <-. exists i, j, ci, a. repeat split; auto.
      intros _. rewrite A5, upd2_same. reflexivity.
    - discriminate.
    - discriminate.
    - intros a' E1 _. injection E1 as <-. exists i, j, ci, a. repeat split; auto.
      intros _. rewrite A5, upd2_same. reflexivity.
  Qed.

  Lemma plain_frame s s' : frame s s' -> plain_chunks s' = plain_chunks s.
  Proof. intros []. unfold plain_chunks. rewrite f_chunks. reflexivity. Qed.

  Lemma calls_arr E n vw (l : list (@call B)) :
    calls_tod E n vw l = arr n (fun i => rsum (map (fun x => call_sig E vw x i) l)).
  Proof. reflexivity. Qed.

  (** The body after the rotations, with the state [s] they leave. *)
  Lemma body_spec E O (p : bpair B) ground c s s' :
    (ground = true -> o_preview O = false) ->
    (let (a, b) := p in
    do (ctalk_a, s) <-
       match live a with
       | None => Ok (None, s)
       | Some a =>
           do s <- scan_detector E O a ground c s;
           let do_ctalk := match live b with
                           | Some _ => if Req_EM_T (o_ctalk O) 0 then false else true
                           | None => false
                           end in
           if do_ctalk then
             Ok (Some (match s_tod s with Some t => t | None => [] end), s)
           else if o_binning O then do (_, s) <- bin_tod O a None c s; Ok (None, s)
           else Ok (None, s)
       end;
    do s <-
       match live b with
       | None => Ok s
       | Some b =>
           do s <- scan_detector E O b ground c s;
           match ctalk_a with
           | Some _ => Ok s
           | None =>
               if o_binning O then do (_, s) <- bin_tod O b None c s; Ok s
               else Ok s
           end
       end;
    match ctalk_a, live a, live b with
    | Some tod_a, Some a, Some b =>
        let tod_b := match s_tod s with Some t => t | None => [] end in
        do (tod_a, tod_b) <- M_Tod.cross_talk tod_a tod_b (o_ctalk O);
        let s := set_tod s (Some tod_b) in
        do s <- (if o_save_tod O then
                   do s <- put_tod (d_id a) c tod_a s; put_tod (d_id b) c tod_b s
                 else Ok s);
        if o_binning O then
          do (_, s) <- bin_tod O a (Some tod_a) c s;
          do (tod_b, s) <- bin_tod O b (Some tod_b) c s;
          Ok (set_tod s (Some tod_b))
        else Ok s
    | _, _, _ => Ok s
    end) = Ok s' ->
    exists la lb, calls_for O (s_maps s) (fst p) ground la /\ calls_for O (s_maps s) (snd p) ground lb
      /\ frame s s'
      /\ s_log s' = s_log s ++ sub_events E O p (csize c) (the_views c s) (h_mode (sg_hwp (s_strat s))) la lb
      /\ data_step E O p c (the_views c s) la lb s s'.
  Proof.
    intros Hg H. destruct p as [a b]. cbn [fst snd].
    unfold calls_for, sub_events. cbn [fst snd].
    destruct (live a) as [da|] eqn:Ea.
    2:{ (* A is not there or dead *)
      cbn [bind] in H. destruct (live b) as [db|] eqn:Eb.
      - inv_bind H s2 Hs2. injection H as <-.
        apply det_bin in Hs2; auto.
        destruct Hs2 as (l & Hl & Hsp & F & El & Hd).
        exists [], l. split; auto. split; auto. split; auto. split; auto.
        apply (data_put_step_one E O db c _ l); auto; cbn [fst snd].
        unfold ctalk_on. rewrite Ea. reflexivity.
      - cbn [bind] in H. injection H as <-. exists [], []. split; auto. split; auto.
        split; [apply frame_refl|]. split; [rewrite app_nil_r; reflexivity|].
        unfold data_step. cbn [fst snd]. rewrite Ea, Eb. split; auto. split; auto.
        intros _. split; discriminate. }
    destruct (live b) as [db|] eqn:Eb.
    2:{ (* only A *)
      cbn [bind] in H.
      assert (H' : (do s <- scan_detector E O da ground c s;
               if o_binning O then do (_, s) <- bin_tod O da None c s; Ok s else Ok s) = Ok s').
      { inv_bind H x Hx. destruct x as [ca s2]. cbn [bind] in H.
        inv_bind Hx s1 Hs1. rewrite Hs1. cbn [bind].
        destruct (o_binning O).
        - inv_bind Hx y Hy. destruct y as [t s3]. rewrite Hy. cbn [bind].
          injection Hx as <- <-. exact H.
        - injection Hx as <- <-. exact H. }
      apply det_bin in H'; auto. destruct H' as (l & Hl & Hsp & F & El & Hd).
      exists l, []. split; auto. split; auto. split; auto. split; auto.
      apply (data_put_step_one E O da c _ l); auto; cbn [fst snd].
      unfold ctalk_on. rewrite Ea, Eb. reflexivity. }
    (* both *)
    assert (CT : ctalk_on O a b = if Req_EM_T (o_ctalk O) 0 then false else true).
    { unfold ctalk_on. rewrite Ea, Eb. reflexivity. }
    rewrite CT. destruct (Req_EM_T (o_ctalk O) 0) as [Hz|Hz].
    - (* no cross-talk *)
      inv_bind H x Hx. destruct x as [ca s1].
      assert (HA : (do s <- scan_detector E O da ground c s;
               if o_binning O then do (_, s) <- bin_tod O da None c s; Ok s else Ok s) = Ok s1
               /\ ca = None).
      { inv_bind Hx s2 Hs2. rewrite Hs2. cbn [bind].
        destruct (o_binning O).
        - inv_bind Hx y Hy. destruct y as [t s3]. rewrite Hy. cbn [bind]. split; congruence.
        - split; congruence. }
      destruct HA as [HA ->]. clear Hx.
      inv_bind H s2 HB. injection H as <-.
      apply det_bin in HA; auto. destruct HA as (la & Hla & Hsa & Fa & Ela & Hda).
      apply det_bin in HB; auto. destruct HB as (lb & Hlb & Hsb & Fb & Elb & Hdb).
      rewrite (f_maps _ _ Fa) in Hlb. rewrite (the_views_frame _ _ _ Fa) in Elb, Hdb.
      rewrite (f_strat _ _ Fa) in Elb.
      exists la, lb. split; auto. split; auto. split; [eapply frame_trans; eauto|].
      split; [rewrite Elb, Ela, <- !app_assoc; reflexivity|].
      destruct Hda as (Da0 & Da1), Hdb as (Db0 & Db1).
      unfold data_step, final. cbn [fst snd]. rewrite Ea, Eb, CT. split.
      { intros ci k Hk. destruct (o_save_tod O).
        - destruct (Da1 eq_refl) as (i & j & ca & ar & _ & _ & Ec & _ & EA).
          destruct (Db1 eq_refl) as (i' & j' & cb & br & _ & _ & Ec' & _ & EB).
          rewrite EB, upd2_other, EA, upd2_other; auto.
          + intros E1. injection E1 as -> ->. destruct Hk as [Hk|Hk]; [congruence|].
            apply (Hk da); auto.
          + intros E1. injection E1 as -> ->. destruct Hk as [Hk|Hk]; [congruence|].
            apply (Hk db); auto.
        - rewrite Db0, Da0; auto. }
      split; [intros Es; rewrite Db0, Da0; auto|]. intros Es.
      destruct (Da1 Es) as (i & j & ci & ar & A1 & A2 & A3 & A4 & A5).
      destruct (Db1 Es) as (i' & j' & ci' & br & B1 & B2 & B3 & B4 & B5).
      assert (ci' = ci) by congruence. subst ci'.
      rewrite (plain_frame _ _ Fa) in B1.
      split.
      + intros x E1 Hne. injection E1 as <-. specialize (Hne db eq_refl).
        exists i, j, ci, ar. repeat split; auto. intros _.
        rewrite B5, upd2_other by congruence. rewrite A5, upd2_same. reflexivity.
      + intros x E1 Hne. injection E1 as <-. specialize (Hne da eq_refl).
        rewrite A5, upd2_other in B4 by congruence.
        exists i', j', ci, br. repeat split; auto. intros _.
        rewrite B5, upd2_same. reflexivity.
    - (* cross-talk *)
      inv_bind H x Hx. destruct x as [ca s1].
      inv_bind Hx s1' Hs1. injection Hx as <- ->.
      inv_bind H s2 Hs2. inv_bind Hs2 s2' Hs2'. injection Hs2 as ->.
      apply scan_detector_any in Hs1; auto.
      destruct Hs1 as (la & _ & Hsp & Hla & Fa & Ela & Eta & Eqa & Da0 & Da1).
      apply scan_detector_any in Hs2'; auto.
      destruct Hs2' as (lb & _ & Hsp' & Hlb & Fb & Elb & Etb & Eqb & Db0 & Db1).
      rewrite (f_maps _ _ Fa) in Hlb. rewrite (the_views_frame _ _ _ Fa) in Elb, Etb, Db1.
      rewrite (f_strat _ _ Fa) in Eqb.
      assert (F2 : frame s s2) by (eapply frame_trans; eauto).
      rewrite Eta, Etb in H. rewrite !calls_arr in H.
      set (sa := fun i => rsum (map (fun x => call_sig E (the_views c s) x i) la)) in *.
      set (sb := fun i => rsum (map (fun x => call_sig E (the_views c s) x i) lb)) in *.
      cbv zeta in H. rewrite L_Tod.cross_talk_arr in H. cbn [bind] in H.
      change (arr (csize c) (fun i => sa i + o_ctalk O * sb i)) with (mix (o_ctalk O) (csize c) sa sb) in H.
      change (arr (csize c) (fun i => sb i + o_ctalk O * sa i)) with (mix (o_ctalk O) (csize c) sb sa) in H.
      set (ta := mix (o_ctalk O) (csize c) sa sb) in *.
      set (tb := mix (o_ctalk O) (csize c) sb sa) in *.
      inv_bind H s3 Hs3.
      assert (X3 : frame s s3 /\ s_log s3 = s_log s2 /\ s_qoff s3 = s_qoff s2
                /\ s_tod s3 = Some tb
                /\ (o_save_tod O = false -> s_data s3 = s_data s2)
                /\ (o_save_tod O = true ->
                      exists i j ci ar br, chunk2idx (plain_chunks s) c = Ok (i, j) /\ (0 <= i)%Z
                        /\ c_cidx c = Some ci /\ s_data s2 ci (d_id da) = Some ar
                        /\ upd2 (s_data s2) ci (d_id da) (Some (splice ar (Z.to_nat i) ta)) ci (d_id db) = Some br
                        /\ s_data s3 = upd2 (upd2 (s_data s2) ci (d_id da) (Some (splice ar (Z.to_nat i) ta)))
                                         ci (d_id db) (Some (splice br (Z.to_nat i) tb)))).
      { destruct (o_save_tod O).
        - inv_bind Hs3 s4 Hs4. apply put_tod_spec in Hs4, Hs3.
          destruct Hs4 as (G4 & L4 & T4 & Q4 & i & j & ci & ar & A1 & A2 & A3 & A4 & A5).
          destruct Hs3 as (G3 & L3 & T3 & Q3 & i' & j' & ci' & br & B1 & B2 & B3 & B4 & B5).
          assert (G : frame (set_tod s2 (Some tb)) s3) by (eapply frame_trans; eauto).
          split.
          { eapply frame_trans; [exact F2|]. eapply frame_trans; [apply frame_tod|exact G]. }
          split; [rewrite L3, L4; reflexivity|]. split; [rewrite Q3, Q4; reflexivity|].
          split; [rewrite T3, T4; reflexivity|]. split; [discriminate|]. intros _.
          cbn in A4, A5. assert (ci' = ci) by congruence. subst ci'.
          rewrite (plain_frame _ _ G4) in B1.
          assert (PL : plain_chunks s2 = plain_chunks s) by (apply plain_frame; auto).
          change (chunk2idx (plain_chunks s2) c = Ok (i, j)) in A1.
          change (chunk2idx (plain_chunks s2) c = Ok (i', j')) in B1.
          rewrite PL in A1, B1. rewrite A1 in B1. injection B1 as <- <-.
          exists i, j, ci, ar, br. rewrite A5 in B4, B5. repeat split; auto.
        - injection Hs3 as <-. split; [eapply frame_trans; [exact F2|apply frame_tod]|].
          repeat split; auto. discriminate. }
      destruct X3 as (F3 & L3 & Q3 & T3 & D30 & D31).
      assert (X4 : frame s s' /\ s_data s' = s_data s3
                 /\ s_log s' = s_log s3 ++ bin_event O (h_mode (sg_hwp (s_strat s))) da (the_views c s false) ta
                                 ++ bin_event O (h_mode (sg_hwp (s_strat s))) db (the_views c s false) tb).
      { unfold bin_event. destruct (o_binning O).
        - inv_bind H y Hy. destruct y as [t4 s4]. inv_bind H y Hy2. destruct y as [t5 s5].
          injection H as <-.
          assert (QA : s_qoff s3 (d_id da) = Some (ir_angle (sg_rot (s_strat s)))).
          { rewrite Q3, Eqb, Eqa. unfold upd.
            destruct (d_id da =? d_id db)%Z; [reflexivity|]. rewrite Z.eqb_refl. reflexivity. }
          assert (QB : s_qoff s3 (d_id db) = Some (ir_angle (sg_rot (s_strat s)))).
          { rewrite Q3, Eqb. apply upd_same. }
          apply (bin_tod_spec _ _ _ _ _ _ _ _ QA) in Hy; [|rewrite (f_strat _ _ F3); reflexivity].
          destruct Hy as (t0 & -> & Hf & _ & F4 & Q4 & D4 & L4 & _).
          assert (F4' : frame s s4) by (eapply frame_trans; eauto).
          rewrite <- Q4 in QB.
          apply (bin_tod_spec _ _ _ _ _ _ _ _ QB) in Hy2; [|rewrite (f_strat _ _ F4'); reflexivity].
          destruct Hy2 as (t0 & -> & Hf2 & _ & F5 & Q5 & D5 & L5 & _).
          rewrite (f_strat _ _ F3) in Hf. rewrite (f_strat _ _ F4') in Hf2.
          unfold fval. rewrite Hf, Hf2.
          split; [eapply frame_trans; [exact F4'|]; eapply frame_trans; [exact F5|apply frame_tod]|].
          cbn. rewrite D5, D4. split; auto.
          rewrite L5, L4, (the_views_frame _ _ _ F3), (the_views_frame _ _ _ F4'), <- app_assoc.
          reflexivity.
        - injection H as <-. cbn [app]. rewrite app_nil_r. auto. }
      destruct X4 as (F4 & D4 & L4).
      exists la, lb. split; auto. split; auto. split; auto. split.
      { rewrite L4, L3, Elb, Ela, <- !app_assoc. reflexivity. }
      unfold data_step, final. cbn [fst snd]. rewrite Ea, Eb, CT.
      fold sa sb ta tb. rewrite D4. split.
      { intros ci k Hk. destruct (o_save_tod O).
        - destruct (Da1 eq_refl) as (? & ? & ? & ar & _ & _ & Ec & _ & EA).
          destruct (Db1 eq_refl) as (? & ? & ? & br & _ & _ & Ec' & _ & EB).
          destruct (D31 eq_refl) as (? & ? & ? & ? & ? & _ & _ & Ec'' & _ & _ & ->).
          assert (NA : c_cidx c = Some ci -> d_id da <> k).
          { intros Ek. destruct Hk as [Hk|Hk]; [congruence|]. apply Hk; auto. }
          assert (NB : c_cidx c = Some ci -> d_id db <> k).
          { intros Ek. destruct Hk as [Hk|Hk]; [congruence|]. apply Hk; auto. }
          rewrite !upd2_other, EB, upd2_other, EA, upd2_other; auto;
            intros E1; injection E1 as -> ->; auto; [apply NA|apply NB|apply NA|apply NB]; auto.
        - rewrite D30, Db0, Da0; auto. }
      split; [intros Es; rewrite D30, Db0, Da0; auto|]. intros Es.
      destruct (Da1 Es) as (i & j & ci & ar & A1 & A2 & A3 & A4 & A5).
      destruct (Db1 Es) as (i' & j' & ci' & br & B1 & B2 & B3 & B4 & B5).
      destruct (D31 Es) as (i2 & j2 & ci2 & ar2 & br2 & C1 & C2 & C3 & C4 & C5 & C6).
      assert (ci' = ci) by congruence. assert (ci2 = ci) by congruence. subst ci' ci2.
      rewrite (plain_frame _ _ Fa) in B1. rewrite A1 in B1. injection B1 as <- <-.
      rewrite A1 in C1. injection C1 as <- <-.
      assert (LT : length ta = csize c /\ length tb = csize c)
        by (unfold ta, tb, mix; rewrite !L_Tod.arr_len; auto).
      assert (LC : forall l, length (calls_tod E (csize c) (the_views c s) l) = csize c)
        by (intros l; unfold calls_tod; apply L_Tod.arr_len).
      split.
      + intros x E1 Hne. injection E1 as <-. specialize (Hne db eq_refl).
        exists i, j, ci, ar. repeat split; auto. intros Hle.
        rewrite D4, C6, upd2_other, upd2_same by congruence. f_equal.
        rewrite B5, upd2_other, A5, upd2_same in C4 by congruence. injection C4 as <-.
        apply splice_splice; [rewrite LC; symmetry; apply LT|].
        rewrite LC. destruct LT as [LT _]. lia.
      + intros x E1 Hne. injection E1 as <-. specialize (Hne da eq_refl).
        rewrite A5, upd2_other in B4 by congruence.
        exists i, j, ci, br. repeat split; auto. intros Hle.
        rewrite D4, C6, upd2_same. f_equal.
        rewrite upd2_other, B5, upd2_same in C5 by congruence. injection C5 as <-.
        apply splice_splice; [rewrite LC; symmetry; apply LT|].
        rewrite LC. destruct LT as [_ LT]. lia.
  Qed.

  Lemma scan_sub_spec E O (p : bpair B) ground c s s' :
    (ground = true -> o_preview O = false) ->
    scan_sub E O p ground c s = Ok s' ->
    exists st h la lb, move c (s_strat s) (s_hwp s) = Ok (st, h)
      /\ calls_for O (s_maps s) (fst p) ground la /\ calls_for O (s_maps s) (snd p) ground lb
      /\ frame (moved s st h) s'
      /\ s_log s' = s_log s ++ sub_events E O p (csize c) (the_views c (moved s st h))
                                (h_mode (sg_hwp st)) la lb
      /\ data_step E O p c (the_views c (moved s st h)) la lb s s'.
  Proof.
    intros Hg H. unfold scan_sub in H. destruct p as [a b].
    inv_bind H x Hx. destruct x as [x0 s1]. inv_bind H y Hy. destruct y as [y s2].
    set (s3 := match y with XHwp HStale => s2 | XHwp h => set_hwp s2 (Some h) | _ => s2 end) in H.
    assert (X : exists st h, move c (s_strat s) (s_hwp s) = Ok (st, h) /\ s3 = moved s st h).
    { unfold move. unfold lift_op in Hx, Hy.
      assert (X1 : exists o st1, (if c_norot c then (Ok XNone, s_strat s) else run_op ORotate (s_strat s))
                       = (Ok o, st1) /\ s1 = set_strat s st1).
      { destruct (c_norot c).
        - injection Hx as <- <-. eexists _, _. split; [reflexivity|]. destruct s; reflexivity.
        - destruct (run_op ORotate (s_strat s)) as [[o|] st1]; [|discriminate].
          injection Hx as <- <-. eauto. }
      destruct X1 as (o & st1 & -> & ->). cbn [s_strat set_strat] in Hy.
      destruct (run_op (OHwp None (csize c)) st1) as [[o2|] st2]; [|discriminate].
      injection Hy as <- <-. eexists _, _. split; [reflexivity|].
      unfold s3, moved. destruct o2 as [| |[]| |]; destruct s; reflexivity. }
    destruct X as (st & h & Hm & E3).
    assert (Z := body_spec E O (a, b) ground c s3 s' Hg H). rewrite E3 in Z.
    destruct Z as (la & lb & H1 & H2 & H3 & H4 & H5).
    exists st, h, la, lb. do 5 (split; auto).
  Qed.
End L.
