(** * Lemmas for C101: a scan that is cut off *)
From Coq Require Import Reals Lra.
From Verif Require Import Common LibList M_Chunks M_Steps M_Hwp M_Mpi M_Detpair M_Scan
  S_Chunks S_Detpair S_Scan S_Interrupt L_Chunks L_Hwp L_Detpair L_Scan L_Scan2 L_Scan4 L_Scan5 L_Scan10 L_Scan11.
From Verif Require M_Tod.
Open Scope R_scope.

Lemma bind_ok {X Y} (e : res X) (f : X -> res Y) y : bind e f = Ok y -> exists x, e = Ok x /\ f x = Ok y.
Proof. destruct e; cbn; intros H; [eauto|discriminate]. Qed.

Section L.
  Context {B : Type}.
  Variables (E : env B) (O : opts).
  Implicit Types (s t : state B) (d : det B).

  (** The log grows. *)
  Definition grows s t : Prop := exists x, s_log t = s_log s ++ x.
  (** What no part of a scan changes. *)
  Record keeps s t : Prop := mkkeeps {
    k_log : grows s t;
    k_beams : s_beams t = s_beams s;
    k_chunks : s_chunks t = s_chunks s;
    k_mmap : s_mmap s = None -> s_mmap t = None;
    k_strat : sim (reset (s_strat t)) (reset (s_strat s)) }.

  Lemma grows_refl s : grows s s.
  Proof. exists []. now rewrite app_nil_r. Qed.
  Lemma grows_trans s t u : grows s t -> grows t u -> grows s u.
  Proof. intros (x & Hx) (y & Hy). exists (x ++ y). now rewrite Hy, Hx, app_assoc. Qed.
  Lemma keeps_refl s : keeps s s.
  Proof. constructor; auto using grows_refl, sim_refl. Qed.
  Lemma keeps_trans s t u : keeps s t -> keeps t u -> keeps s u.
  Proof.
    intros [] []. constructor; [eapply grows_trans; eauto|congruence|congruence|auto|eapply sim_trans; eauto].
  Qed.

  (** A change of the remaining fields. *)
  Lemma keeps_plain s t : s_strat t = s_strat s -> s_beams t = s_beams s -> s_chunks t = s_chunks s ->
    s_mmap t = s_mmap s -> grows s t -> keeps s t.
  Proof. intros H1 H2 H3 H4 H5. constructor; auto; [congruence|rewrite H1; apply sim_refl]. Qed.
  Ltac plain := apply keeps_plain; [reflexivity..|]; first [exists []; cbn; rewrite app_nil_r; reflexivity|eexists; reflexivity].

  (** ** The parts that are run to their end *)
  Lemma lift_keeps o s x t : lift_op o s = Ok (x, t) -> keeps s t.
  Proof.
    unfold lift_op. intros H. assert (R := reset_after_op o (s_strat s)).
    destruct (run_op o (s_strat s)) as [[y|] st]; [|discriminate]. injection H as _ <-. cbn in R.
    constructor; auto. exists []. cbn. now rewrite app_nil_r.
  Qed.

  Lemma store_keeps add tod s t : store_tod add tod s = Ok t -> keeps s t /\ s_log t = s_log s.
  Proof.
    unfold store_tod. destruct add, (s_tod s); intros H; try (injection H as <-; split; [plain|reflexivity]).
    inv_bind H x Hx. injection H as <-. split; [plain|reflexivity].
  Qed.

  Lemma scan_keeps w dead gidx add rt rp skip ground c s x t :
    scan E w dead gidx add rt rp skip ground c s = Ok (x, t) -> keeps s t.
  Proof.
    unfold scan. destruct dead; [discriminate|]. destruct (skip && (rt || rp)); [discriminate|]. cbv zeta.
    set (s0 := match w with Main d => _ | Ghost _ _ => _ end).
    assert (K0 : keeps s s0) by (unfold s0; destruct w; [plain|apply keeps_refl]). clearbody s0.
    destruct skip; intros H.
    - inv_bind H s1 H1. injection H as _ <-. eapply keeps_trans; [exact K0|]. apply (store_keeps _ _ _ _ H1).
    - inv_bind H b Hb. inv_bind H ar0 Ha. inv_bind H bore Hbo.
      destruct (negb _); [discriminate|]. inv_bind H s1 H1. injection H as _ <-.
      eapply keeps_trans; [exact K0|]. eapply keeps_trans; [apply (store_keeps _ _ _ _ H1)|plain].
  Qed.

  Lemma ghosts_keeps i skip ground c : forall gs k n s m t,
    scan_ghosts E i k n gs skip ground c s = Ok (m, t) -> keeps s t.
  Proof.
    induction gs as [|g gs IH]; intros k n s m t H; cbn [scan_ghosts] in H.
    - injection H as _ <-. apply keeps_refl.
    - destruct (gh_dead g); [eapply IH; eauto|].
      apply bind_ok in H. destruct H as ([x s1] & H1 & H). cbn in H.
      eapply keeps_trans; [eapply scan_keeps; exact H1|eapply IH; exact H].
  Qed.

  Lemma put_keeps i c tod s t : put_tod i c tod s = Ok t -> keeps s t.
  Proof.
    unfold put_tod. intros H. apply bind_ok in H. destruct H as ([a b] & _ & H). cbn in H.
    destruct (c_cidx c); [|discriminate]. destruct (s_data s n i); [|discriminate].
    destruct (a <? 0)%Z; [discriminate|]. injection H as <-. plain.
  Qed.

  Lemma put_point_keeps i c s t : put_point E i c s = Ok t -> keeps s t.
  Proof.
    unfold put_point. intros H. apply bind_ok in H. destruct H as ([a b] & _ & H). cbn [fst snd] in H.
    destruct (c_cidx c); [|discriminate]. destruct (a <? 0)%Z; [discriminate|].
    inv_bind H bore Hb. cbv zeta in H. inv_bind H h Hh. injection H as <-. plain.
  Qed.

  Lemma bin_keeps d tod c s x t : bin_tod O d tod c s = Ok (x, t) -> keeps s t.
  Proof.
    unfold bin_tod. destruct (s_hwp s); [|discriminate]. intros H. inv_bind H bore Hb.
    destruct (s_qoff s (d_id d)); [|discriminate]. inv_bind H t0 Ht. inv_bind H t1 Ht1.
    injection H as _ <-. destruct tod; plain.
  Qed.

  (** ** Stopping points, bottom up: what is kept, and the log lies between *)
  Definition cut_in s t (run : res (state B)) : Prop :=
    keeps s t /\ forall s', run = Ok s' -> grows t s'.

  Lemma turn {A} (f : res A) (st : A -> state B) (inside : Prop) (after : A -> Prop) (next : A -> res (state B)) s t :
    (forall a, f = Ok a -> keeps s (st a)) ->
    (inside -> keeps s t /\ forall a, f = Ok a -> grows t (st a)) ->
    (forall a s', f = Ok a -> next a = Ok s' -> keeps (st a) s') ->
    (forall a, f = Ok a -> after a -> cut_in (st a) t (next a)) ->
    one_by_one f inside after -> cut_in s t (do a <- f; next a).
  Proof.
    intros Hf Hi Hn Ha [H|(a & Ef & H)].
    - destruct (Hi H) as [K G]. split; auto. intros s' H'. apply bind_ok in H'. destruct H' as (a & Ef & H').
      eapply grows_trans; [apply G; exact Ef|]. apply (k_log _ _ (Hn a s' Ef H')).
    - destruct (Ha a Ef H) as [K G]. split; [eapply keeps_trans; [apply Hf; exact Ef|exact K]|].
      intros s' H'. rewrite Ef in H'. cbn in H'. auto.
  Qed.
  Lemma cut_now s (run : res (state B)) : (forall s', run = Ok s' -> keeps s s') -> cut_in s s run.
  Proof. intros H. split; [apply keeps_refl|]. intros s' H'. apply (k_log _ _ (H s' H')). Qed.

  Lemma scan_stop w dead gidx add rt rp skip ground c s t :
    stops_scan E w dead gidx add rt rp skip ground c s t ->
    keeps s t /\ forall x s', scan E w dead gidx add rt rp skip ground c s = Ok (x, s') -> grows t s'.
  Proof.
    intros [->|[(i & -> & ->)|(x & H)]].
    - split; [apply keeps_refl|]. intros x s' H. apply (k_log _ _ (scan_keeps _ _ _ _ _ _ _ _ _ _ _ _ H)).
    - split; [plain|]. intros x s' H. apply scan_keeps in H. destruct (k_log _ _ H) as (l & Hl). exists l. exact Hl.
    - split; [eapply scan_keeps; eauto|]. intros y s' H'. rewrite H in H'. injection H' as _ <-. apply grows_refl.
  Qed.

  Lemma ghosts_stop i skip ground c : forall gs k n s t,
    stops_ghosts E i k n gs skip ground c s t ->
    keeps s t /\ forall m s', scan_ghosts E i k n gs skip ground c s = Ok (m, s') -> grows t s'.
  Proof.
    induction gs as [|g gs IH]; intros k n s t H; cbn [stops_ghosts scan_ghosts] in *.
    - subst. split; [apply keeps_refl|]. intros m s' H. injection H as _ <-. apply grows_refl.
    - destruct (gh_dead g); [now apply IH|]. destruct H as [H|([x s1] & H1 & H)].
      + apply scan_stop in H as [K G]. split; auto. intros m s' H'.
        apply bind_ok in H'. destruct H' as ([y s1] & H1 & H'). cbn in H'.
        eapply grows_trans; [eapply G; exact H1|]. apply (k_log _ _ (ghosts_keeps _ _ _ _ _ _ _ _ _ _ H')).
      + cbn [snd] in H. apply IH in H as [K G]. split.
        * eapply keeps_trans; [eapply scan_keeps; exact H1|exact K].
        * intros m s' H'. rewrite H1 in H'. cbn in H'. eapply G; eauto.
  Qed.

  Lemma detector_keeps d c s t : scan_detector E O d false c s = Ok t -> keeps s t.
  Proof.
    unfold scan_detector. destruct (d_ghost d); [discriminate|].
    destruct (o_preview O && _); [discriminate|]. intros H.
    apply bind_ok in H. destruct H as ([n s1] & H1 & H). cbn [bind] in H.
    apply bind_ok in H. destruct H as ([tod s2] & H2 & H).
    inv_bind H s3 H3.
    eapply keeps_trans; [eapply ghosts_keeps; exact H1|]. eapply keeps_trans; [eapply scan_keeps; exact H2|].
    eapply keeps_trans.
    - destruct (o_save_tod O); [eapply put_keeps; exact H3|injection H3 as <-; apply keeps_refl].
    - destruct (o_save_point O); [eapply put_point_keeps; exact H|injection H as <-; apply keeps_refl].
  Qed.

  Lemma detector_stop d c s t : stops_detector E O d false c s t ->
    keeps s t /\ forall s', scan_detector E O d false c s = Ok s' -> grows t s'.
  Proof.
    intros H. unfold scan_detector.
    assert (G0 : forall s', (if d_ghost d then Err ValueError
       else if o_preview O && (o_save_tod O || o_save_point O) then Err ValueError
       else do (n, s) <- scan_ghosts E (d_id d) 0 0 (d_ghosts d) (o_preview O) false c s;
            let tod_exists := negb (n =? 0)%nat in
            do (tod_exists, s) <- Ok (tod_exists, s);
            do (tod, s) <- scan E (Main (d_id d)) (d_dead d) None tod_exists (o_save_tod O) (o_save_point O) (o_preview O) false c s;
            do s <- (if o_save_tod O then put_tod (d_id d) c tod s else Ok s);
            if o_save_point O then put_point E (d_id d) c s else Ok s) = Ok s' ->
       exists n s1 tod s2 s3, scan_ghosts E (d_id d) 0 0 (d_ghosts d) (o_preview O) false c s = Ok (n, s1)
         /\ scan E (Main (d_id d)) (d_dead d) None (negb (n =? 0)%nat) (o_save_tod O) (o_save_point O) (o_preview O) false c s1 = Ok (tod, s2)
         /\ (if o_save_tod O then put_tod (d_id d) c tod s2 else Ok s2) = Ok s3
         /\ (if o_save_point O then put_point E (d_id d) c s3 else Ok s3) = Ok s').
    { intros s'. destruct (d_ghost d); [discriminate|]. destruct (o_preview O && _); [discriminate|]. intros H0.
      apply bind_ok in H0. destruct H0 as ([n s1] & H1 & H0). cbn [bind] in H0.
      apply bind_ok in H0. destruct H0 as ([tod s2] & H2 & H0). inv_bind H0 s3 H3.
      exists n, s1, tod, s2, s3. auto. }
    assert (T3 : forall tod s2 s3, (if o_save_tod O then put_tod (d_id d) c tod s2 else Ok s2) = Ok s3 -> keeps s2 s3).
    { intros tod s2 s3 H3. destruct (o_save_tod O); [eapply put_keeps; exact H3|injection H3 as <-; apply keeps_refl]. }
    assert (T4 : forall s3 s4, (if o_save_point O then put_point E (d_id d) c s3 else Ok s3) = Ok s4 -> keeps s3 s4).
    { intros s3 s4 H4. destruct (o_save_point O); [eapply put_point_keeps; exact H4|injection H4 as <-; apply keeps_refl]. }
    destruct H as [H|([n s1] & H1 & H)].
    { apply ghosts_stop in H as [K G]. split; auto. intros s' H'. apply G0 in H'.
      destruct H' as (n & s1 & tod & s2 & s3 & H1 & H2 & H3 & H4).
      eapply grows_trans; [eapply G; exact H1|]. eapply grows_trans; [apply (k_log _ _ (scan_keeps _ _ _ _ _ _ _ _ _ _ _ _ H2))|].
      eapply grows_trans; [apply (k_log _ _ (T3 _ _ _ H3))|apply (k_log _ _ (T4 _ _ H4))]. }
    assert (K1 := ghosts_keeps _ _ _ _ _ _ _ _ _ _ H1). cbn [fst snd] in H.
    destruct H as [[Bad _]|([te s1'] & Eq & H)]; [discriminate|]. injection Eq as <- <-. cbn [fst snd] in H.
    destruct H as [H|([tod s2] & H2 & H)].
    { apply scan_stop in H as [K G]. split; [eapply keeps_trans; eauto|]. intros s' H'. apply G0 in H'.
      destruct H' as (n' & s1' & tod & s2 & s3 & H1' & H2 & H3 & H4). rewrite H1 in H1'. injection H1' as <- <-.
      eapply grows_trans; [eapply G; exact H2|].
      eapply grows_trans; [apply (k_log _ _ (T3 _ _ _ H3))|apply (k_log _ _ (T4 _ _ H4))]. }
    assert (K2 := scan_keeps _ _ _ _ _ _ _ _ _ _ _ _ H2). cbn [fst snd] in H.
    assert (K12 : keeps s s2) by (eapply keeps_trans; eauto).
    destruct H as [->|(s3 & H3 & H)].
    { split; auto. intros s' H'. apply G0 in H'.
      destruct H' as (n' & s1' & tod' & s2' & s3 & H1' & H2' & H3 & H4). rewrite H1 in H1'. injection H1' as <- <-.
      rewrite H2 in H2'. injection H2' as <- <-.
      eapply grows_trans; [apply (k_log _ _ (T3 _ _ _ H3))|apply (k_log _ _ (T4 _ _ H4))]. }
    assert (K3 : keeps s s3) by (eapply keeps_trans; [exact K12|apply (T3 _ _ _ H3)]).
    destruct H as [->|(Sp & H4)].
    - split; auto. intros s' H'. apply G0 in H'.
      destruct H' as (n' & s1' & tod' & s2' & s3' & H1' & H2' & H3' & H4). rewrite H1 in H1'. injection H1' as <- <-.
      rewrite H2 in H2'. injection H2' as <- <-. rewrite H3 in H3'. injection H3' as <-. apply (k_log _ _ (T4 _ _ H4)).
    - split; [eapply keeps_trans; [exact K3|eapply put_point_keeps; exact H4]|].
      intros s' H'. apply G0 in H'.
      destruct H' as (n' & s1' & tod' & s2' & s3' & H1' & H2' & H3' & H4'). rewrite H1 in H1'. injection H1' as <- <-.
      rewrite H2 in H2'. injection H2' as <- <-. rewrite H3 in H3'. injection H3' as <-.
      rewrite Sp, H4 in H4'. injection H4' as <-. apply grows_refl.
  Qed.

  Lemma bin_stop d tod c s t : stops_bin O d tod c s t ->
    keeps s t /\ forall x s', bin_tod O d tod c s = Ok (x, s') -> grows t s'.
  Proof.
    intros [->|(x & H)].
    - split; [apply keeps_refl|]. intros x s' H. apply (k_log _ _ (bin_keeps _ _ _ _ _ _ H)).
    - split; [eapply bin_keeps; eauto|]. intros y s' H'. rewrite H in H'. injection H' as _ <-. apply grows_refl.
  Qed.

  (** ** Sub-chunks *)
  Definition after_hwp (x : out * state B) : state B :=
    match fst x with XHwp HStale => snd x | XHwp h => set_hwp (snd x) (Some h) | _ => snd x end.
  Lemma after_hwp_keeps x : keeps (snd x) (after_hwp x).
  Proof. unfold after_hwp. destruct (fst x) as [| |h| |]; try apply keeps_refl; destruct h; try apply keeps_refl; plain. Qed.

  Definition talks (b : option (det B)) : bool :=
    match live b with Some _ => if Req_EM_T (o_ctalk O) 0 then false else true | None => false end.
  Definition run_a (a b : option (det B)) c s : res (option (list R) * state B) :=
    match live a with
    | None => Ok (None, s)
    | Some a =>
        do s <- scan_detector E O a false c s;
        if talks b then Ok (Some (match s_tod s with Some t => t | None => [] end), s)
        else if o_binning O then do (_, s) <- bin_tod O a None c s; Ok (None, s)
        else Ok (None, s)
    end.
  Definition run_b (b : option (det B)) (ct : option (list R)) c s : res (state B) :=
    match live b with
    | None => Ok s
    | Some b =>
        do s <- scan_detector E O b false c s;
        match ct with
        | Some _ => Ok s
        | None => if o_binning O then do (_, s) <- bin_tod O b None c s; Ok s else Ok s
        end
    end.
  Definition run_ct (a b : option (det B)) (ct : option (list R)) c s : res (state B) :=
    match ct, live a, live b with
    | Some tod_a, Some a, Some b =>
        let tod_b := match s_tod s with Some t => t | None => [] end in
        do (tod_a, tod_b) <- M_Tod.cross_talk tod_a tod_b (o_ctalk O);
        let s := set_tod s (Some tod_b) in
        do s <- (if o_save_tod O then
                   do s <- put_tod (d_id a) c tod_a s; put_tod (d_id b) c tod_b s
                 else Ok s);
        if o_binning O then
          do (_, s) <- bin_tod O a (Some tod_a) c s;
          do (tod_b, s) <- bin_tod O b (Some tod_b) c s;
          Ok (set_tod s (Some tod_b))
        else Ok s
    | _, _, _ => Ok s
    end.
  Lemma sub_is a b c s : scan_sub E O (a, b) false c s =
    (do x <- (if c_norot c then Ok (XNone, s) else lift_op ORotate s);
     do x <- lift_op (OHwp None (csize c)) (snd x);
     do y <- run_a a b c (after_hwp x);
     do z <- run_b b (fst y) c (snd y);
     run_ct a b (fst y) c z).
  Proof.
    unfold scan_sub. destruct (if c_norot c then _ else _) as [[x0 s0]|]; [|reflexivity]. cbn [bind snd].
    destruct (lift_op _ _) as [[x1 s1]|]; [|reflexivity]. cbn [bind fst snd].
    change (match x1 with XHwp HStale => s1 | XHwp h => set_hwp s1 (Some h) | _ => s1 end) with (after_hwp (x1, s1)).
    unfold run_a, run_b, run_ct. destruct (live a) as [a0|].
    - destruct (scan_detector E O a0 false c _) as [s2|]; [|reflexivity]. cbn [bind]. fold (talks b).
      destruct (talks b); [reflexivity|]. destruct (o_binning O); [|reflexivity].
      destruct (bin_tod O a0 None c s2) as [[t3 s3]|]; reflexivity.
    - reflexivity.
  Qed.

  Lemma run_a_keeps a b c s x : run_a a b c s = Ok x -> keeps s (snd x).
  Proof.
    unfold run_a. destruct (live a) as [a0|]; [|intros H; injection H as <-; apply keeps_refl].
    intros H. inv_bind H s1 H1. apply detector_keeps in H1. destruct (talks b); [injection H as <-; exact H1|].
    destruct (o_binning O); [|injection H as <-; exact H1].
    apply bind_ok in H. destruct H as ([t2 s2] & H2 & H). injection H as <-. apply bin_keeps in H2.
    eapply keeps_trans; eauto.
  Qed.
  Lemma run_b_keeps b ct c s t : run_b b ct c s = Ok t -> keeps s t.
  Proof.
    unfold run_b. destruct (live b) as [b0|]; [|intros H; injection H as <-; apply keeps_refl].
    intros H. inv_bind H s1 H1. apply detector_keeps in H1. destruct ct; [injection H as <-; exact H1|].
    destruct (o_binning O); [|injection H as <-; exact H1].
    apply bind_ok in H. destruct H as ([t2 s2] & H2 & H). injection H as <-. apply bin_keeps in H2.
    eapply keeps_trans; eauto.
  Qed.
  Lemma save_two_keeps a b c ta tb s t :
    (if o_save_tod O then do s <- put_tod a c ta s; put_tod b c tb s else Ok s) = Ok t -> keeps s t.
  Proof.
    destruct (o_save_tod O); intros H; [|injection H as <-; apply keeps_refl].
    inv_bind H s1 H1. eapply keeps_trans; eapply put_keeps; eassumption.
  Qed.
  Definition bin_two (a b : det B) c ta tb s : res (state B) :=
    if o_binning O then
      do (_, s) <- bin_tod O a (Some ta) c s;
      do (tod_b, s) <- bin_tod O b (Some tb) c s;
      Ok (set_tod s (Some tod_b))
    else Ok s.
  Lemma bin_two_keeps a b c ta tb s t : bin_two a b c ta tb s = Ok t -> keeps s t.
  Proof.
    unfold bin_two. destruct (o_binning O); intros H; [|injection H as <-; apply keeps_refl].
    apply bind_ok in H. destruct H as ([t2 s2] & H2 & H).
    apply bind_ok in H. destruct H as ([t3 s3] & H3 & H). injection H as <-.
    eapply keeps_trans; [eapply bin_keeps; exact H2|]. eapply keeps_trans; [eapply bin_keeps; exact H3|plain].
  Qed.
  Lemma run_ct_keeps a b ct c s t : run_ct a b ct c s = Ok t -> keeps s t.
  Proof.
    unfold run_ct. destruct ct as [ta|]; [|intros H; injection H as <-; apply keeps_refl].
    destruct (live a) as [a0|]; [|intros H; injection H as <-; apply keeps_refl].
    destruct (live b) as [b0|]; [|intros H; injection H as <-; apply keeps_refl]. cbv zeta.
    intros H. apply bind_ok in H. destruct H as ([ta1 tb1] & _ & H). inv_bind H s1 H1.
    apply save_two_keeps in H1. fold (bin_two a0 b0 c ta1 tb1 s1) in H. apply bin_two_keeps in H.
    eapply keeps_trans; [|exact H]. eapply keeps_trans; [|exact H1]. plain.
  Qed.
  Lemma rot_keeps c s x : (if c_norot c then Ok (XNone, s) else lift_op ORotate s) = Ok x -> keeps s (snd x).
  Proof.
    destruct (c_norot c); intros H; [injection H as <-; apply keeps_refl|]. destruct x. eapply lift_keeps; eauto.
  Qed.
  Lemma lift_keeps' o s x : lift_op o s = Ok x -> keeps s (snd x).
  Proof. destruct x. apply lift_keeps. Qed.

  Lemma sub_keeps p c s t : scan_sub E O p false c s = Ok t -> keeps s t.
  Proof.
    destruct p as [a b]. rewrite sub_is. intros H.
    inv_bind H x1 H1. inv_bind H x2 H2. inv_bind H x3 H3. inv_bind H x4 H4.
    eapply keeps_trans; [eapply rot_keeps; exact H1|]. eapply keeps_trans; [eapply lift_keeps'; exact H2|].
    eapply keeps_trans; [apply after_hwp_keeps|]. eapply keeps_trans; [eapply run_a_keeps; exact H3|].
    eapply keeps_trans; [eapply run_b_keeps; exact H4|eapply run_ct_keeps; exact H].
  Qed.

  Lemma det_and_bin_stop d c s t (bins : bool) (fin : state B -> res (state B)) :
    (forall s s', fin s = Ok s' -> if bins then exists x, bin_tod O d None c s = Ok (x, s') else s' = s) ->
    stops_detector E O d false c s t
    \/ (exists s2, scan_detector E O d false c s = Ok s2 /\ stops_bin O d None c s2 t /\ bins = true) ->
    cut_in s t (do s <- scan_detector E O d false c s; fin s).
  Proof.
    intros Hf [H|(s2 & H2 & H & Hb)].
    - apply detector_stop in H as [K G]. split; auto. intros s' H'. inv_bind H' s1 H1.
      eapply grows_trans; [apply G; exact H1|]. apply Hf in H'. destruct bins; [|subst; apply grows_refl].
      destruct H' as (x & H'). apply (k_log _ _ (bin_keeps _ _ _ _ _ _ H')).
    - subst bins. apply bin_stop in H as [K G]. split; [eapply keeps_trans; [eapply detector_keeps; exact H2|exact K]|].
      intros s' H'. rewrite H2 in H'. cbn in H'. apply Hf in H'. destruct H' as (x & H'). eapply G; eauto.
  Qed.

  Lemma sub_stop p c s t : stops_sub E O p false c s t -> cut_in s t (scan_sub E O p false c s).
  Proof.
    destruct p as [a b]. rewrite sub_is. unfold stops_sub. fold (talks b).
    assert (KC : forall ct z s', run_ct a b ct c z = Ok s' -> keeps z s') by (intros; eapply run_ct_keeps; eauto).
    assert (KB : forall y s', (do z <- run_b b (fst y) c (snd y); run_ct a b (fst y) c z) = Ok s' -> keeps (snd y) s').
    { intros y s' H. inv_bind H z Hz. eapply keeps_trans; [eapply run_b_keeps; eauto|eauto]. }
    assert (KA : forall x s', (do y <- run_a a b c (after_hwp x);
        do z <- run_b b (fst y) c (snd y); run_ct a b (fst y) c z) = Ok s' -> keeps (snd x) s').
    { intros x s' H. inv_bind H y Hy. eapply keeps_trans; [apply after_hwp_keeps|].
      eapply keeps_trans; [eapply run_a_keeps; exact Hy|]. now apply KB. }
    apply turn with (st := snd).
    { intros x. apply rot_keeps. }
    { intros ->. split; [apply keeps_refl|]. intros x Hx. apply (k_log _ _ (rot_keeps _ _ _ Hx)). }
    { intros x s' _ H. inv_bind H y Hy. eapply keeps_trans; [eapply lift_keeps'; exact Hy|]. now apply KA. }
    intros x0 _. apply turn with (st := snd).
    { intros x. apply lift_keeps'. }
    { intros ->. split; [apply keeps_refl|]. intros x Hx. apply (k_log _ _ (lift_keeps' _ _ _ Hx)). }
    { intros x s' _. apply KA. }
    intros x1 _. fold (after_hwp x1). intros H.
    assert (AH := after_hwp_keeps x1). set (s1 := after_hwp x1) in *.
    assert (C : cut_in s1 t (do y <- run_a a b c s1; do z <- run_b b (fst y) c (snd y); run_ct a b (fst y) c z)).
    2:{ destruct C as [C1 C2]. split; auto. eapply keeps_trans; eauto. }
    destruct H as [->|H].
    { apply cut_now. intros s' H. inv_bind H y Hy. eapply keeps_trans; [eapply run_a_keeps; exact Hy|]. now apply KB. }
    fold (run_a a b c s1) in H. revert H. apply turn with (st := snd).
    { intros x. apply run_a_keeps. }
    { intros (a0 & Ea & H). unfold run_a. rewrite Ea.
      assert (X : cut_in s1 t (do s <- scan_detector E O a0 false c s1;
         if negb (talks b) && o_binning O then do (_, s) <- bin_tod O a0 None c s; Ok s else Ok s)).
      { apply det_and_bin_stop with (bins := negb (talks b) && o_binning O).
        - intros u u' Hu. destruct (negb (talks b) && o_binning O); [|congruence].
          apply bind_ok in Hu. destruct Hu as ([x u1] & H1 & Hu). injection Hu as <-. eauto.
        - destruct H as [H|(s2 & H1 & H2 & H3 & H4)]; [now left|right]. exists s2. rewrite H3, H4. auto. }
      destruct X as [K G]. split; auto. intros y Hy. inv_bind Hy s2 H2.
      apply G. rewrite H2. cbn [bind]. destruct (talks b); cbn [negb andb]; [injection Hy as <-; reflexivity|].
      destruct (o_binning O); [|injection Hy as <-; reflexivity].
      apply bind_ok in Hy. destruct Hy as ([x u1] & H1 & Hy). injection Hy as <-. rewrite H1. reflexivity. }
    { intros y s' _. apply KB. }
    intros y _ H. destruct H as [->|H]; [apply cut_now, KB|].
    fold (run_b b (fst y) c (snd y)) in H. revert H. apply turn with (st := fun z => z).
    { intros z. apply run_b_keeps. }
    { intros (b0 & Eb & H). unfold run_b. rewrite Eb.
      assert (X : cut_in (snd y) t (do s <- scan_detector E O b0 false c (snd y);
         match fst y with Some _ => Ok s | None => if o_binning O then do (_, s) <- bin_tod O b0 None c s; Ok s else Ok s end)).
      { apply det_and_bin_stop with (bins := match fst y with None => o_binning O | _ => false end).
        - intros u u' Hu. destruct (fst y); [congruence|]. destruct (o_binning O); [|congruence].
          apply bind_ok in Hu. destruct Hu as ([x u1] & H1 & Hu). injection Hu as <-. eauto.
        - destruct H as [H|(s2 & H1 & H2 & H3 & H4)]; [now left|right]. exists s2. rewrite H3, H4. auto. }
      exact X. }
    { intros z s' _. apply KC. }
    intros z _ H. destruct H as [->|H]; [apply cut_now, KC|].
    unfold run_ct. destruct (fst y) as [ta|]; [|contradiction]. destruct (live a) as [a0|]; [|contradiction].
    destruct (live b) as [b0|]; [|contradiction]. cbv zeta in H |- *.
    destruct H as (ta1 & tb1 & Hc & H). rewrite Hc. cbn [bind]. set (z1 := set_tod z (Some tb1)) in *.
    assert (Z1 : keeps z z1) by plain.
    assert (C : cut_in z1 t (do s <- (if o_save_tod O then do s <- put_tod (d_id a0) c ta1 z1; put_tod (d_id b0) c tb1 s else Ok z1);
         bin_two a0 b0 c ta1 tb1 s)).
    2:{ destruct C as [C1 C2]. split; [eapply keeps_trans; eauto|exact C2]. }
    destruct H as [->|H].
    { apply cut_now. intros s' H. inv_bind H u Hu. eapply keeps_trans; [eapply save_two_keeps; exact Hu|eapply bin_two_keeps; exact H]. }
    revert H. apply turn with (st := fun u => u).
    { intros u. apply save_two_keeps. }
    { intros [Hs H]. split; [eapply put_keeps; exact H|]. intros u Hu. rewrite Hs, H in Hu. cbn in Hu.
      apply (k_log _ _ (put_keeps _ _ _ _ _ Hu)). }
    { intros u s' _. apply bin_two_keeps. }
    intros u _ H. destruct H as [->|[Hb H]]; [apply cut_now; intros; eapply bin_two_keeps; eauto|].
    unfold bin_two. rewrite Hb.
    assert (X : cut_in u t (do x <- bin_tod O a0 (Some ta1) c u; do x <- bin_tod O b0 (Some tb1) c (snd x); Ok (set_tod (snd x) (Some (fst x))))).
    { revert H. apply turn with (st := snd).
      - intros [x v]. apply bin_keeps.
      - intros H. apply bin_stop in H as [K G]. split; auto. intros [x v]. apply G.
      - intros x s' _ H. inv_bind H v Hv. injection H as <-. destruct v as [w v]. apply bin_keeps in Hv.
        eapply keeps_trans; [exact Hv|plain].
      - intros x _. apply turn with (st := snd).
        + intros [w v]. apply bin_keeps.
        + intros H. apply bin_stop in H as [K G]. split; auto. intros [w v]. apply G.
        + intros v s' _ H. injection H as <-. plain.
        + intros v _ ->. split; [plain|]. intros s' H. injection H as <-. apply grows_refl. }
    destruct X as [K G]. split; auto. intros s' H'. apply G. revert H'.
    destruct (bin_tod O a0 (Some ta1) c u) as [[x1' v1]|]; cbn [bind snd]; auto.
    destruct (bin_tod O b0 (Some tb1) c v1) as [[x2' v2]|]; cbn [bind fst snd]; auto.
  Qed.

  Lemma subs_keeps p : forall subs s t, scan_subs E O p (map (fun c => (c, false)) subs) s = Ok t -> keeps s t.
  Proof.
    induction subs as [|c subs IH]; intros s t H; cbn [map scan_subs] in H; [injection H as <-; apply keeps_refl|].
    inv_bind H s1 H1. eapply keeps_trans; [eapply sub_keeps; exact H1|now apply IH].
  Qed.
  Lemma subs_stop p : forall subs s t, stops_subs E O p (map (fun c => (c, false)) subs) s t ->
    cut_in s t (scan_subs E O p (map (fun c => (c, false)) subs) s).
  Proof.
    induction subs as [|c subs IH]; intros s t; cbn [map scan_subs stops_subs].
    - intros ->. apply cut_now. intros s' H. injection H as <-. apply keeps_refl.
    - apply turn with (st := fun u => u).
      + intros u. apply sub_keeps.
      + apply sub_stop.
      + intros u s' _. apply subs_keeps.
      + intros u _. apply IH.
  Qed.
End L.
