(** * Lemmas for C101: chunks, pairs, the whole scan; starting again *)
From Coq Require Import Reals Lra.
From Verif Require Import Common LibList M_Chunks M_Steps M_Hwp M_Mpi M_Detpair M_Scan
  S_Chunks S_Detpair S_Scan S_Interrupt L_Chunks L_Hwp L_Detpair L_Scan L_Scan2 L_Scan4 L_Scan5 L_Scan10 L_Scan11
  L_Interrupt.
From Verif Require M_Tod.
Open Scope R_scope.

Section L.
  Context {B : Type}.
  Variables (E : env B) (O : opts).
  Implicit Types (s t : state B) (d : det B).
  Hypothesis Hground : o_ground O = false.

  Ltac plain := apply keeps_plain; [reflexivity..|]; first [exists []; cbn; rewrite app_nil_r; reflexivity|eexists; reflexivity].

  (** ** Chunks *)
  Lemma implement_keeps pre g c s t : implement_scan E pre g c s = Ok t -> keeps s t.
  Proof.
    unfold implement_scan. destruct (e_ext E); [intros H; injection H as <-; plain|].
    destruct (if pre then s_mmap s else None) as [m|]; [intros H; injection H as <-; plain|].
    intros H. apply bind_ok in H. destruct H as ([x s1] & H1 & H). injection H as <-. apply lift_keeps in H1.
    eapply keeps_trans; [exact H1|]. constructor; try (destruct g; reflexivity).
    - destruct g; eexists; reflexivity.
    - destruct g; cbn; intros ->; reflexivity.
    - destruct g; apply sim_refl.
  Qed.
  Lemma allocate_keeps (od : option (det B)) c s t : on_live od (fun d => allocate O d c) s = Ok t -> keeps s t.
  Proof.
    unfold on_live. destruct (live od); [|intros H; injection H as <-; apply keeps_refl].
    unfold allocate. destruct (c_cidx c); [|discriminate]. intros H. injection H as <-. plain.
  Qed.
  Lemma allocate_hwp_keeps (b : bool) c s t : (if b then allocate_hwp O c s else Ok s) = Ok t -> keeps s t.
  Proof.
    destruct b; [|intros H; injection H as <-; apply keeps_refl]. unfold allocate_hwp.
    destruct (o_save_point O); [|intros H; injection H as <-; apply keeps_refl].
    destruct (c_cidx c); [|discriminate]. intros H. injection H as <-. plain.
  Qed.

  Definition subs_of (x : out) : list chunk := match x with XSub l => l | _ => [] end.
  Definition chunk_run bidx (p : bpair B) c s : res (state B) :=
    do s <- implement_scan E (negb (bidx =? 0)%nat) false c s;
    do s <- (if (bidx =? 0)%nat then allocate_hwp O c s else Ok s);
    do s <- on_live (fst p) (fun d => allocate O d c) s;
    do s <- on_live (snd p) (fun d => allocate O d c) s;
    do x <- lift_op (OSub c) s;
    scan_subs E O p (map (fun c => (c, false)) (subs_of (fst x))) (snd x).

  Lemma chunk_is bidx p k s : no_stale O (chunks_of s) -> scan_chunk E O bidx p k s =
    match nth_error (chunks_of s) k with None => Ok s | Some (c, _) => chunk_run bidx p c s end.
  Proof.
    intros Hst. unfold scan_chunk. fold (chunks_of s). destruct (nth_error (chunks_of s) k) as [[c g]|] eqn:Ek; auto.
    assert (g = false) by (apply (Hst Hground (c, g)); eapply nth_error_In; eauto). subst g.
    rewrite Hground. cbn [orb]. unfold chunk_run.
    destruct (implement_scan _ _ _ _ _) as [s1|]; [|reflexivity]. cbn [bind].
    destruct (if (bidx =? 0)%nat then _ else _) as [s2|]; [|reflexivity]. cbn [bind].
    destruct (on_live (fst p) _ s2) as [s3|]; [|reflexivity]. cbn [bind].
    destruct (on_live (snd p) _ s3) as [s4|]; [|reflexivity]. cbn [bind]. cbv zeta.
    destruct (lift_op (OSub c) s4) as [[x s5]|]; [|reflexivity]. cbn [bind fst snd].
    unfold subs_of. destruct (rot_period _); reflexivity.
  Qed.

  Lemma chunk_run_keeps bidx p c s t : chunk_run bidx p c s = Ok t -> keeps s t.
  Proof.
    unfold chunk_run. intros H. inv_bind H s1 H1. inv_bind H s2 H2. inv_bind H s3 H3. inv_bind H s4 H4. inv_bind H x5 H5.
    eapply keeps_trans; [eapply implement_keeps; exact H1|]. eapply keeps_trans; [eapply allocate_hwp_keeps; exact H2|].
    eapply keeps_trans; [eapply allocate_keeps; exact H3|]. eapply keeps_trans; [eapply allocate_keeps; exact H4|].
    eapply keeps_trans; [eapply lift_keeps'; exact H5|eapply subs_keeps; exact H].
  Qed.
  Lemma chunk_keeps bidx p k s t : no_stale O (chunks_of s) -> scan_chunk E O bidx p k s = Ok t -> keeps s t.
  Proof.
    intros Hst. rewrite chunk_is by auto. destruct (nth_error (chunks_of s) k) as [[c g]|].
    - apply chunk_run_keeps.
    - intros H. injection H as <-. apply keeps_refl.
  Qed.

  Lemma chunk_stop bidx p k s t : no_stale O (chunks_of s) -> stops_chunk E O bidx p k s t ->
    cut_in s t (scan_chunk E O bidx p k s).
  Proof.
    intros Hst. rewrite chunk_is by auto. unfold stops_chunk. fold (chunks_of s).
    destruct (nth_error (chunks_of s) k) as [[c g]|] eqn:Ek.
    2:{ intros ->. apply cut_now. intros s' H. injection H as <-. apply keeps_refl. }
    assert (g = false) by (apply (Hst Hground (c, g)); eapply nth_error_In; eauto). subst g.
    rewrite Hground. cbn [orb]. unfold chunk_run.
    assert (K5 : forall x s', scan_subs E O p (map (fun c => (c, false)) (subs_of (fst x))) (snd x) = Ok s' ->
      keeps (snd x : state B) s') by (intros x s' H; eapply subs_keeps; eauto).
    assert (K4 : forall s4 s', (do x <- lift_op (OSub c) s4;
      scan_subs E O p (map (fun c => (c, false)) (subs_of (fst x))) (snd x)) = Ok s' -> keeps s4 s').
    { intros s4 s' H. inv_bind H x Hx. eapply keeps_trans; [eapply lift_keeps'; exact Hx|auto]. }
    assert (K3 : forall s3 s', (do s4 <- on_live (snd p) (fun d => allocate O d c) s3; do x <- lift_op (OSub c) s4;
      scan_subs E O p (map (fun c => (c, false)) (subs_of (fst x))) (snd x)) = Ok s' -> keeps s3 s').
    { intros s3 s' H. inv_bind H x Hx. eapply keeps_trans; [eapply allocate_keeps; exact Hx|auto]. }
    assert (K2 : forall s2 s', (do s3 <- on_live (fst p) (fun d => allocate O d c) s2;
      do s4 <- on_live (snd p) (fun d => allocate O d c) s3; do x <- lift_op (OSub c) s4;
      scan_subs E O p (map (fun c => (c, false)) (subs_of (fst x))) (snd x)) = Ok s' -> keeps s2 s').
    { intros s2 s' H. inv_bind H x Hx. eapply keeps_trans; [eapply allocate_keeps; exact Hx|auto]. }
    apply turn with (st := fun u => u).
    { intros u. apply implement_keeps. }
    { intros [->|(x & H)].
      - split; [apply keeps_refl|]. intros u Hu. apply (k_log _ _ (implement_keeps _ _ _ _ _ Hu)).
      - split; [eapply lift_keeps; exact H|]. intros u Hu. apply implement_keeps in Hu. destruct (k_log _ _ Hu) as (l & Hl).
        exists l. rewrite Hl. f_equal. unfold lift_op in H. destruct (run_op _ _) as [[y|] st]; [|discriminate].
        injection H as _ <-. reflexivity. }
    { intros u s' _ H. inv_bind H s2 H2. eapply keeps_trans; [eapply allocate_hwp_keeps; exact H2|auto]. }
    intros s1 _. apply turn with (st := fun u => u).
    { intros u. apply allocate_hwp_keeps. }
    { intros ->. split; [apply keeps_refl|]. intros u Hu. apply (k_log _ _ (allocate_hwp_keeps _ _ _ _ Hu)). }
    { intros u s' _. apply K2. }
    intros s2 _. apply turn with (st := fun u => u).
    { intros u. apply allocate_keeps. }
    { intros ->. split; [apply keeps_refl|]. intros u Hu. apply (k_log _ _ (allocate_keeps _ _ _ _ Hu)). }
    { intros u s' _. apply K3. }
    intros s3 _. apply turn with (st := fun u => u).
    { intros u. apply allocate_keeps. }
    { intros ->. split; [apply keeps_refl|]. intros u Hu. apply (k_log _ _ (allocate_keeps _ _ _ _ Hu)). }
    { intros u s' _. apply K4. }
    intros s4 _. cbv zeta. apply turn with (st := snd).
    { intros x. apply lift_keeps'. }
    { intros ->. split; [apply keeps_refl|]. intros x Hx. apply (k_log _ _ (lift_keeps' _ _ _ Hx)). }
    { intros x s' _. apply K5. }
    intros x5 _. fold (subs_of (fst x5)). intros [->|H]; [apply cut_now, K5|].
    apply subs_stop. destruct (rot_period _); exact H.
  Qed.

  Lemma chunks_keeps bidx p : forall ks s t, no_stale O (chunks_of s) -> scan_chunks E O bidx p ks s = Ok t -> keeps s t.
  Proof.
    induction ks as [|k ks IH]; intros s t Hst H; cbn [scan_chunks] in H; [injection H as <-; apply keeps_refl|].
    inv_bind H s1 H1. apply chunk_keeps in H1; auto. eapply keeps_trans; [exact H1|]. apply IH; auto.
    unfold chunks_of in *. rewrite (k_chunks _ _ H1). exact Hst.
  Qed.
  Lemma chunks_stop bidx p : forall ks s t, no_stale O (chunks_of s) -> stops_chunks E O bidx p ks s t ->
    cut_in s t (scan_chunks E O bidx p ks s).
  Proof.
    induction ks as [|k ks IH]; intros s t Hst; cbn [scan_chunks stops_chunks].
    - intros ->. apply cut_now. intros s' H. injection H as <-. apply keeps_refl.
    - assert (Hs : forall u, scan_chunk E O bidx p k s = Ok u -> no_stale O (chunks_of u)).
      { intros u Hu. apply chunk_keeps in Hu; auto. unfold chunks_of in *. rewrite (k_chunks _ _ Hu). exact Hst. }
      apply turn with (st := fun u => u).
      + intros u. now apply chunk_keeps.
      + now apply chunk_stop.
      + intros u s' Hu. apply chunks_keeps. auto.
      + intros u Hu. apply IH. auto.
  Qed.

  (** ** Pairs *)
  Record holds s t : Prop := mkholds {
    h_log : grows s t;
    h_beams : s_beams t = s_beams s;
    h_eff : eff E (s_chunks t) = eff E (s_chunks s);
    h_mmap : s_mmap s = None -> s_mmap t = None;
    h_strat : sim (reset (s_strat t)) (reset (s_strat s)) }.
  Lemma keeps_holds s t : keeps s t -> holds s t.
  Proof. intros []. constructor; auto. congruence. Qed.
  Lemma holds_refl s : holds s s.
  Proof. apply keeps_holds, keeps_refl. Qed.
  Lemma holds_trans s t u : holds s t -> holds t u -> holds s u.
  Proof.
    intros [] []. constructor; [eapply grows_trans; eauto|congruence|congruence|auto|eapply sim_trans; eauto].
  Qed.
  Definition cut_at s t (run : res (state B)) : Prop := holds s t /\ forall s', run = Ok s' -> grows t s'.
  Lemma cut_in_at s t run : cut_in s t run -> cut_at s t run.
  Proof. intros [K G]. split; auto. now apply keeps_holds. Qed.
  Lemma turn_at {A} (f : res A) (st : A -> state B) (inside : Prop) (after : A -> Prop) (next : A -> res (state B)) s t :
    (forall a, f = Ok a -> holds s (st a)) ->
    (inside -> holds s t /\ forall a, f = Ok a -> grows t (st a)) ->
    (forall a s', f = Ok a -> next a = Ok s' -> holds (st a) s') ->
    (forall a, f = Ok a -> after a -> cut_at (st a) t (next a)) ->
    one_by_one f inside after -> cut_at s t (do a <- f; next a).
  Proof.
    intros Hf Hi Hn Ha [H|(a & Ef & H)].
    - destruct (Hi H) as [K G]. split; auto. intros s' H'. apply bind_ok in H'. destruct H' as (a & Ef & H').
      eapply grows_trans; [apply G; exact Ef|]. apply (h_log _ _ (Hn a s' Ef H')).
    - destruct (Ha a Ef H) as [K G]. split; [eapply holds_trans; [apply Hf; exact Ef|exact K]|].
      intros s' H'. rewrite Ef in H'. cbn in H'. auto.
  Qed.
  Lemma at_now s (run : res (state B)) : (forall s', run = Ok s' -> holds s s') -> cut_at s s run.
  Proof. intros H. split; [apply holds_refl|]. intros s' H'. apply (h_log _ _ (H s' H')). Qed.

  Definition ready_pairs s : Prop :=
    (forall p, In p (s_beams s) -> from_settings p) /\ (forall l, eff E (s_chunks s) = Ok l -> no_stale O l).
  Lemma ready_holds s t : holds s t -> ready_pairs s -> ready_pairs t.
  Proof. intros [] [H1 H2]. split; [rewrite h_beams0; auto|rewrite h_eff0; auto]. Qed.

  Definition start bidx s : state B := if (bidx =? 0)%nat then s else set_strat s (reset (s_strat s)).
  Definition the_pair s (w : option nat) : bpair B :=
    match w with
    | Some i => match nth_error (s_beams s) i with Some p => p | None => (None, None) end
    | None => (None, None)
    end.
  Definition make_maps w s : res (bpair B * state B) :=
    match the_pair s w with
    | (None, None) => Ok (the_pair s w, s)
    | (a, b) =>
        if o_preview O then Ok (the_pair s w, s)
        else if (match s_maps s with Some _ => true | None => false end) && o_reuse O then Ok (the_pair s w, s)
        else
          do (m, p) <- init_detpair a b (o_ground O);
          let s := set_maps s (Some m) in
          Ok (p, match w with Some i => set_beams s (put_pair (s_beams s) i p) | None => s end)
    end.
  Definition make_chunks s : res (state B) :=
    match s_chunks s with
    | Some _ => Ok s
    | None =>
        do l <- partition_mission (e_nsamp E) None;
        Ok (set_chunks s (Some (map (fun c => (c, false)) l)))
    end.
  Definition check_chunks s : res unit :=
    if forallb (fun c => match c_cidx c with Some _ => true | None => false end) (plain_chunks s) then Ok tt else Err KeyError.
  Lemma pair_is bidx w s : scan_pair E O bidx w s =
    (do x <- make_maps w (start bidx s);
     do s <- make_chunks (snd x);
     do _ <- check_chunks s;
     scan_chunks E O bidx (fst x) (seq 0 (length (plain_chunks s))) s).
  Proof.
    unfold scan_pair. fold (start bidx s). fold (the_pair (start bidx s) w). cbv zeta. unfold make_maps.
    destruct (the_pair (start bidx s) w) as [[a|] [b|]]; try reflexivity;
      destruct (o_preview O); try reflexivity;
      destruct ((match s_maps (start bidx s) with Some _ => true | None => false end) && o_reuse O); try reflexivity;
      destruct (init_detpair _ _ _) as [[m p]|]; reflexivity.
  Qed.

  Lemma start_holds bidx s : holds s (start bidx s).
  Proof.
    unfold start. destruct (bidx =? 0)%nat; [apply holds_refl|]. constructor; auto.
    - exists []. cbn. now rewrite app_nil_r.
    - cbn. apply reset_idem.
  Qed.
  Lemma make_maps_holds w s x : (forall p, In p (s_beams s) -> from_settings p) -> make_maps w s = Ok x -> holds s (snd x).
  Proof.
    intros Hf H. unfold make_maps in H.
    destruct (the_pair s w) as [a b] eqn:Ep.
    assert (X : (a = None /\ b = None /\ snd x = s) \/ snd x = s \/
                exists m p, init_detpair a b (o_ground O) = Ok (m, p)
                  /\ snd x = match w with Some i => set_beams (set_maps s (Some m)) (put_pair (s_beams s) i p) | None => set_maps s (Some m) end).
    { destruct a as [a|], b as [b|]; try (left; injection H as <-; auto; fail); right;
        (destruct (o_preview O); [left; injection H as <-; reflexivity|]);
        (destruct ((match s_maps s with Some _ => true | None => false end) && o_reuse O); [left; injection H as <-; reflexivity|]);
        right; apply bind_ok in H; destruct H as ([m p] & H1 & H); exists m, p; injection H as <-; auto. }
    destruct X as [(_ & _ & ->)|[->|(m & p & H1 & ->)]]; try apply holds_refl.
    destruct w as [i|].
    - unfold the_pair in Ep. destruct (nth_error (s_beams s) i) as [q|] eqn:En.
      + subst q. assert (p = (a, b)) by (eapply init_settings; [|exact H1]; apply Hf; eapply nth_error_In; eauto). subst p.
        constructor; auto.
        * exists []. cbn. now rewrite app_nil_r.
        * cbn. now apply put_pair_same.
        * apply sim_refl.
      + injection Ep as <- <-. discriminate.
    - constructor; auto; [exists []; cbn; now rewrite app_nil_r|apply sim_refl].
  Qed.
  Lemma make_chunks_holds s t : make_chunks s = Ok t -> holds s t /\ s_chunks t <> None.
  Proof.
    unfold make_chunks. destruct (s_chunks s) as [l|] eqn:Ec; intros H.
    - injection H as <-. split; [apply holds_refl|congruence].
    - inv_bind H l Hl. injection H as <-. split; [|discriminate]. constructor; auto.
      + exists []. cbn. now rewrite app_nil_r.
      + cbn. rewrite Ec. cbn. rewrite Hl. reflexivity.
      + apply sim_refl.
  Qed.
  Lemma ready_stale s : s_chunks s <> None -> ready_pairs s -> no_stale O (chunks_of s).
  Proof. intros N [_ H]. unfold chunks_of. destruct (s_chunks s) as [l|]; [|congruence]. apply H. reflexivity. Qed.

  Lemma pair_stop bidx w s t : ready_pairs s -> stops_pair E O bidx w s t ->
    cut_at s t (scan_pair E O bidx w s).
  Proof.
    intros R. rewrite pair_is. unfold stops_pair. cbv zeta. fold (start bidx s). fold (the_pair (start bidx s) w).
    fold (make_maps w (start bidx s)).
    assert (SH := start_holds bidx s). set (s0 := start bidx s) in *.
    assert (R0 := ready_holds _ _ SH R).
    assert (KC : forall p s3 s', ready_pairs s3 -> s_chunks s3 <> None ->
      (do _ <- check_chunks s3; scan_chunks E O bidx p (seq 0 (length (plain_chunks s3))) s3) = Ok s' -> holds s3 s').
    { intros p s3 s' R3 N3 H. inv_bind H u Hu. apply keeps_holds. eapply chunks_keeps; [|exact H]. now apply ready_stale. }
    assert (KM : forall x s', ready_pairs (snd x) -> (do s <- make_chunks (snd x); do _ <- check_chunks s;
      scan_chunks E O bidx (fst x) (seq 0 (length (plain_chunks s))) s) = Ok s' -> holds (snd x) s').
    { intros x s' R2 H. inv_bind H s3 H3. apply make_chunks_holds in H3 as [H3 N3].
      eapply holds_trans; [exact H3|]. eapply KC; eauto. eapply ready_holds; eauto. }
    assert (K0 : forall s', (do x <- make_maps w s0; do s <- make_chunks (snd x); do _ <- check_chunks s;
      scan_chunks E O bidx (fst x) (seq 0 (length (plain_chunks s))) s) = Ok s' -> holds s0 s').
    { intros s' H. inv_bind H x Hx. apply make_maps_holds in Hx; [|apply R0]. eapply holds_trans; [exact Hx|].
      apply KM; auto. eapply ready_holds; eauto. }
    intros [->|H].
    { apply at_now. intros s' H. eapply holds_trans; [exact SH|auto]. }
    assert (C : cut_at s0 t (do x <- make_maps w s0; do s <- make_chunks (snd x); do _ <- check_chunks s;
      scan_chunks E O bidx (fst x) (seq 0 (length (plain_chunks s))) s)).
    2:{ destruct C as [C1 C2]. split; auto. eapply holds_trans; eauto. }
    destruct H as [->|H]; [now apply at_now|]. revert H. apply turn_at with (st := snd).
    { intros x. apply make_maps_holds. apply R0. }
    { intros []. }
    { intros x s' Hx. apply KM. eapply ready_holds; [eapply make_maps_holds; [apply R0|exact Hx]|exact R0]. }
    intros x Hx H. assert (R2 : ready_pairs (snd x)) by (eapply ready_holds; [eapply make_maps_holds; [apply R0|exact Hx]|exact R0]).
    destruct H as [->|H]; [apply at_now; intros s'; now apply KM|].
    fold (make_chunks (snd x)) in H. revert H. apply turn_at with (st := fun u => u).
    { intros u Hu. now apply make_chunks_holds in Hu. }
    { intros []. }
    { intros u s' Hu. apply make_chunks_holds in Hu as [Hu N]. apply KC; auto. eapply ready_holds; eauto. }
    intros u Hu H. apply make_chunks_holds in Hu as [Hu N].
    assert (R3 := ready_holds _ _ Hu R2). destruct H as [->|H]; [apply at_now; intros s'; now apply KC|].
    apply chunks_stop in H; [|now apply ready_stale]. destruct H as [K G]. split; [now apply keeps_holds|].
    intros s' H'. inv_bind H' v Hv. auto.
  Qed.
  Lemma pair_holds bidx w s t : ready_pairs s -> scan_pair E O bidx w s = Ok t -> holds s t.
  Proof.
    intros R. rewrite pair_is. intros H. assert (SH := start_holds bidx s). assert (R0 := ready_holds _ _ SH R).
    inv_bind H x Hx. apply make_maps_holds in Hx; [|apply R0]. assert (R1 := ready_holds _ _ Hx R0).
    inv_bind H s2 H2. apply make_chunks_holds in H2 as [H2 N2]. assert (R2 := ready_holds _ _ H2 R1).
    inv_bind H v Hv. eapply holds_trans; [exact SH|]. eapply holds_trans; [exact Hx|]. eapply holds_trans; [exact H2|].
    apply keeps_holds. eapply chunks_keeps; [|exact H]. now apply ready_stale.
  Qed.
  Lemma pairs_holds ws : forall bidx s t, ready_pairs s -> scan_pairs E O bidx ws s = Ok t -> holds s t.
  Proof.
    induction ws as [|w ws IH]; intros bidx s t R H; cbn [scan_pairs] in H; [injection H as <-; apply holds_refl|].
    inv_bind H s1 H1. apply pair_holds in H1; auto. eapply holds_trans; [exact H1|]. eapply IH; [|exact H].
    eapply ready_holds; eauto.
  Qed.
  Lemma pairs_stop ws : forall bidx s t, ready_pairs s -> stops_pairs E O bidx ws s t ->
    cut_at s t (scan_pairs E O bidx ws s).
  Proof.
    induction ws as [|w ws IH]; intros bidx s t R; cbn [scan_pairs stops_pairs].
    - intros ->. apply at_now. intros s' H. injection H as <-. apply holds_refl.
    - apply turn_at with (st := fun u => u).
      + intros u. now apply pair_holds.
      + now apply pair_stop.
      + intros u s' Hu. apply pairs_holds. eapply ready_holds; [eapply pair_holds; eauto|auto].
      + intros u Hu. apply IH. eapply ready_holds; [eapply pair_holds; eauto|auto].
  Qed.
End L.

Section M.
  Context {B : Type}.
  Variables (E : env B) (O : opts).
  Implicit Types (s t : state B).

  (** ** The whole scan *)
  Lemma restart s s2 t : repeatable E O s -> freshly_set (s_strat s) ->
    scan_instrument E O s = Ok s2 -> can_stop E O s t ->
    exists done rest t2, s_log s2 = s_log s ++ done ++ rest /\ s_log t = s_log s ++ done
      /\ scan_instrument E O (set_strat t (reset (s_strat t))) = Ok t2
      /\ s_log t2 = s_log t ++ done ++ rest.
  Proof.
    intros Rp (cf & Hcf) H Hc. assert (Rp' := Rp). destruct Rp' as (Hg & Hre & Hf & Hu & Hmode & Hmm).
    assert (Rd : ready_pairs E O s) by (split; [exact Hf|now apply eff_unmarked]).
    set (s0 := if o_memmap O && negb (e_ext E) then set_mmap s (Some (repeat 0 (Z.to_nat (e_nsamp E)))) else s) in *.
    assert (Rd0 : ready_pairs E O s0) by (unfold s0; destruct (_ && _); exact Rd).
    assert (HH := H). unfold scan_instrument in HH.
    destruct (negb (o_alm O) && negb (o_preview O)); [discriminate|].
    destruct (o_preview O && (o_save_tod O || o_save_point O)); [discriminate|].
    fold s0 in HH. cbv zeta in HH.
    assert (F : grows s t /\ grows t s2 /\ s_beams t = s_beams s /\ eff E (s_chunks t) = eff E (s_chunks s)
                /\ sim (reset (s_strat t)) (reset (s_strat s))
                /\ (o_memmap O && negb (e_ext E) = false -> s_mmap t = None)).
    { assert (E0 : s_log s0 = s_log s /\ s_beams s0 = s_beams s /\ s_chunks s0 = s_chunks s /\ s_strat s0 = s_strat s)
        by (unfold s0; destruct (_ && _); auto). destruct E0 as (E1 & E2 & E3 & E4).
      destruct Hc as [->|Hc].
      - split; [apply grows_refl|]. split.
        + apply pairs_holds in HH; auto. destruct (h_log _ _ _ HH) as (l & Hl). exists l. now rewrite Hl, E1.
        + do 2 (split; auto). split; [apply sim_refl|]. intros Em. destruct Hmm; congruence.
      - cbv zeta in Hc. fold s0 in Hc. apply pairs_stop in Hc; auto. destruct Hc as [[] G]. split.
        + destruct h_log0 as (l & Hl). exists l. now rewrite Hl, E1.
        + split; [auto|]. split; [congruence|]. split; [congruence|]. split; [congruence|].
          intros Em. apply h_mmap0. unfold s0. rewrite Em. destruct Hmm; congruence. }
    destruct F as ((done & Ld) & (rest & Lr) & Fb & Fe & Fs & Fm).
    destruct (twin E O (fun _ => True) s (set_strat t (reset (s_strat t)))) with (s1 := s2)
      as (t2 & new & Et & L & Lt & _); auto.
    { cbn. apply sim_sym. eapply sim_trans; [exact Fs|]. eapply configured_is_reset; eauto. }
    exists done, rest, t2. rewrite Lr, Ld, <- app_assoc. split; auto. split; auto. split; auto.
    assert (new = done ++ rest).
    { rewrite Lr, Ld, <- app_assoc in L. apply app_inv_head in L. auto. }
    subst new. rewrite Lt. cbn. now rewrite Ld.
  Qed.
End M.

Section N.
  Context {B : Type}.
  Variables (E : env B) (O : opts).
  Implicit Types (s t : state B).

  (** ** The beginning, the end, and between two pairs *)
  Lemma pairs_end ws' : forall ws bidx s t, scan_pairs E O bidx ws s = Ok t -> stops_pairs E O bidx (ws ++ ws') s t.
  Proof.
    induction ws as [|w ws IH]; intros bidx s t H; cbn [scan_pairs] in H.
    - injection H as <-. destruct ws' as [|w ws']; cbn; [reflexivity|]. left. now left.
    - apply bind_ok in H. destruct H as (s1 & H1 & H). cbn. right. exists s1. split; auto.
  Qed.
  Lemma stop_at_ends s s2 : scan_instrument E O s = Ok s2 -> can_stop E O s s /\ can_stop E O s s2.
  Proof.
    intros H. split; [now left|]. unfold scan_instrument in H.
    destruct (negb (o_alm O) && negb (o_preview O)); [discriminate|].
    destruct (o_preview O && (o_save_tod O || o_save_point O)); [discriminate|]. cbv zeta in H.
    right. cbv zeta. rewrite <- (app_nil_r (rank_iterations _ _ _ _ _ _)). now apply pairs_end.
  Qed.
End N.
