(** * Saving timestreams and pointing does not change a scan *)
From Coq Require Import Reals.
From Verif Require Import Common M_Chunks M_Steps M_Hwp M_Mpi M_Detpair M_Scan L_Scan.
From Verif Require M_Tod.
Open Scope R_scope.

Section Save.
Context {B : Type}.
Variable E : env B.

(** The state [s] with other stored arrays. *)
Definition dress (s : state B) d p h : state B := set_hwps (set_point (set_data s d) p) h.

Definition saving (O : opts) (tod point : bool) : opts :=
  mkopts (o_alm O) (o_ground O) (o_binning O) (o_memmap O) (o_scatter O) (o_reuse O) tod point
    (o_ctalk O) (o_preview O) (o_filter O).

Definition lift1 (d : nat -> Z -> option (list R)) p h (r : res (state B)) : res (state B) :=
  match r with Ok s => Ok (dress s d p h) | Err e => Err e end.
Definition lift2 {X} (d : nat -> Z -> option (list R)) p h (r : res (X * state B)) : res (X * state B) :=
  match r with Ok (x, s) => Ok (x, dress s d p h) | Err e => Err e end.

Lemma slice_dress s c a d p h : chunk_slice (dress s d p h) c a = chunk_slice s c a.
Proof. reflexivity. Qed.

Lemma store_dress add tod s d p h : store_tod add tod (dress s d p h) = lift1 d p h (store_tod add tod s).
Proof.
  unfold store_tod. cbn [dress set_hwps set_point set_data s_tod].
  destruct add; [|reflexivity]. destruct (s_tod s); [|reflexivity].
  destruct (M_Tod.radd_arr l tod); reflexivity.
Qed.

Definition scan_rest (w : who) (g : option nat) (add skip ground : bool) (c : chunk) (ang : R) (s : state B) : res (list R * state B) :=
  if skip then
    do s <- store_tod add (repeat 0 (csize c)) s; Ok ([], s)
  else
    do b <- find_maps (s_maps s) g ground;
    do q <- (if ground then match s_gbore s with Some g => Ok g | None => Err AttributeError end
               else Ok (s_bore s));
    do bore <- chunk_slice s c q;
    if negb (length bore =? csize c)%nat then Err ValueError
    else
      let v := mkview ground ang (s_hwp s) bore (c_start c) in
      let tod := map (e_signal E w b v) (seq 0 (csize c)) in
      do s <- store_tod add tod s;
      Ok (match s_tod s with Some t => t | None => [] end, add_log s (EScan w v tod)).

Lemma rest_dress w g add skip ground c ang s d p h :
  scan_rest w g add skip ground c ang (dress s d p h) = lift2 d p h (scan_rest w g add skip ground c ang s).
Proof.
  unfold scan_rest. destruct skip.
  - rewrite store_dress. destruct (store_tod add _ s); reflexivity.
  - change (s_maps (dress s d p h)) with (s_maps s). change (s_gbore (dress s d p h)) with (s_gbore s).
    change (s_bore (dress s d p h)) with (s_bore s). change (s_hwp (dress s d p h)) with (s_hwp s).
    destruct (find_maps (s_maps s) g ground) as [b|]; cbn [bind]; [|reflexivity].
    destruct (if ground then _ else _) as [q|]; cbn [bind]; [|reflexivity].
    rewrite slice_dress. destruct (chunk_slice s c q) as [bore|]; cbn [bind]; [|reflexivity].
    destruct (negb _); [reflexivity|]. cbv zeta. rewrite store_dress. destruct (store_tod add _ s); reflexivity.
Qed.

Lemma scan_dress w dead g add rt rp skip ground c s d p h :
  scan E w dead g add rt rp skip ground c (dress s d p h) = lift2 d p h (scan E w dead g add rt rp skip ground c s).
Proof.
  unfold scan. destruct dead; [reflexivity|]. destruct (skip && (rt || rp))%bool; [reflexivity|].
  destruct w as [i|i k]; [|exact (rest_dress (Ghost i k) g add skip ground c (ir_angle (sg_rot (s_strat s))) s d p h)].
  exact (rest_dress (Main i) g add skip ground c (ir_angle (sg_rot (s_strat s)))
    (set_qoff s (upd (s_qoff s) i (Some (ir_angle (sg_rot (s_strat s)))))) d p h).
Qed.

(** The flags that say what is returned matter only for the check. *)
Lemma scan_flags w dead g add rt rp skip ground c s r :
  scan E w dead g add rt rp skip ground c s = Ok r -> scan E w dead g add false false skip ground c s = Ok r.
Proof.
  unfold scan. destruct dead; [discriminate|].
  destruct skip; cbn [andb]; [|tauto]. destruct (rt || rp)%bool; [discriminate|tauto].
Qed.

Lemma ghosts_dress i gs skip ground c d p h : forall k n s,
  scan_ghosts E i k n gs skip ground c (dress s d p h) = lift2 d p h (scan_ghosts E i k n gs skip ground c s).
Proof.
  induction gs as [|g gs IH]; intros k n s; cbn [scan_ghosts]; [reflexivity|].
  destruct (gh_dead g); [apply IH|]. rewrite scan_dress.
  destruct (scan E _ _ _ _ _ _ _ _ _ s) as [[x s1]|]; cbn [bind lift2]; [apply IH|reflexivity].
Qed.

Lemma put_tod_dress i c tod s s' d p h : put_tod i c tod s = Ok s' -> dress s' d p h = dress s d p h.
Proof.
  unfold put_tod. intros H. inv_bind H ij Hij. destruct ij as [a b]. destruct (c_cidx c); [|discriminate].
  destruct (s_data s n i); [|discriminate]. destruct (a <? 0)%Z; [discriminate|]. injection H as <-. reflexivity.
Qed.

Lemma put_point_dress i c s s' d p h : put_point E i c s = Ok s' -> dress s' d p h = dress s d p h.
Proof.
  unfold put_point. intros H. inv_bind H ij Hij. destruct ij as [a b]. destruct (c_cidx c); [|discriminate].
  destruct (a <? 0)%Z; [discriminate|]. inv_bind H bo Hb. inv_bind H hw Hh. injection H as <-. reflexivity.
Qed.

Lemma detector_dress O dd ground c s s' d p h :
  scan_detector E O dd ground c s = Ok s' ->
  scan_detector E (saving O false false) dd ground c (dress s d p h) = Ok (dress s' d p h).
Proof.
  unfold scan_detector. cbn [saving o_preview o_save_tod o_save_point orb].
  destruct (d_ghost dd); [discriminate|]. rewrite Bool.andb_false_r.
  destruct (o_preview O && (o_save_tod O || o_save_point O))%bool; [discriminate|].
  rewrite ghosts_dress. destruct (scan_ghosts _ _ _ _ _ _ _ _ s) as [[n s1]|]; cbn [bind lift2]; [|discriminate].
  intros H.
  inv_bind H r Hr. destruct r as [te s2].
  assert (X : (if ground then do (_, s) <- scan E (Main (d_id dd)) (d_dead dd) None (negb (n =? 0)%nat) false false false true c (dress s1 d p h);
                 if false then Err UnboundLocalError else Ok (true, s)
               else Ok (negb (n =? 0)%nat, dress s1 d p h)) = Ok (te, dress s2 d p h)).
  { destruct ground.
    - inv_bind Hr x Hx. destruct x as [y s3]. apply scan_flags in Hx. rewrite scan_dress, Hx. cbn [bind lift2].
      destruct (o_save_point O); [discriminate|]. now injection Hr as <- <-.
    - now injection Hr as <- <-. }
  rewrite X. cbn [bind]. clear X Hr.
  inv_bind H x Hx. destruct x as [tod s3]. apply scan_flags in Hx. rewrite scan_dress, Hx. cbn [bind lift2].
  inv_bind H s4 H4.
  assert (Y : dress s4 d p h = dress s3 d p h).
  { destruct (o_save_tod O); [exact (put_tod_dress _ _ _ _ _ d p h H4)|now injection H4 as <-]. }
  destruct (o_save_point O).
  - apply (put_point_dress _ _ _ _ d p h) in H. now rewrite H, Y.
  - injection H as <-. now rewrite Y.
Qed.

Lemma bin_dress O a b dd tod c s d p h :
  bin_tod (saving O a b) dd tod c (dress s d p h) = lift2 d p h (bin_tod O dd tod c s).
Proof.
  unfold bin_tod. cbn [dress set_hwps set_point set_data s_hwp s_bore s_qoff s_tod s_strat saving o_filter].
  destruct (s_hwp s) as [hw|]; [|reflexivity].
  fold (dress s d p h). rewrite slice_dress. destruct (chunk_slice s c (s_bore s)); cbn [bind]; [|reflexivity].
  destruct (s_qoff s (d_id dd)); [|reflexivity].
  destruct tod as [t|]; cbn [bind].
  - destruct (o_filter O _ t); reflexivity.
  - destruct (s_tod s) as [t|]; cbn [bind]; [|reflexivity]. destruct (o_filter O _ t); reflexivity.
Qed.

Lemma op_dress o s d p h : lift_op o (dress s d p h) = lift2 d p h (lift_op o s).
Proof.
  unfold lift_op. cbn [dress set_hwps set_point set_data s_strat].
  destruct (run_op o (s_strat s)) as [[x|] st]; reflexivity.
Qed.

Lemma implement_dress pre ground c s d p h :
  implement_scan E pre ground c (dress s d p h) = lift1 d p h (implement_scan E pre ground c s).
Proof.
  unfold implement_scan. destruct (e_ext E); [reflexivity|].
  change (s_mmap (dress s d p h)) with (s_mmap s). destruct (if pre then s_mmap s else None); [reflexivity|].
  rewrite op_dress. destruct (lift_op _ s) as [[x s1]|]; cbn [bind lift2]; [|reflexivity].
  destruct ground; reflexivity.
Qed.

Lemma allocate_dress O dd c s s' d p h : allocate O dd c s = Ok s' ->
  exists d' p', allocate (saving O false false) dd c (dress s d p h) = Ok (dress s' d' p' h).
Proof.
  unfold allocate. destruct (c_cidx c) as [ci|]; [|discriminate]. intros [= <-].
  eexists _, _. reflexivity.
Qed.

Lemma live_dress O dd c s s' d p h : on_live dd (fun d => allocate O d c) s = Ok s' ->
  exists d' p', on_live dd (fun d => allocate (saving O false false) d c) (dress s d p h) = Ok (dress s' d' p' h).
Proof.
  unfold on_live. destruct (live dd); [apply allocate_dress|]. intros [= <-]. eauto.
Qed.

Lemma sub_dress O q ground c s s' d p h : scan_sub E O q ground c s = Ok s' ->
  scan_sub E (saving O false false) q ground c (dress s d p h) = Ok (dress s' d p h).
Proof.
  unfold scan_sub. destruct q as [a b]. intros H.
  inv_bind H r Hr. destruct r as [x1 s1].
  assert (X1 : (if c_norot c then Ok (XNone, dress s d p h) else lift_op ORotate (dress s d p h)) = Ok (x1, dress s1 d p h)).
  { destruct (c_norot c); [now injection Hr as <- <-|]. now rewrite op_dress, Hr. }
  rewrite X1. cbn [bind]. clear X1 Hr.
  inv_bind H r Hr. destruct r as [x2 s2]. rewrite op_dress, Hr. cbn [bind lift2]. clear Hr.
  set (s3 := match x2 with XHwp HStale => s2 | XHwp h => set_hwp s2 (Some h) | _ => s2 end) in H.
  replace (match x2 with XHwp HStale => dress s2 d p h | XHwp h0 => set_hwp (dress s2 d p h) (Some h0) | _ => dress s2 d p h end)
    with (dress s3 d p h) by (unfold s3; destruct x2 as [| |[]| |]; reflexivity).
  clearbody s3. change (o_ctalk (saving O false false)) with (o_ctalk O). change (o_binning (saving O false false)) with (o_binning O). change (o_save_tod (saving O false false)) with false.
  inv_bind H r Hr. destruct r as [ct s4].
  cbv zeta in H, Hr |- *.
  match goal with |- bind ?r _ = _ => assert (X2 : r = Ok (ct, dress s4 d p h)) end.
  { destruct (live a) as [da|]; [|now injection Hr as <- <-].
    inv_bind Hr s5 H5. apply (detector_dress _ _ _ _ _ _ d p h) in H5. rewrite H5. cbn [bind].
    cbv zeta in *. destruct (match live b with Some _ => _ | None => _ end).
    - now injection Hr as <- <-.
    - destruct (o_binning O); [|now injection Hr as <- <-]. rewrite bin_dress.
      inv_bind Hr r H6. destruct r as [t s6]. rewrite H6. cbn [bind lift2]. now injection Hr as <- <-. }
  rewrite X2. cbn [bind]. clear X2 Hr.
  inv_bind H s5 Hs.
  match goal with |- bind ?r _ = _ => assert (X3 : r = Ok (dress s5 d p h)) end.
  { destruct (live b) as [db|]; [|now injection Hs as <-].
    inv_bind Hs s6 H6. apply (detector_dress _ _ _ _ _ _ d p h) in H6. rewrite H6. cbn [bind].
    destruct ct; [now injection Hs as <-|]. destruct (o_binning O); [|now injection Hs as <-].
    rewrite bin_dress. inv_bind Hs r H7. destruct r as [t s7]. rewrite H7. cbn [bind lift2]. now injection Hs as <-. }
  rewrite X3. cbn [bind]. clear X3 Hs.
  destruct ct as [ta|]; [|now injection H as <-].
  destruct (live a) as [da|]; [|now injection H as <-].
  destruct (live b) as [db|]; [|now injection H as <-].
  cbv zeta in *. change (s_tod (dress s5 d p h)) with (s_tod s5).
  inv_bind H r Hc. destruct r as [ta' tb']. rewrite Hc. cbn [bind].
  change (set_tod (dress s5 d p h) (Some tb')) with (dress (set_tod s5 (Some tb')) d p h).
  set (s6 := set_tod s5 (Some tb')) in *. clearbody s6.
  inv_bind H s7 H7.
  assert (Y : dress s7 d p h = dress s6 d p h).
  { destruct (o_save_tod O); [|now injection H7 as <-].
    inv_bind H7 s8 H8. apply (put_tod_dress _ _ _ _ _ d p h) in H8. apply (put_tod_dress _ _ _ _ _ d p h) in H7. congruence. }
  rewrite <- Y. destruct (o_binning O); [|now injection H as <-].
  rewrite bin_dress. inv_bind H r H8. destruct r as [t8 s8]. rewrite H8. cbn [bind lift2].
  rewrite bin_dress. inv_bind H r H9. destruct r as [t9 s9]. rewrite H9. cbn [bind lift2].
  now injection H as <-.
Qed.

Lemma subs_dress O q d p h : forall subs s s', scan_subs E O q subs s = Ok s' ->
  scan_subs E (saving O false false) q subs (dress s d p h) = Ok (dress s' d p h).
Proof.
  induction subs as [|[c g] r IH]; cbn [scan_subs]; intros s s' H; [now injection H as <-|].
  inv_bind H s1 H1. apply (sub_dress _ _ _ _ _ _ d p h) in H1. rewrite H1. cbn [bind]. now apply IH.
Qed.

Lemma chunk_dress O bidx q k s s' d p h : scan_chunk E O bidx q k s = Ok s' ->
  exists d' p', scan_chunk E (saving O false false) bidx q k (dress s d p h) = Ok (dress s' d' p' h).
Proof.
  unfold scan_chunk. change (s_chunks (dress s d p h)) with (s_chunks s).
  destruct (nth_error _ k) as [[c g]|]; [|intros [= <-]; eauto]. intros H.
  change (o_ground (saving O false false)) with (o_ground O).
  rewrite implement_dress. inv_bind H s1 H1. rewrite H1. cbn [bind lift1]. clear H1.
  inv_bind H s2 H2.
  assert (X : (if (bidx =? 0)%nat then allocate_hwp (saving O false false) c (dress s1 d p h) else Ok (dress s1 d p h))
              = Ok (dress s2 d p h)).
  { destruct (bidx =? 0)%nat; [|now injection H2 as <-]. unfold allocate_hwp in *. cbn [saving o_save_point].
    destruct (o_save_point O); [|now injection H2 as <-]. destruct (c_cidx c); [|discriminate]. now injection H2 as <-. }
  rewrite X. cbn [bind]. clear X H2.
  inv_bind H s3 H3. destruct (live_dress _ _ _ _ _ d p h H3) as (d1 & p1 & E1). rewrite E1. cbn [bind]. clear H3 E1.
  inv_bind H s4 H4. destruct (live_dress _ _ _ _ _ d1 p1 h H4) as (d2 & p2 & E2). rewrite E2. cbn [bind]. clear H4 E2.
  cbv zeta in *. change (s_strat (dress s4 d2 p2 h)) with (s_strat s4).
  rewrite op_dress. inv_bind H r Hr. destruct r as [x s5]. rewrite Hr. cbn [bind lift2]. clear Hr.
  exists d2, p2. destruct (rot_period _); [now apply subs_dress|].
  destruct (o_ground O); [|now apply subs_dress].
  change (set_chunks (dress s5 d2 p2 h) _) with
    (dress (set_chunks s5 (option_map (fun l => set_ground l k) (s_chunks s5))) d2 p2 h).
  now apply subs_dress.
Qed.

Lemma chunks_dress O bidx q h : forall ks d p s s', scan_chunks E O bidx q ks s = Ok s' ->
  exists d' p', scan_chunks E (saving O false false) bidx q ks (dress s d p h) = Ok (dress s' d' p' h).
Proof.
  induction ks as [|k ks IH]; cbn [scan_chunks]; intros d p s s' H; [injection H as <-; eauto|].
  inv_bind H s1 H1. destruct (chunk_dress _ _ _ _ _ _ d p h H1) as (d1 & p1 & E1). rewrite E1. cbn [bind].
  now apply IH.
Qed.

Lemma pair_dress O bidx which s s' d p h : scan_pair E O bidx which s = Ok s' ->
  exists d' p', scan_pair E (saving O false false) bidx which (dress s d p h) = Ok (dress s' d' p' h).
Proof.
  unfold scan_pair. change (o_preview (saving O false false)) with (o_preview O). change (o_reuse (saving O false false)) with (o_reuse O). change (o_ground (saving O false false)) with (o_ground O).
  set (s1 := if (bidx =? 0)%nat then s else set_strat s (reset (s_strat s))).
  replace (if (bidx =? 0)%nat then dress s d p h else set_strat (dress s d p h) (reset (s_strat (dress s d p h))))
    with (dress s1 d p h) by (unfold s1; destruct (bidx =? 0)%nat; reflexivity).
  clearbody s1. change (s_beams (dress s1 d p h)) with (s_beams s1). change (s_maps (dress s1 d p h)) with (s_maps s1).
  set (q := match which with Some i => match nth_error (s_beams s1) i with Some p => p | None => (None, None) end
            | None => (None, None) end). clearbody q.
  intros H. inv_bind H r Hr. destruct r as [q' s2].
  match type of Hr with ?l = _ => match goal with |- context [bind ?r _] =>
    assert (X : r = Ok (q', dress s2 d p h)) end end.
  { destruct q as [a b]. destruct a, b; try (now injection Hr as <- <-);
    (destruct (o_preview O); [now injection Hr as <- <-|]);
    (destruct (_ && o_reuse O)%bool; [now injection Hr as <- <-|]);
    inv_bind Hr r Hi; destruct r as [m q2]; rewrite Hi; cbn [bind]; destruct which; now injection Hr as <- <-. }
  rewrite X. cbn [bind]. clear X Hr.
  change (s_chunks (dress s2 d p h)) with (s_chunks s2).
  inv_bind H s3 H3.
  match goal with |- context [bind ?r _] => assert (X : r = Ok (dress s3 d p h)) end.
  { destruct (s_chunks s2); [now injection H3 as <-|]. inv_bind H3 l Hl. rewrite Hl. cbn [bind]. now injection H3 as <-. }
  rewrite X. cbn [bind]. clear X H3.
  change (plain_chunks (dress s3 d p h)) with (plain_chunks s3).
  inv_bind H u Hu. rewrite Hu. cbn [bind]. now apply chunks_dress.
Qed.

Lemma pairs_dress O h : forall l bidx d p s s', scan_pairs E O bidx l s = Ok s' ->
  exists d' p', scan_pairs E (saving O false false) bidx l (dress s d p h) = Ok (dress s' d' p' h).
Proof.
  induction l as [|w l IH]; cbn [scan_pairs]; intros bidx d p s s' H; [injection H as <-; eauto|].
  inv_bind H s1 H1. destruct (pair_dress _ _ _ _ _ d p h H1) as (d1 & p1 & E1). rewrite E1. cbn [bind].
  now apply IH.
Qed.

Lemma dress_id s : dress s (s_data s) (s_point s) (s_hwps s) = s.
Proof. destruct s. reflexivity. Qed.

(** A scan that saves does what the scan without saving does. *)
Lemma saving_only O s s' : scan_instrument E O s = Ok s' ->
  exists d p, scan_instrument E (saving O false false) s = Ok (dress s' d p (s_hwps s)).
Proof.
  unfold scan_instrument. change (o_alm (saving O false false)) with (o_alm O). change (o_preview (saving O false false)) with (o_preview O). change (o_save_tod (saving O false false)) with false. change (o_save_point (saving O false false)) with false. change (o_memmap (saving O false false)) with (o_memmap O). change (o_scatter (saving O false false)) with (o_scatter O). cbn [orb]. destruct (negb (o_alm O) && negb (o_preview O))%bool; [discriminate|].
  rewrite Bool.andb_false_r. destruct (o_preview O && _)%bool; [discriminate|]. cbv zeta.
  set (s1 := if (o_memmap O && negb (e_ext E))%bool then _ else s). intros H.
  destruct (pairs_dress O (s_hwps s) _ _ (s_data s) (s_point s) _ _ H) as (d & p & X).
  exists d, p. rewrite <- X. f_equal. unfold s1. destruct (_ && _)%bool; destruct s; reflexivity.
Qed.

End Save.
