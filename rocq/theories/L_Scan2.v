(** * Lemmas about one sub-chunk and one chunk *)
From Coq Require Import Reals Lra.
From Verif Require Import Common LibList M_Chunks M_Steps M_Hwp M_Mpi M_Detpair M_Scan S_Chunks S_Scan L_Chunks L_Scan.
From Verif Require M_Tod L_Tod.
Open Scope R_scope.

Section L.
  Context {B : Type}.
  Implicit Types (s : state B) (E : env B) (d : det B).

  (** ** Without scanning (preview) *)

  Lemma calls_tod_nil E n vw : calls_tod E n vw [] = repeat 0 n.
  Proof. rewrite L_Tod.repeat_arr. reflexivity. Qed.

  Lemma scan_skip E w dead gidx add ground c s t s' :
    scan E w dead gidx add false false true ground c s = Ok (t, s') ->
    dead = false /\ exists x, s' = set_tod (qset w s) (Some x)
      /\ ((add = false \/ s_tod s = Some (repeat 0 (csize c))) -> x = repeat 0 (csize c)).
  Proof.
    unfold scan. destruct dead; [discriminate|]. cbn [andb orb]. intros H. split; auto.
    set (s1 := match w with Main _ => _ | Ghost _ _ => s end) in H.
    assert (E1 : s1 = qset w s) by (destruct w; reflexivity). rewrite E1 in H. clear s1 E1.
    inv_bind H s2 Hs2. injection H as <- <-. apply store_tod_spec in Hs2.
    destruct Hs2 as (x & -> & Hx). exists x. split; auto.
    assert (F : s_tod (qset w s) = s_tod s) by (destruct w; reflexivity). rewrite F in Hx.
    intros [->|Ht]; [destruct (s_tod s); auto|].
    destruct add; [|destruct (s_tod s); auto]. rewrite Ht in Hx.
    rewrite !L_Tod.repeat_arr, L_Tod.radd_arr_arr in Hx. injection Hx as <-.
    rewrite L_Tod.repeat_arr. apply L_Tod.arr_ext. intros; lra.
  Qed.

  Lemma scan_ghosts_skip E i c : forall gs k n s n' s',
    (n = 0%nat \/ s_tod s = Some (repeat 0 (csize c))) ->
    scan_ghosts E i k n gs true false c s = Ok (n', s') ->
    exists x, s' = set_tod s x /\ (n' = 0%nat \/ x = Some (repeat 0 (csize c))).
  Proof.
    induction gs as [|g gs IH]; intros k n s n' s' Hn H; cbn [scan_ghosts] in H.
    - injection H as <- <-. exists (s_tod s). split; [destruct s; reflexivity|]. tauto.
    - destruct (gh_dead g); [eapply IH; eauto|].
      inv_bind H ts Hts. destruct ts as [t s1]. apply scan_skip in Hts.
      destruct Hts as (_ & x & -> & Hx). apply IH in H.
      + destruct H as (y & -> & Hy). exists y. split; auto.
      + right. cbn. rewrite Hx; auto. destruct Hn as [->|]; auto.
  Qed.

  (** ** A detector, scanned or previewed *)

  Definition calls_of (O : opts) maps d ground : res (list (@call B)) :=
    if o_preview O then Ok [] else det_calls maps d ground.

  Lemma scan_detector_any E O d ground c s s' :
    (ground = true -> o_preview O = false) ->
    scan_detector E O d ground c s = Ok s' ->
    exists l, d_dead d = false
      /\ (ground = true -> o_save_point O = false)
      /\ calls_of O (s_maps s) d ground = Ok l
      /\ frame s s'
      /\ s_log s' = s_log s ++ map (call_event E (csize c) (the_views c s)) l
      /\ s_tod s' = Some (calls_tod E (csize c) (the_views c s) l)
      /\ s_qoff s' = upd (s_qoff s) (d_id d) (Some (ir_angle (sg_rot (s_strat s))))
      /\ (o_save_tod O = false -> s_data s' = s_data s)
      /\ (o_save_tod O = true ->
            exists i j ci a, chunk2idx (plain_chunks s) c = Ok (i, j) /\ (0 <= i)%Z
              /\ c_cidx c = Some ci /\ s_data s ci (d_id d) = Some a
              /\ s_data s' = upd2 (s_data s) ci (d_id d)
                   (Some (splice a (Z.to_nat i) (calls_tod E (csize c) (the_views c s) l)))).
  Proof.
    intros Hg H. unfold calls_of. destruct (o_preview O) eqn:Ep.
    - destruct ground; [specialize (Hg eq_refl); discriminate|].
      unfold scan_detector in H. rewrite Ep in H. destruct (d_ghost d); [discriminate|].
      destruct (o_save_tod O) eqn:Es; [discriminate|].
      destruct (o_save_point O) eqn:Esp; [discriminate|]. cbn [andb orb] in H.
      inv_bind H ns Hns. destruct ns as [n s1].
      apply scan_ghosts_skip in Hns; [|auto]. destruct Hns as (x & -> & Hx).
      cbn [bind] in H. inv_bind H ts Hts. destruct ts as [t s2]. apply scan_skip in Hts.
      destruct Hts as (Hd & y & -> & Hy). injection H as <-.
      exists []. split; auto. split; [discriminate|]. split; auto.
      split; [constructor; reflexivity|].
      split; [cbn; rewrite app_nil_r; reflexivity|].
      split.
      { cbn [s_tod set_tod]. rewrite calls_tod_nil. f_equal. apply Hy.
        destruct Hx as [->|Hx]; auto. }
      split; [reflexivity|]. split; [reflexivity|]. discriminate.
    - apply scan_detector_spec in H; auto.
      destruct H as (l & H1 & H2 & H3 & H4 & H5 & H6 & H7 & H8 & H9 & H10 & H11).
      exists l. auto 12.
  Qed.

  (** ** Binning *)
  Definition fval (O : opts) m (t : list R) : list R :=
    match o_filter O m t with Ok t => t | Err _ => t end.

  Lemma bin_tod_spec (O : opts) d tod c s t s' ang :
    s_qoff s (d_id d) = Some ang -> ang = ir_angle (sg_rot (s_strat s)) ->
    bin_tod O d tod c s = Ok (t, s') ->
    exists t0, (match tod with Some x => t0 = x | None => s_tod s = Some t0 end)
      /\ o_filter O (h_mode (sg_hwp (s_strat s))) t0 = Ok t
      /\ (exists h, s_hwp s = Some h)
      /\ frame s s' /\ s_qoff s' = s_qoff s /\ s_data s' = s_data s
      /\ s_log s' = s_log s ++ [EBin (d_id d) (the_views c s false) t]
      /\ s_tod s' = (match tod with None => Some t | Some _ => s_tod s end).
  Proof.
    unfold bin_tod. intros Hq Ha H. destruct (s_hwp s) as [h|] eqn:Eh; [|discriminate].
    inv_bind H bore Hb. rewrite Hq in H. inv_bind H t0 Ht0. inv_bind H t1 Ht1.
    assert (V : mkview false ang (Some h) bore (c_start c) = the_views c s false).
    { unfold the_views, bore_of, view_of. rewrite Hb, Eh, Ha. reflexivity. }
    rewrite V in H. injection H as <- <-. exists t0. split.
    { destruct tod; [congruence|]. destruct (s_tod s); congruence. }
    split; auto. split; [eauto|]. destruct tod; cbn; repeat split; auto.
  Qed.

  (** ** Sub-chunk *)

  (** Rotating the instrument and the HWP before a sub-chunk is scanned. *)
  Definition move (c : chunk) (st : strat) (h : option hwp_out) : res (strat * option hwp_out) :=
    let rot := if c_norot c then (Ok XNone, st) else run_op ORotate st in
    match rot with
    | (Err e, _) => Err e
    | (Ok _, st1) =>
        match run_op (OHwp None (csize c)) st1 with
        | (Err e, _) => Err e
        | (Ok x, st2) =>
            Ok (st2, match x with XHwp HStale => h | XHwp o => Some o | _ => h end)
        end
    end.

  Definition moved s (st : strat) (h : option hwp_out) : state B := set_hwp (set_strat s st) h.

  Definition ctalk_on (O : opts) (a b : option (det B)) : bool :=
    match live a, live b with
    | Some _, Some _ => if Req_EM_T (o_ctalk O) 0 then false else true
    | _, _ => false
    end.

  (** Events of a sub-chunk, given the calls for A and for B. *)
  Definition mix (x : R) n (f g : nat -> R) : list R :=
    arr n (fun i => f i + x * g i).

  Definition bin_event (O : opts) m d (v : view) (t : list R) : list event :=
    if o_binning O then [EBin (d_id d) v (fval O m t)] else [].

  Definition sub_events E O (p : bpair B) n (vw : bool -> view) m (la lb : list (@call B)) : list event :=
    let sa := fun i => rsum (map (fun x => call_sig E vw x i) la) in
    let sb := fun i => rsum (map (fun x => call_sig E vw x i) lb) in
    let evs := map (call_event E n vw) in
    match live (fst p), live (snd p) with
    | Some a, Some b =>
        if ctalk_on O (fst p) (snd p) then
          evs la ++ evs lb
          ++ bin_event O m a (vw false) (mix (o_ctalk O) n sa sb)
          ++ bin_event O m b (vw false) (mix (o_ctalk O) n sb sa)
        else
          evs la ++ bin_event O m a (vw false) (arr n sa)
          ++ evs lb ++ bin_event O m b (vw false) (arr n sb)
    | Some a, None => evs la ++ bin_event O m a (vw false) (arr n sa)
    | None, Some b => evs lb ++ bin_event O m b (vw false) (arr n sb)
    | None, None => []
    end.

  Definition calls_for (O : opts) maps (d : option (det B)) ground (l : list (@call B)) : Prop :=
    match live d with
    | Some d => calls_of O maps d ground = Ok l /\ (ground = true -> o_save_point O = false)
    | None => l = []
    end.

  (** ** Saved timestreams *)
  Lemma splice_splice {A} (l : list A) i t1 t2 :
    length t1 = length t2 -> (i + length t1 <= length l)%nat ->
    splice (splice l i t1) i t2 = splice l i t2.
  Proof.
    intros E H. unfold splice.
    assert (L : length (firstn i l) = i) by (rewrite firstn_length; lia).
    rewrite firstn_app, L, Nat.sub_diag. cbn [firstn].
    rewrite app_nil_r, firstn_firstn, Nat.min_id.
    f_equal. f_equal. rewrite app_assoc, skipn_app.
    rewrite (skipn_all2 (firstn i l ++ t1)) by (rewrite app_length; lia).
    cbn. rewrite app_length, L, E, Nat.sub_diag. reflexivity.
  Qed.

  Definition saved s s' (c : chunk) (k : Z) (t : list R) : Prop :=
    exists i j ci ar, chunk2idx (plain_chunks s) c = Ok (i, j) /\ (0 <= i)%Z
      /\ c_cidx c = Some ci /\ s_data s ci k = Some ar
      /\ ((Z.to_nat i + length t <= length ar)%nat ->
          s_data s' ci k = Some (splice ar (Z.to_nat i) t)).

  Lemma upd2_same {X} (f : nat -> Z -> X) i k x : upd2 f i k x i k = x.
  Proof. unfold upd2. rewrite Nat.eqb_refl, Z.eqb_refl. reflexivity. Qed.
  Lemma upd2_other {X} (f : nat -> Z -> X) i k x i' k' : (i', k') <> (i, k) -> upd2 f i k x i' k' = f i' k'.
  Proof.
    intros H. unfold upd2. destruct (Nat.eqb_spec i' i), (Z.eqb_spec k' k); subst; auto.
    destruct H. reflexivity.
  Qed.

  Lemma put_tod_spec k c t s s' : put_tod k c t s = Ok s' ->
    frame s s' /\ s_log s' = s_log s /\ s_tod s' = s_tod s /\ s_qoff s' = s_qoff s
    /\ exists i j ci ar, chunk2idx (plain_chunks s) c = Ok (i, j) /\ (0 <= i)%Z
      /\ c_cidx c = Some ci /\ s_data s ci k = Some ar
      /\ s_data s' = upd2 (s_data s) ci k (Some (splice ar (Z.to_nat i) t)).
  Proof.
    unfold put_tod. intros H. inv_bind H ij Hij. destruct ij as [i j].
    destruct (c_cidx c) as [ci|]; [|discriminate].
    destruct (s_data s ci k) as [ar|] eqn:Ear; [|discriminate].
    destruct (Z.ltb_spec i 0); [discriminate|]. injection H as <-.
    split; [constructor; reflexivity|]. repeat split; auto.
    exists i, j, ci, ar. repeat split; auto.
  Qed.

  (** Timestream a detector ends up with: own signal, plus a fraction of the
      partner's with cross-talk. *)
  Definition final E O (p : bpair B) n vw (mine other : list (@call B)) : list R :=
    let f := fun i => rsum (map (fun x => call_sig E vw x i) mine) in
    let g := fun i => rsum (map (fun x => call_sig E vw x i) other) in
    if ctalk_on O (fst p) (snd p) then mix (o_ctalk O) n f g else arr n f.

  Definition data_step E O (p : bpair B) (c : chunk) vw (la lb : list (@call B)) s s' : Prop :=
    (forall ci k, (c_cidx c <> Some ci \/ (forall d, live (fst p) = Some d \/ live (snd p) = Some d -> d_id d <> k)) ->
       s_data s' ci k = s_data s ci k)
    /\ (o_save_tod O = false -> s_data s' = s_data s)
    /\ (o_save_tod O = true ->
         (forall a, live (fst p) = Some a ->
            (forall b, live (snd p) = Some b -> d_id a <> d_id b) ->
            saved s s' c (d_id a) (final E O p (csize c) vw la lb))
         /\ (forall b, live (snd p) = Some b ->
            (forall a, live (fst p) = Some a -> d_id a <> d_id b) ->
            saved s s' c (d_id b) (final E O p (csize c) vw lb la))).
End L.
