(** * Lemmas about one detector and one sub-chunk *)
From Coq Require Import Reals Lra.
From Verif Require Import Common LibList M_Chunks M_Steps M_Hwp M_Mpi M_Detpair M_Scan S_Chunks S_Scan L_Chunks.
From Verif Require M_Tod L_Tod.
Open Scope R_scope.

Notation arr := L_Tod.arr.

Lemma bind_inv {A C} (e : res A) (f : A -> res C) r : bind e f = Ok r ->
  exists x, e = Ok x /\ f x = Ok r.
Proof. destruct e as [x|]; [eauto|discriminate]. Qed.

Ltac inv_bind H x Hx := apply bind_inv in H; destruct H as (x & Hx & H).

Definition rsum (l : list R) : R := fold_right Rplus 0 l.
Lemma rsum_app a b : rsum (a ++ b) = rsum a + rsum b.
Proof. unfold rsum. induction a as [|x a IH]; cbn; [|rewrite IH]; lra. Qed.

Section L.
  Context {B : Type}.
  Implicit Types (s : state B) (E : env B) (d : det B).

  (** Fields that scanning and binning a stretch leave alone. *)
  Record frame s s' : Prop := mkframe {
    f_strat : s_strat s' = s_strat s;
    f_beams : s_beams s' = s_beams s;
    f_chunks : s_chunks s' = s_chunks s;
    f_maps : s_maps s' = s_maps s;
    f_mmap : s_mmap s' = s_mmap s;
    f_bore : s_bore s' = s_bore s;
    f_gbore : s_gbore s' = s_gbore s;
    f_hwp : s_hwp s' = s_hwp s }.

  Lemma frame_refl s : frame s s.
  Proof. constructor; reflexivity. Qed.
  Lemma frame_trans s1 s2 s3 : frame s1 s2 -> frame s2 s3 -> frame s1 s3.
  Proof. intros [] []. constructor; congruence. Qed.

  (** ** One call of [scan] *)

  Definition qset (w : who) s : state B :=
    match w with
    | Main d => set_qoff s (upd (s_qoff s) d (Some (ir_angle (sg_rot (s_strat s)))))
    | Ghost _ _ => s
    end.

  Definition bore_of ground s : option (list R) := if ground : bool then s_gbore s else Some (s_bore s).

  Definition view_of ground (bore : list R) (c : chunk) s : view :=
    mkview ground (ir_angle (sg_rot (s_strat s))) (s_hwp s) bore (c_start c).

  Lemma store_tod_spec add tod s s' : store_tod add tod s = Ok s' ->
    exists t, s' = set_tod s (Some t)
      /\ match add, s_tod s with
         | true, Some old => M_Tod.radd_arr old tod = Ok t
         | _, _ => t = tod
         end.
  Proof.
    unfold store_tod. destruct add, (s_tod s) as [old|]; intros H.
    - inv_bind H t Ht. injection H as <-. eauto.
    - injection H as <-. eauto.
    - injection H as <-. eauto.
    - injection H as <-. eauto.
  Qed.

  Lemma scan_spec E w dead gidx add rt rp ground c s t s' :
    scan E w dead gidx add rt rp false ground c s = Ok (t, s') ->
    dead = false /\ exists b a bore, find_maps (s_maps s) gidx ground = Ok b
      /\ bore_of ground s = Some a /\ chunk_slice s c a = Ok bore /\ length bore = csize c
      /\ s' = add_log (set_tod (qset w s) (Some t))
                (EScan w (view_of ground bore c s) (arr (csize c) (e_signal E w b (view_of ground bore c s))))
      /\ match add, s_tod s with
         | true, Some old => M_Tod.radd_arr old (arr (csize c) (e_signal E w b (view_of ground bore c s))) = Ok t
         | _, _ => t = arr (csize c) (e_signal E w b (view_of ground bore c s))
         end.
  Proof.
    unfold scan. destruct dead; [discriminate|]. cbn [andb]. intros H. split; auto.
    set (s1 := match w with Main _ => _ | Ghost _ _ => s end) in H.
    assert (E1 : s1 = qset w s) by (destruct w; reflexivity). rewrite E1 in H. clear s1 E1.
    assert (F : s_maps (qset w s) = s_maps s /\ s_gbore (qset w s) = s_gbore s
                /\ s_bore (qset w s) = s_bore s /\ s_hwp (qset w s) = s_hwp s
                /\ s_tod (qset w s) = s_tod s
                /\ forall c a, chunk_slice (qset w s) c a = chunk_slice s c a)
      by (destruct w; cbn; auto 10).
    destruct F as (F1 & F2 & F3 & F4 & F5 & F6). rewrite F1, F2, F3, F4 in H.
    inv_bind H b Hb. inv_bind H a Ha. inv_bind H bore Hbore. rewrite F6 in Hbore.
    destruct (length bore =? csize c)%nat eqn:El; cbn [negb] in H; [|discriminate].
    inv_bind H s2 Hs2. apply store_tod_spec in Hs2. destruct Hs2 as (t' & -> & Ht').
    cbn in H. injection H as <- <-. rewrite F5 in Ht'.
    exists b, a, bore. split; auto. split.
    { destruct ground; cbn [bore_of]; [|congruence]. destruct (s_gbore s); congruence. }
    split; auto. split; [apply Nat.eqb_eq; auto|].
    split; [reflexivity|]. exact Ht'.
  Qed.

  (** ** Calls that make up a detector's timestream *)

  Definition call : Type := (who * B * bool)%type.

  (** Live ghosts, with the map each of them uses. *)
  Fixpoint ghost_calls (maps : option (spinmaps B)) (i : Z) (ground : bool) (k : nat)
    (gs : list (gh B)) : res (list call) :=
    match gs with
    | [] => Ok []
    | g :: r =>
        if gh_dead g then ghost_calls maps i ground (S k) r
        else
          do b <- find_maps maps (Some (gh_idx g)) ground;
          do l <- ghost_calls maps i ground (S k) r;
          Ok ((Ghost i k, b, ground) :: l)
    end.

  Definition det_calls (maps : option (spinmaps B)) d (ground : bool) : res (list call) :=
    do gs <- ghost_calls maps (d_id d) ground 0 (d_ghosts d);
    do gr <- (if ground then do b <- find_maps maps None true; Ok [(Main (d_id d), b, true)]
              else Ok []);
    do m <- find_maps maps None false;
    Ok (gs ++ gr ++ [(Main (d_id d), m, false)]).

  Section Calls.
    Variables (E : env B) (n : nat) (vw : bool -> view).
    Definition call_sig (x : call) (i : nat) : R :=
      let '(w, b, g) := x in e_signal E w b (vw g) i.
    Definition call_event (x : call) : event :=
      let '(w, b, g) := x in EScan w (vw g) (arr n (e_signal E w b (vw g))).
    Definition calls_tod (l : list call) : list R :=
      arr n (fun i => rsum (map (fun x => call_sig x i) l)).
  End Calls.

  Definition add_logs s (l : list event) : state B :=
    mkstate (s_strat s) (s_beams s) (s_chunks s) (s_maps s) (s_mmap s)
      (s_bore s) (s_gbore s) (s_hwp s) (s_tod s) (s_qoff s) (s_data s) (s_point s) (s_hwps s) (s_log s ++ l).

  (** The view through which scanning a chunk in the state [s] happens. *)
  Definition views (c : chunk) s (v : bool -> view) : Prop :=
    forall g a bore, bore_of g s = Some a -> chunk_slice s c a = Ok bore -> v g = view_of g bore c s.

  Definition the_views (c : chunk) s : bool -> view := fun g =>
    view_of g (match bore_of g s with
               | Some a => match chunk_slice s c a with Ok b => b | Err _ => [] end
               | None => [] end) c s.

  (** A ghost adds to the timestream: what is in [tod] so far is described by
      the calls [done]. *)
  Definition acc_ok (done : list call) E n vw (tod : option (list R)) : Prop :=
    done = [] \/ tod = Some (calls_tod E n vw done).

  Lemma calls_tod_snoc E n vw done x :
    M_Tod.radd_arr (calls_tod E n vw done) (arr n (call_sig E vw x)) = Ok (calls_tod E n vw (done ++ [x])).
  Proof.
    unfold calls_tod. rewrite L_Tod.radd_arr_arr. f_equal. apply L_Tod.arr_ext. intros i _.
    rewrite map_app, rsum_app. cbn. lra.
  Qed.
  Lemma calls_tod_one E n vw x : arr n (call_sig E vw x) = calls_tod E n vw [x].
  Proof. unfold calls_tod. apply L_Tod.arr_ext. intros i _. cbn. lra. Qed.

  (** [scan] as one step of the accumulation. *)
  Lemma scan_call E w dead gidx rt rp ground c s t s' done :
    acc_ok done E (csize c) (the_views c s) (s_tod s) ->
    scan E w dead gidx (negb (length done =? 0)%nat) rt rp false ground c s = Ok (t, s') ->
    exists b, dead = false /\ find_maps (s_maps s) gidx ground = Ok b
      /\ (exists a bore, bore_of ground s = Some a /\ chunk_slice s c a = Ok bore /\ length bore = csize c)
      /\ t = calls_tod E (csize c) (the_views c s) (done ++ [(w, b, ground)])
      /\ s' = add_logs (set_tod (qset w s) (Some t))
                [call_event E (csize c) (the_views c s) (w, b, ground)].
  Proof.
    intros Hacc H. apply scan_spec in H.
    destruct H as (-> & b & a & bore & Hb & Ha & Hbore & Hl & Hs' & Ht).
    exists b. split; auto. split; auto. split; [exists a, bore; auto|].
    assert (V : view_of ground bore c s = the_views c s ground).
    { unfold the_views. rewrite Ha, Hbore. reflexivity. }
    rewrite V in *.
    split; [|exact Hs'].
    destruct Hacc as [->|Htod].
    - cbn in Ht. rewrite Ht. cbn [app]. rewrite <- calls_tod_one. reflexivity.
    - destruct done as [|x done].
      + cbn in Ht. rewrite Ht. cbn [app]. rewrite <- calls_tod_one. reflexivity.
      + cbn [length Nat.eqb negb] in Ht. rewrite Htod in Ht.
        assert (Z := calls_tod_snoc E (csize c) (the_views c s) (x :: done) (w, b, ground)).
        assert (Z' := eq_trans (eq_sym Ht) Z). injection Z' as ->. reflexivity.
  Qed.

  Lemma the_views_frame c s s' : frame s s' -> the_views c s' = the_views c s.
  Proof.
    intros []. unfold the_views, view_of, bore_of, chunk_slice, plain_chunks.
    rewrite f_strat0, f_hwp0, f_gbore0, f_bore0, f_chunks0. reflexivity.
  Qed.

  Lemma frame_qset w s : frame s (qset w s).
  Proof. destruct w; constructor; reflexivity. Qed.
  Lemma frame_logs s l : frame s (add_logs s l).
  Proof. constructor; reflexivity. Qed.
  Lemma frame_tod s t : frame s (set_tod s t).
  Proof. constructor; reflexivity. Qed.

  Lemma add_logs_app s a b : add_logs (add_logs s a) b = add_logs s (a ++ b).
  Proof. unfold add_logs. cbn. rewrite app_assoc. reflexivity. Qed.

  (** ** Ghosts *)
  Lemma scan_ghosts_spec E i ground c : forall gs k n done s n' s',
    n = length done ->
    acc_ok done E (csize c) (the_views c s) (s_tod s) ->
    scan_ghosts E i k n gs false ground c s = Ok (n', s') ->
    exists l, ghost_calls (s_maps s) i ground k gs = Ok l
      /\ n' = length (done ++ l)
      /\ acc_ok (done ++ l) E (csize c) (the_views c s) (s_tod s')
      /\ s' = add_logs (set_tod s (s_tod s')) (map (call_event E (csize c) (the_views c s)) l).
  Proof.
    induction gs as [|g gs IH]; intros k n done s n' s' Hn Hacc H; cbn [scan_ghosts ghost_calls] in *.
    - injection H as <- <-. exists []. rewrite app_nil_r. repeat split; auto.
      unfold add_logs. cbn. rewrite app_nil_r. destruct s; reflexivity.
    - destruct (gh_dead g); [eapply IH; eauto|].
      inv_bind H ts Hts. destruct ts as [t s1]. subst n.
      destruct (scan_call E _ _ _ _ _ _ _ _ _ _ _ Hacc Hts) as (b & _ & Hb & _ & Ht & Es1).
      assert (F : frame s s1).
      { rewrite Es1. eapply frame_trans; [|apply frame_logs]. eapply frame_trans; [|apply frame_tod].
        apply frame_refl. }
      assert (V := the_views_frame c s s1 F).
      destruct (IH (S k) (S (length done)) (done ++ [(Ghost i k, b, ground)]) s1 n' s')
        as (l & El & En & Ha & Es'); auto.
      + rewrite app_length. cbn. lia.
      + rewrite V. right. rewrite Es1. cbn. rewrite Ht. reflexivity.
      + rewrite (f_maps _ _ F) in El. rewrite Hb, El. cbn [bind].
        eexists. split; [reflexivity|]. rewrite <- app_assoc in *. cbn [app] in *.
        rewrite V in *. split; auto. split; auto.
        rewrite Es'. rewrite Es1 at 1. cbn [map]. unfold add_logs, set_tod. cbn.
        rewrite <- app_assoc. reflexivity.
  Qed.

  (** ** A detector *)

  Lemma put_point_shape E k c s s' : put_point E k c s = Ok s' ->
    exists x y, s' = set_hwps (set_point s x) y.
  Proof.
    unfold put_point. intros H. inv_bind H ij Hij. destruct ij as [i j].
    destruct (c_cidx c); [|discriminate]. destruct (i <? 0)%Z; [discriminate|].
    inv_bind H bore Hb. inv_bind H h Hh. injection H as <-. eauto.
  Qed.
  Lemma point_option E O k c s s' : (if o_save_point O then put_point E k c s else Ok s) = Ok s' ->
    exists x y, s' = set_hwps (set_point s x) y.
  Proof.
    destruct (o_save_point O); [apply put_point_shape|]. intros H. injection H as <-.
    exists (s_point s), (s_hwps s). destruct s; reflexivity.
  Qed.

  (** What [_scan_detector] does when it is not told to skip scanning. *)
  Lemma scan_detector_spec E O d ground c s s' :
    o_preview O = false ->
    scan_detector E O d ground c s = Ok s' ->
    exists l, d_dead d = false /\ d_ghost d = false
      /\ (ground = true -> o_save_point O = false)
      /\ det_calls (s_maps s) d ground = Ok l
      /\ frame s s'
      /\ s_log s' = s_log s ++ map (call_event E (csize c) (the_views c s)) l
      /\ s_tod s' = Some (calls_tod E (csize c) (the_views c s) l)
      /\ s_qoff s' = upd (s_qoff s) (d_id d) (Some (ir_angle (sg_rot (s_strat s))))
      /\ (exists bore, chunk_slice s c (s_bore s) = Ok bore /\ length bore = csize c)
      /\ (o_save_tod O = false -> s_data s' = s_data s)
      /\ (o_save_tod O = true ->
            exists i j ci a, chunk2idx (plain_chunks s) c = Ok (i, j) /\ (0 <= i)%Z
              /\ c_cidx c = Some ci /\ s_data s ci (d_id d) = Some a
              /\ s_data s' = upd2 (s_data s) ci (d_id d)
                   (Some (splice a (Z.to_nat i) (calls_tod E (csize c) (the_views c s) l)))).
  Proof.
    unfold scan_detector. intros -> H. destruct (d_ghost d); [discriminate|]. cbn [andb] in H.
    inv_bind H ns Hns. destruct ns as [n s1].
    destruct (scan_ghosts_spec E (d_id d) ground c (d_ghosts d) 0 0 [] s n s1 eq_refl
                (or_introl eq_refl) Hns) as (lg & Elg & En & Ha & Es1).
    cbn [app] in *. rewrite En in H.
    assert (F1 : frame s s1) by (rewrite Es1; constructor; reflexivity).
    assert (V1 := the_views_frame c s s1 F1).
    inv_bind H es Hes. destruct es as [ex s2].
    assert (G : exists gr,
              (if ground then do b <- find_maps (s_maps s) None true; Ok [(Main (d_id d), b, true)]
               else Ok []) = Ok gr
              /\ (ground = true -> o_save_point O = false)
              /\ ex = negb (length (lg ++ gr) =? 0)%nat
              /\ acc_ok (lg ++ gr) E (csize c) (the_views c s) (s_tod s2)
              /\ s_log s2 = s_log s ++ map (call_event E (csize c) (the_views c s)) (lg ++ gr)
              /\ frame s s2
              /\ s_data s2 = s_data s
              /\ (s_qoff s2 = s_qoff s
                  \/ s_qoff s2 = upd (s_qoff s) (d_id d) (Some (ir_angle (sg_rot (s_strat s)))))).
    { destruct ground.
      - inv_bind Hes ts Hts. destruct ts as [t s3].
        rewrite <- V1 in Ha.
        destruct (scan_call E _ _ _ _ _ _ _ _ _ _ _ Ha Hts) as (b & _ & Hb & _ & Ht & Es3).
        rewrite (f_maps _ _ F1) in Hb. rewrite Hb. cbn [bind].
        destruct (o_save_point O); [discriminate|]. injection Hes as <- <-.
        eexists. split; [reflexivity|]. split; auto. split.
        { rewrite app_length. cbn. rewrite Nat.add_1_r. reflexivity. }
        rewrite V1 in *. split; [right; rewrite Es3; cbn; rewrite Ht; reflexivity|].
        split.
        { rewrite Es3, Es1. cbn. rewrite map_app, <- app_assoc. reflexivity. }
        split.
        { eapply frame_trans; [exact F1|]. rewrite Es3. constructor; reflexivity. }
        split; [rewrite Es3, Es1; reflexivity|].
        right. rewrite Es3. cbn. rewrite (f_strat _ _ F1), Es1. reflexivity.
      - injection Hes as <- <-. exists []. rewrite app_nil_r. repeat split; auto; try discriminate.
        + rewrite Es1. reflexivity.
        + apply F1. + apply F1. + apply F1. + apply F1. + apply F1. + apply F1. + apply F1. + apply F1.
        + rewrite Es1. reflexivity.
        + left. rewrite Es1. reflexivity. }
    destruct G as (gr & Egr & Hsp & Eex & Ha2 & Elog & F2 & Ed2 & Eq2).
    assert (V2 := the_views_frame c s s2 F2).
    inv_bind H ts Hts. destruct ts as [t s3]. rewrite Eex in Hts. rewrite <- V2 in Ha2.
    destruct (scan_call E _ _ _ _ _ _ _ _ _ _ _ Ha2 Hts)
      as (m & Hdead & Hm & (a & bore & Hbo & Hsl & Hle) & Ht & Es3).
    rewrite V2 in *. rewrite (f_maps _ _ F2) in Hm.
    assert (F3 : frame s s3).
    { eapply frame_trans; [exact F2|]. rewrite Es3. constructor; reflexivity. }
    assert (Q3 : s_qoff s3 = upd (s_qoff s) (d_id d) (Some (ir_angle (sg_rot (s_strat s))))).
    { rewrite Es3. cbn. rewrite (f_strat _ _ F2).
      destruct Eq2 as [->| ->]; [reflexivity|].
      unfold upd. apply FunctionalExtensionality.functional_extensionality. intros x.
      destruct (x =? d_id d)%Z; reflexivity. }
    assert (L3 : s_log s3 = s_log s ++ map (call_event E (csize c) (the_views c s))
                                     ((lg ++ gr) ++ [(Main (d_id d), m, false)])).
    { rewrite Es3. cbn. rewrite Elog, (map_app _ (lg ++ gr)), <- app_assoc. reflexivity. }
    assert (D3 : s_data s3 = s_data s) by (rewrite Es3; cbn; exact Ed2).
    exists ((lg ++ gr) ++ [(Main (d_id d), m, false)]).
    split; auto. split; auto. split; auto.
    split.
    { unfold det_calls. rewrite Elg. cbn [bind]. rewrite Egr. cbn [bind]. rewrite Hm. cbn [bind].
      rewrite <- app_assoc. reflexivity. }
    assert (HB : exists bore, chunk_slice s c (s_bore s) = Ok bore /\ length bore = csize c).
    { exists bore. unfold bore_of in Hbo. injection Hbo as <-. rewrite (f_bore _ _ F2) in Hsl.
      unfold chunk_slice, plain_chunks in *. rewrite (f_chunks _ _ F2) in Hsl. auto. }
    assert (T3 : s_tod s3 = Some (calls_tod E (csize c) (the_views c s)
                                    ((lg ++ gr) ++ [(Main (d_id d), m, false)]))).
    { rewrite Es3. cbn. rewrite Ht. reflexivity. }
    inv_bind H s4 H4. apply point_option in H. destruct H as (px & py & ->). rename H4 into H.
    destruct (o_save_tod O).
    - unfold put_tod in H. inv_bind H ij Hij. destruct ij as [i j].
      destruct (c_cidx c) as [ci|] eqn:Eci; [|discriminate].
      destruct (s_data s3 ci (d_id d)) as [ar|] eqn:Ear; [|discriminate].
      destruct (Z.ltb_spec i 0) as [|Hi]; [discriminate|]. injection H as <-.
      split; [eapply frame_trans; [exact F3|constructor; reflexivity]|].
      split; [exact L3|]. split; [exact T3|]. split; [exact Q3|]. split; [exact HB|].
      split; [discriminate|]. intros _.
      exists i, j, ci, ar. split.
      { unfold plain_chunks in *. rewrite (f_chunks _ _ F3) in Hij. exact Hij. }
      split; auto. split; auto. rewrite D3 in Ear. split; auto.
      cbn. rewrite D3, Ht. reflexivity.
    - injection H as <-.
      split; [eapply frame_trans; [exact F3|constructor; reflexivity]|].
      split; [exact L3|]. split; [exact T3|]. split; [exact Q3|].
      split; [exact HB|]. split; auto. discriminate.
  Qed.

End L.
