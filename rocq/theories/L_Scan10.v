(** * Two scans that start alike go alike *)
From Coq Require Import Reals Lra.
From Verif Require Import Common LibList M_Chunks M_Steps M_Hwp M_Mpi M_Detpair M_Scan
  S_Chunks S_Detpair S_Scan L_Chunks L_Hwp L_Detpair L_Scan L_Scan2 L_Scan4 L_Scan5.
From Verif Require M_Tod.
Open Scope R_scope.

Definition orel {X Y} (R : X -> Y -> Prop) (a : res X) (b : res Y) : Prop :=
  match a, b with
  | Ok x, Ok y => R x y
  | Err e, Err f => e = f
  | _, _ => False
  end.
Lemma orel_bind {X Y X' Y'} (R : X -> Y -> Prop) (R' : X' -> Y' -> Prop) a b f g :
  orel R a b -> (forall x y, R x y -> orel R' (f x) (g y)) -> orel R' (bind a f) (bind b g).
Proof. destruct a, b; cbn; auto; try contradiction. Qed.
Lemma orel_eq {X} (a : res X) : orel eq a a.
Proof. destruct a; cbn; auto. Qed.
Lemma orel_mono {X Y} (R R' : X -> Y -> Prop) a b : (forall x y, R x y -> R' x y) -> orel R a b -> orel R' a b.
Proof. destruct a, b; cbn; auto. Qed.

Lemma rotate_hwp_mode f ha n h o h1 : rotate_hwp f ha n h = Ok (o, h1) -> h_mode h1 = h_mode h.
Proof. intros H. apply rotate_hwp_static in H. unfold reset_hwp_mod in H. congruence. Qed.
Lemma rotate_hwp_stale f ha n h h1 : rotate_hwp f ha n h = Ok (HStale, h1) -> h_mode h = OtherMode.
Proof.
  unfold rotate_hwp. destruct (h_mode h), (h_freq h) as [fr|]; try discriminate; auto;
    destruct (negb (truthy (Some fr))); try discriminate.
  - destruct (step_array _ _ _) as [[ar d]|]; cbn [bind]; [|discriminate].
    destruct (last_item _); cbn [bind]; discriminate.
  - destruct (last_item _); cbn [bind]; discriminate.
Qed.

Section L.
  Context {B : Type}.
  Variables (E : env B) (O : opts).
  (** Where both started. *)
  Variables (st0 : strat) (b0 : list (bpair B)) (L1 L2 : list event) (nomap : Prop).
  (** Something every operation on the strategy preserves. *)
  Variable Inv : strat -> Prop.
  Hypothesis HInv : forall o u, Inv u -> Inv (snd (run_op o u)).
  Implicit Types (s t : state B) (d : det B).

  Definition strat_ok (u v : strat) : Prop :=
    sim u v /\ sim (reset u) (reset st0) /\ h_mode (sg_hwp u) <> OtherMode /\ Inv u.

  Record rel (Bo M H T : Prop) (Q : Z -> Prop) (D : nat -> Z -> Prop) s t : Prop := mkrel {
    r_strat : strat_ok (s_strat s) (s_strat t);
    r_beams : s_beams s = b0 /\ s_beams t = b0;
    r_chunks : s_chunks s = s_chunks t;
    r_mmap : s_mmap s = s_mmap t /\ (nomap -> s_mmap s = None);
    r_bore : Bo -> s_bore s = s_bore t;
    r_maps : M -> s_maps s = s_maps t;
    r_hwp : H -> s_hwp s = s_hwp t;
    r_tod : T -> s_tod s = s_tod t;
    r_qoff : forall k, Q k -> s_qoff s k = s_qoff t k;
    r_data : forall ci k, D ci k -> s_data s ci k = s_data t ci k;
    r_log : exists x, s_log s = L1 ++ x /\ s_log t = L2 ++ x }.

  Lemma rel_weaken (Bo M H T Bo' M' H' T' : Prop) (Q Q' : Z -> Prop) (D D' : nat -> Z -> Prop) s t :
    (Bo' -> Bo) -> (M' -> M) -> (H' -> H) -> (T' -> T) -> (forall k, Q' k -> Q k) ->
    (forall ci k, D' ci k -> D ci k) -> rel Bo M H T Q D s t -> rel Bo' M' H' T' Q' D' s t.
  Proof. intros ? ? ? ? ? ? []. constructor; auto. Qed.

  (** ** Operations on the strategy *)
  Lemma run_op_ok o u v : strat_ok u v ->
    fst (run_op o u) = fst (run_op o v) /\ strat_ok (snd (run_op o u)) (snd (run_op o v)).
  Proof.
    intros (Hs & Hr & Hm & Hi). destruct (sim_run_op o u v Hs) as [E1 E2]. split; auto. split; auto.
    split; [eapply sim_trans; [apply reset_after_op|auto]|]. split; [|apply HInv; auto].
    destruct o; cbn [run_op].
    - destruct (subpart_chunk _ _) as [[]|]; auto.
    - destruct (rotate_instr _); auto.
    - destruct (rotate_hwp _ _ _ _) as [[]|] eqn:Er; auto. cbn. rewrite (rotate_hwp_mode _ _ _ _ _ _ Er). auto.
    - destruct (sg_el u); auto. destruct (negb _); auto. destruct (step_array _ _ _) as [[]|]; auto.
    - auto.
  Qed.

  Lemma lift_rel o Bo M H T Q D s t : rel Bo M H T Q D s t ->
    orel (fun x y => fst x = fst y /\ rel Bo M H T Q D (snd x) (snd y)) (lift_op o s) (lift_op o t).
  Proof.
    intros R. unfold lift_op. destruct (run_op_ok o _ _ (r_strat _ _ _ _ _ _ _ _ R)) as [E1 E2].
    destruct (run_op o (s_strat s)) as [x u], (run_op o (s_strat t)) as [y v]. cbn in E1, E2. subst y.
    destruct x; cbn; auto. split; auto. destruct R. constructor; auto.
  Qed.

  Lemma plain_rel Bo M H T Q D s t : rel Bo M H T Q D s t -> plain_chunks s = plain_chunks t.
  Proof. intros R. unfold plain_chunks. rewrite (r_chunks _ _ _ _ _ _ _ _ R). reflexivity. Qed.
  Lemma slice_rel Bo M H T Q D s t c a : rel Bo M H T Q D s t -> chunk_slice s c a = chunk_slice t c a.
  Proof. intros R. unfold chunk_slice. rewrite (plain_rel _ _ _ _ _ _ _ _ R). reflexivity. Qed.

  (** ** One detector *)
  Definition or_main (Q : Z -> Prop) (w : who) : Z -> Prop :=
    fun k => Q k \/ match w with Main d => k = d | Ghost _ _ => False end.

  Lemma store_rel add x Bo M H T Q D s t : rel Bo M H T Q D s t -> (add = true -> T) ->
    orel (rel Bo M H True Q D) (store_tod add x s) (store_tod add x t).
  Proof.
    intros R Ha. unfold store_tod. destruct add.
    - rewrite <- (r_tod _ _ _ _ _ _ _ _ R (Ha eq_refl)). destruct (s_tod s).
      + destruct (M_Tod.radd_arr _ _); cbn; auto. destruct R. constructor; auto.
      + destruct R. cbn. constructor; auto.
    - destruct R. cbn. constructor; auto.
  Qed.

  Lemma scan_rel w dead gidx add rt rp skip c Bo M H T Q D s t :
    rel Bo M H T Q D s t -> Bo -> H -> (skip = false -> M) -> (add = true -> T) ->
    orel (fun x y => fst x = fst y /\ rel Bo M H True (or_main Q w) D (snd x) (snd y))
      (scan E w dead gidx add rt rp skip false c s) (scan E w dead gidx add rt rp skip false c t).
  Proof.
    intros R HBo HH HM HT. unfold scan.
    destruct dead; [reflexivity|]. destruct (skip && (rt || rp)); [reflexivity|].
    cbv zeta.
    assert (Ea : ir_angle (sg_rot (s_strat s)) = ir_angle (sg_rot (s_strat t))).
    { destruct (r_strat _ _ _ _ _ _ _ _ R) as ((_ & -> & _) & _). reflexivity. }
    rewrite <- Ea. set (ang := ir_angle (sg_rot (s_strat s))). clearbody ang.
    set (s1 := match w with Main d => set_qoff s (upd (s_qoff s) d (Some ang)) | Ghost _ _ => s end).
    set (t1 := match w with Main d => set_qoff t (upd (s_qoff t) d (Some ang)) | Ghost _ _ => t end).
    assert (R1 : rel Bo M H T (or_main Q w) D s1 t1).
    { unfold s1, t1. destruct w as [d|d k].
      - destruct R. constructor; auto. cbn. intros k [Hk| ->]; unfold upd.
        + destruct (k =? d)%Z; auto.
        + rewrite Z.eqb_refl. reflexivity.
      - eapply rel_weaken; [..|exact R]; auto. intros k0 [Hk|[]]; auto. }
    clearbody s1 t1. clear Ea R s t.
    destruct skip.
    - eapply orel_bind; [apply store_rel with (T := T); eauto|]. intros x y Hxy. cbn. auto.
    - rewrite <- (r_maps _ _ _ _ _ _ _ _ R1 (HM eq_refl)).
      eapply orel_bind; [apply orel_eq|]. intros b ? <-. cbn [bind].
      rewrite <- (r_bore _ _ _ _ _ _ _ _ R1 HBo), <- (slice_rel _ _ _ _ _ _ _ _ c (s_bore s1) R1).
      eapply orel_bind; [apply orel_eq|]. intros bore ? <-.
      destruct (negb (length bore =? csize c)%nat); [reflexivity|].
      rewrite <- (r_hwp _ _ _ _ _ _ _ _ R1 HH).
      set (v := mkview false ang (s_hwp s1) bore (c_start c)).
      eapply orel_bind; [apply store_rel with (T := T); eauto|]. intros x y Hxy. cbn [orel fst snd].
      rewrite <- (r_tod _ _ _ _ _ _ _ _ Hxy I). split; auto.
      destruct Hxy. destruct r_log0 as (l & El & Et). constructor; auto.
      exists (l ++ [EScan w v (map (e_signal E w b v) (seq 0 (csize c)))]). cbn.
      rewrite El, Et, !app_assoc. auto.
  Qed.

  Lemma scan_ghosts_rel (d : Z) skip c (Bo M H : Prop) Q D : Bo -> H -> (skip = false -> M) ->
    forall gs k n s t, rel Bo M H (n <> 0%nat) Q D s t ->
    orel (fun x y => fst x = fst y /\ rel Bo M H (fst x <> 0%nat) Q D (snd x) (snd y))
      (scan_ghosts E d k n gs skip false c s) (scan_ghosts E d k n gs skip false c t).
  Proof.
    intros HBo HH HM. induction gs as [|g gs IH]; intros k n s t R; cbn [scan_ghosts].
    - cbn. auto.
    - destruct (gh_dead g); [apply IH; auto|].
      eapply orel_bind.
      { apply scan_rel with (T := n <> 0%nat); eauto. destruct n; cbn; [discriminate|auto]. }
      intros [x s1] [y t1] [_ R1]. cbn [snd] in R1. apply IH.
      eapply rel_weaken; [..|exact R1]; auto. intros q Hq. left. auto.
  Qed.

  Lemma put_rel k c tod Bo M H T Q (D : nat -> Z -> Prop) s t : rel Bo M H T Q D s t ->
    (forall ci, c_cidx c = Some ci -> D ci k) ->
    orel (rel Bo M H T Q D) (put_tod k c tod s) (put_tod k c tod t).
  Proof.
    intros R HD. unfold put_tod. rewrite <- (plain_rel _ _ _ _ _ _ _ _ R).
    eapply orel_bind; [apply orel_eq|]. intros [i j] ? <-.
    destruct (c_cidx c) as [ci|]; [|reflexivity].
    rewrite <- (r_data _ _ _ _ _ _ _ _ R ci k (HD ci eq_refl)).
    destruct (s_data s ci k) as [a|]; [|reflexivity]. destruct (i <? 0)%Z; [reflexivity|].
    destruct R. cbn. constructor; auto. cbn. intros ci' k' H'. unfold upd2.
    destruct ((ci' =? ci)%nat && (k' =? k)%Z); auto.
  Qed.

  Lemma point_rel k c (Bo M H T : Prop) Q D s t : Bo -> H -> rel Bo M H T Q D s t ->
    orel (rel Bo M H T Q D) (put_point E k c s) (put_point E k c t).
  Proof.
    intros HBo HH R. unfold put_point. rewrite <- (plain_rel _ _ _ _ _ _ _ _ R).
    eapply orel_bind; [apply orel_eq|]. intros [i j] ? <-.
    destruct (c_cidx c) as [ci|]; [|reflexivity]. destruct (i <? 0)%Z; [reflexivity|].
    rewrite <- (r_bore _ _ _ _ _ _ _ _ R HBo), <- (slice_rel _ _ _ _ _ _ _ _ c (s_bore s) R).
    eapply orel_bind; [apply orel_eq|]. intros bore ? <-.
    rewrite <- (r_hwp _ _ _ _ _ _ _ _ R HH). eapply orel_bind; [apply orel_eq|]. intros h ? <-.
    destruct R. cbn. constructor; auto.
  Qed.

  Lemma scan_detector_rel d c (Bo M H T : Prop) Q (D : nat -> Z -> Prop) s t : Bo -> H -> (o_preview O = false -> M) ->
    (forall ci, c_cidx c = Some ci -> D ci (d_id d)) -> rel Bo M H T Q D s t ->
    orel (rel Bo M H True (fun k => Q k \/ k = d_id d) D)
      (scan_detector E O d false c s) (scan_detector E O d false c t).
  Proof.
    intros HBo HH HM HD R. unfold scan_detector. cbv zeta. destruct (d_ghost d); [reflexivity|].
    destruct (o_preview O && (o_save_tod O || o_save_point O)); [reflexivity|].
    eapply orel_bind.
    { apply scan_ghosts_rel with (Bo := Bo) (H := H) (M := M) (Q := Q) (D := D); eauto. eapply rel_weaken; [..|exact R]; auto. congruence. }
    intros [n s1] [n' t1] [En R1]. cbn [fst snd] in En, R1. subst n'. cbn [bind].
    eapply orel_bind.
    { apply scan_rel with (Bo := Bo) (H := H) (Q := Q) (D := D) (T := n <> 0%nat) (M := M); eauto. destruct n; cbn; [discriminate|auto]. }
    intros [x s2] [y t2] [Exy R2]. cbn [fst snd] in Exy, R2. subst y.
    assert (R3 : rel Bo M H True (fun k => Q k \/ k = d_id d) D s2 t2) by exact R2.
    eapply orel_bind with (R := rel Bo M H True (fun k => Q k \/ k = d_id d) D).
    { destruct (o_save_tod O); [|exact R3]. apply put_rel; auto. }
    intros s4 t4 R4. destruct (o_save_point O); [|exact R4]. apply point_rel; auto.
  Qed.

  Lemma bin_rel d tod c (Bo M H T : Prop) (Q : Z -> Prop) (D : nat -> Z -> Prop) s t : Bo -> H -> Q (d_id d) -> (tod = None -> T) ->
    rel Bo M H T Q D s t ->
    orel (fun x y => fst x = fst y /\ rel Bo M H T Q D (snd x) (snd y))
      (bin_tod O d tod c s) (bin_tod O d tod c t).
  Proof.
    intros HBo HH HQ HT R. unfold bin_tod. rewrite <- (r_hwp _ _ _ _ _ _ _ _ R HH).
    destruct (s_hwp s) as [h|]; [|reflexivity].
    rewrite <- (r_bore _ _ _ _ _ _ _ _ R HBo), <- (slice_rel _ _ _ _ _ _ _ _ c (s_bore s) R).
    eapply orel_bind; [apply orel_eq|]. intros bore ? <-.
    rewrite <- (r_qoff _ _ _ _ _ _ _ _ R _ HQ). destruct (s_qoff s (d_id d)) as [ang|]; [|reflexivity].
    assert (Et : match tod with Some x => Ok x | None => match s_tod s with Some x => Ok x | None => Err AttributeError end end
               = match tod with Some x => Ok x | None => match s_tod t with Some x => Ok x | None => Err AttributeError end end).
    { destruct tod; auto. rewrite (r_tod _ _ _ _ _ _ _ _ R (HT eq_refl)). reflexivity. }
    rewrite <- Et. eapply orel_bind; [apply orel_eq|]. intros x ? <-.
    destruct (r_strat _ _ _ _ _ _ _ _ R) as ((_ & _ & Eh & _) & _). rewrite <- Eh.
    eapply orel_bind; [apply orel_eq|]. intros y ? <-. cbn [orel fst snd]. split; auto.
    destruct R. destruct r_log0 as (l & El & Elt).
    constructor; auto; try (destruct tod; auto; fail).
    exists (l ++ [EBin (d_id d) (mkview false ang (Some h) bore (c_start c)) y]).
    destruct tod; cbn; rewrite El, Elt, !app_assoc; auto.
  Qed.

  (** ** Sub-chunk *)
  Definition live_data (p : bpair B) (c : chunk) : nat -> Z -> Prop := fun ci k =>
    c_cidx c = Some ci /\ exists d, (live (fst p) = Some d \/ live (snd p) = Some d) /\ d_id d = k.
  Definition has_live (p : bpair B) : Prop := live (fst p) <> None \/ live (snd p) <> None.

  Lemma scan_sub_rel p c (M : Prop) H T Q (D : nat -> Z -> Prop) s t :
    (o_preview O = false -> has_live p -> M) -> (forall ci k, live_data p c ci k -> D ci k) ->
    rel True M H T Q D s t ->
    orel (rel True M True False (fun _ => False) D) (scan_sub E O p false c s) (scan_sub E O p false c t).
  Proof.
    intros HM HD R. unfold scan_sub. destruct p as [oa ob].
    eapply orel_bind with (R := fun x y => rel True M H T Q D (snd x) (snd y)).
    { destruct (c_norot c); [cbn; exact R|].
      eapply orel_mono; [|apply lift_rel; exact R]. intros x y []; auto. }
    intros [x0 s1] [y0 t1] R1. cbn [snd] in R1. clear R x0 y0 s t.
    eapply orel_bind with (R := fun x y => fst x = fst y /\ (fst x <> XHwp HStale) /\ (exists h, fst x = XHwp h)
                                           /\ rel True M H T Q D (snd x) (snd y)).
    { assert (L := lift_rel (OHwp None (csize c)) _ _ _ _ _ _ _ _ R1).
      destruct (lift_op (OHwp None (csize c)) s1) as [[x s2]|] eqn:Es,
               (lift_op (OHwp None (csize c)) t1) as [[y t2]|]; cbn in L |- *; auto.
      destruct L as [L1' L2']. split; auto.
      assert (X : exists h, x = XHwp h /\ x <> XHwp HStale).
      { unfold lift_op in Es. cbn [run_op] in Es.
        destruct (rotate_hwp _ _ _ _) as [[o h1]|] eqn:Er; [|discriminate]. injection Es as <- _.
        exists o. split; auto. intros Eo. injection Eo as ->. apply rotate_hwp_stale in Er.
        destruct (r_strat _ _ _ _ _ _ _ _ R1) as (_ & _ & Hm & _). auto. }
      destruct X as (h & X1 & X2). split; auto. split; [exists h|]; auto. }
    intros [x s2] [y t2] (Exy & Hns & (h & Eh) & R2). cbn [fst snd] in *. subst y x.
    set (s3 := match XHwp h with XHwp HStale => s2 | XHwp h => set_hwp s2 (Some h) | _ => s2 end).
    set (t3 := match XHwp h with XHwp HStale => t2 | XHwp h => set_hwp t2 (Some h) | _ => t2 end).
    assert (R3 : rel True M True T Q D s3 t3).
    { unfold s3, t3. destruct R2. destruct h; try (constructor; auto; fail). congruence. }
    clearbody s3 t3. clear R1 R2 s1 t1 s2 t2 Hns.
    (* detector A *)
    eapply orel_bind with (R := fun x y => fst x = fst y
        /\ rel True M True (fst x <> None) (fun k => exists a, live oa = Some a /\ k = d_id a) D (snd x) (snd y)).
    { destruct (live oa) as [a|] eqn:Ea.
      - eapply orel_bind.
        { apply scan_detector_rel with (M := M) (H := True) (Bo := True) (T := T) (Q := Q); auto.
          - intros Hp. apply HM; auto. left. cbn. congruence.
          - intros ci Hci. apply HD. split; auto. exists a. cbn. auto.
          - exact R3. }
        intros s4 t4 R4. cbv zeta.
        assert (R5 : forall P : Prop, rel True M True P (fun k => exists a0, Some a = Some a0 /\ k = d_id a0) D s4 t4).
        { intros P. eapply rel_weaken; [..|exact R4]; auto. intros k (a0 & Ea0 & ->). injection Ea0 as <-. auto. }
        destruct (match live ob with Some _ => if Req_EM_T (o_ctalk O) 0 then false else true | None => false end).
        + cbn. split; [|apply R5]. rewrite (r_tod _ _ _ _ _ _ _ _ R4 I). reflexivity.
        + destruct (o_binning O).
          * eapply orel_bind.
            { apply bin_rel with (T := True) (Bo := True) (H := True) (M := M)
                (Q := fun k => exists a0, Some a = Some a0 /\ k = d_id a0); eauto. }
            intros [x1 s5] [y1 t5] [_ R6]. cbn in R6 |- *. split; auto.
            eapply rel_weaken; [..|exact R6]; auto.
          * cbn. split; auto.
      - cbn. split; auto. eapply rel_weaken; [..|exact R3]; auto; [congruence|].
        intros k (a0 & Ea0 & _). discriminate. }
    intros [ca s4] [ca' t4] [Eca R4]. cbn [fst snd] in Eca, R4. subst ca'.
    (* detector B *)
    eapply orel_bind with (R := fun x y =>
        rel True M True (ca <> None /\ live ob <> None)
          (fun k => (exists a, live oa = Some a /\ k = d_id a) \/ (exists b, live ob = Some b /\ k = d_id b)) D x y).
    { destruct (live ob) as [b|] eqn:Eb.
      - eapply orel_bind.
        { apply scan_detector_rel with (M := M) (H := True) (Bo := True) (T := ca <> None)
            (Q := fun k => exists a, live oa = Some a /\ k = d_id a); auto.
          - intros Hp. apply HM; auto. right. cbn. congruence.
          - intros ci Hci. apply HD. split; auto. exists b. cbn. auto.
          - exact R4. }
        intros s5 t5 R5.
        assert (R6 : forall P : Prop, rel True M True P
                  (fun k => (exists a, live oa = Some a /\ k = d_id a) \/ (exists b', Some b = Some b' /\ k = d_id b')) D s5 t5).
        { intros P. eapply rel_weaken; [..|exact R5]; auto.
          intros k [Hk|(b' & Eb' & ->)]; auto. injection Eb' as <-. auto. }
        destruct ca; [cbn; apply R6|].
        destruct (o_binning O); [|cbn; apply R6].
        eapply orel_bind.
        { apply bin_rel with (T := True) (Bo := True) (H := True) (M := M)
            (Q := fun k => (exists a, live oa = Some a /\ k = d_id a) \/ (exists b', Some b = Some b' /\ k = d_id b'));
            eauto. }
        intros [x1 s6] [y1 t6] [_ R7]. cbn in R7 |- *. eapply rel_weaken; [..|exact R7]; auto.
      - cbn. eapply rel_weaken; [..|exact R4]; auto; [intros [_ []]; auto|].
        intros k [Hk|(b & Eb' & _)]; auto. discriminate. }
    intros s5 t5 R5.
    assert (Done : orel (rel True M True False (fun _ => False) D) (Ok s5) (Ok t5)).
    { cbn. eapply rel_weaken; [..|exact R5]; tauto. }
    destruct ca as [ta|]; [|exact Done]. destruct (live oa) as [a|] eqn:Ea; [|exact Done].
    destruct (live ob) as [b|] eqn:Eb; [|exact Done]. cbv zeta.
    rewrite <- (r_tod _ _ _ _ _ _ _ _ R5); [|split; discriminate].
    eapply orel_bind; [apply orel_eq|]. intros [ta' tb'] ? <-.
    set (QQ := fun k => (exists a0, Some a = Some a0 /\ k = d_id a0) \/ (exists b', Some b = Some b' /\ k = d_id b')) in *.
    assert (Qa : QQ (d_id a)) by (left; eauto).
    assert (Qb : QQ (d_id b)) by (right; eauto).
    assert (R6 : rel True M True True QQ D (set_tod s5 (Some tb')) (set_tod t5 (Some tb'))).
    { destruct R5. constructor; auto. }
    eapply orel_bind with (R := rel True M True True QQ D).
    { destruct (o_save_tod O); [|cbn; exact R6].
      eapply orel_bind.
      - apply put_rel; [exact R6|]. intros ci Hci. apply HD. split; auto. exists a. cbn. auto.
      - intros s7 t7 R7. apply put_rel; [exact R7|]. intros ci Hci. apply HD. split; auto. exists b. cbn. auto. }
    intros s7 t7 R7. destruct (o_binning O).
    - eapply orel_bind.
      { apply bin_rel with (T := True) (Bo := True) (H := True) (M := M) (Q := QQ); auto. exact R7. }
      intros [x1 s8] [y1 t8] [E8 R8]. cbn [fst snd] in E8, R8.
      eapply orel_bind.
      { apply bin_rel with (T := True) (Bo := True) (H := True) (M := M) (Q := QQ); auto. exact R8. }
      intros [x2 s9] [y2 t9] [E9 R9]. cbn [fst snd] in E9, R9. subst y2. cbn.
      destruct R9. constructor; auto; intros; contradiction.
    - cbn. eapply rel_weaken; [..|exact R7]; auto; intros; contradiction.
  Qed.

  Lemma scan_subs_rel p (M : Prop) (D : nat -> Z -> Prop) : (o_preview O = false -> has_live p -> M) -> forall subs H s t,
    (forall c, In c subs -> forall ci k, live_data p c ci k -> D ci k) ->
    rel True M H False (fun _ => False) D s t ->
    orel (rel True M False False (fun _ => False) D)
      (scan_subs E O p (map (fun c => (c, false)) subs) s) (scan_subs E O p (map (fun c => (c, false)) subs) t).
  Proof.
    intros HM. induction subs as [|c subs IH]; intros H s t HD R; cbn [map scan_subs].
    - cbn. eapply rel_weaken; [..|exact R]; auto. contradiction.
    - eapply orel_bind.
      + eapply scan_sub_rel with (M := M) (D := D); eauto. apply HD. now left.
      + intros s1 t1 R1. eapply IH; eauto. intros x Hx. apply HD. now right.
  Qed.

  (** ** Chunk *)
  Lemma implement_rel pre c M Q D s t Bo H T : rel Bo M H T Q D s t ->
    orel (rel True M H T Q D) (implement_scan E pre false c s) (implement_scan E pre false c t).
  Proof.
    intros R. unfold implement_scan. destruct (e_ext E).
    - cbn. destruct R. destruct r_log0 as (l & El & Elt). constructor; auto. cbn.
      exists (l ++ [EPoint c (e_elev E c)]). rewrite El, Elt, !app_assoc. auto.
    - destruct (r_mmap _ _ _ _ _ _ _ _ R) as [Em _]. rewrite <- Em.
      destruct (if pre then s_mmap s else None) as [m|].
      + cbn. destruct R. destruct r_log0 as (l & El & Elt). constructor; auto. cbn.
        eexists (l ++ [EPoint c _]). rewrite El, Elt, !app_assoc. auto.
      + eapply orel_bind; [apply lift_rel; exact R|]. intros [x s1] [y t1] [Exy R1].
        cbn [fst snd] in Exy, R1. subst y. cbn. destruct R1. destruct r_log0 as (l & El & Elt).
        destruct r_mmap0 as [Em1 Em2].
        constructor; auto; cbn.
        * rewrite Em1. split; auto. intros Hn. rewrite <- Em1, Em2 by auto. reflexivity.
        * eexists (l ++ [EPoint c _]). rewrite El, Elt, !app_assoc. auto.
  Qed.

  Lemma allocate_rel (dd : option (det B)) c Bo M H T Q D s t : rel Bo M H T Q D s t ->
    orel (rel Bo M H T Q (fun ci k => D ci k \/ (c_cidx c = Some ci /\ exists d, live dd = Some d /\ d_id d = k)))
      (on_live dd (fun d => allocate O d c) s) (on_live dd (fun d => allocate O d c) t).
  Proof.
    intros R. unfold on_live. destruct (live dd) as [d|].
    - unfold allocate. destruct (c_cidx c) as [ci|]; [|reflexivity]. cbn.
      destruct R. constructor; auto. cbn. intros ci' k' [Hd|(Ec & d' & Ed & <-)]; unfold upd2.
      + destruct ((ci' =? ci)%nat && (k' =? d_id d)%Z); auto.
      + injection Ec as <-. injection Ed as <-. rewrite Nat.eqb_refl, Z.eqb_refl. reflexivity.
    - cbn. eapply rel_weaken; [..|exact R]; auto. intros ci k [Hd|(_ & d & Ed & _)]; auto. discriminate.
  Qed.

  Lemma allocate_hwp_rel (b : bool) c Bo M H T Q D s t : rel Bo M H T Q D s t ->
    orel (rel Bo M H T Q D) (if b then allocate_hwp O c s else Ok s) (if b then allocate_hwp O c t else Ok t).
  Proof.
    intros R. unfold allocate_hwp. destruct b; [|exact R]. destruct (o_save_point O); [|exact R].
    destruct (c_cidx c); [|reflexivity]. destruct R. constructor; auto.
  Qed.

  Lemma subpart_cidx r c l r1 : subpart_chunk r c = Ok (l, r1) -> forall x, In x l -> c_cidx x = c_cidx c.
  Proof.
    assert (FR : forall n a p ci x, In x (fst (full_rot_chunks n a p ci)) -> c_cidx x = ci).
    { induction n as [|n IH]; intros a p ci x Hx; cbn in Hx; [destruct Hx|].
      destruct (full_rot_chunks n (a + p) p ci) as [l' e] eqn:El. destruct Hx as [<-|Hx]; auto.
      apply (IH (a + p)%Z p). rewrite El. exact Hx. }
    unfold subpart_chunk. destruct (negb (rot_period r)).
    { intros H x Hx. injection H as <- <-. destruct Hx as [<-|[]]. reflexivity. }
    destruct (rot_chunk_size r =? 0)%Z; [discriminate|].
    destruct (_ =? 1)%Z.
    - destruct (_ >=? _)%Z; intros H x Hx; injection H as <- <-.
      + destruct Hx as [<-|[]]. reflexivity.
      + apply in_app_or in Hx. destruct Hx as [Hx|[<-|[]]]; auto.
        destruct (_ =? 0)%Z; [destruct Hx|]. destruct Hx as [<-|[]]. reflexivity.
    - destruct (rot_remainder r =? 0)%Z.
      + destruct (full_rot_chunks _ _ _ _) as [l' e] eqn:El. intros H x Hx. injection H as <- <-.
        cbn [app] in Hx. apply in_app_or in Hx. destruct Hx as [Hx|[<-|[]]]; auto.
        eapply FR. rewrite El. exact Hx.
      + destruct (full_rot_chunks _ _ _ _) as [l' e] eqn:El. intros H x Hx. injection H as <- <-.
        destruct Hx as [<-|Hx]; auto. apply in_app_or in Hx. destruct Hx as [Hx|[<-|[]]]; auto.
        eapply FR. rewrite El. exact Hx.
  Qed.

  Lemma map_ext_flag {X} (l : list X) f g : f = g -> map (fun c => (c, f)) l = map (fun c => (c, g : bool)) l.
  Proof. intros ->. reflexivity. Qed.

  Lemma scan_chunk_rel bidx p k (M : Prop) Bo H s t : o_ground O = false ->
    no_stale O (chunks_of s) ->
    (o_preview O = false -> has_live p -> M) ->
    rel Bo M H False (fun _ => False) (fun _ _ => False) s t ->
    orel (fun x y => rel False M False False (fun _ => False) (fun _ _ => False) x y /\ s_chunks x = s_chunks s)
      (scan_chunk E O bidx p k s) (scan_chunk E O bidx p k t).
  Proof.
    intros Hg Hst HM R. unfold scan_chunk. rewrite <- (r_chunks _ _ _ _ _ _ _ _ R).
    fold (chunks_of s).
    destruct (nth_error (chunks_of s) k) as [[c g]|] eqn:Ek.
    2:{ cbn. split; auto. eapply rel_weaken; [..|exact R]; tauto. }
    assert (g = false) by (apply (Hst Hg (c, g)); eapply nth_error_In; eauto). subst g.
    rewrite Hg. cbn [orb].
    (* the chunks stay the same on the left *)
    assert (Keep : forall s', scan_chunk E O bidx p k s = Ok s' -> s_chunks s' = s_chunks s).
    { intros s' H'. unfold scan_chunk in H'. fold (chunks_of s) in H'. rewrite Ek, Hg in H'. cbn [orb] in H'.
      inv_bind H' s1 H1. inv_bind H' sh Hh. inv_bind H' s2 H2. inv_bind H' s3 H3. inv_bind H' y H4. destruct y as [x s4].
      apply implement_scan_like in H1. apply allocate_hwp_like in Hh. apply allocate_like in H2. apply allocate_like in H3.
      destruct H1 as (? & _ & K1 & _). destruct Hh as (hx & ->). destruct H2 as (d2 & p2 & ->). destruct H3 as (d3 & p3 & ->).
      apply lift_op_inv in H4. destruct H4 as (st & _ & ->).
      assert (SC : forall subs u v, scan_subs E O p (map (fun c => (c, false)) subs) u = Ok v -> s_chunks v = s_chunks u).
      { intros subs u v Hs.
        replace (map (fun c => (c, false)) subs) with (map (fun c => (c, o_ground O)) subs) in Hs
          by (rewrite Hg; reflexivity).
        apply scan_subs_like in Hs; [|congruence]. destruct Hs as (_ & _ & _ & K & _). apply (k_chunks _ _ K). }
      assert (F : s_chunks s' = s_chunks (set_strat (set_point (set_data (set_point (set_data (set_hwps s1 hx) d2) p2) d3) p3) st)).
      { match type of H' with (if ?b then _ else _) = _ => destruct b end; eapply SC; exact H'. }
      rewrite F. cbn. apply (k_chunks _ _ K1). }
    unfold scan_chunk in Keep. fold (chunks_of s) in Keep. rewrite Ek, Hg in Keep. cbn [orb] in Keep.
    match goal with |- orel _ ?A ?C => assert (Main : orel (rel False M False False (fun _ => False) (fun _ _ => False)) A C) end.
    2:{ match goal with |- orel _ ?A ?C => destruct A eqn:EA, C; cbn in Main |- *; auto end. }
    eapply orel_bind; [eapply implement_rel; exact R|]. intros sh th Rh.
    eapply orel_bind; [apply allocate_hwp_rel; exact Rh|]. intros s1 t1 R1.
    eapply orel_bind; [apply allocate_rel; exact R1|]. intros s2 t2 R2.
    eapply orel_bind; [apply allocate_rel; exact R2|]. intros s3 t3 R3.
    assert (Er : rot_period (ir_rot (sg_rot (s_strat s3))) = rot_period (ir_rot (sg_rot (s_strat t3)))).
    { destruct (r_strat _ _ _ _ _ _ _ _ R3) as ((_ & -> & _) & _). reflexivity. }
    rewrite <- Er.
    eapply orel_bind with (R := fun x y => fst x = fst y /\ (forall l, fst x = XSub l -> forall z, In z l -> c_cidx z = c_cidx c)
        /\ rel True M H False (fun _ => False)
            (fun ci k0 => (False \/ c_cidx c = Some ci /\ (exists d, live (fst p) = Some d /\ d_id d = k0))
                          \/ c_cidx c = Some ci /\ (exists d, live (snd p) = Some d /\ d_id d = k0)) (snd x) (snd y)).
    { assert (L := lift_rel (OSub c) _ _ _ _ _ _ _ _ R3).
      destruct (lift_op (OSub c) s3) as [[x u]|] eqn:Eu, (lift_op (OSub c) t3) as [[y v]|]; cbn in L |- *; auto.
      destruct L as [La Lb]. split; auto. split; auto.
      intros l El z Hz. unfold lift_op in Eu. cbn [run_op] in Eu.
      destruct (subpart_chunk _ c) as [[l' r1]|] eqn:Es; [|discriminate]. injection Eu as <- _.
      injection El as <-. eapply subpart_cidx; eauto. }
    intros [x s4] [y t4] (Exy & Hc & R4). cbn [fst snd] in Exy, Hc, R4. subst y.
    set (subs := match x with XSub l => l | _ => [] end).
    assert (Hs : forall z, In z subs -> c_cidx z = c_cidx c).
    { unfold subs. destruct x; try (intros z []; fail). apply (Hc l eq_refl). }
    assert (Last : orel (rel False M False False (fun _ => False) (fun _ _ => False))
               (scan_subs E O p (map (fun c => (c, false)) subs) s4)
               (scan_subs E O p (map (fun c => (c, false)) subs) t4)).
    { eapply orel_mono; [|eapply scan_subs_rel; [exact HM| |exact R4]].
      - intros u v Huv. eapply rel_weaken; [..|exact Huv]; tauto.
      - intros z Hz ci k0 (Hci & d & [Hd|Hd] & Hid).
        + left. right. rewrite <- (Hs z Hz). split; eauto.
        + right. rewrite <- (Hs z Hz). split; eauto. }
    destruct (rot_period (ir_rot (sg_rot (s_strat s3)))); exact Last.
  Qed.

  Lemma scan_chunks_rel bidx p (M : Prop) : o_ground O = false ->
    (o_preview O = false -> has_live p -> M) -> forall ks Bo H s t,
    no_stale O (chunks_of s) ->
    rel Bo M H False (fun _ => False) (fun _ _ => False) s t ->
    orel (fun x y => rel False M False False (fun _ => False) (fun _ _ => False) x y /\ s_chunks x = s_chunks s)
      (scan_chunks E O bidx p ks s) (scan_chunks E O bidx p ks t).
  Proof.
    intros Hg HM. induction ks as [|k ks IH]; intros Bo H s t Hst R; cbn [scan_chunks].
    - cbn. split; auto. eapply rel_weaken; [..|exact R]; tauto.
    - eapply orel_bind; [eapply scan_chunk_rel; eauto|]. intros s1 t1 [R1 C1].
      eapply orel_mono; [|eapply IH; [|exact R1]].
      + intros x y [Hx Cx]. split; auto. congruence.
      + unfold chunks_of in *. rewrite C1. exact Hst.
  Qed.

  (** ** Pairs *)
  Definition eff (c : option (list (chunk * bool))) : res (list (chunk * bool)) :=
    match c with
    | Some l => Ok l
    | None => do l <- partition_mission (e_nsamp E) None; Ok (map (fun c => (c, false)) l)
    end.

  (** What two states must share before a scan. *)
  Record agree s t : Prop := mkagree {
    a_strat : strat_ok (s_strat s) (s_strat t);
    a_beams : s_beams s = b0 /\ s_beams t = b0;
    a_chunks : eff (s_chunks s) = eff (s_chunks t);
    a_mmap : s_mmap s = s_mmap t /\ (nomap -> s_mmap s = None);
    a_log : exists x, s_log s = L1 ++ x /\ s_log t = L2 ++ x }.

  Hypothesis HB : forall p, In p b0 -> from_settings p.
  Hypothesis Hground : o_ground O = false.
  Hypothesis Hreuse : o_reuse O = false.

  Lemma prepare_settings gs : (forall g, In g gs -> gh_blm g = None /\ gh_gen g <> Err AttributeError) ->
    forall f gs', prepare (B := B) f gs = Ok gs' ->
    map (fun g => mkgh (gh_dead g) (gh_idx g) None (gh_gen g)) gs' = gs.
  Proof.
    induction gs as [|g gs IH]; intros Hs f gs' H; cbn [prepare] in H; [injection H as <-; reflexivity|].
    destruct (Hs g (or_introl eq_refl)) as [Hb Hg].
    unfold hasattr_blm, get_blm in H. rewrite Hb in H.
    destruct (gh_gen g) as [b|e] eqn:Eg.
    - cbn [bind] in H. inv_bind H r Hr. injection H as <-. cbn. f_equal.
      + destruct g; cbn in *; congruence.
      + eapply IH; eauto. intros; apply Hs; now right.
    - destruct e; try discriminate. congruence.
  Qed.
  Lemma prepare_b_settings gs : (forall g, In g gs -> gh_blm g = None /\ gh_gen g <> Err AttributeError) ->
    forall f gs', prepare_b (B := B) f gs = Ok gs' ->
    map (fun g => mkgh (gh_dead g) (gh_idx g) None (gh_gen g)) gs' = gs.
  Proof.
    induction gs as [|g gs IH]; intros Hs f gs' H; cbn [prepare_b] in H; [injection H as <-; reflexivity|].
    destruct (Hs g (or_introl eq_refl)) as [Hb Hg].
    unfold hasattr_blm, get_blm in H. rewrite Hb in H.
    destruct (gh_gen g) as [b|e] eqn:Eg.
    - cbn [bind] in H. inv_bind H r Hr. injection H as <-. cbn. f_equal.
      + destruct g; cbn in *; congruence.
      + eapply IH; eauto. intros; apply Hs; now right.
    - destruct e; try discriminate. congruence.
  Qed.
  Lemma init_settings (oa ob : option (det B)) g m q : from_settings (oa, ob) -> init_detpair oa ob g = Ok (m, q) -> q = (oa, ob).
  Proof.
    intros Hs H. unfold init_detpair in H. destruct oa as [a|]; [|discriminate].
    assert (Ha : In a (pair_dets (Some a, ob))) by (destruct ob; now left).
    destruct (Hs a Ha) as [Ha1 Ha2].
    inv_bind H gs Hgs. apply prepare_settings in Hgs; auto. inv_bind H b' Hb'. inv_bind H mm Hm.
    injection H as _ <-. f_equal.
    - unfold delete_blm, with_gs. cbn. rewrite Hgs. destruct a; cbn in *. congruence.
    - destruct ob as [b|]; [|injection Hb' as <-; reflexivity].
      inv_bind Hb' gb Hgb. injection Hb' as <-.
      destruct (Hs b) as [Hb1 Hb2]; [right; now left|].
      apply prepare_b_settings in Hgb; auto. cbn. unfold delete_blm, with_gs. cbn. rewrite Hgb.
      destruct b; cbn in *. congruence.
  Qed.
  Lemma put_pair_same (l : list (bpair B)) : forall i p, nth_error l i = Some p -> put_pair l i p = l.
  Proof.
    induction l as [|x l IH]; intros [|i] p H; cbn in H |- *; try discriminate; auto.
    - congruence.
    - rewrite IH; auto.
  Qed.

  Lemma scan_pair_rel bidx w s t :
    (forall l, eff (s_chunks s) = Ok l -> no_stale O l) -> agree s t ->
    orel (fun x y => agree x y /\ eff (s_chunks x) = eff (s_chunks s))
      (scan_pair E O bidx w s) (scan_pair E O bidx w t).
  Proof.
    intros Hst A. unfold scan_pair.
    set (s0 := if (bidx =? 0)%nat then s else set_strat s (reset (s_strat s))).
    set (t0 := if (bidx =? 0)%nat then t else set_strat t (reset (s_strat t))).
    assert (A0 : agree s0 t0 /\ s_chunks s0 = s_chunks s).
    { unfold s0, t0. destruct (bidx =? 0)%nat; auto. split; auto. destruct A. constructor; auto.
      cbn. apply (run_op_ok OReset _ _ a_strat0). }
    destruct A0 as [A0 C0]. clearbody s0 t0. cbv zeta. rewrite <- C0 in Hst. rewrite <- C0. clear C0 A.
    fold (pair_at s0 w). fold (pair_at t0 w).
    assert (P0 : pair_at t0 w = pair_at s0 w).
    { unfold pair_at. destruct (a_beams _ _ A0) as [-> ->]. reflexivity. }
    rewrite P0. set (p := pair_at s0 w).
    eapply orel_bind with (R := fun x y => fst x = p /\ fst y = p /\ agree (snd x) (snd y)
        /\ s_chunks (snd x) = s_chunks s0
        /\ (o_preview O = false -> has_live p -> s_maps (snd x) = s_maps (snd y))).
    { assert (Pin : forall oa ob, p = (oa, ob) -> p <> (None, None) ->
        exists i, w = Some i /\ nth_error b0 i = Some p /\ from_settings p).
      { intros oa ob Ep Hne. unfold p, pair_at in *. destruct (a_beams _ _ A0) as [Eb _]. rewrite Eb in *.
        destruct w as [i|]; [|congruence]. destruct (nth_error b0 i) as [p'|] eqn:En; [|congruence].
        exists i. split; auto. split; auto. apply HB. eapply nth_error_In; eauto. }
      assert (Gen : forall oa ob, p = (oa, ob) -> p <> (None, None) ->
        orel (fun x y => fst x = p /\ fst y = p /\ agree (snd x) (snd y)
              /\ s_chunks (snd x) = s_chunks s0
              /\ (o_preview O = false -> has_live p -> s_maps (snd x) = s_maps (snd y)))
          (if o_preview O then Ok (p, s0)
           else if (match s_maps s0 with Some _ => true | None => false end) && o_reuse O then Ok (p, s0)
           else do (m, p) <- init_detpair oa ob (o_ground O);
                let s := set_maps s0 (Some m) in
                Ok (p, match w with Some i => set_beams s (put_pair (s_beams s) i p) | None => s end))
          (if o_preview O then Ok (p, t0)
           else if (match s_maps t0 with Some _ => true | None => false end) && o_reuse O then Ok (p, t0)
           else do (m, p) <- init_detpair oa ob (o_ground O);
                let s := set_maps t0 (Some m) in
                Ok (p, match w with Some i => set_beams s (put_pair (s_beams s) i p) | None => s end))).
      { intros oa ob Ep Hne. destruct (Pin oa ob Ep Hne) as (i & -> & Hi & Hs).
        destruct (o_preview O) eqn:Epr.
        - cbn. do 4 (split; auto). discriminate.
        - rewrite Hreuse, !andb_false_r.
          destruct (init_detpair oa ob (o_ground O)) as [[m q]|] eqn:Ei; [|reflexivity].
          cbn [bind orel fst snd]. rewrite Ep in Hs. assert (q = (oa, ob)) by (eapply init_settings; eauto). subst q.
          cbn [set_maps s_beams]. destruct (a_beams _ _ A0) as [Es Et]. rewrite Es, Et.
          rewrite put_pair_same by congruence.
          do 2 (split; auto). split; [|split; auto]. destruct A0. constructor; auto. }
      destruct p as [[a|] [b|]] eqn:Ep; try (apply (Gen _ _ eq_refl); discriminate).
      cbn. do 4 (split; auto). unfold has_live. cbn. tauto. }
    intros [q s1] [q' t1] (Eq & Eq' & A1 & C1 & M1). cbn [fst snd] in Eq, Eq', A1, C1, M1. subst q q'.
    clear P0. clearbody p. rewrite <- C1 in Hst. rewrite <- C1. clear C1 A0 s0 t0 s t.
    eapply orel_bind with (R := fun x y => agree x y /\ s_chunks x = s_chunks y /\ s_chunks x <> None
        /\ eff (s_chunks x) = eff (s_chunks s1) /\ no_stale O (chunks_of x)
        /\ (o_preview O = false -> has_live p -> s_maps x = s_maps y)).
    { assert (Ec := a_chunks _ _ A1).
      (* both sides end with the same chunks *)
      assert (Norm : forall u : state B, match s_chunks u with
                | Some _ => Ok u
                | None => do l <- partition_mission (e_nsamp E) None;
                          Ok (set_chunks u (Some (map (fun c => (c, false)) l)))
                end = (do l <- eff (s_chunks u); Ok (set_chunks u (Some l)))).
      { intros u. unfold eff. destruct (s_chunks u) as [l|] eqn:El.
        - destruct u. cbn in El. subst. reflexivity.
        - destruct (partition_mission (e_nsamp E) None); reflexivity. }
      rewrite !Norm, <- Ec. destruct (eff (s_chunks s1)) as [l|] eqn:El; [|reflexivity].
      cbn. split; [destruct A1; constructor; auto|]. do 3 (split; [congruence|]). split; auto. }
    intros s2 t2 (A2 & C2 & N2 & F2 & S2 & M2).
    assert (PC : plain_chunks t2 = plain_chunks s2) by (unfold plain_chunks; rewrite C2; reflexivity).
    rewrite PC. eapply orel_bind; [apply orel_eq|]. intros u ? <-.
    eapply orel_mono; [|eapply scan_chunks_rel with (M := s_maps s2 = s_maps t2) (Bo := False) (H := False); auto].
    - intros x y [R Cx]. split.
      + destruct R. constructor; auto. congruence.
      + rewrite Cx. auto.
    - destruct A2. constructor; auto; intros; try contradiction; auto.
  Qed.

  Lemma scan_pairs_rel ws : forall bidx s t,
    (forall l, eff (s_chunks s) = Ok l -> no_stale O l) -> agree s t ->
    orel (fun x y => agree x y /\ eff (s_chunks x) = eff (s_chunks s))
      (scan_pairs E O bidx ws s) (scan_pairs E O bidx ws t).
  Proof.
    induction ws as [|w ws IH]; intros bidx s t Hst A; cbn [scan_pairs]; [split; auto|].
    eapply orel_bind; [apply scan_pair_rel; auto|]. intros s1 t1 [A1 C1].
    eapply orel_mono; [|apply IH; auto; rewrite C1; exact Hst]. intros x y [H1 H2]. split; auto. congruence.
  Qed.

  Lemma scan_instrument_rel s t :
    (forall l, eff (s_chunks s) = Ok l -> no_stale O l) ->
    strat_ok (s_strat s) (s_strat t) -> s_beams s = b0 -> s_beams t = b0 ->
    eff (s_chunks s) = eff (s_chunks t) ->
    (o_memmap O && negb (e_ext E) = true \/ s_mmap s = s_mmap t) ->
    (nomap -> o_memmap O && negb (e_ext E) = false /\ s_mmap s = None) ->
    s_log s = L1 -> s_log t = L2 ->
    orel (fun x y => agree x y /\ eff (s_chunks x) = eff (s_chunks s)) (scan_instrument E O s) (scan_instrument E O t).
  Proof.
    intros Hst Hs Hb1 Hb2 Hc Hm Hn Hl1 Hl2. unfold scan_instrument.
    destruct (negb (o_alm O) && negb (o_preview O)); [reflexivity|].
    destruct (o_preview O && (o_save_tod O || o_save_point O)); [reflexivity|].
    assert (Eb : s_beams (if o_memmap O && negb (e_ext E)
               then set_mmap s (Some (repeat 0 (Z.to_nat (e_nsamp E)))) else s) = b0)
      by (destruct (o_memmap O && negb (e_ext E)); auto).
    assert (Eb' : s_beams (if o_memmap O && negb (e_ext E)
               then set_mmap t (Some (repeat 0 (Z.to_nat (e_nsamp E)))) else t) = b0)
      by (destruct (o_memmap O && negb (e_ext E)); auto).
    cbv zeta. rewrite Eb, Eb'.
    eapply orel_mono; [|apply scan_pairs_rel].
    - intros x y [H1 H2]. split; auto. rewrite H2. destruct (o_memmap O && negb (e_ext E)); auto.
    - destruct (o_memmap O && negb (e_ext E)); auto.
    - destruct (o_memmap O && negb (e_ext E)) eqn:Em.
      + constructor; auto; cbn.
        * split; auto. intros Hn'. destruct (Hn Hn'). discriminate.
        * exists []. rewrite !app_nil_r. auto.
      + constructor; auto.
        * destruct Hm as [|Hm]; [discriminate|]. split; auto. intros Hn'. apply Hn; auto.
        * exists []. rewrite !app_nil_r. auto.
  Qed.
End L.
