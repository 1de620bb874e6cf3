(** * Proofs about HWP rotation and reset *)
From Verif Require Import Common LibList M_Chunks M_Steps L_Steps M_Hwp S_Hwp.
From Coq Require Import Lra ZifyNat.
Open Scope R_scope.

Lemma floor_bounds x : IZR (Int_part x) <= x < IZR (Int_part x) + 1.
Proof. destruct (base_Int_part x). lra. Qed.

Lemma floor_unique x z : IZR z <= x < IZR z + 1 -> Int_part x = z.
Proof.
  intros [H1 H2]. destruct (floor_bounds x) as [H3 H4].
  assert (A : IZR (Int_part x) < IZR (z + 1)) by (rewrite plus_IZR; lra).
  assert (B : IZR z < IZR (Int_part x + 1)) by (rewrite plus_IZR; lra).
  apply lt_IZR in A, B. lia.
Qed.

Lemma rmod_cong x m : exists z : Z, rmod x m = x + m * IZR z.
Proof. exists (- Int_part (x / m))%Z. unfold rmod. rewrite opp_IZR. ring. Qed.

Lemma rmod_bounds x m : 0 < m -> 0 <= rmod x m < m.
Proof.
  intros Hm. unfold rmod. destruct (floor_bounds (x / m)) as [H1 H2].
  assert (E : x = m * (x / m)) by (field; lra).
  split.
  - apply (Rmult_le_compat_l m) in H1; lra.
  - apply (Rmult_lt_compat_l m) in H2; try lra.
Qed.

Lemma rmod_small x m : 0 <= x < m -> rmod x m = x.
Proof.
  intros [H1 H2]. unfold rmod.
  rewrite (floor_unique (x / m) 0); [simpl; ring|].
  split.
  - apply Rmult_le_pos; [lra|]. left. apply Rinv_0_lt_compat. lra.
  - apply (Rmult_lt_reg_r m); [lra|]. unfold Rdiv. rewrite Rmult_assoc, Rinv_l by lra. simpl. lra.
Qed.

Lemma degrees_radians d : degrees (radians d) = d.
Proof. unfold degrees, radians. field. apply PI_neq0. Qed.

Lemma radians_degrees d : radians (degrees d) = d.
Proof. unfold degrees, radians. field. apply PI_neq0. Qed.

(** Storing an angle in degrees modulo a turn. *)
Lemma stored_angle a : degrees (rmod (radians a) (2 * PI)) = rmod a 360.
Proof.
  unfold rmod, degrees, radians. pose proof PI_neq0.
  replace (a * PI / 180 / (2 * PI)) with (a / 360) by (field; auto).
  field; auto.
Qed.

Lemma same_phase_refl x : same_phase x x.
Proof. exists 0%Z. simpl. ring. Qed.

Lemma same_phase_trans x y z : same_phase x y -> same_phase y z -> same_phase x z.
Proof. intros [a ->] [b ->]. exists (a + b)%Z. rewrite plus_IZR. ring. Qed.

Lemma last_item_app {A} (l : list A) x : last_item (l ++ [x]) = Ok x.
Proof. unfold last_item. now rewrite rev_app_distr. Qed.

Lemma last_item_nth {A} (l : list A) x :
  nth_error l (length l - 1) = Some x -> last_item l = Ok x.
Proof.
  intros H. destruct (rev l) as [|y r] eqn:E.
  - apply (f_equal (@rev A)) in E. rewrite rev_involutive in E. subst. discriminate.
  - apply (f_equal (@rev A)) in E. rewrite rev_involutive in E. subst. simpl in H |- *.
    rewrite app_length in H. simpl in H.
    rewrite nth_error_app2 in H by lia.
    replace (length (rev r) + 1 - 1 - length (rev r))%nat with 0%nat in H by lia.
    injection H as ->. apply last_item_app.
Qed.

(** ** Stepped *)

Definition in_turn (angles : list R) : Prop := forall a, In a angles -> 0 <= a < 360.

Definition held (angles : list R) (size k : nat) (d : steps R) : Prop :=
  (0 < st_rem d)%nat ->
  exists a, nth_error angles (k / size mod length angles) = Some a
    /\ (exists z : Z, st_angle d = a + 360 * IZR z)
    /\ (in_turn angles -> st_angle d = a).

Lemma same_step size k i rem : (0 < size)%nat -> (rem < size)%nat ->
  ((k + rem) mod size = 0)%nat -> (i < rem)%nat -> ((k + i) / size = k / size)%nat.
Proof.
  intros Hs Hr Hm Hi.
  assert (exists q, k + rem = q * size)%nat as [q Hq].
  { exists ((k + rem) / size)%nat. rewrite (Nat.div_mod (k + rem) size) at 1 by lia. lia. }
  destruct q as [|q]; [lia|]. cbn [Nat.mul] in Hq.
  transitivity q; [symmetry; apply Nat.div_unique with (size - rem + i)%nat; lia|].
  apply Nat.div_unique with (size - rem)%nat; lia.
Qed.

Lemma radians_turn a z : radians (a + 360 * IZR z) = radians a + 2 * PI * IZR z.
Proof. unfold radians. field. Qed.

Definition hsteps (h : hwp) (d : steps R) : hwp :=
  mkhwp (h_mode h) (h_freq h) (h_start h) (h_angles h) d.

Lemma nth_error_repeat {A} (x : A) n i : (i < n)%nat -> nth_error (repeat x n) i = Some x.
Proof. revert i; induction n; intros [|i] H; simpl; try lia; auto. apply IHn. lia. Qed.

Lemma rotate_stepped fsamp h f angles size k n :
  h_mode h = Stepped -> h_freq h = Some f -> f <> 0 ->
  angles <> [] -> (0 < n)%nat ->
  steps_at angles size k (h_steps h) -> held angles size k (h_steps h) ->
  exists out d',
    rotate_hwp fsamp None n h = Ok (HArray out, hsteps h d')
    /\ length out = n
    /\ steps_at angles size (k + n) d' /\ held angles size (k + n) d'
    /\ forall i, (i < n)%nat -> exists a v,
         nth_error angles ((k + i) / size mod length angles) = Some a
         /\ nth_error out i = Some v
         /\ same_phase v (radians a)
         /\ (in_turn angles -> v = radians a).
Proof.
  intros Hm Hf Hfn Hne Hn Hat Hh.
  destruct (step_array_spec Rplus angles size k (h_steps h) (repeat 0 n) Hne Hat)
    as (out & d' & E & Hat' & L & N & R1 & R2).
  rewrite repeat_length in *.
  assert (Hsize : (0 < size)%nat) by apply Hat.
  assert (Hlen : (length angles <> 0)%nat) by (destruct angles; [congruence|discriminate]).
  assert (V : forall i, (i < n)%nat -> exists a b,
      nth_error angles ((k + i) / size mod length angles) = Some a
      /\ nth_error out i = Some b
      /\ (exists z : Z, b = a + 360 * IZR z)
      /\ (in_turn angles -> b = a)).
  { intros i Hi. rewrite N, nth_error_repeat by auto.
    destruct (Nat.ltb_spec i (st_rem (h_steps h))) as [Hir|Hir].
    - destruct Hh as (a & Ea & Hz & Hin); [lia|].
      destruct Hat as (_ & _ & Hr & Hmod & _).
      rewrite (same_step size k i (st_rem (h_steps h))) by auto.
      exists a, (0 + st_angle (h_steps h)). cbn [option_map]. rewrite Rplus_0_l. auto.
    - destruct (nth_error angles ((k + i) / size mod length angles)) as [a|] eqn:Ea.
      + exists a, (0 + a). unfold stepped. rewrite Ea. rewrite Rplus_0_l. repeat split; auto.
        exists 0%Z. simpl. ring.
      + apply nth_error_None in Ea. pose proof (Nat.mod_upper_bound ((k + i) / size) (length angles)). lia. }
  destruct (V (n - 1)%nat ltac:(lia)) as (al & bl & Eal & Ebl & Hzl & Hinl).
  assert (Elast : last_item (map radians out) = Ok (radians bl)).
  { apply last_item_nth. rewrite map_length, L, nth_error_map, Ebl. reflexivity. }
  unfold rotate_hwp. rewrite Hm, Hf. cbn [truthy]. destruct (Req_EM_T f 0); [contradiction|].
  cbn [negb]. rewrite E. cbn [bind]. rewrite Elast. cbn [bind].
  rewrite stored_angle.
  eexists (map radians out), (set_angle d' (rmod bl 360)).
  split; [unfold hsteps; now rewrite Hm, Hf|]. split; [now rewrite map_length|].
  split; [exact Hat'|].
  split.
  { intros Hrem. cbn [set_angle st_rem st_angle] in *.
    exists al. split; [|split].
    - rewrite <- Eal. f_equal. f_equal.
      destruct Hat' as (_ & _ & Hr' & Hm' & _).
      replace (k + (n - 1))%nat with (k + n - 1)%nat by lia.
      assert (exists q, k + n + st_rem d' = q * size)%nat as [q Hq].
      { exists ((k + n + st_rem d') / size)%nat.
        rewrite (Nat.div_mod (k + n + st_rem d') size) at 1 by lia. lia. }
      destruct q as [|q]; [lia|]. cbn [Nat.mul] in Hq.
      transitivity q; [symmetry; apply Nat.div_unique with (size - st_rem d')%nat; lia|].
      apply Nat.div_unique with (size - st_rem d' - 1)%nat; lia.
    - destruct Hzl as [z ->]. destruct (rmod_cong (al + 360 * IZR z) 360) as [z' ->].
      exists (z + z')%Z. rewrite plus_IZR. ring.
    - intros Hin. rewrite Hinl by auto. apply rmod_small. apply Hin.
      eapply nth_error_In; eauto. }
  intros i Hi. destruct (V i Hi) as (a & b & Ea & Eb & [z Hz] & Hin).
  exists a, (radians b). rewrite nth_error_map, Eb. cbn [option_map]. repeat split; auto.
  - exists z. rewrite Hz. apply radians_turn.
  - intros H. now rewrite Hin.
Qed.

Lemma rotate_stepped_all fsamp h f angles size ns k :
  h_mode h = Stepped -> h_freq h = Some f -> f <> 0 ->
  angles <> [] -> Forall (fun n => 0 < n)%nat ns ->
  steps_at angles size k (h_steps h) -> held angles size k (h_steps h) ->
  exists outs h',
    rotate_hwps fsamp ns h = Ok (map HArray outs, h')
    /\ map (@length R) outs = ns
    /\ forall i, (i < length (concat outs))%nat -> exists a v,
         nth_error angles ((k + i) / size mod length angles) = Some a
         /\ nth_error (concat outs) i = Some v
         /\ same_phase v (radians a)
         /\ (in_turn angles -> v = radians a).
Proof.
  intros Hm Hf Hfn Hne Hns. revert h k Hm Hf; induction Hns as [|n ns Hn Hns IH];
    intros h k Hm Hf Hat Hh.
  - exists [], h. repeat split; auto. intros i Hi. simpl in Hi. lia.
  - destruct (rotate_stepped fsamp h f angles size k n Hm Hf Hfn Hne Hn Hat Hh)
      as (out & d' & E & L & Hat' & Hh' & V).
    destruct (IH (hsteps h d') (k + n)%nat Hm Hf Hat' Hh') as (outs & h2 & E2 & L2 & V2).
    exists (out :: outs), h2. cbn [rotate_hwps]. rewrite E. cbn [bind]. rewrite E2. cbn [bind].
    split; [reflexivity|]. split; [cbn [map]; congruence|].
    intros i Hi. cbn [concat] in *. rewrite app_length in Hi.
    destruct (Nat.lt_ge_cases i n) as [H|H].
    + destruct (V i H) as (a & v & Ea & Ev & R). exists a, v.
      rewrite nth_error_app1 by congruence. auto.
    + destruct (V2 (i - n)%nat ltac:(lia)) as (a & v & Ea & Ev & R). exists a, v.
      rewrite nth_error_app2 by lia. rewrite L.
      replace (k + n + (i - n))%nat with (k + i)%nat in Ea by lia. auto.
Qed.

Lemma stepped_hwp_law fsamp f start angles ns h :
  set_hwp_mod fsamp Stepped (Some f) start (Some angles) = Ok h ->
  (1 <= trunc (fsamp / f))%Z -> angles <> [] -> Forall (fun n => 0 < n)%nat ns ->
  exists outs h',
    rotate_hwps fsamp ns h = Ok (map HArray outs, h')
    /\ map (@length R) outs = ns
    /\ forall k, (k < length (concat outs))%nat -> exists a v,
         nth_error angles ((k / Z.to_nat (trunc (fsamp / f))) mod length angles) = Some a
         /\ nth_error (concat outs) k = Some v
         /\ same_phase v (radians a)
         /\ ((forall b, In b angles -> 0 <= b < 360) -> v = radians a).
Proof.
  intros E Hs Hne Hns. unfold set_hwp_mod in E. destruct (Req_EM_T f 0); [discriminate|].
  injection E as <-.
  apply (rotate_stepped_all fsamp _ f angles (Z.to_nat (trunc (fsamp / f))) ns 0); auto.
  - cbn [h_steps]. apply (fresh_steps_at Rplus angles _ start); auto. lia.
  - intros H. cbn in H. lia.
Qed.

(** ** Continuous *)

Lemma linspace_nth a b n i : (i < n)%nat ->
  nth_error (linspace a b n) i = Some (a + INR i * ((b - a) / INR n)).
Proof.
  intros H. unfold linspace. rewrite nth_error_map_seq by auto. reflexivity.
Qed.

Lemma linspace_length a b n : length (linspace a b n) = n.
Proof. unfold linspace. now rewrite map_length, seq_length. Qed.

(** Phase advance per sample. *)
Definition omega (fsamp f : R) : R := 2 * PI * f / fsamp.

Lemma rotate_continuous fsamp f h n :
  h_mode h = Continuous -> h_freq h = Some f -> f <> 0 -> 0 < fsamp -> (0 < n)%nat ->
  exists out,
    rotate_hwp fsamp None n h
      = Ok (HArray out,
            hsteps h (set_angle (h_steps h)
              (degrees (rmod (radians (st_angle (h_steps h)) + INR (n - 1) * omega fsamp f)
                             (2 * PI)))))
    /\ length out = n
    /\ forall i, (i < n)%nat ->
         nth_error out i = Some (radians (st_angle (h_steps h)) + INR i * omega fsamp f).
Proof.
  intros Hm Hf Hfn Hfs Hn. unfold rotate_hwp. rewrite Hm, Hf. cbn [truthy].
  destruct (Req_EM_T f 0); [contradiction|]. cbn [negb].
  set (a := radians (st_angle (h_steps h))).
  set (b := a + 2 * PI * INR n / (fsamp / f)).
  assert (Hnr : INR n <> 0) by (apply not_0_INR; lia).
  assert (Hw : (b - a) / INR n = omega fsamp f).
  { unfold b, omega. field. repeat split; auto; lra. }
  assert (N : forall i, (i < n)%nat ->
            nth_error (linspace a b n) i = Some (a + INR i * omega fsamp f)).
  { intros i Hi. rewrite linspace_nth by auto. now rewrite Hw. }
  assert (El : last_item (linspace a b n) = Ok (a + INR (n - 1) * omega fsamp f)).
  { apply last_item_nth. rewrite linspace_length. apply N. lia. }
  rewrite El. cbn [bind].
  exists (linspace a b n). split; [unfold hsteps; now rewrite Hm, Hf|]. split; [apply linspace_length|exact N].
Qed.

Lemma rotate_continuous_all fsamp f ns h :
  h_mode h = Continuous -> h_freq h = Some f -> f <> 0 -> 0 < fsamp ->
  Forall (fun n => 0 < n)%nat ns ->
  exists outs h',
    rotate_hwps fsamp ns h = Ok (map HArray outs, h')
    /\ map (@length R) outs = ns
    /\ forall j i out n, nth_error outs j = Some out -> nth_error ns j = Some n ->
         (i < n)%nat ->
         exists v, nth_error out i = Some v
           /\ same_phase v (radians (st_angle (h_steps h))
                            + omega fsamp f * (INR (before ns j + i) - INR j)).
Proof.
  intros Hm Hf Hfn Hfs Hns. revert h Hm Hf; induction Hns as [|n ns Hn Hns IH]; intros h Hm Hf.
  - exists [], h. repeat split; auto. intros [|j] i out n H; discriminate.
  - destruct (rotate_continuous fsamp f h n Hm Hf Hfn Hfs Hn) as (out & E & L & N).
    set (h1 := hsteps h _) in E.
    destruct (IH h1 Hm Hf) as (outs & h2 & E2 & L2 & V2).
    exists (out :: outs), h2. cbn [rotate_hwps]. rewrite E. cbn [bind]. rewrite E2. cbn [bind].
    split; [reflexivity|]. split; [cbn [map]; congruence|].
    intros [|j] i out' n' Ho Hn' Hi; cbn [nth_error] in Ho, Hn'.
    + injection Ho as <-. injection Hn' as <-. eexists. split; [apply N; auto|].
      exists 0%Z. unfold before. simpl. ring.
    + destruct (V2 j i out' n' Ho Hn' Hi) as (v & Ev & Hv). exists v. split; [exact Ev|].
      eapply same_phase_trans; [exact Hv|].
      unfold h1. cbn [hsteps h_steps set_angle st_angle]. rewrite radians_degrees.
      destruct (rmod_cong (radians (st_angle (h_steps h)) + INR (n - 1) * omega fsamp f) (2 * PI))
        as [z ->].
      exists z. unfold before. cbn [firstn fold_right].
      fold (before ns j). rewrite !plus_INR, S_INR.
      assert (EE : INR (n - 1) = INR n - 1) by (rewrite minus_INR by lia; reflexivity).
      rewrite EE. unfold before. ring.
Qed.

Lemma continuous_hwp_law fsamp f start angles ns h :
  set_hwp_mod fsamp Continuous (Some f) start angles = Ok h ->
  f <> 0 -> 0 < fsamp -> Forall (fun n => 0 < n)%nat ns ->
  exists outs h',
    rotate_hwps fsamp ns h = Ok (map HArray outs, h')
    /\ map (@length R) outs = ns
    /\ forall j i out n, nth_error outs j = Some out -> nth_error ns j = Some n ->
         (i < n)%nat ->
         exists v, nth_error out i = Some v
           /\ same_phase v (radians start
                            + 2 * PI * f / fsamp * (INR (before ns j + i) - INR j)).
Proof.
  intros E Hf Hfs Hns. cbn [set_hwp_mod] in E. injection E as <-.
  apply (rotate_continuous_all fsamp f ns); auto.
Qed.

Lemma continuous_single_chunk fsamp f start angles n h :
  set_hwp_mod fsamp Continuous (Some f) start angles = Ok h ->
  f <> 0 -> 0 < fsamp -> (0 < n)%nat ->
  exists out h',
    rotate_hwps fsamp [n] h = Ok ([HArray out], h')
    /\ length out = n
    /\ forall k, (k < n)%nat ->
         nth_error out k = Some (radians start + INR k * (2 * PI * f / fsamp)).
Proof.
  intros E Hf Hfs Hn. cbn [set_hwp_mod] in E. injection E as <-.
  edestruct (rotate_continuous fsamp f) as (out & E & L & N);
    [| | | exact Hfs | exact Hn |]; cycle 3.
  - do 2 eexists. split; [cbn [rotate_hwps]; rewrite E; reflexivity|]. split; [exact L|].
    exact N.
  - reflexivity.
  - reflexivity.
  - exact Hf.
Qed.

(** Two chunks: the second chunk starts with the phase the first one ended on. *)
Lemma continuous_drift_witness :
  exists fsamp f start ns h outs h' out v,
    0 < fsamp /\ set_hwp_mod fsamp Continuous (Some f) start None = Ok h
    /\ rotate_hwps fsamp ns h = Ok (map HArray outs, h')
    /\ nth_error outs 1 = Some out /\ nth_error out 0 = Some v
    /\ ~ same_phase v (radians start + 2 * PI * f / fsamp * INR (before ns 1 + 0)).
Proof.
  exists 4, 1, 0, [1%nat; 1%nat].
  edestruct (continuous_hwp_law 4 1 0 None [1%nat; 1%nat]) as (outs & h' & E & L & V);
    [reflexivity|lra|lra|repeat constructor|].
  destruct outs as [|o0 [|o1 [|]]]; try discriminate.
  destruct (V 1%nat 0%nat o1 1%nat eq_refl eq_refl ltac:(lia)) as (v & Ev & z & Hv).
  do 5 eexists. split; [lra|]. split; [reflexivity|]. split; [exact E|].
  split; [reflexivity|]. split; [exact Ev|].
  intros [z' Hz']. rewrite Hz' in Hv. clear - Hv.
  unfold before in Hv. cbn [firstn fold_right Nat.add INR] in Hv.
  assert (HP : PI <> 0) by apply PI_neq0.
  assert (E : 1 / 4 + IZR z' = IZR z).
  { apply (Rmult_eq_reg_l (2 * PI)); [|lra]. lra. }
  assert (E2 : IZR (1 + 4 * z') = IZR (4 * z)).
  { rewrite plus_IZR, !mult_IZR. lra. }
  apply eq_IZR in E2. lia.
Qed.

(** ** Reset *)

(** Two strategies that cannot be told apart: equal except that the elevation
    angle may differ while no samples of the current step are left. *)
Definition sim_steps (d d' : steps R) : Prop :=
  st_size d = st_size d' /\ st_rem d = st_rem d' /\ st_gen d = st_gen d'
  /\ (st_rem d <> 0%nat -> st_angle d = st_angle d').

Definition sim_el (e e' : option elsteps) : Prop :=
  match e, e' with
  | None, None => True
  | Some e, Some e' =>
      el_on e = el_on e' /\ el_steps e = el_steps e' /\ sim_steps (el_st e) (el_st e')
  | _, _ => False
  end.

Definition sim (s s' : strat) : Prop :=
  sg_fsamp s = sg_fsamp s' /\ sg_rot s = sg_rot s' /\ sg_hwp s = sg_hwp s'
  /\ sim_el (sg_el s) (sg_el s').

Lemma step_loop_angle n arr s0 size (a a' : R) g :
  match step_loop Rplus n arr s0 size a g, step_loop Rplus n arr s0 size a' g with
  | Ok (o, e, _, g1), Ok (o', e', _, g1') => o = o' /\ e = e' /\ g1 = g1'
  | Err x, Err y => x = y
  | _, _ => False
  end.
Proof.
  destruct n as [|n]; cbn [step_loop]; auto.
  destruct (next g) as [[a1 g1]|e]; cbn [bind]; auto.
  destruct (step_loop Rplus n (add_slice Rplus arr s0 (s0 + size) a1) (s0 + size) size a1 g1)
    as [[[[o e] x] g2]|e]; auto.
Qed.

Lemma sim_step_array arr d d' : sim_steps d d' ->
  match step_array Rplus arr d, step_array Rplus arr d' with
  | Ok (o, e), Ok (o', e') => o = o' /\ sim_steps e e'
  | Err x, Err y => x = y
  | _, _ => False
  end.
Proof.
  destruct d as [sz a r g], d' as [sz' a' r' g']. unfold sim_steps. cbn.
  intros (<- & <- & <- & Ha).
  unfold step_array. cbn [st_size st_angle st_rem st_gen].
  destruct (sz =? 0)%nat; [reflexivity|].
  destruct (Nat.eqb_spec r 0) as [->|Hr].
  - set (c := (if _ <? 1 then 1 else _)%nat).
    destruct (c =? 1)%nat.
    + destruct (Nat.leb_spec (length arr) 0).
      * destruct arr; [|simpl in *; lia]. cbn. auto.
      * rewrite !add_slice_empty. destruct (next g) as [[a1 g1]|]; cbn; auto.
    + pose proof (step_loop_angle (c - 1) arr 0 sz a a' g) as H.
      destruct (step_loop Rplus (c - 1) arr 0 sz a g) as [[[[o e] x] g2]|];
        destruct (step_loop Rplus (c - 1) arr 0 sz a' g) as [[[[o' e'] x'] g2']|];
        cbn [bind]; try contradiction; auto.
      destruct H as (<- & <- & <-). destruct (next g2) as [[a1 g1]|]; cbn; auto.
  - rewrite <- Ha by auto.
    match goal with |- match ?X with _ => _ end => destruct X as [[o e]|]; auto end.
Qed.

Lemma sim_run_op o s s' : sim s s' ->
  fst (run_op o s) = fst (run_op o s') /\ sim (snd (run_op o s)) (snd (run_op o s')).
Proof.
  destruct s as [f r h e], s' as [f' r' h' e']. intros (E1 & E2 & E3 & He).
  cbn in E1, E2, E3, He. subst f' r' h'.
  destruct o as [c| |ha n|arr|]; cbn [run_op sg_fsamp sg_rot sg_hwp sg_el].
  - destruct (subpart_chunk (ir_rot r) c) as [[l r1]|]; cbn; unfold sim; cbn; auto.
  - destruct (rotate_instr r) as [i|]; cbn; unfold sim; cbn; auto.
  - destruct (rotate_hwp f ha n h) as [[o h1]|]; cbn; unfold sim; cbn; auto.
  - destruct e as [e|], e' as [e'|]; cbn in He; try contradiction;
      [|cbn; unfold sim; cbn; auto].
    destruct He as (Eo & Es & Hs). rewrite <- Eo, <- Es.
    destruct (el_on e) eqn:Eon; cbn [negb].
    + pose proof (sim_step_array arr _ _ Hs) as H.
      destruct (step_array Rplus arr (el_st e)) as [[l d]|];
        destruct (step_array Rplus arr (el_st e')) as [[l' d']|]; try contradiction.
      * destruct H as [<- H]. cbn. unfold sim; cbn. auto 10.
      * subst. cbn. unfold sim; cbn. rewrite Eon. auto 10.
    + cbn. unfold sim; cbn. rewrite Eon. auto 10.
  - cbn. unfold sim, reset; cbn. repeat split; auto.
    destruct e as [e|], e' as [e'|]; cbn in He |- *; try contradiction; auto.
    destruct He as (Eo & Es & Hs). rewrite <- Eo, <- Es. destruct Hs as (H1 & _).
    unfold sim_steps; cbn. repeat split; auto. intros []; auto.
Qed.

Lemma sim_run_ops l s s' : sim s s' -> fst (run_ops l s) = fst (run_ops l s').
Proof.
  revert s s'; induction l as [|o l IH]; intros s s' H; [reflexivity|].
  destruct (sim_run_op o s s' H) as [E H1]. cbn [run_ops].
  destruct (run_op o s) as [x s1], (run_op o s') as [x' s1']. cbn in E, H1. subst x'.
  specialize (IH _ _ H1).
  destruct (run_ops l s1), (run_ops l s1'). cbn in *. congruence.
Qed.

Lemma sim_refl s : sim s s.
Proof.
  unfold sim. repeat split; auto. destruct (sg_el s) as [e|]; cbn; auto.
  unfold sim_steps. auto 10.
Qed.

Lemma sim_trans s1 s2 s3 : sim s1 s2 -> sim s2 s3 -> sim s1 s3.
Proof.
  intros (A1 & A2 & A3 & A4) (B1 & B2 & B3 & B4). unfold sim.
  repeat split; try congruence.
  destruct (sg_el s1), (sg_el s2), (sg_el s3); cbn in *; try contradiction; auto.
  destruct A4 as (? & ? & ? & ? & ? & HA), B4 as (? & ? & ? & ? & ? & HB).
  unfold sim_steps. repeat split; try congruence.
  intros Hr. rewrite HA by auto. apply HB. congruence.
Qed.

Lemma rotate_hwp_static f ha n h o h1 :
  rotate_hwp f ha n h = Ok (o, h1) ->
  reset_hwp_mod h1 = reset_hwp_mod h.
Proof.
  unfold rotate_hwp. intros E.
  assert (S : forall arr d out, step_array Rplus arr d = Ok out -> st_size (snd out) = st_size d).
  { clear. intros arr d out. unfold step_array.
    destruct (st_size d =? 0)%nat; [discriminate|].
    destruct (_ =? 1)%nat.
    - destruct (_ <=? _)%nat.
      + intros E; injection E as <-; reflexivity.
      + destruct (next _) as [[a g]|]; cbn [bind]; [|discriminate].
        intros E; injection E as <-; reflexivity.
    - destruct (step_loop _ _ _ _ _ _ _) as [[[[o e] x] g]|]; cbn [bind]; [|discriminate].
      destruct (next _) as [[a g1]|]; cbn [bind]; [|discriminate].
      intros E; injection E as <-; reflexivity. }
  destruct (h_mode h) eqn:Em, (h_freq h) as [fr|] eqn:Ef;
    try (injection E as <- <-; reflexivity);
    destruct (truthy (Some fr)); cbn [negb] in E; try (injection E as <- <-; reflexivity).
  - destruct (step_array Rplus (repeat 0 n) (h_steps h)) as [[arr d]|] eqn:Es; cbn [bind] in E;
      [|discriminate].
    destruct (last_item _) as [l|]; cbn [bind] in E; [|discriminate].
    injection E as <- <-. unfold reset_hwp_mod; cbn. apply S in Es. cbn in Es.
    rewrite Es, Em, Ef. reflexivity.
  - destruct (last_item _) as [l|]; cbn [bind] in E; [|discriminate].
    injection E as <- <-. unfold reset_hwp_mod; cbn. rewrite Em, Ef. reflexivity.
Qed.

Lemma subpart_static r c l r1 : subpart_chunk r c = Ok (l, r1) ->
  set_rem r1 0 = set_rem r 0.
Proof.
  unfold subpart_chunk. destruct (rot_period r) eqn:Ep; cbn [negb].
  - destruct (rot_chunk_size r =? 0)%Z; [discriminate|].
    destruct (_ =? 1)%Z.
    + destruct (_ >=? _)%Z; intros E; injection E as <- <-; reflexivity.
    + destruct (rot_remainder r =? 0)%Z;
        destruct (full_rot_chunks _ _ _ _); intros E; injection E as <- <-; reflexivity.
  - intros E; injection E as <- <-; reflexivity.
Qed.

Lemma step_array_size arr d o d1 : step_array Rplus arr d = Ok (o, d1) -> st_size d1 = st_size d.
Proof.
  unfold step_array. destruct (st_size d =? 0)%nat; [discriminate|].
  destruct (_ =? 1)%nat.
  - destruct (_ <=? _)%nat.
    + intros E; injection E as <- <-; reflexivity.
    + destruct (next _) as [[a g]|]; cbn [bind]; [|discriminate].
      intros E; injection E as <- <-; reflexivity.
  - destruct (step_loop _ _ _ _ _ _ _) as [[[[o' e] x] g]|]; cbn [bind]; [|discriminate].
    destruct (next _) as [[a g1]|]; cbn [bind]; [|discriminate].
    intros E; injection E as <- <-; reflexivity.
Qed.

Lemma reset_after_op o s : sim (reset (snd (run_op o s))) (reset s).
Proof.
  destruct s as [f r h e].
  destruct o as [c| |ha n|arr|]; cbn [run_op sg_fsamp sg_rot sg_hwp sg_el].
  - destruct (subpart_chunk (ir_rot r) c) as [[l r1]|] eqn:E; [|apply sim_refl].
    apply subpart_static in E. cbn [snd]. unfold reset; cbn [sg_fsamp sg_rot sg_hwp sg_el].
    unfold reset_instr_rot; cbn [ir_rot ir_start ir_angles]. rewrite E. apply sim_refl.
  - unfold rotate_instr. destruct (rot_period (ir_rot r)); [|apply sim_refl].
    destruct (next (ir_gen r)) as [[a g]|]; cbn [bind]; apply sim_refl.
  - destruct (rotate_hwp f ha n h) as [[o h1]|] eqn:E; [|apply sim_refl].
    apply rotate_hwp_static in E. cbn [snd]. unfold reset; cbn [sg_fsamp sg_rot sg_hwp sg_el].
    rewrite E. apply sim_refl.
  - destruct e as [e|]; [|apply sim_refl]. destruct (el_on e) eqn:Eon; cbn [negb]; [|apply sim_refl].
    destruct (step_array Rplus arr (el_st e)) as [[l d]|] eqn:E; [|apply sim_refl].
    apply step_array_size in E. cbn [snd]. unfold sim, reset; cbn.
    unfold sim_steps; cbn. rewrite E, Eon. repeat split; auto. intros []; auto.
  - cbn. unfold sim, reset; cbn. repeat split; auto.
    destruct e; cbn; auto. unfold sim_steps; cbn. auto 10.
Qed.

Lemma reset_after_ops l s : sim (reset (snd (run_ops l s))) (reset s).
Proof.
  revert s; induction l as [|o l IH]; intros s; cbn [run_ops]; [apply sim_refl|].
  pose proof (reset_after_op o s) as H.
  destruct (run_op o s) as [x s1]. cbn [snd] in H.
  specialize (IH s1). destruct (run_ops l s1) as [xs s2]. cbn [snd] in *.
  eapply sim_trans; eauto.
Qed.

Lemma configured_is_reset c s : configure c = Ok s -> sim (reset s) s.
Proof.
  unfold configure. intros E.
  destruct (set_hwp_mod _ _ _ _ _) as [h|] eqn:Eh; cbn [bind] in E; [|discriminate].
  assert (Hh : reset_hwp_mod h = h).
  { unfold set_hwp_mod in Eh. destruct (cf_mode c), (cf_freq c) as [fr|]; try discriminate;
      try (destruct (Req_EM_T fr 0); [discriminate|]); injection Eh as <-; reflexivity. }
  destruct (match cf_el c with None => _ | Some _ => _ end) as [e|] eqn:Ee; cbn [bind] in E;
    [|discriminate].
  injection E as <-. unfold sim, reset; cbn [sg_fsamp sg_rot sg_hwp sg_el]. rewrite Hh.
  repeat split; auto.
  destruct (cf_el c) as [[p st]|]; [|injection Ee as <-; cbn; auto].
  unfold set_el_steps in Ee. destruct (index _ 0) as [a|]; cbn [bind] in Ee; [|discriminate].
  injection Ee as <-. cbn. unfold sim_steps; cbn. auto 10.
Qed.

Lemma reset_replays c s0 history later :
  configure c = Ok s0 ->
  fst (run_ops later (reset (snd (run_ops history s0)))) = fst (run_ops later s0).
Proof.
  intros E. apply sim_run_ops. eapply sim_trans; [apply reset_after_ops|].
  eapply configured_is_reset; eauto.
Qed.

Lemma trunc_Z z : trunc (IZR z) = z.
Proof.
  unfold trunc. destruct (Rle_dec 0 (IZR z)).
  - apply floor_unique. lra.
  - rewrite <- opp_IZR, (floor_unique (IZR (- z)) (- z)) by lra. lia.
Qed.
