(** * Lemmas about the L2 scan: one sample through the code *)
From Coq Require Import Reals Lra Lia.
From Verif Require Import Common M_Hwp L_Hwp M_Quat S_Quat L_Quat M_L2 S_L2 L_L2 L_L2b.
Open Scope R_scope.

Lemma phi_wrapped y x : exists p k, wraparound_npi [arctan2 y x + 10 * PI] 2 = Ok [p] /\ p = arctan2 y x + 2 * PI * IZR k.
Proof.
  assert (HP := PI_RGT_0). assert (B := arctan2_range y x).
  destruct (npi_range (arctan2 y x + 10 * PI) 2) as (b & k & E & _ & Eb); [lra|lra|].
  exists b, (k + 5)%Z. split; auto. rewrite Eb, plus_IZR. ring.
Qed.

Lemma derivs (v : v3) : dot v v = 1 -> off_pole v -> exists t p, 0 < t < PI /\ v = at_colat t p
  /\ deriv_theta [v] = Ok [e_colat t p] /\ deriv_phi [v] = Ok [e_long p].
Proof.
  destruct v as [[x y] z]. intros U O. unfold off_pole in O. unfold dot in U.
  assert (P : 0 < x * x + y * y) by (assert (A := sq_nonneg x); assert (B := sq_nonneg y); lra).
  assert (Hr := sqrt_lt_R0 _ P). set (r := sqrt (x * x + y * y)) in *.
  assert (Err : r * r = x * x + y * y) by (unfold r; apply sqrt_sqrt; lra).
  destruct (theta_wrapped r z Hr) as (t & Et & Bt & C & S).
  replace (z * z + r * r) with 1 in C, S by lra. rewrite sqrt_1 in C, S.
  destruct (phi_wrapped y x) as (p & k & Ep & Hp). destruct (arctan2_spec y x O) as [A1 A2]. fold r in A1, A2.
  assert (Cp : cos p = cos (arctan2 y x)) by (rewrite Hp; apply cos_turns).
  assert (Sp : sin p = sin (arctan2 y x)) by (rewrite Hp; apply sin_turns).
  exists t, p. split; auto. split.
  { unfold at_colat. rewrite Cp, Sp. apply v3_eq; [| |lra].
    - replace (sin t) with r by lra. lra.
    - replace (sin t) with r by lra. lra. }
  split.
  - unfold deriv_theta. cbn [map]. fold r. rewrite Et, Ep. reflexivity.
  - unfold deriv_phi. cbn [map]. fold r. rewrite Ep. unfold wraparound_npi at 1. cbn [bind map].
    unfold e_long. rewrite Rmult_0_r. reflexivity.
Qed.

Lemma e_long_of t p w : 0 < t < PI -> 0 < sin w -> forall q, at_colat t p = (sin w * cos q, sin w * sin q, cos w) ->
  e_long p = (- sin q, cos q, 0).
Proof.
  intros Bt Hw q E. unfold at_colat in E. injection E as E1 E2 E3.
  assert (Ht : 0 < sin t) by (apply sin_gt_0; lra).
  assert (T := sc2 t). assert (W := sc2 w).
  assert (sin t = sin w).
  { assert (X : (sin t - sin w) * (sin t + sin w) = 0).
    { rewrite E3 in T. lra. }
    apply Rmult_integral in X. lra. }
  rewrite H in E1, E2. apply Rmult_eq_reg_l in E1; [|lra]. apply Rmult_eq_reg_l in E2; [|lra].
  unfold e_long. now rewrite E1, E2.
Qed.

Lemma at_colat_off t p : 0 < t < PI -> off_pole (at_colat t p).
Proof.
  intros H. unfold off_pole, at_colat. assert (S : 0 < sin t) by (apply sin_gt_0; lra).
  replace (sin t * cos p * (sin t * cos p) + sin t * sin p * (sin t * sin p)) with (sin t * sin t * (sin p * sin p + cos p * cos p)) by ring.
  rewrite sc2. assert (X := sq_pos (sin t) ltac:(lra)). lra.
Qed.

Lemma LB_one ta tb om os s : s_theta s = PI / 2 -> 0 < tb < PI ->
  let a := ecliptic (s_phi s) in let p := pre_t om s in let q := spin_t os s in
  let b := boresight a ta tb p q in
  off_pole b ->
  exists psi t l, LB_rotmatrix_multi2 ta tb om os [s] = Ok [(b, psi)] /\ 0 < t < PI /\ b = at_colat t l
    /\ cross (spin_axis a ta p) b = vscale (sin tb) (vadd (vscale (cos psi) (e_colat t l)) (vscale (sin psi) (e_long l))).
Proof.
  intros Hs Htb a p q b Hb. assert (Hsb : 0 < sin tb) by (apply sin_gt_0; lra).
  assert (Q := sc2 q).
  assert (Eb : to_sky ta om s (in_spin_frame tb os s) = b) by (now apply boresight_sky).
  assert (Ub : dot b b = 1) by (apply (boresight_angles (s_phi s) ta tb p q)).
  assert (Ef : in_spin_frame tb os s = (sin tb * cos q, sin tb * sin q, cos tb)) by (now apply in_frame).
  assert (I := isom_sky ta om s).
  destruct (derivs (in_spin_frame tb os s)) as (t0 & p0 & B0 & V0 & _ & D0).
  { rewrite Ef. unfold dot. assert (T := sc2 tb).
    replace (sin tb * cos q * (sin tb * cos q) + sin tb * sin q * (sin tb * sin q) + cos tb * cos tb)
      with (sin tb * sin tb * (sin q * sin q + cos q * cos q) + cos tb * cos tb) by ring. rewrite Q. lra. }
  { rewrite Ef. unfold off_pole.
    replace (sin tb * cos q * (sin tb * cos q) + sin tb * sin q * (sin tb * sin q)) with (sin tb * sin tb * (sin q * sin q + cos q * cos q)) by ring.
    rewrite Q. assert (X := sq_pos (sin tb) ltac:(lra)). lra. }
  assert (E0 : e_long p0 = (- sin q, cos q, 0)).
  { apply (e_long_of t0 p0 tb B0 Hsb q). rewrite <- V0. exact Ef. }
  destruct (derivs b Ub Hb) as (t & l & Bt & Vb & D1 & D2).
  set (d := to_sky ta om s (- sin q, cos q, 0)).
  assert (Ud : dot d d = 1) by (unfold d; rewrite (is_dot _ I); unfold dot; lra).
  assert (Od : dot d (at_colat t l) = 0).
  { rewrite <- Vb, <- Eb. unfold d. rewrite (is_dot _ I), Ef. unfold dot. ring. }
  assert (Cr : cross (spin_axis a ta p) b = vscale (sin tb) d).
  { unfold a, p. rewrite <- (spin_axis_sky ta om s Hs), <- Eb. unfold d. rewrite <- (is_cross _ I), <- (is_scale _ I). f_equal.
    rewrite Ef. unfold north, cross, vscale. apply v3_eq; ring. }
  assert (LB : LB_rotmatrix_multi2 ta tb om os [s] = Ok [(b, signed (acos (dot (e_colat t l) d)) (acos (dot (e_long l) d)))]).
  { unfold LB_rotmatrix_multi2. cbn [map]. rewrite D0. cbn [bind]. unfold zip_with at 1 2 3 4 5 6 7 8.
    cbn [combine map fst snd]. rewrite Eb, D1. cbn [bind]. rewrite D2. cbn [bind]. rewrite E0. fold d.
    cbn [combine map fst snd zip_with].
    unfold zip_with. cbn [combine map fst snd].
    rewrite (cosangle_unit _ _ (e_colat_unit t l) Ud), (cosangle_unit _ _ (e_long_unit l) Ud). reflexivity. }
  exists (signed (acos (dot (e_colat t l) d)) (acos (dot (e_long l) d))), t, l. split; [exact LB|]. split; auto. split; auto.
  assert (K := comps t l d Od Ud). destruct (signed_spec _ _ K) as [-> ->].
  rewrite Cr. f_equal. now apply tangent.
Qed.

Lemma sun_one t : exists k, sun_position_quick [convert_Julian2Dublin (ctime2DJD t)] = Ok [used_phase t + 2 * PI * IZR k].
Proof.
  unfold sun_position_quick. cbn [map]. set (x := 2 * PI * _ * _ * _). destruct (w2pi_cong x) as [k E].
  exists k. rewrite E. f_equal. f_equal. f_equal. unfold x, used_phase, convert_Julian2Dublin, ctime2DJD. lra.
Qed.
Lemma sun_documented t : exists k, sun_position_quick [ctime2DJD t]
  = Ok [2 * PI / 365.25 * (t / 86400 + 25567.5) + 2 * PI * IZR k].
Proof.
  unfold sun_position_quick. cbn [map]. set (x := 2 * PI * _ * _ * _). destruct (w2pi_cong x) as [k E].
  exists k. rewrite E. f_equal. f_equal. f_equal. unfold x, ctime2DJD. lra.
Qed.

Lemma ecliptic_turns p k : ecliptic (p + 2 * PI * IZR k) = ecliptic p.
Proof. unfold ecliptic. now rewrite cos_turns, sin_turns. Qed.

Lemma deg_degrees x : deg (degrees x) = x.
Proof. unfold deg, degrees. assert (HP := PI_RGT_0). field. lra. Qed.

Lemma ctime2bore_one t ta tb per rate : 0 < tb < 180 -> per <> 0 ->
  let a := ecliptic (used_phase t) in
  let p := 2 * PI / (per * 60) * t + 3 / 2 * PI in
  let q := 2 * PI * rate / 60 * t + PI in
  let s := spin_axis a (deg ta) p in let b := boresight a (deg ta) (deg tb) p q in
  off_pole b ->
  exists ra dec psi, ctime2bore [t] ta tb per rate = Ok [(ra, dec, psi)]
    /\ direction (deg ra) (deg dec) = vscale (-1) b
    /\ exists th l, 0 < th < PI /\ b = at_colat th l
         /\ cross s b = vscale (sin (deg tb)) (vadd (vscale (cos (deg psi)) (e_colat th l)) (vscale (sin (deg psi)) (e_long l))).
Proof.
  intros Htb Hper a p q s b Hb. assert (HP := PI_RGT_0).
  destruct (sun_one t) as [k Ek]. set (x := mks (PI / 2 - 0) (used_phase t + 2 * PI * IZR k) t).
  assert (Hx : s_theta x = PI / 2) by (cbn; lra).
  assert (Htb' : 0 < radians tb < PI).
  { unfold radians. split.
    - replace (tb * PI / 180) with (tb / 180 * PI) by field. apply Rmult_lt_0_compat; lra.
    - replace (tb * PI / 180) with (tb / 180 * PI) by field. rewrite <- (Rmult_1_l PI) at 2. apply Rmult_lt_compat_r; lra. }
  set (om := 2 * PI * (1 / (per * 60))). set (os := 2 * PI * (rate / 60)).
  assert (Ep : pre_t om x = p) by (unfold pre_t, om, p; cbn [s_time x]; field; auto).
  assert (Eq : spin_t os x = q) by (unfold spin_t, os, q; cbn [s_time x]; field).
  assert (X := LB_one (radians ta) (radians tb) om os x Hx Htb'). cbv zeta in X.
  cbn [s_phi x] in X. rewrite ecliptic_turns, Ep, Eq in X. fold a in X.
  change (radians ta) with (deg ta) in X. change (radians tb) with (deg tb) in X.
  destruct (X Hb) as (psi & th & l & EL & Bth & Vb & Cr). clear X. fold b in EL, Vb, Cr. fold s in Cr.
  assert (Ub : dot b b = 1) by (apply (boresight_angles (used_phase t) (deg ta) (deg tb) p q)).
  unfold ctime2bore. cbn [map]. rewrite Ek. cbn [bind]. unfold zip_with at 1. cbn [combine map fst snd]. fold x om os.
  change (radians ta) with (deg ta). change (radians tb) with (deg tb). rewrite EL. cbn [bind map snd].
  destruct b as [[bx by_] bz] eqn:Eb. unfold off_pole in Hb. unfold dot in Ub.
  assert (P : 0 < bx * bx + by_ * by_) by (assert (A := sq_nonneg bx); assert (B := sq_nonneg by_); lra).
  replace (bx ^ 2 + by_ ^ 2) with (bx * bx + by_ * by_) by ring.
  assert (Hr := sqrt_lt_R0 _ P). set (r := sqrt (bx * bx + by_ * by_)) in *.
  assert (Err : r * r = bx * bx + by_ * by_) by (unfold r; apply sqrt_sqrt; lra).
  assert (Rt := arctan2_range_pos r bz Hr).
  assert (W1 : wraparound_npi [arctan2 r bz] 1 = Ok [arctan2 r bz]).
  { unfold wraparound_npi. destruct (Rlt_dec (arctan2 r bz) 0); [lra|].
    rewrite (trunc_nonneg (arctan2 r bz / (1 * PI)) 0).
    - f_equal. f_equal. lra.
    - apply Rmult_le_pos; [lra|]. apply Rlt_le, Rinv_0_lt_compat; lra.
    - split; [apply Rmult_le_pos; [lra|]; apply Rlt_le, Rinv_0_lt_compat; lra|].
      apply Rmult_lt_reg_r with PI; [lra|]. replace (arctan2 r bz / (1 * PI) * PI) with (arctan2 r bz) by (field; lra). lra. }
  rewrite W1. cbn [bind].
  destruct (wraparound_npi [arctan2 by_ bx] 2) as [w|] eqn:W2; [|discriminate].
  destruct (npi_cong _ _ _ W2) as [k2 ->]. cbn [bind].
  destruct (w2pi_cong psi) as [k3 E3]. rewrite E3. cbn [bind]. unfold zip_with. cbn [combine map fst snd].
  do 3 eexists. split; [reflexivity|].
  destruct (arctan2_spec by_ bx Hb) as [A1 A2]. fold r in A1, A2.
  assert (Hz : bz * bz + r * r = 1) by lra.
  destruct (arctan2_spec r bz) as [B1 B2]; [lra|]. rewrite Hz, sqrt_1 in B1, B2.
  split.
  - set (T := arctan2 r bz) in *. set (F := arctan2 by_ bx) in *.
    assert (D1 : deg (degrees (F + 2 * PI * IZR k2) - 180) = F - PI + 2 * PI * IZR k2).
    { unfold deg, degrees. field. lra. }
    assert (D2 : deg (degrees T - 90) = T - PI / 2) by (unfold deg, degrees; field; lra).
    rewrite D1, D2. unfold direction, vscale. rewrite cos_turns, sin_turns.
    rewrite !cos_minus, !sin_minus, cos_PI, sin_PI, cos_PI2, sin_PI2.
    apply v3_eq; [| |].
    + replace ((cos T * 0 + sin T * 1) * (cos F * -1 + sin F * 0)) with (- (1 * sin T * cos F)) by ring. rewrite B2. lra.
    + replace ((cos T * 0 + sin T * 1) * (sin F * -1 - cos F * 0)) with (- (1 * sin T * sin F)) by ring. rewrite B2. lra.
    + lra.
  - exists th, l. split; auto. split; auto. rewrite deg_degrees. rewrite cos_turns, sin_turns. exact Cr.
Qed.

Lemma ctime2bore_many t t' l ta tb per rate : ctime2bore (t :: t' :: l) ta tb per rate = Err NameError.
Proof. reflexivity. Qed.
Lemma ctime2bore_none ta tb per rate : ctime2bore [] ta tb per rate = Err UnboundLocalError.
Proof. reflexivity. Qed.

(** The offset of 2415020 days is no whole number of years. *)
Lemma phase_differs t : forall k, used_phase t + 2 * PI * IZR k <> 2 * PI / 365.25 * (t / 86400 + 25567.5).
Proof.
  intros k E. assert (HP := PI_RGT_0). unfold used_phase in E.
  assert (X : 2 * PI * IZR k = 2 * PI * (2415020 / 365.25)) by lra.
  apply Rmult_eq_reg_l in X; [|lra].
  assert (6611 < k)%Z by (apply lt_IZR; lra). assert (k < 6612)%Z by (apply lt_IZR; lra). lia.
Qed.

(** A case away from the poles. *)
Lemma off_pole_case f ta tb : off_pole (boresight (ecliptic f) ta tb (2 * PI / (192.348 * 60) * 0 + 3 / 2 * PI)
  (2 * PI * 0.05 / 60 * 0 + PI)).
Proof.
  assert (U := proj1 (boresight_angles f ta tb (2 * PI / (192.348 * 60) * 0 + 3 / 2 * PI) (2 * PI * 0.05 / 60 * 0 + PI))).
  assert (Z : snd (boresight (ecliptic f) ta tb (2 * PI / (192.348 * 60) * 0 + 3 / 2 * PI) (2 * PI * 0.05 / 60 * 0 + PI)) = 0).
  { replace (2 * PI / (192.348 * 60) * 0 + 3 / 2 * PI) with (- (PI / 2) + 2 * PI * IZR 1) by lra.
    replace (2 * PI * 0.05 / 60 * 0 + PI) with PI by ring.
    unfold boresight, spin_axis, rotated. rewrite cos_turns, sin_turns, cos_neg, sin_neg, cos_PI2, sin_PI2, cos_PI, sin_PI.
    unfold ecliptic, north, vadd, vscale, cross, dot. cbn [fst snd]. ring. }
  destruct (boresight _ _ _ _ _) as [[x y] z]. cbn in Z. subst z. unfold dot in U. unfold off_pole. lra.
Qed.
