(** * Lemmas about the L2 scan: geometry *)
From Coq Require Import Reals Lra Lia.
From Verif Require Import Common M_Hwp L_Hwp M_Quat S_Quat L_Quat M_L2 S_L2 L_L2.
Open Scope R_scope.

Lemma v3_eq (a b c x y z : R) : a = x -> b = y -> c = z -> (a, b, c) = (x, y, z).
Proof. now intros -> -> ->. Qed.

(** Linear maps that keep products. *)
Record isom (f : v3 -> v3) : Prop := {
  is_add : forall u v, f (vadd u v) = vadd (f u) (f v);
  is_scale : forall t v, f (vscale t v) = vscale t (f v);
  is_dot : forall u v, dot (f u) (f v) = dot u v;
  is_cross : forall u v, f (cross u v) = cross (f u) (f v) }.

Lemma sc2 x : sin x * sin x + cos x * cos x = 1.
Proof. exact (sin2_cos2 x). Qed.

Lemma isom_xy a : isom (rot_xy a).
Proof.
  assert (H := sc2 a). split.
  - intros [[x y] z] [[x' y'] z']. cbn. apply v3_eq; ring.
  - intros t [[x y] z]. cbn. apply v3_eq; ring.
  - intros [[x y] z] [[x' y'] z']. cbn.
    replace ((cos a * x - sin a * y) * (cos a * x' - sin a * y') + (sin a * x + cos a * y) * (sin a * x' + cos a * y') + z * z')
      with ((sin a * sin a + cos a * cos a) * (x * x' + y * y') + z * z') by ring. rewrite H. ring.
  - intros [[x y] z] [[x' y'] z']. cbn. apply v3_eq; try ring.
    replace ((cos a * x - sin a * y) * (sin a * x' + cos a * y') - (sin a * x + cos a * y) * (cos a * x' - sin a * y'))
      with ((sin a * sin a + cos a * cos a) * (x * y' - y * x')) by ring. rewrite H. ring.
Qed.
Lemma isom_xz a : isom (rot_xz a).
Proof.
  assert (H := sc2 a). split.
  - intros [[x y] z] [[x' y'] z']. cbn. apply v3_eq; ring.
  - intros t [[x y] z]. cbn. apply v3_eq; ring.
  - intros [[x y] z] [[x' y'] z']. cbn.
    replace ((cos a * x + sin a * z) * (cos a * x' + sin a * z') + y * y' + (- sin a * x + cos a * z) * (- sin a * x' + cos a * z'))
      with ((sin a * sin a + cos a * cos a) * (x * x' + z * z') + y * y') by ring. rewrite H. ring.
  - intros [[x y] z] [[x' y'] z']. cbn. apply v3_eq; try ring.
    replace ((- sin a * x + cos a * z) * (cos a * x' + sin a * z') - (cos a * x + sin a * z) * (- sin a * x' + cos a * z'))
      with ((sin a * sin a + cos a * cos a) * (z * x' - x * z')) by ring. rewrite H. ring.
Qed.
Lemma isom_comp f g : isom f -> isom g -> isom (fun v => f (g v)).
Proof. intros F G. split; intros; [now rewrite (is_add _ G), (is_add _ F)|now rewrite (is_scale _ G), (is_scale _ F)|now rewrite (is_dot _ F), (is_dot _ G)|now rewrite (is_cross _ G), (is_cross _ F)]. Qed.
Lemma isom_rotated f n t v : isom f -> f (rotated n t v) = rotated (f n) t (f v).
Proof. intros F. unfold rotated. now rewrite !(is_add _ F), !(is_scale _ F), (is_cross _ F), (is_dot _ F). Qed.

Lemma isom_sky ta om s : isom (to_sky ta om s).
Proof.
  unfold to_sky. apply (isom_comp (rot_xy (rel_phi s)) (fun v => rot_xz (PI / 2) (rot_xy (pre_t om s) (rot_xz ta v)))); [apply isom_xy|].
  apply (isom_comp (rot_xz (PI / 2)) (fun v => rot_xy (pre_t om s) (rot_xz ta v))); [apply isom_xz|].
  apply (isom_comp (rot_xy (pre_t om s)) (rot_xz ta)); [apply isom_xy|apply isom_xz].
Qed.

Lemma rot_xy_rotated a v : rot_xy a v = rotated north a v.
Proof. destruct v as [[x y] z]. unfold rotated, north. cbn. apply v3_eq; ring. Qed.

(** Longitude of the anti-Sun vector. *)
Lemma rel_phi_spec s : s_theta s = PI / 2 -> cos (rel_phi s) = cos (s_phi s) /\ sin (rel_phi s) = sin (s_phi s).
Proof.
  intros H. unfold rel_phi, asp. rewrite H, sin_PI2, !Rmult_1_l. set (p := s_phi s).
  assert (B := COS_bound p). assert (H2 := sc2 p).
  assert (C : cos (acos (cos p)) = cos p) by (apply cos_acos; lra).
  assert (S : sin (acos (cos p)) = Rabs (sin p)).
  { rewrite sin_acos by lra. replace (1 - (cos p)²) with (Rsqr (sin p)) by (unfold Rsqr; lra). apply sqrt_Rsqr_abs. }
  destruct (Rle_dec 0 (sin p)).
  - rewrite C, S, Rabs_pos_eq by auto. auto.
  - replace (- acos (cos p) + 2 * PI) with (- acos (cos p) + 2 * PI * IZR 1) by (cbn; ring).
    rewrite cos_turns, sin_turns, cos_neg, sin_neg, C, S, Rabs_left by lra. split; [auto|ring].
Qed.

Lemma cos_mPI2 : cos (- PI / 2) = 0.
Proof. replace (- PI / 2) with (- (PI / 2)) by field. now rewrite cos_neg, cos_PI2. Qed.
Lemma sin_mPI2 : sin (- PI / 2) = -1.
Proof. replace (- PI / 2) with (- (PI / 2)) by field. rewrite sin_neg, sin_PI2. ring. Qed.

Lemma start_vector tb s : s_theta s = PI / 2 ->
  rot_xz tb (rot_xz (- PI / 2) (rot_xy (- rel_phi s) (asp s))) = (sin tb, 0, cos tb).
Proof.
  intros H. destruct (rel_phi_spec s H) as [C S]. unfold asp. rewrite H, sin_PI2, cos_PI2.
  unfold rot_xy, rot_xz. rewrite cos_neg, sin_neg, C, S, cos_mPI2, sin_mPI2. set (p := s_phi s).
  assert (H2 := sc2 p). apply v3_eq; [| |].
  - replace (cos tb * (0 * (cos p * (1 * cos p) - - sin p * (1 * sin p)) + -1 * 0) +
      sin tb * (- -1 * (cos p * (1 * cos p) - - sin p * (1 * sin p)) + 0 * 0))
      with (sin tb * (sin p * sin p + cos p * cos p)) by ring. rewrite H2. ring.
  - ring.
  - replace (- sin tb * (0 * (cos p * (1 * cos p) - - sin p * (1 * sin p)) + -1 * 0) +
      cos tb * (- -1 * (cos p * (1 * cos p) - - sin p * (1 * sin p)) + 0 * 0))
      with (cos tb * (sin p * sin p + cos p * cos p)) by ring. rewrite H2. ring.
Qed.

Lemma sky_of ta om s t : s_theta s = PI / 2 ->
  to_sky ta om s (sin t, 0, cos t)
  = rotated (ecliptic (s_phi s)) (pre_t om s)
      (vadd (vscale (cos (ta + t)) (ecliptic (s_phi s))) (vscale (- sin (ta + t)) north)).
Proof.
  intros H. destruct (rel_phi_spec s H) as [C S]. unfold to_sky.
  rewrite (rot_xy_rotated (pre_t om s)).
  assert (I := isom_comp (rot_xy (rel_phi s)) (rot_xz (PI / 2)) (isom_xy _) (isom_xz _)).
  rewrite (isom_rotated _ north (pre_t om s) (rot_xz ta (sin t, 0, cos t)) I).
  f_equal.
  - unfold north, rot_xz, rot_xy, ecliptic. rewrite C, S, cos_PI2, sin_PI2. apply v3_eq; ring.
  - unfold north, rot_xz, rot_xy, ecliptic, vadd, vscale. rewrite C, S, cos_PI2, sin_PI2, cos_plus, sin_plus. apply v3_eq; ring.
Qed.

Lemma spin_axis_sky ta om s : s_theta s = PI / 2 ->
  to_sky ta om s north = spin_axis (ecliptic (s_phi s)) ta (pre_t om s).
Proof.
  intros H. assert (X := sky_of ta om s 0 H). rewrite sin_0, cos_0, Rplus_0_r in X. exact X.
Qed.

Lemma boresight_sky ta tb om os s : s_theta s = PI / 2 ->
  to_sky ta om s (in_spin_frame tb os s) = boresight (ecliptic (s_phi s)) ta tb (pre_t om s) (spin_t os s).
Proof.
  intros H. unfold in_spin_frame. rewrite start_vector by auto. rewrite rot_xy_rotated.
  rewrite (isom_rotated _ _ _ _ (isom_sky ta om s)). unfold boresight.
  rewrite spin_axis_sky by auto. now rewrite sky_of by auto.
Qed.

Lemma in_frame tb os s : s_theta s = PI / 2 ->
  in_spin_frame tb os s = (sin tb * cos (spin_t os s), sin tb * sin (spin_t os s), cos tb).
Proof. intros H. unfold in_spin_frame. rewrite start_vector by auto. cbn. apply v3_eq; ring. Qed.

(** ** Angles *)
Lemma ecl_unit p : dot (ecliptic p) (ecliptic p) = 1.
Proof. unfold ecliptic, dot. assert (H := sc2 p). lra. Qed.

(** The geometry, without reference to the code. *)
Lemma boresight_angles phi ta tb p q :
  let a := ecliptic phi in let s := spin_axis a ta p in let b := boresight a ta tb p q in
  dot b b = 1 /\ dot s s = 1 /\ dot s a = cos ta /\ dot b s = cos tb.
Proof.
  cbv zeta. set (s0 := mks (PI / 2) phi 0).
  assert (E : forall x, exists om, pre_t om (mks (PI / 2) phi 1) = x).
  { intros x. exists (x - 3 / 2 * PI). unfold pre_t. cbn. ring. }
  assert (E' : forall x, exists om, spin_t om (mks (PI / 2) phi 1) = x).
  { intros x. exists (x - PI). unfold spin_t. cbn. ring. }
  destruct (E p) as [om Hp]. destruct (E' q) as [os Hq]. set (s := mks (PI / 2) phi 1) in *.
  assert (Hs : s_theta s = PI / 2) by reflexivity.
  assert (B := boresight_sky ta tb om os s Hs). assert (A := spin_axis_sky ta om s Hs).
  change (s_phi s) with phi in A, B. rewrite Hp in A, B. rewrite Hq in B. rewrite <- A, <- B.
  assert (I := isom_sky ta om s). rewrite !(is_dot _ I), in_frame by auto. rewrite Hq.
  assert (Q := sc2 q). assert (T := sc2 tb).
  split; [|split; [|split]].
  - cbn. replace (sin tb * cos q * (sin tb * cos q) + sin tb * sin q * (sin tb * sin q) + cos tb * cos tb)
      with (sin tb * sin tb * (sin q * sin q + cos q * cos q) + cos tb * cos tb) by ring. rewrite Q. lra.
  - cbn. ring.
  - assert (X := sky_of ta om s (- ta) Hs). change (s_phi s) with phi in X.
    rewrite Rplus_opp_r, cos_0, sin_0, Hp in X.
    assert (Y : rotated (ecliptic phi) p (vadd (vscale 1 (ecliptic phi)) (vscale (-0) north)) = ecliptic phi).
    { assert (EU := ecl_unit phi). unfold rotated. replace (vadd (vscale 1 (ecliptic phi)) (vscale (-0) north)) with (ecliptic phi)
        by (unfold ecliptic, vadd, vscale, north; apply v3_eq; ring).
      rewrite EU. unfold ecliptic, vadd, vscale, cross. apply v3_eq; ring. }
    rewrite Y in X. rewrite <- X at 1. rewrite (is_dot _ I). cbn. rewrite cos_neg, sin_neg. ring.
  - cbn. ring.
Qed.

(** ** psi *)
Lemma signed_spec a b : a * a + b * b = 1 ->
  cos (signed (acos a) (acos b)) = a /\ sin (signed (acos a) (acos b)) = b.
Proof.
  intros H. assert (HP := PI_RGT_0).
  assert (Ba : -1 <= a <= 1). { assert (X := sq_nonneg b). split; apply Rnot_lt_le; intros Y; nra. }
  assert (Bb : -1 <= b <= 1). { assert (X := sq_nonneg a). split; apply Rnot_lt_le; intros Y; nra. }
  assert (Ra := acos_bound a). assert (Rb := acos_bound b).
  assert (Ca : cos (acos a) = a) by (apply cos_acos; lra).
  assert (Sa : sin (acos a) = Rabs b).
  { rewrite sin_acos by lra. replace (1 - a²) with (Rsqr b) by (unfold Rsqr; lra). apply sqrt_Rsqr_abs. }
  assert (Cb : cos (acos b) = b) by (apply cos_acos; lra).
  set (t := acos a) in *. set (p := acos b) in *.
  assert (D : (signed t p = t /\ p <= PI / 2) \/ (signed t p = - t /\ PI / 2 < p) \/ (t = 0 /\ PI / 2 < p)).
  { unfold signed, both.
    destruct (Rlt_dec 0 t), (Rle_dec t (1 / 2 * PI)), (Rlt_dec (1 / 2 * PI) p), (Rle_dec p PI); cbn [andb];
      repeat (match goal with |- context [Rlt_dec ?x ?y] => destruct (Rlt_dec x y) end; cbn [andb]);
      repeat (match goal with |- context [Rle_dec ?x ?y] => destruct (Rle_dec x y) end; cbn [andb]);
      try lra; try (left; split; [reflexivity|lra]); try (right; left; split; [reflexivity|lra]); try (right; right; split; lra). }
  destruct D as [[-> Hp]|[[-> Hp]|[Ht Hp]]].
  - split; auto. rewrite Sa. apply Rabs_pos_eq. rewrite <- Cb. apply cos_ge_0; lra.
  - rewrite cos_neg, sin_neg, Ca, Sa. split; auto. assert (b < 0) by (rewrite <- Cb; apply cos_lt_0; lra).
    rewrite Rabs_left by auto. ring.
  - exfalso. assert (b < 0) by (rewrite <- Cb; apply cos_lt_0; lra). rewrite Ht in Ca. rewrite cos_0 in Ca. nra.
Qed.

(** Components of a unit vector perpendicular to the line of sight. *)
Lemma tangent t p d : dot d (at_colat t p) = 0 ->
  d = vadd (vscale (dot (e_colat t p) d) (e_colat t p)) (vscale (dot (e_long p) d) (e_long p)).
Proof.
  destruct d as [[x y] z]. unfold at_colat, e_colat, e_long, dot, vadd, vscale. intros H.
  assert (P := sc2 p). assert (T := sc2 t).
  set (st := sin t) in *. set (ct := cos t) in *. set (sp := sin p) in *. set (cp := cos p) in *.
  set (n := x * (st * cp) + y * (st * sp) + z * ct) in *.
  assert (Hx : x = (ct * cp * x + ct * sp * y + - st * z) * (ct * cp) + (- sp * x + cp * y + 0 * z) * - sp + n * (st * cp)).
  { unfold n. replace ((ct * cp * x + ct * sp * y + - st * z) * (ct * cp) + (- sp * x + cp * y + 0 * z) * - sp + (x * (st * cp) + y * (st * sp) + z * ct) * (st * cp))
      with ((st * st + ct * ct) * (cp * cp * x + cp * sp * y) + sp * sp * x - sp * cp * y) by ring. rewrite T.
    replace (1 * (cp * cp * x + cp * sp * y) + sp * sp * x - sp * cp * y) with ((sp * sp + cp * cp) * x) by ring. rewrite P. ring. }
  assert (Hy : y = (ct * cp * x + ct * sp * y + - st * z) * (ct * sp) + (- sp * x + cp * y + 0 * z) * cp + n * (st * sp)).
  { unfold n. replace ((ct * cp * x + ct * sp * y + - st * z) * (ct * sp) + (- sp * x + cp * y + 0 * z) * cp + (x * (st * cp) + y * (st * sp) + z * ct) * (st * sp))
      with ((st * st + ct * ct) * (cp * sp * x + sp * sp * y) - sp * cp * x + cp * cp * y) by ring. rewrite T.
    replace (1 * (cp * sp * x + sp * sp * y) - sp * cp * x + cp * cp * y) with ((sp * sp + cp * cp) * y) by ring. rewrite P. ring. }
  assert (Hz : z = (ct * cp * x + ct * sp * y + - st * z) * - st + (- sp * x + cp * y + 0 * z) * 0 + n * ct).
  { unfold n. replace ((ct * cp * x + ct * sp * y + - st * z) * - st + (- sp * x + cp * y + 0 * z) * 0 + (x * (st * cp) + y * (st * sp) + z * ct) * ct)
      with ((st * st + ct * ct) * z) by ring. rewrite T. ring. }
  rewrite H in Hx, Hy, Hz. apply v3_eq; lra.
Qed.

Lemma e_colat_unit t p : dot (e_colat t p) (e_colat t p) = 1.
Proof.
  unfold e_colat, dot. assert (P := sc2 p). assert (T := sc2 t).
  replace (cos t * cos p * (cos t * cos p) + cos t * sin p * (cos t * sin p) + - sin t * - sin t)
    with (cos t * cos t * (sin p * sin p + cos p * cos p) + sin t * sin t) by ring. rewrite P. lra.
Qed.
Lemma e_long_unit p : dot (e_long p) (e_long p) = 1.
Proof. unfold e_long, dot. assert (P := sc2 p). lra. Qed.

Lemma comps t p d : dot d (at_colat t p) = 0 -> dot d d = 1 ->
  dot (e_colat t p) d * dot (e_colat t p) d + dot (e_long p) d * dot (e_long p) d = 1.
Proof.
  intros H U. assert (X := tangent t p d H). set (a := dot (e_colat t p) d) in *. set (b := dot (e_long p) d) in *.
  assert (Z : dot d d = a * dot (e_colat t p) d + b * dot (e_long p) d).
  { rewrite X at 1. destruct d as [[x y] z]. unfold e_colat, e_long, vadd, vscale, dot. ring. }
  rewrite U in Z. fold a b in Z. lra.
Qed.

Lemma cosangle_unit u v : dot u u = 1 -> dot v v = 1 -> cosangle u v = acos (dot u v).
Proof.
  destruct u as [[x y] z], v as [[x' y'] z']. unfold cosangle, dot. intros -> ->. rewrite sqrt_1. f_equal. field.
Qed.
