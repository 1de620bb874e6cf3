(** * Proofs about rotated Jones and Mueller matrices *)
From Coq Require Import Reals Lra.
From Verif Require Import Common Cplx Mat M_Mueller S_Mueller L_Mueller L_Jones.
Open Scope R_scope.

Lemma jones_rotation J t e :
  mvec2 (JonesRotation J t) (turn_field (t * PI / 180) e)
  = turn_field (t * PI / 180) (mvec2 J e).
Proof.
  unfold JonesRotation. cbv zeta.
  replace (t * (PI / 180)) with (t * PI / 180) by field.
  set (a := t * PI / 180). pose proof (sin2_cos2 a) as S. unfold Rsqr in S.
  set (s := sin a) in *. set (c := cos a) in *.
  unfold turn_field. fold s c. clearbody s c. clear a.
  set (rot := V2 (V2 (RtoC c) (RtoC (- s))) (V2 (RtoC s) (RtoC c))).
  assert (D : det2 rot = RtoC 1).
  { unfold rot. mcbn. apply C_eq; cexpand; [|ring]. rewrite <- S. ring. }
  assert (I : mmul2 (inv2 rot) rot = eye2).
  { apply inv2_l. rewrite D. intros E. apply RtoC_inj in E. lra. }
  assert (T : forall v, V2 (RtoC c * f0 v - RtoC s * f1 v)%C (RtoC s * f0 v + RtoC c * f1 v)%C
              = mvec2 rot v).
  { intros v. unfold rot. apply v2_eq; mcbn; apply C_eq; cexpand; ring. }
  rewrite !T.
  assert (MV : forall a b v, mvec2 (mmul2 a b) v = mvec2 a (mvec2 b v))
    by (intros; apply v2_eq; mcbn; ring).
  rewrite !MV, <- (MV (inv2 rot) rot), I.
  f_equal. f_equal. apply v2_eq; mcbn; ring.
Qed.

Lemma turn_stokes t e : stokes_of (turn_field t e) = turn t (stokes_of e).
Proof.
  unfold stokes_of, turn_field, turn. rewrite cos_2a, sin_2a.
  pose proof (sin2_cos2 t) as S. unfold Rsqr in S.
  set (s := sin t) in *. set (c := cos t) in *. clearbody s c. clear t.
  assert (F : c * c = 1 - s * s) by lra.
  destruct e as [[x x'] [y y']].
  apply v4_eq; mcbn; cexpand; ring [F].
Qed.


(** The field rotation as a matrix, and its Mueller matrix. *)
Definition rot2 (t : R) : mat2 :=
  V2 (V2 (RtoC (cos t)) (RtoC (- sin t))) (V2 (RtoC (sin t)) (RtoC (cos t))).

Lemma rot2_mueller t s : rmvec4 (JonesToMueller (rot2 t)) s = turn t s.
Proof.
  unfold rot2, RtoC. rewrite jones_twice. unfold twice, turn. rewrite cos_2a, sin_2a.
  pose proof (sin2_cos2 t) as S. unfold Rsqr in S.
  set (n := sin t) in *. set (c := cos t) in *. clearbody n c. clear t.
  assert (F : c * c = 1 - n * n) by lra.
  destruct s as [i q u v].
  apply v4_eq; mcbn; field_simplify; ring [F] || (field_simplify_eq; ring [F]) || nra.
Qed.

Lemma rot2_inv t : mmul2 (inv2 (rot2 t)) (rot2 t) = eye2.
Proof.
  apply inv2_l. unfold rot2. mcbn. pose proof (sin2_cos2 t) as S. unfold Rsqr in S.
  intros E. apply (f_equal Re) in E. revert E. cexpand. lra.
Qed.

Lemma rmvec4_mmul a b v : rmvec4 (rmmul4 a b) v = rmvec4 a (rmvec4 b v).
Proof. apply v4_eq; mcbn; ring. Qed.
Lemma rmvec4_eye v : rmvec4 reye4 v = v.
Proof. apply v4_eq; mcbn; ring. Qed.

Lemma jones_rotation_mueller J t :
  is_turned (t * PI / 180) (JonesToMueller J) (JonesToMueller (JonesRotation J t)).
Proof.
  intros s. unfold JonesRotation. cbv zeta.
  replace (t * (PI / 180)) with (t * PI / 180) by field.
  set (a := t * PI / 180).
  change (V2 (V2 (RtoC (cos a)) (RtoC (- sin a))) (V2 (RtoC (sin a)) (RtoC (cos a)))) with (rot2 a).
  rewrite <- !rot2_mueller, !jones_mult, !rmvec4_mmul.
  rewrite <- (rmvec4_mmul (JonesToMueller (inv2 (rot2 a)))), <- jones_mult, rot2_inv, jones_eye, rmvec4_eye.
  reflexivity.
Qed.

(** What MuellerRotation does: the sign of Q in the U row is wrong. *)
Lemma mueller_rotation_law m t s :
  let out := rmvec4 m s in
  rmvec4 (MuellerRotation m t) (turn t s)
  = V4 (e0 out) (cos (2 * t) * e1 out - sin (2 * t) * e2 out)
       (- sin (2 * t) * e1 out + cos (2 * t) * e2 out) (e3 out).
Proof.
  cbv zeta. unfold MuellerRotation, turn. cbv zeta.
  replace (- 2 * t) with (- (2 * t)) by ring. rewrite cos_neg, sin_neg.
  pose proof (sin2_cos2 (2 * t)) as S. unfold Rsqr in S.
  set (n := sin (2 * t)) in *. set (c := cos (2 * t)) in *. clearbody n c. clear t.
  assert (F : c * c = 1 - n * n) by lra.
  apply v4_eq; mcbn; ring [F].
Qed.

Lemma mueller_rotation_good m t : sin (2 * t) = 0 -> is_turned t m (MuellerRotation m t).
Proof.
  intros H s. rewrite mueller_rotation_law. cbv zeta. unfold turn. rewrite H.
  apply v4_eq; cbn [e0 e1 e2 e3]; ring.
Qed.

Lemma mueller_rotation_rows m t s :
  let got := rmvec4 (MuellerRotation m t) (turn t s) in
  let want := turn t (rmvec4 m s) in
  e0 got = e0 want /\ e1 got = e1 want /\ e3 got = e3 want.
Proof. cbv zeta. rewrite mueller_rotation_law. cbv zeta. unfold turn. cbn [e0 e1 e3]. auto. Qed.

Lemma mueller_rotation_bad t : sin (2 * t) <> 0 -> ~ is_turned t reye4 (MuellerRotation reye4 t).
Proof.
  intros H T. specialize (T (V4 0 1 0 0)). rewrite mueller_rotation_law in T. cbv zeta in T.
  rewrite rmvec4_eye in T. unfold turn in T. cbn [e0 e1 e2 e3] in T.
  apply (f_equal e2) in T. cbn [e2] in T. lra.
Qed.

Lemma mueller_rotation_zero m : MuellerRotation m 0 = m.
Proof.
  unfold MuellerRotation. cbv zeta. replace (2 * 0) with 0 by ring. replace (-2 * 0) with 0 by ring.
  rewrite cos_0, sin_0. apply v4_eq; apply v4_eq; mcbn; ring.
Qed.

Lemma mueller_rotation_eye_bad : MuellerRotation reye4 (PI / 4) <> reye4.
Proof.
  intros E. pose proof (f_equal (fun m => e2 (e2 m)) E) as F. revert F.
  unfold MuellerRotation. cbv zeta. replace (2 * (PI / 4)) with (PI / 2) by field.
  replace (-2 * (PI / 4)) with (- (PI / 2)) by field. rewrite cos_neg, sin_neg, cos_PI2, sin_PI2.
  mcbn. intros F. lra.
Qed.

Lemma sin_2_quarter : sin (2 * (PI / 4)) <> 0.
Proof. replace (2 * (PI / 4)) with (PI / 2) by field. rewrite sin_PI2. lra. Qed.

Lemma mvec2_ext (m n : mat2) : (forall v, mvec2 m v = mvec2 n v) -> m = n.
Proof.
  intros H.
  pose proof (H (V2 (RtoC 1) (RtoC 0))) as H0. pose proof (H (V2 (RtoC 0) (RtoC 1))) as H1.
  destruct m as [[a b] [c d]], n as [[a' b'] [c' d']]. revert H0 H1. mcbn.
  intros E F. injection E; injection F. intros.
  assert (forall x y : C, (x * RtoC 1 + y * RtoC 0 = x)%C) as K by (intros; ring).
  assert (forall x y : C, (x * RtoC 0 + y * RtoC 1 = y)%C) as K' by (intros; ring).
  rewrite ?K, ?K' in *. congruence.
Qed.

Lemma turn_field_add a b e : turn_field b (turn_field a e) = turn_field (a + b) e.
Proof.
  unfold turn_field. mcbn. rewrite cos_plus, sin_plus.
  f_equal; apply C_eq; cexpand; ring.
Qed.

Lemma turn_field_back t e : turn_field t (turn_field (- t) e) = e.
Proof.
  rewrite turn_field_add. replace (- t + t) with 0 by ring. unfold turn_field.
  rewrite cos_0, sin_0. destruct e. mcbn. f_equal; apply C_eq; cexpand; ring.
Qed.

Lemma jones_rotation_add J a b :
  JonesRotation (JonesRotation J a) b = JonesRotation J (a + b).
Proof.
  apply mvec2_ext. intros v.
  rewrite <- (turn_field_back ((a + b) * PI / 180) v). set (e := turn_field _ v).
  rewrite jones_rotation.
  replace ((a + b) * PI / 180) with (a * PI / 180 + b * PI / 180) by field.
  rewrite <- !turn_field_add, !jones_rotation. reflexivity.
Qed.

Lemma jones_rotation_zero J : JonesRotation J 0 = J.
Proof.
  apply mvec2_ext. intros v. pose proof (jones_rotation J 0 v) as H.
  replace (0 * PI / 180) with 0 in H by field.
  assert (K : forall e, turn_field 0 e = e).
  { intros e. rewrite <- (turn_field_back 0 e) at 2. now replace (- 0) with 0 by ring; rewrite turn_field_add; replace (0 + 0) with 0 by ring. }
  now rewrite !K in H.
Qed.

Lemma jones_rotation_eye t : JonesRotation eye2 t = eye2.
Proof.
  apply mvec2_ext. intros v. rewrite <- (turn_field_back (t * PI / 180) v).
  rewrite jones_rotation.
  assert (K : forall e, mvec2 eye2 e = e).
  { intros []. unfold eye2. mcbn. f_equal; ring. }
  now rewrite !K.
Qed.

Lemma mueller_rotation_add_bad :
  MuellerRotation (MuellerRotation reye4 (PI / 4)) (PI / 4)
  <> MuellerRotation reye4 (PI / 4 + PI / 4).
Proof.
  intros E. pose proof (f_equal (fun m => e2 (e2 m)) E) as F. revert F.
  unfold MuellerRotation. cbv zeta. replace (2 * (PI / 4 + PI / 4)) with PI by field.
  replace (-2 * (PI / 4 + PI / 4)) with (- PI) by field.
  replace (2 * (PI / 4)) with (PI / 2) by field.
  replace (-2 * (PI / 4)) with (- (PI / 2)) by field.
  rewrite !cos_neg, !sin_neg, cos_PI2, sin_PI2, cos_PI, sin_PI.
  mcbn. intros F. lra.
Qed.
