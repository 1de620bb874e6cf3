(** * Proofs about Jones matrices *)
From Coq Require Import Reals Lra Psatz.
From Verif Require Import Common Cplx Mat M_Mueller S_Mueller L_Mueller.
Open Scope R_scope.

(** ** Jones to Mueller *)

Lemma mueller_elem_real J (i j : v4 mat2 -> mat2) :
  In i [e0; e1; e2; e3] -> In j [e0; e1; e2; e3] -> Im (mueller_elem J (i sigma) (j sigma)) = 0.
Proof.
  intros Hi Hj. cbn in Hi, Hj.
  decompose [or] Hi; subst; try tauto; decompose [or] Hj; subst; try tauto;
  unfold mueller_elem, sigma; mcbn; cexpand; field.
Qed.

Ltac jm := unfold JonesToMueller, mueller_elem, sigma; mcbn; cexpand.

Lemma jones_stokes J e :
  rmvec4 (JonesToMueller J) (stokes_of e) = stokes_of (mvec2 J e).
Proof.
  destruct J as [[[a a'] [b b']] [[c c'] [d d']]], e as [[x x'] [y y']].
  unfold stokes_of. apply v4_eq; jm; field.
Qed.

(** Twice the Mueller matrix, element by element. *)
Definition twice (a a' b b' c c' d d' : R) : rmat4 :=
  V4 (V4 (a*a + a'*a' + b*b + b'*b' + c*c + c'*c' + d*d + d'*d')
         (a*a + a'*a' - b*b - b'*b' + c*c + c'*c' - d*d - d'*d')
         (2 * (a*b + a'*b' + c*d + c'*d'))
         (-2 * (a*b' - a'*b + c*d' - c'*d)))
     (V4 (a*a + a'*a' + b*b + b'*b' - c*c - c'*c' - d*d - d'*d')
         (a*a + a'*a' - b*b - b'*b' - c*c - c'*c' + d*d + d'*d')
         (2 * (a*b + a'*b' - c*d - c'*d'))
         (-2 * (a*b' - a'*b - c*d' + c'*d)))
     (V4 (2 * (a*c + a'*c' + b*d + b'*d'))
         (2 * (a*c + a'*c' - b*d - b'*d'))
         (2 * (a*d + a'*d' + b*c + b'*c'))
         (-2 * (a*d' - a'*d - b*c' + b'*c)))
     (V4 (-2 * (a'*c - a*c' + b'*d - b*d'))
         (-2 * (a'*c - a*c' - b'*d + b*d'))
         (-2 * (a'*d - a*d' + b'*c - b*c'))
         (2 * (a*d + a'*d' - b*c - b'*c'))).

Lemma jones_twice a a' b b' c c' d d' :
  JonesToMueller (V2 (@V2 C (a, a') (b, b')) (@V2 C (c, c') (d, d')))
  = map4 (map4 (Rmult (/ 2))) (twice a a' b b' c c' d d').
Proof. unfold twice. apply v4_eq; apply v4_eq; jm; field. Qed.

Lemma twice_mult a a' b b' c c' d d' p p' q q' r r' s s' :
  rmmul4 (twice a a' b b' c c' d d') (twice p p' q q' r r' s s')
  = map4 (map4 (Rmult 2))
    (twice (a*p - a'*p' + (b*r - b'*r')) (a*p' + a'*p + (b*r' + b'*r))
           (a*q - a'*q' + (b*s - b'*s')) (a*q' + a'*q + (b*s' + b'*s))
           (c*p - c'*p' + (d*r - d'*r')) (c*p' + c'*p + (d*r' + d'*r))
           (c*q - c'*q' + (d*s - d'*s')) (c*q' + c'*q + (d*s' + d'*s))).
Proof. unfold twice. apply v4_eq; apply v4_eq; mcbn; ring. Qed.

Lemma rmmul4_scale k l m n :
  rmmul4 (map4 (map4 (Rmult k)) m) (map4 (map4 (Rmult l)) n)
  = map4 (map4 (Rmult (k * l))) (rmmul4 m n).
Proof. apply v4_eq; apply v4_eq; mcbn; ring. Qed.

Lemma jones_mult J K :
  JonesToMueller (mmul2 J K) = rmmul4 (JonesToMueller J) (JonesToMueller K).
Proof.
  destruct J as [[[a a'] [b b']] [[c c'] [d d']]].
  destruct K as [[[p p'] [q q']] [[r r'] [s s']]].
  assert (E : mmul2 (V2 (@V2 C (a, a') (b, b')) (@V2 C (c, c') (d, d')))
                    (V2 (@V2 C (p, p') (q, q')) (@V2 C (r, r') (s, s')))
    = V2 (@V2 C (a*p - a'*p' + (b*r - b'*r'), a*p' + a'*p + (b*r' + b'*r))
             (a*q - a'*q' + (b*s - b'*s'), a*q' + a'*q + (b*s' + b'*s)))
         (@V2 C (c*p - c'*p' + (d*r - d'*r'), c*p' + c'*p + (d*r' + d'*r))
             (c*q - c'*q' + (d*s - d'*s'), c*q' + c'*q + (d*s' + d'*s)))).
  { m2eq; apply C_eq; cexpand; ring. }
  rewrite E. rewrite !jones_twice, rmmul4_scale, twice_mult. generalize (twice (a*p - a'*p' + (b*r - b'*r')) (a*p' + a'*p + (b*r' + b'*r))
           (a*q - a'*q' + (b*s - b'*s')) (a*q' + a'*q + (b*s' + b'*s))
           (c*p - c'*p' + (d*r - d'*r')) (c*p' + c'*p + (d*r' + d'*r))
           (c*q - c'*q' + (d*s - d'*s')) (c*q' + c'*q + (d*s' + d'*s))).
  intros m. apply v4_eq; apply v4_eq; mcbn; field.
Qed.

Lemma jones_eye : JonesToMueller eye2 = reye4.
Proof. apply v4_eq; apply v4_eq; jm; field. Qed.

Lemma jones_factor k J :
  JonesToMueller (mscale2 k J) = map4 (map4 (Rmult (Cnorm2 k))) (JonesToMueller J).
Proof.
  destruct J as [[[a a'] [b b']] [[c c'] [d d']]]. destruct k as [k k'].
  change (mscale2 (k, k') (V2 (@V2 C (a, a') (b, b')) (@V2 C (c, c') (d, d'))))
    with (V2 (@V2 C (k * a - k' * a', k * a' + k' * a) (k * b - k' * b', k * b' + k' * b))
             (@V2 C (k * c - k' * c', k * c' + k' * c) (k * d - k' * d', k * d' + k' * d))).
  rewrite !jones_twice. unfold twice, Cnorm2.
  apply v4_eq; apply v4_eq; mcbn; cbn [Re Im fst snd]; ring.
Qed.

Lemma jones_phase t J : JonesToMueller (mscale2 (cis t) J) = JonesToMueller J.
Proof.
  rewrite jones_factor.
  assert (E : Cnorm2 (cis t) = 1).
  { unfold Cnorm2, cis; cbn. pose proof (sin2_cos2 t) as S. unfold Rsqr in S. lra. }
  rewrite E. destruct (JonesToMueller J) as [[] [] [] []]. mcbn.
  repeat f_equal; ring.
Qed.

Lemma jones_lorentz J (s : stokes) :
  let s' := rmvec4 (JonesToMueller J) s in
  e0 s' ^ 2 - e1 s' ^ 2 - e2 s' ^ 2 - e3 s' ^ 2
  = Cnorm2 (det2 J) * (e0 s ^ 2 - e1 s ^ 2 - e2 s ^ 2 - e3 s ^ 2).
Proof.
  destruct J as [[[a a'] [b b']] [[c c'] [d d']]], s as [i q u v].
  cbv zeta. jm. field.
Qed.

Lemma sq_bound (a b d : R) : 0 <= d -> a ^ 2 + b <= d ^ 2 -> 0 <= b -> - d <= a <= d.
Proof.
  intros Hd Hab Hb. assert (S : Rsqr a <= Rsqr d) by (unfold Rsqr; nra).
  split; [now apply Rsqr_neg_pos_le_0|now apply Rsqr_incr_0_var].
Qed.

Lemma jones_nonneg J s : physical s -> 0 <= e0 (rmvec4 (JonesToMueller J) s).
Proof.
  intros [Hi Hp].
  (* e0 s' = |first row applied|^2 + |second row applied|^2 as quadratic forms *)
  assert (Q : forall x x' y y' : R,
    0 <= (x * x + x' * x') * (e0 s + e1 s) + (y * y + y' * y') * (e0 s - e1 s)
         + 2 * (x * y + x' * y') * e2 s + 2 * (x' * y - x * y') * e3 s).
  { intros x x' y y'. destruct s as [i q u v]. cbn [e0 e1 e2 e3] in *.
    assert (S : - i <= q <= i).
    { apply (sq_bound q (u ^ 2 + v ^ 2) i); [assumption|lra|].
      pose proof (pow2_ge_0 u). pose proof (pow2_ge_0 v). lra. }
    assert (A : 0 <= i + q) by lra. assert (B : 0 <= i - q) by lra.
    assert (D : u * u + v * v <= (i + q) * (i - q)) by nra.
    destruct (Req_dec (i + q) 0) as [Z|Z].
    - rewrite Z, Rmult_0_l in D.
      assert (U : u * u = 0) by nra. assert (V : v * v = 0) by nra.
      apply Rmult_integral in U. apply Rmult_integral in V.
      assert (u = 0) by tauto. assert (v = 0) by tauto. subst. rewrite Z.
      assert (0 <= (y * y + y' * y') * (i - q)) by (apply Rmult_le_pos; [nra|lra]). lra.
    - assert (P : 0 < i + q) by lra.
      assert (0 <= (i + q) * ((x * x + x' * x') * (i + q) + (y * y + y' * y') * (i - q)
         + 2 * (x * y + x' * y') * u + 2 * (x' * y - x * y') * v)).
      { replace (_ * _) with
          (((i + q) * x + u * y - v * y') ^ 2 + ((i + q) * x' + u * y' + v * y) ^ 2
           + (y * y + y' * y') * ((i + q) * (i - q) - u * u - v * v)) by ring.
        assert (0 <= y * y + y' * y') by nra.
        assert (0 <= (y * y + y' * y') * ((i + q) * (i - q) - u * u - v * v))
          by (apply Rmult_le_pos; lra).
        match goal with |- 0 <= ?x ^ 2 + ?z ^ 2 + _ =>
          pose proof (pow2_ge_0 x); pose proof (pow2_ge_0 z) end. lra. }
      apply Rmult_le_reg_l with (i + q); [assumption|]. rewrite Rmult_0_r. assumption. }
  destruct J as [[[a a'] [b b']] [[c c'] [d d']]].
  pose proof (Q a a' b b') as Q1. pose proof (Q c c' d d') as Q2.
  destruct s as [i q u v]. cbn [e0 e1 e2 e3] in *.
  assert (E : e0 (rmvec4 (JonesToMueller (V2 (@V2 C (a, a') (b, b')) (@V2 C (c, c') (d, d')))) (V4 i q u v))
    = 1/2 * (((a * a + a' * a') * (i + q) + (b * b + b' * b') * (i - q)
         + 2 * (a * b + a' * b') * u + 2 * (a' * b - a * b') * v)
      + ((c * c + c' * c') * (i + q) + (d * d + d' * d') * (i - q)
         + 2 * (c * d + c' * d') * u + 2 * (c' * d - c * d') * v))).
  { jm. field. }
  rewrite E. lra.
Qed.

Lemma jones_physical J s : physical s -> physical (rmvec4 (JonesToMueller J) s).
Proof.
  intros H. split; [now apply jones_nonneg|].
  pose proof (jones_lorentz J s) as L. cbv zeta in L. destruct H as [_ H].
  assert (0 <= Cnorm2 (det2 J)) by (unfold Cnorm2; nra).
  nra.
Qed.

Lemma physical_dominates m : (forall s, physical s -> physical (rmvec4 m s)) ->
  0 <= e0 (e0 m) /\
  forall (i : v4 (v4 R) -> v4 R) (j : v4 R -> R),
    In i [e0; e1; e2; e3] -> In j [e0; e1; e2; e3] -> Rabs (j (i m)) <= e0 (e0 m).
Proof.
  intros H.
  assert (B : forall j, In j [V4 0 1 0 0; V4 0 0 1 0; V4 0 0 0 1] -> forall t, t * t = 1 ->
    physical (rmvec4 m (V4 1 (t * e1 j) (t * e2 j) (t * e3 j)))).
  { intros j Hj t Ht. apply H. unfold physical. cbn [e0 e1 e2 e3]. split; [lra|].
    cbn in Hj. decompose [or] Hj; subst; try tauto; cbn [e0 e1 e2 e3]; nra. }
  pose proof sq_bound as A.
  destruct m as [[m00 m01 m02 m03] [m10 m11 m12 m13] [m20 m21 m22 m23] [m30 m31 m32 m33]].
  assert (P : forall (j : v4 R) (t : R), In j [V4 0 1 0 0; V4 0 0 1 0; V4 0 0 0 1] -> t * t = 1 ->
    let d := m00 + t * (m01 * e1 j + m02 * e2 j + m03 * e3 j) in
    0 <= d
    /\ - d <= m10 + t * (m11 * e1 j + m12 * e2 j + m13 * e3 j) <= d
    /\ - d <= m20 + t * (m21 * e1 j + m22 * e2 j + m23 * e3 j) <= d
    /\ - d <= m30 + t * (m31 * e1 j + m32 * e2 j + m33 * e3 j) <= d).
  { intros j t Hj Ht. destruct (B j Hj t Ht) as [D0 D1]. clear Hj.
    destruct j as [j0 j1 j2 j3]. revert D0 D1. mcbn. intros D0 D1.
    match type of D0 with 0 <= ?x => replace x with
      (m00 + t * (m01 * j1 + m02 * j2 + m03 * j3)) in * by ring end.
    set (d := m00 + _) in *.
    match type of D1 with ?x ^ 2 + ?y ^ 2 + ?z ^ 2 <= _ =>
      pose proof (A x (y ^ 2 + z ^ 2) d D0) as X;
      pose proof (A y (x ^ 2 + z ^ 2) d D0) as Y;
      pose proof (A z (x ^ 2 + y ^ 2) d D0) as Z;
      assert (0 <= x ^ 2) by apply pow2_ge_0; assert (0 <= y ^ 2) by apply pow2_ge_0;
      assert (0 <= z ^ 2) by apply pow2_ge_0
    end.
    specialize (X ltac:(lra) ltac:(lra)). specialize (Y ltac:(lra) ltac:(lra)).
    specialize (Z ltac:(lra) ltac:(lra)).
    repeat split; lra. }
  assert (Pos : forall j, In j [V4 0 1 0 0; V4 0 0 1 0; V4 0 0 0 1] -> In j [V4 0 1 0 0; V4 0 0 1 0; V4 0 0 0 1]) by auto.
  pose proof (P (V4 0 1 0 0) 1 ltac:(cbn; auto) ltac:(lra)) as Q1.
  pose proof (P (V4 0 1 0 0) (-1) ltac:(cbn; auto) ltac:(lra)) as Q2.
  pose proof (P (V4 0 0 1 0) 1 ltac:(cbn; auto) ltac:(lra)) as Q3.
  pose proof (P (V4 0 0 1 0) (-1) ltac:(cbn; auto) ltac:(lra)) as Q4.
  pose proof (P (V4 0 0 0 1) 1 ltac:(cbn; auto) ltac:(lra)) as Q5.
  pose proof (P (V4 0 0 0 1) (-1) ltac:(cbn; auto) ltac:(lra)) as Q6.
  cbv zeta in *. cbn [e0 e1 e2 e3] in *. clear P B A H Pos.
  split; [lra|]. intros i j Hi Hj. apply Rabs_le. cbn in Hi, Hj.
  decompose [or] Hi; subst; try tauto; decompose [or] Hj; subst; try tauto; cbn [e0 e1 e2 e3]; lra.
Qed.

Lemma jones_dominates J :
  let m := JonesToMueller J in
  0 <= e0 (e0 m) /\
  forall (i : v4 (v4 R) -> v4 R) (j : v4 R -> R),
    In i [e0; e1; e2; e3] -> In j [e0; e1; e2; e3] -> Rabs (j (i m)) <= e0 (e0 m).
Proof. apply physical_dominates. intros s. apply jones_physical. Qed.
