(** * Proofs about a single layer: regularity, thickness, power *)
From Coq Require Import Reals Lra Psatz.
From Verif Require Import Common Cplx Mat M_Mueller M_Transfer S_Transfer L_Mueller L_Layer.
Open Scope R_scope.

(** ** Indices and angles *)
Lemma sqr_lt_of_abs x y : 0 < y -> Rabs x < y -> x ^ 2 < y ^ 2.
Proof. intros Hy H. apply Rabs_def2 in H. nra. Qed.

Lemma abs_lt_of_sqr x y : 0 < y -> x ^ 2 < y ^ 2 -> Rabs x < y.
Proof. intros Hy H. apply Rabs_def1; nra. Qed.

Lemma extra_index_sq m nsin chi : transparent nsin m ->
  0 < extra_index m nsin chi
  /\ extra_index m nsin chi ^ 2
     = extraIndex m ^ 2 * (1 - nsin ^ 2 * cos chi ^ 2 / ordinaryIndex m ^ 2) + nsin ^ 2 * cos chi ^ 2
  /\ nsin ^ 2 < extra_index m nsin chi ^ 2.
Proof.
  intros (HO & HE & H1 & H2). unfold extra_index. cbv zeta.
  set (nO := ordinaryIndex m) in *. set (nE := extraIndex m) in *. clearbody nO nE.
  apply sqr_lt_of_abs in H1; [|assumption]. apply sqr_lt_of_abs in H2; [|assumption].
  pose proof (sin2_cos2 chi) as S. unfold Rsqr in S.
  set (s := sin chi) in *. set (c := cos chi) in *. clearbody s c.
  assert (C1 : 0 <= c ^ 2 <= 1) by nra.
  set (x := nsin ^ 2) in *. assert (X : 0 <= x) by (unfold x; nra). clearbody x.
  assert (PO : 0 < nO ^ 2) by nra. assert (PE : 0 < nE ^ 2) by nra.
  assert (Q : x / nO ^ 2 < 1).
  { apply (Rmult_lt_reg_r (nO ^ 2)); [assumption|]. field_simplify; [lra|]. lra. }
  assert (Q0 : 0 <= x / nO ^ 2).
  { apply Rmult_le_pos; [assumption|]. left. now apply Rinv_0_lt_compat. }
  set (y := x / nO ^ 2) in *.
  assert (RAD : 1 + (/ nE ^ 2 - / nO ^ 2) * x * c ^ 2 = (nE ^ 2 * (1 - y * c ^ 2) + x * c ^ 2) / nE ^ 2).
  { unfold y. field. split; lra. }
  assert (YC : y * c ^ 2 < 1) by nra.
  assert (XC : 0 <= x * c ^ 2) by nra.
  assert (NUM : 0 < nE ^ 2 * (1 - y * c ^ 2) + x * c ^ 2).
  { assert (0 < nE ^ 2 * (1 - y * c ^ 2)) by (apply Rmult_lt_0_compat; lra). lra. }
  assert (POS : 0 < 1 + (/ nE ^ 2 - / nO ^ 2) * x * c ^ 2).
  { rewrite RAD. apply Rmult_lt_0_compat; [assumption|]. now apply Rinv_0_lt_compat. }
  assert (SQ : (nE * sqrt (1 + (/ nE ^ 2 - / nO ^ 2) * x * c ^ 2)) ^ 2
    = nE ^ 2 * (1 - x * c ^ 2 / nO ^ 2) + x * c ^ 2).
  { rewrite Rpow_mult_distr, pow2_sqrt by lra. rewrite RAD. unfold y. field. split; lra. }
  split; [|split].
  - apply Rmult_lt_0_compat; [assumption|]. now apply sqrt_lt_R0.
  - exact SQ.
  - rewrite SQ. replace (x * c ^ 2 / nO ^ 2) with (y * c ^ 2) by (unfold y; field; lra).
    assert (E : c ^ 2 = 1 - s ^ 2) by nra.
    assert (S0 : 0 <= s ^ 2) by nra.
    assert (x * s ^ 2 <= nE ^ 2 * s ^ 2) by nra.
    destruct (Req_dec (s ^ 2) 0) as [Z|Z].
    + rewrite E, Z. nra.
    + assert (0 < s ^ 2) by lra. assert (x * s ^ 2 < nE ^ 2 * s ^ 2) by nra.
      assert (nE ^ 2 * s ^ 2 <= nE ^ 2 * (1 - y * c ^ 2)).
      { apply Rmult_le_compat_l; [lra|]. nra. }
      rewrite E in *. lra.
Qed.

Lemma angle_facts x n : 0 < n -> Rabs x < n ->
  sin (asin (x / n)) = x / n /\ 0 < cos (asin (x / n)).
Proof.
  intros Hn H. apply Rabs_def2 in H.
  assert (B : -1 < x / n < 1).
  { split; apply (Rmult_lt_reg_r n); try assumption; field_simplify; lra. }
  split; [apply sin_asin; lra|].
  rewrite cos_asin by lra. apply sqrt_lt_R0. unfold Rsqr. nra.
Qed.

Lemma same_sign x n k : 0 < n -> 0 < k -> 0 <= (x / n) * (x / k).
Proof.
  intros Hn Hk. replace (x / n * (x / k)) with ((x * x) / (n * k)) by (field; lra).
  apply Rmult_le_pos; [nra|]. left. apply Rinv_0_lt_compat. nra.
Qed.

(** The angles of the two rays: positive cosines, sines of the same sign. *)
Lemma ray_angles m nsin chi : transparent nsin m ->
  let tO := asin (nsin / ordinaryIndex m) in
  let tE := asin (nsin / extra_index m nsin chi) in
  0 < cos tO /\ 0 < cos tE /\ 0 <= sin tO * sin tE /\ 0 < cos (tO - tE).
Proof.
  intros T. destruct (extra_index_sq m nsin chi T) as (P & _ & Q). cbv zeta.
  destruct T as (HO & HE & H1 & H2).
  destruct (angle_facts _ _ HO H1) as [SO CO].
  destruct (angle_facts nsin (extra_index m nsin chi) P) as [SE CE].
  { now apply abs_lt_of_sqr. }
  assert (SS : 0 <= sin (asin (nsin / ordinaryIndex m)) * sin (asin (nsin / extra_index m nsin chi))).
  { rewrite SO, SE. now apply same_sign. }
  repeat split; try assumption. rewrite cos_minus. nra.
Qed.

(** Sums of squares under the roots are positive. *)
Lemma denominators tO tE chi : 0 < cos tO -> 0 < cos (tO - tE) ->
  0 < cos tO ^ 2 + sin tO ^ 2 * sin chi ^ 2
  /\ 0 < cos chi ^ 2 * cos tO ^ 2 + sin chi ^ 2 * cos (tO - tE) ^ 2
  /\ 0 < cos tO ^ 2 * cos chi ^ 2 + sin chi ^ 2
  /\ 0 < cos (tO - tE) ^ 2 * sin chi ^ 2 + cos tO ^ 2 * cos chi ^ 2.
Proof.
  intros HO HK. pose proof (sin2_cos2 chi) as S. unfold Rsqr in S.
  set (k := cos (tO - tE)) in *. set (u := cos tO) in *. set (v := sin tO) in *.
  set (s := sin chi) in *. set (c := cos chi) in *. clearbody k u v s c.
  assert (U : 0 < u ^ 2) by nra. assert (K : 0 < k ^ 2) by nra.
  assert (A : 0 <= s ^ 2) by nra. assert (B : 0 <= c ^ 2) by nra. assert (E : s ^ 2 = 1 - c ^ 2) by nra.
  assert (V : 0 <= v ^ 2) by nra.
  assert (D : 0 < s ^ 2 \/ 0 < c ^ 2) by (destruct (Req_dec (c ^ 2) 0); [left|right]; lra).
  repeat split.
  - assert (0 <= v ^ 2 * s ^ 2) by nra. lra.
  - destruct D; nra.
  - destruct D; nra.
  - destruct D; nra.
Qed.

Lemma prod4_pos a b c d : 0 < a -> 0 < b -> 0 < c -> 0 < d -> 0 < a * b * c * d.
Proof. intros. repeat apply Rmult_lt_0_compat; assumption. Qed.

(** The mode matrix is regular. *)
Lemma A_regular nO nE tO tE chi : 0 < nO -> 0 < nE ->
  0 < cos tO -> 0 < cos tE -> 0 <= sin tO * sin tE -> 0 < cos (tO - tE) ->
  det4 (cmat (A_of nO nE tO tE chi)) <> RtoC 0.
Proof.
  intros HO HE CO CE SS CK. destruct (denominators tO tE chi CO CK) as (D1 & D2 & D3 & D4).
  unfold A_of. cbv zeta. rewrite det_modes. apply RtoC_neq.
  pose proof (sin2_cos2 chi) as S. unfold Rsqr in S.
  unfold Eo, Ee, HOrd, HExtra. cbv zeta. cbn [fst snd].
  apply sqrt_lt_R0 in D1, D2, D3, D4.
  set (d1 := sqrt (cos tO ^ 2 + sin tO ^ 2 * sin chi ^ 2)) in *.
  set (d2 := sqrt (cos chi ^ 2 * cos tO ^ 2 + sin chi ^ 2 * cos (tO - tE) ^ 2)) in *.
  set (d3 := sqrt (cos tO ^ 2 * cos chi ^ 2 + sin chi ^ 2)) in *.
  set (d4 := sqrt (cos (tO - tE) ^ 2 * sin chi ^ 2 + cos tO ^ 2 * cos chi ^ 2)) in *.
  clearbody d1 d2 d3 d4.
  set (k := cos (tO - tE)) in *. set (u := cos tO) in *. set (U := cos tE) in *.
  set (w := sin tO * sin tE) in *.
  set (s := sin chi) in *. set (c := cos chi) in *. clearbody k u U w s c.
  assert (F : c * c = 1 - s * s) by lra.
  assert (AL : 0 < c * c * u * U + s * s * k).
  { assert (0 < u * U) by nra. assert (0 <= s * s <= 1) by nra.
    destruct (Rlt_dec (s * s) 1); [|replace (s * s) with 1 in * by lra; nra].
    assert (0 < c * c) by lra. assert (0 < c * c * (u * U)) by nra. assert (0 <= s * s * k) by nra. lra. }
  assert (HH : 0 < k * U * (s * s) + u ^ 3 * (c * c)).
  { assert (0 < k * U) by nra. assert (0 < u ^ 3) by (apply pow_lt; lra). assert (0 <= s * s <= 1) by nra.
    destruct (Rlt_dec (s * s) 1); [|replace (s * s) with 1 in * by lra; nra].
    assert (0 < c * c) by lra. assert (0 < u ^ 3 * (c * c)) by nra.
    assert (0 <= k * U * (s * s)) by nra. lra. }
  match goal with |- -4 * (?x * ?y) <> 0 =>
    assert (E1 : x = - (u * (c * c * u * U + s * s * k)) / (d1 * d2 * nO ^ 2 * nE ^ 2)) end.
  { transitivity (- (u * (c * c * u * U + s * s * k) * (s * s + c * c)) / (d1 * d2 * nO ^ 2 * nE ^ 2)).
    - field. repeat split; lra.
    - rewrite S. field. repeat split; lra. }
  match goal with |- -4 * (?x * ?y) <> 0 =>
    assert (E2 : y = - (k * U * (s * s) + u ^ 3 * (c * c)) / (d3 * d4 * nO * nE)) end.
  { field. repeat split; lra. }
  rewrite E1, E2.
  assert (N1 : 0 < u * (c * c * u * U + s * s * k) / (d1 * d2 * nO ^ 2 * nE ^ 2)).
  { apply Rmult_lt_0_compat; [nra|]. apply Rinv_0_lt_compat.
    assert (0 < nO ^ 2) by nra. assert (0 < nE ^ 2) by nra.
    apply prod4_pos; assumption. }
  assert (N2 : 0 < (k * U * (s * s) + u ^ 3 * (c * c)) / (d3 * d4 * nO * nE)).
  { apply Rmult_lt_0_compat; [assumption|]. apply Rinv_0_lt_compat.
    apply prod4_pos; assumption. }
  unfold Rdiv in *. rewrite !Ropp_mult_distr_l_reverse. nra.
Qed.

(** A layer's matrix: modes, propagation over the thickness, modes back. *)
Definition k0_of (frequency : R) := 2 * PI * frequency / c_light.
Definition dO (m : material) (nsin t f : R) : C :=
  delta (k0_of f) (ordinaryComplexIndex m) t (asin (nsin / ordinaryIndex m)).
Definition dE (m : material) (nsin chi t f : R) : C :=
  let nE := extra_index m nsin chi in
  delta (k0_of f) (Csqrt (Cmul (RtoC (nE ^ 2)) (1, - extraLoss m))) t (asin (nsin / nE)).
Definition A_layer (m : material) (nsin chi : R) : mat4 :=
  let nE := extra_index m nsin chi in
  cmat (A_of (ordinaryIndex m) nE (asin (nsin / ordinaryIndex m)) (asin (nsin / nE)) chi).

Lemma A_layer_regular m nsin chi : transparent nsin m -> det4 (A_layer m nsin chi) <> RtoC 0.
Proof.
  intros T. destruct (ray_angles m nsin chi T) as (CO & CE & SS & CK).
  destruct (extra_index_sq m nsin chi T) as (P & _ & _). destruct T as (HO & _).
  now apply A_regular.
Qed.

Lemma layer_form m nsin chi t f : transparent nsin m ->
  transferMatrix m t f nsin chi
  = Ok (mmul4 (A_layer m nsin chi)
        (mmul4 (Pmat (- dO m nsin t f)%C (- dE m nsin chi t f)%C) (inv4 (A_layer m nsin chi)))).
Proof.
  intros T. destruct (ray_angles m nsin chi T) as (CO & CE & SS & CK).
  destruct (extra_index_sq m nsin chi T) as (P & _ & _).
  pose proof (A_layer_regular m nsin chi T) as D.
  destruct (denominators _ _ chi CO CK) as (D1 & D2 & _).
  destruct T as (HO & HE & _).
  unfold transferMatrix. cbv zeta. rewrite roteps_eq. cbn [bind].
  rewrite rotepsinv_eq by lra. cbn [bind].
  rewrite !mmul4_assoc, psi_phi by (assumption || lra).
  fold (A_layer m nsin chi).
  change (delta (2 * PI * f / c_light) (ordinaryComplexIndex m) t (asin (nsin / ordinaryIndex m)))
    with (dO m nsin t f).
  change (delta (2 * PI * f / c_light)
    (Csqrt (Cmul (RtoC (extra_index m nsin chi ^ 2)) (1, - extraLoss m))) t
    (asin (nsin / extra_index m nsin chi))) with (dE m nsin chi t f).
  rewrite layer_conj by assumption. cbn [bind].
  rewrite mmul4_assoc, psi_phi by (assumption || lra). fold (A_layer m nsin chi).
  rewrite !mmul4_assoc. reflexivity.
Qed.

Lemma delta_add k n t t' th : (delta k n t th + delta k n t' th)%C = delta k n (t + t') th.
Proof. unfold delta. rewrite RtoC_add. ring. Qed.
Lemma delta_0 k n th : delta k n 0 th = RtoC 0.
Proof. unfold delta. ring. Qed.

Lemma zero_thickness m nsin chi f : transparent nsin m ->
  transferMatrix m 0 f nsin chi = Ok eye4.
Proof.
  intros T. rewrite layer_form by assumption. f_equal.
  unfold dO, dE. cbv zeta. rewrite !delta_0. replace (- RtoC 0)%C with (RtoC 0) by ring.
  rewrite Pmat_0, mmul4_eye_l. apply inv4_r. now apply A_layer_regular.
Qed.

Lemma thickness_add m nsin chi f t t' : transparent nsin m -> exists x x',
  transferMatrix m t f nsin chi = Ok x /\ transferMatrix m t' f nsin chi = Ok x'
  /\ transferMatrix m (t + t') f nsin chi = Ok (mmul4 x x').
Proof.
  intros T. do 2 eexists. rewrite !layer_form by assumption.
  split; [reflexivity|]. split; [reflexivity|]. f_equal.
  pose proof (A_layer_regular m nsin chi T) as D. set (a := A_layer m nsin chi) in *.
  rewrite <- (mmul4_assoc a (mmul4 _ (inv4 a))). f_equal.
  rewrite <- (mmul4_assoc _ (inv4 a)), (mmul4_assoc (inv4 a) a), inv4_l, mmul4_eye_l by assumption.
  rewrite mmul4_assoc, Pmat_mul. f_equal. f_equal.
  - unfold dO. rewrite <- delta_add. ring.
  - unfold dE. cbv zeta. rewrite <- delta_add. ring.
Qed.
