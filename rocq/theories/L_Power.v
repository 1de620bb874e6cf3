(** * Proofs about the power through a layer and through a stack *)
From Coq Require Import Reals Lra Psatz.
From Verif Require Import Common Cplx Mat M_Mueller M_Transfer S_Transfer L_Mueller L_Layer L_Layer2.
Open Scope R_scope.

Lemma pow_eq_of_pos a b : 0 < a -> 0 < b -> a ^ 2 = b ^ 2 -> a = b.
Proof. intros. nra. Qed.

(** Aligned layers: power is carried by each mode on its own. *)
Lemma A_flux m nsin chi : transparent nsin m -> aligned nsin m chi ->
  exists a b, 0 < a /\ 0 < b /\ forall w,
    flux (mvec4 (A_layer m nsin chi) w)
    = a * (Cnorm2 (e0 w) - Cnorm2 (e2 w)) + b * (Cnorm2 (e1 w) - Cnorm2 (e3 w)).
Proof.
  intros T AL. destruct (ray_angles m nsin chi T) as (CO & CE & SS & CK).
  destruct (extra_index_sq m nsin chi T) as (P & PE & _).
  unfold A_layer. cbv zeta.
  assert (HO : 0 < ordinaryIndex m) by apply T.
  set (nO := ordinaryIndex m) in *.
  (* the three quantities that vanish *)
  assert (Z : let tO := asin (nsin / nO) in let tE := asin (nsin / extra_index m nsin chi) in
    cos chi * sin chi * (cos (tO - tE) * cos tE - cos tO) = 0
    /\ cos chi * sin chi *
       (- (cos chi * cos chi * cos tO * cos tE + sin chi * sin chi * cos (tO - tE)) * sin tO ^ 2
          * nO ^ 2
        + sin tO * sin tE * (sin chi ^ 2 + cos tO ^ 2 * cos chi ^ 2) * extra_index m nsin chi ^ 2) = 0).
  { cbv zeta. destruct AL as [E|[E|E]].
    - subst nsin. unfold Rdiv. rewrite !Rmult_0_l, asin_0, Rminus_0_r, cos_0, sin_0.
      split; ring.
    - assert (K : extra_index m nsin chi = nO).
      { apply pow_eq_of_pos; [assumption|assumption|]. rewrite PE. fold nO in E. rewrite <- E. field. lra. }
      rewrite K. rewrite (Rminus_diag_eq _ _ eq_refl), cos_0.
      pose proof (sin2_cos2 chi) as S. unfold Rsqr in S.
      pose proof (sin2_cos2 (asin (nsin / nO))) as S'. unfold Rsqr in S'.
      set (u := cos (asin (nsin / nO))) in *. set (v := sin (asin (nsin / nO))) in *.
      split; [ring|].
      replace (- (cos chi * cos chi * u * u + sin chi * sin chi * 1) * v ^ 2 * nO ^ 2
        + v * v * (sin chi ^ 2 + u ^ 2 * cos chi ^ 2) * nO ^ 2) with 0 by ring. ring.
    - destruct E as [E|E]; rewrite E; split; ring. }
  cbv zeta in Z.
  set (tO := asin (nsin / nO)) in *. set (nE := extra_index m nsin chi) in *.
  set (tE := asin (nsin / nE)) in *. clearbody tO tE nE nO. clear T AL PE.
  destruct (denominators tO tE chi CO CK) as (D1 & D2 & D3 & D4).
  pose proof (sin2_cos2 chi) as S. unfold Rsqr in S.
  unfold A_of, Eo, Ee, HOrd, HExtra. cbv zeta. cbn [fst snd].
  apply sqrt_lt_R0 in D1, D2, D3, D4.
  set (d1 := sqrt (cos tO ^ 2 + sin tO ^ 2 * sin chi ^ 2)) in *.
  set (d2 := sqrt (cos chi ^ 2 * cos tO ^ 2 + sin chi ^ 2 * cos (tO - tE) ^ 2)) in *.
  set (d3 := sqrt (cos tO ^ 2 * cos chi ^ 2 + sin chi ^ 2)) in *.
  set (d4 := sqrt (cos (tO - tE) ^ 2 * sin chi ^ 2 + cos tO ^ 2 * cos chi ^ 2)) in *.
  clearbody d1 d2 d3 d4.
  set (k := cos (tO - tE)) in *. set (u := cos tO) in *. set (U := cos tE) in *.
  set (v := sin tO) in *. set (V := sin tE) in *.
  pose proof (sin2_cos2 tO) as SO. unfold Rsqr in SO. fold u v in SO.
  set (s := sin chi) in *. set (c := cos chi) in *. clearbody k u U v V s c.
  destruct Z as [Z1 Z2].
  assert (F : c * c = 1 - s * s) by lra.
  assert (AL : 0 < c * c * u * U + s * s * k).
  { assert (0 < u * U) by nra. assert (0 <= s * s <= 1) by nra.
    destruct (Rlt_dec (s * s) 1); [|replace (s * s) with 1 in * by lra; nra].
    assert (0 < c * c) by lra. assert (0 < c * c * (u * U)) by nra. assert (0 <= s * s * k) by nra. lra. }
  assert (BL : 0 < u * (c * c) + k * U * (s * s)).
  { assert (0 < k * U) by nra. assert (0 <= s * s <= 1) by nra.
    destruct (Rlt_dec (s * s) 1); [|replace (s * s) with 1 in * by lra; nra].
    assert (0 < c * c) by lra. assert (0 < u * (c * c)) by nra.
    assert (0 <= k * U * (s * s)) by nra. lra. }
  assert (GL : 0 < s * s + u ^ 2 * (c * c)).
  { assert (0 < u ^ 2) by nra. assert (0 <= s * s <= 1) by nra.
    destruct (Rlt_dec (s * s) 1); [|replace (s * s) with 1 in * by lra; nra]. nra. }
  exists (u * (s * s + u ^ 2 * (c * c)) / (d1 * d3 * nO ^ 2 * nO)).
  exists ((c * c * u * U + s * s * k) * (u * (c * c) + k * U * (s * s)) / (d2 * d4 * nE ^ 2 * nE)).
  split; [|split].
  - apply Rmult_lt_0_compat; [nra|]. apply Rinv_0_lt_compat. apply prod4_pos; try assumption. nra.
  - apply Rmult_lt_0_compat; [now apply Rmult_lt_0_compat|]. apply Rinv_0_lt_compat.
    apply prod4_pos; try assumption. nra.
  - intros w. rewrite flux_modes.
    + f_equal; f_equal; [field; repeat split; lra|].
      transitivity ((c * c * u * U + s * s * k) * (u * (c * c) + k * U * (s * s)) / (d2 * d4 * nE ^ 2 * nE)
        + v * V * (c * s * (c * s * (k * U - u))) / (d2 * d4 * nO ^ 2 * nE)).
      * field. repeat split; lra.
      * rewrite Z1. field. repeat split; lra.
    + transitivity (u * (c * s * (k * U - u)) / (d1 * d4 * nO ^ 2 * nE)).
      * field. repeat split; lra.
      * rewrite Z1. field. repeat split; lra.
    + transitivity (c * s * (- (c * c * u * U + s * s * k) * (1 - u ^ 2) * nO ^ 2
        + v * V * (s ^ 2 + u ^ 2 * c ^ 2) * nE ^ 2) / (d2 * d3 * nO ^ 2 * nE ^ 2 * nO)).
      * field. repeat split; lra.
      * replace (1 - u ^ 2) with (v ^ 2) by (rewrite <- SO; ring). rewrite Z2. field. repeat split; lra.
Qed.

(** ** Propagation *)
Lemma neg_im_epsilon x l : 0 <= l -> 0 <= x -> Im (Csqrt (Cmul (RtoC x) (1, - l))) <= 0.
Proof. intros. apply Csqrt_im_nonpos; cbn; nra. Qed.

Lemma re_delta k n t th : Re (delta k n t th) = - (k * t * cos th) * Im n.
Proof. unfold delta. destruct n. cbn. ring. Qed.

Lemma k0_nonneg f : 0 <= f -> 0 <= k0_of f.
Proof.
  intros H. unfold k0_of, c_light. pose proof PI_RGT_0.
  apply Rmult_le_pos; [nra|]. left. apply Rinv_0_lt_compat. lra.
Qed.

Lemma re_dO m nsin t f : 0 < cos (asin (nsin / ordinaryIndex m)) ->
  0 <= ordinaryLoss m -> 0 <= t -> 0 <= f -> 0 <= Re (dO m nsin t f).
Proof.
  intros HC HL Ht Hf. unfold dO. rewrite re_delta.
  assert (Im (ordinaryComplexIndex m) <= 0).
  { unfold ordinaryComplexIndex, epsilon. apply Csqrt_im_nonpos; cbn; nra. }
  pose proof (k0_nonneg f Hf). assert (0 <= k0_of f * t * cos (asin (nsin / ordinaryIndex m))).
  { apply Rmult_le_pos; [apply Rmult_le_pos|]; lra. }
  nra.
Qed.

Lemma re_dE m nsin chi t f : 0 < cos (asin (nsin / extra_index m nsin chi)) ->
  0 <= extraLoss m -> 0 <= t -> 0 <= f -> 0 <= Re (dE m nsin chi t f).
Proof.
  intros HC HL Ht Hf. unfold dE. cbv zeta. rewrite re_delta.
  assert (Im (Csqrt (Cmul (RtoC (extra_index m nsin chi ^ 2)) (1, - extraLoss m))) <= 0).
  { apply neg_im_epsilon; [assumption|]. nra. }
  pose proof (k0_nonneg f Hf).
  assert (0 <= k0_of f * t * cos (asin (nsin / extra_index m nsin chi))).
  { apply Rmult_le_pos; [apply Rmult_le_pos|]; lra. }
  nra.
Qed.

Lemma re_dO_lossless m nsin t f : ordinaryLoss m = 0 -> Re (dO m nsin t f) = 0.
Proof.
  intros HL. unfold dO. rewrite re_delta. unfold ordinaryComplexIndex, epsilon. rewrite HL.
  replace (Cmul (1, - 0) (RtoC (ordinaryIndex m ^ 2))) with (RtoC (ordinaryIndex m ^ 2))
    by (apply C_eq; cbn; ring).
  rewrite Csqrt_real by nra. cbn. ring.
Qed.

Lemma re_dE_lossless m nsin chi t f : extraLoss m = 0 -> Re (dE m nsin chi t f) = 0.
Proof.
  intros HL. unfold dE. cbv zeta. rewrite re_delta, HL.
  replace (Cmul (RtoC (extra_index m nsin chi ^ 2)) (1, - 0)) with (RtoC (extra_index m nsin chi ^ 2))
    by (apply C_eq; cbn; ring).
  rewrite Csqrt_real by nra. cbn. ring.
Qed.

Lemma exp_ge_1 x : 0 <= x -> 1 <= exp x.
Proof. intros H. destruct H as [H|H]; [left; rewrite <- exp_0; now apply exp_increasing|subst; rewrite exp_0; lra]. Qed.
Lemma exp_le_1 x : x <= 0 -> exp x <= 1.
Proof. intros H. destruct H as [H|H]; [left; rewrite <- exp_0; now apply exp_increasing|subst; rewrite exp_0; lra]. Qed.

Lemma Re_opp z : Re (- z)%C = - Re z.
Proof. reflexivity. Qed.

Lemma layer_power m nsin chi t f x : transparent nsin m -> aligned nsin m chi ->
  transferMatrix m t f nsin chi = Ok x ->
  (passive m -> 0 <= t -> 0 <= f -> forall v, flux v <= flux (mvec4 x v))
  /\ (lossless m -> forall v, flux (mvec4 x v) = flux v).
Proof.
  intros T AL E. rewrite layer_form in E by assumption. injection E as <-.
  destruct (ray_angles m nsin chi T) as (CO & CE & _).
  destruct (A_flux m nsin chi T AL) as (a & b & Ha & Hb & FL).
  pose proof (A_layer_regular m nsin chi T) as D. set (A := A_layer m nsin chi) in *.
  assert (G : forall v, exists w, v = mvec4 A w
    /\ mvec4 (mmul4 A (mmul4 (Pmat (- dO m nsin t f)%C (- dE m nsin chi t f)%C) (inv4 A))) v
       = mvec4 A (mvec4 (Pmat (- dO m nsin t f)%C (- dE m nsin chi t f)%C) w)).
  { intros v. exists (mvec4 (inv4 A) v). rewrite <- !mvec4_mmul, inv4_r by assumption.
    rewrite mvec4_eye. split; [reflexivity|]. now rewrite !mmul4_assoc. }
  split.
  - intros [LO LE] Ht Hf v. destruct (G v) as (w & -> & ->). rewrite !FL.
    unfold Pmat. rewrite diag_vec. cbn [e0 e1 e2 e3]. rewrite !Cnorm2_mul, !Cexp_norm, !opp1.
    rewrite !Re_opp, !Ropp_involutive.
    pose proof (re_dO m nsin t f CO LO Ht Hf) as RO. pose proof (re_dE m nsin chi t f CE LE Ht Hf) as RE.
    set (x := Re (dO m nsin t f)) in *. set (y := Re (dE m nsin chi t f)) in *.
    pose proof (exp_ge_1 (2 * x)). pose proof (exp_ge_1 (2 * y)).
    pose proof (exp_le_1 (2 * - x)). pose proof (exp_le_1 (2 * - y)).
    pose proof (Cnorm2_nonneg (e0 w)). pose proof (Cnorm2_nonneg (e1 w)).
    pose proof (Cnorm2_nonneg (e2 w)). pose proof (Cnorm2_nonneg (e3 w)).
    apply Rplus_le_compat; (apply Rmult_le_compat_l; [lra|]); apply Rplus_le_compat; nra.
  - intros [LO LE] v. destruct (G v) as (w & -> & ->). rewrite !FL.
    unfold Pmat. rewrite diag_vec. cbn [e0 e1 e2 e3]. rewrite !Cnorm2_mul, !Cexp_norm, !opp1.
    rewrite !Re_opp, re_dO_lossless, re_dE_lossless by assumption.
    rewrite !Ropp_0, Rmult_0_r, exp_0. ring.
Qed.

(** ** Stacks *)
Lemma flux_fields n th a b : flux (fields n th a b) = n * cos th * (intensity a - intensity b).
Proof.
  destruct a as [[a0 a0'] [a1 a1']], b as [[b0 b0'] [b1 b1']].
  unfold flux, fields, intensity, Cnorm2. mcbn. cexpand. ring.
Qed.

Lemma intensity_no_wave : intensity no_wave = 0.
Proof. unfold intensity, no_wave, Cnorm2. mcbn. cexpand. ring. Qed.

Lemma intensity_nonneg a : 0 <= intensity a.
Proof. unfold intensity. pose proof (Cnorm2_nonneg (f0 a)). pose proof (Cnorm2_nonneg (f1 a)). lra. Qed.

Lemma product_le l : (forall x, In x l -> forall v, flux v <= flux (mvec4 x v)) ->
  forall v, flux v <= flux (mvec4 (product l) v).
Proof.
  induction l as [|x l IH]; intros H v; cbn [product fold_right].
  - rewrite mvec4_eye. lra.
  - rewrite mvec4_mmul. apply Rle_trans with (flux (mvec4 (product l) v)).
    + apply IH. intros y Hy. apply H. now right.
    + apply H. now left.
Qed.

Lemma product_eq l : (forall x, In x l -> forall v, flux (mvec4 x v) = flux v) ->
  forall v, flux (mvec4 (product l) v) = flux v.
Proof.
  induction l as [|x l IH]; intros H v; cbn [product fold_right].
  - now rewrite mvec4_eye.
  - rewrite mvec4_mmul, H by now left. apply IH. intros y Hy. apply H. now right.
Qed.
