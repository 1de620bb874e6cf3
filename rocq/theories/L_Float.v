(** * Lemmas about binary64 arithmetic *)
From Coq Require Import Reals ZArith Lra Lia.
From Flocq Require Import Core.
From Flocq Require Relative.
From Verif Require Import M_Float.
From Verif Require Common M_Chunks.
Open Scope R_scope.

Local Notation fexp := (FLT_exp (-1074) 53).
Local Instance prec_gt : Prec_gt_0 53. Proof. unfold Prec_gt_0. lia. Qed.

Lemma b64_le x y : x <= y -> b64 x <= b64 y.
Proof. apply round_le; auto with typeclass_instances. Qed.

Lemma b64_int n : (Z.abs n <= 2 ^ 53)%Z -> b64 (IZR n) = IZR n.
Proof.
  intros H. apply round_generic; auto with typeclass_instances.
  apply generic_format_FLT.
  destruct (Z.eq_dec (Z.abs n) (2 ^ 53)) as [E|E].
  - destruct (Z_le_gt_dec 0 n) as [P|P].
    + replace n with (2 ^ 53)%Z by lia. exists (Float radix2 1 53); [unfold F2R; cbn; lra|cbn; lia|cbn; lia].
    + replace n with (- 2 ^ 53)%Z by lia. exists (Float radix2 (-1) 53); [unfold F2R; cbn; lra|cbn; lia|cbn; lia].
  - exists (Float radix2 n 0); [unfold F2R; cbn; ring| |cbn; lia].
    cbn [Fnum]. change (radix2 ^ 53)%Z with (2 ^ 53)%Z. lia.
Qed.

Lemma b64_rel x : bpow radix2 (-1022) <= Rabs x -> Rabs (b64 x - x) <= bpow radix2 (-53) * Rabs x.
Proof.
  intros H. pose proof (Relative.relative_error_N_FLT radix2 (-1074) 53 prec_gt (fun z => negb (Z.even z)) x H) as E.
  replace (bpow radix2 (-53)) with (/ 2 * bpow radix2 (-53 + 1)).
  - exact E.
  - rewrite bpow_plus. change (bpow radix2 1) with 2. lra.
Qed.

Lemma bpow_int k : (0 <= k)%Z -> bpow radix2 k = IZR (2 ^ k).
Proof. intros H. symmetry. exact (IZR_Zpower radix2 k H). Qed.
Lemma half53 : bpow radix2 (-53) * IZR (2 ^ 53) = 1.
Proof. rewrite <- bpow_int by lia. rewrite <- bpow_plus. reflexivity. Qed.

(** A rounded quotient of integers is on the same side of every integer. *)
Lemma quotient_side a b k : (Z.abs a < 2 ^ 53)%Z -> (0 < b < 2 ^ 53)%Z ->
  IZR k < IZR a / IZR b -> IZR k < b64 (IZR a / IZR b).
Proof.
  intros Ha Hb Hk.
  assert (B : 0 < IZR b) by (apply IZR_lt; lia).
  destruct (Z.eq_dec a 0) as [->|N].
  { replace (0 / IZR b) with 0 in * by (field; lra). change 0 with (IZR 0) at 1.
    rewrite b64_int by lia. exact Hk. }
  assert (K : (k * b + 1 <= a)%Z).
  { assert (IZR (k * b) < IZR a).
    { rewrite mult_IZR. apply (Rmult_lt_compat_r (IZR b)) in Hk; [|exact B].
      replace (IZR a / IZR b * IZR b) with (IZR a) in Hk by (field; lra). exact Hk. }
    apply lt_IZR in H. lia. }
  apply IZR_le in K. rewrite plus_IZR, mult_IZR in K.
  assert (A1 : 1 <= Rabs (IZR a)).
  { rewrite <- abs_IZR. apply IZR_le. lia. }
  assert (A2 : Rabs (IZR a) < IZR (2 ^ 53)) by (rewrite <- abs_IZR; apply IZR_lt; exact Ha).
  assert (B2 : IZR b < IZR (2 ^ 53)) by (apply IZR_lt; lia).
  assert (Q : Rabs (IZR a / IZR b) = Rabs (IZR a) / IZR b).
  { unfold Rdiv. rewrite Rabs_mult, (Rabs_right (/ IZR b)); [reflexivity|].
    apply Rle_ge. left. apply Rinv_0_lt_compat. exact B. }
  assert (Low : bpow radix2 (-1022) <= Rabs (IZR a / IZR b)).
  { rewrite Q. apply Rle_trans with (bpow radix2 (-53)); [apply bpow_le; lia|].
    apply (Rmult_le_reg_r (IZR b)); [exact B|].
    replace (Rabs (IZR a) / IZR b * IZR b) with (Rabs (IZR a)) by (field; lra).
    pose proof half53. pose proof (bpow_gt_0 radix2 (-53)). nra. }
  pose proof (b64_rel _ Low) as E. rewrite Q in E.
  destruct (Rlt_le_dec (IZR k) (b64 (IZR a / IZR b))) as [G|G]; [exact G|exfalso].
  assert (X : IZR a / IZR b - IZR k <= bpow radix2 (-53) * (Rabs (IZR a) / IZR b)).
  { pose proof (Rle_abs (- (b64 (IZR a / IZR b) - IZR a / IZR b))) as Z. rewrite Rabs_Ropp in Z. lra. }
  apply (Rmult_le_compat_r (IZR b)) in X; [|lra].
  replace ((IZR a / IZR b - IZR k) * IZR b) with (IZR a - IZR k * IZR b) in X by (field; lra).
  replace (bpow radix2 (-53) * (Rabs (IZR a) / IZR b) * IZR b) with (bpow radix2 (-53) * Rabs (IZR a)) in X by (field; lra).
  pose proof half53. pose proof (bpow_gt_0 radix2 (-53)). nra.
Qed.

Lemma quotient_upper a b k : (Z.abs k <= 2 ^ 53)%Z -> IZR a / IZR b <= IZR k -> b64 (IZR a / IZR b) <= IZR k.
Proof. intros H L. rewrite <- (b64_int k H). apply b64_le. exact L. Qed.

Lemma float_ceil_eq a b : (Z.abs a < 2 ^ 53)%Z -> (0 < b < 2 ^ 53)%Z ->
  float_ceil a b = Zceil (IZR a / IZR b).
Proof.
  intros Ha Hb. unfold float_ceil. rewrite !b64_int by lia.
  assert (B : 0 < IZR b) by (apply IZR_lt; lia).
  assert (B1 : 1 <= IZR b) by (apply IZR_le; lia).
  set (x := IZR a / IZR b).
  assert (xb : x * IZR b = IZR a) by (unfold x; field; lra).
  pose proof (Zceil_ub x) as U. pose proof (Zceil_lb x) as Lb.
  apply Zceil_imp. split.
  - apply quotient_side; try assumption. fold x. rewrite minus_IZR. lra.
  - apply quotient_upper; [|exact U].
    assert (- IZR (2 ^ 53) < x < IZR (2 ^ 53)).
    { assert (- IZR (2 ^ 53) < IZR a < IZR (2 ^ 53)).
      { rewrite <- opp_IZR. split; apply IZR_lt; lia. }
      split; nra. }
    assert (IZR (Zceil x) < IZR (2 ^ 53 + 1)) by (rewrite plus_IZR; lra).
    apply lt_IZR in H0.
    assert (IZR (- 2 ^ 53 - 1) < IZR (Zceil x)) by (rewrite minus_IZR, opp_IZR; lra).
    apply lt_IZR in H1. lia.
Qed.

Lemma zceil_div_real a b : (0 < b)%Z -> Zceil (IZR a / IZR b) = (- ((- a) / b))%Z.
Proof.
  intros Hb. assert (B : 0 < IZR b) by (apply IZR_lt; lia).
  pose proof (Z.div_mod (- a) b ltac:(lia)) as D. pose proof (Z.mod_pos_bound (- a) b Hb) as M.
  set (q := ((- a) / b)%Z) in *.
  assert (L : ((- q - 1) * b < a <= (- q) * b)%Z) by lia.
  destruct L as [L1 L2]. apply IZR_lt in L1. apply IZR_le in L2. rewrite mult_IZR in L1, L2.
  apply Zceil_imp. split.
  - apply (Rmult_lt_reg_r (IZR b)); [exact B|].
    replace (IZR a / IZR b * IZR b) with (IZR a) by (field; lra). exact L1.
  - apply (Rmult_le_reg_r (IZR b)); [exact B|].
    replace (IZR a / IZR b * IZR b) with (IZR a) by (field; lra). exact L2.
Qed.

Lemma float_ceil_spec a b : (Z.abs a < 2 ^ 53)%Z -> (0 < b < 2 ^ 53)%Z ->
  (IZR (float_ceil a b) - 1 < IZR a / IZR b <= IZR (float_ceil a b)).
Proof.
  intros Ha Hb. rewrite float_ceil_eq by assumption.
  pose proof (Zceil_ub (IZR a / IZR b)). pose proof (Zceil_lb (IZR a / IZR b)). lra.
Qed.

(** ** Counts *)
Lemma count_int a b : (0 <= a)%Z -> (0 <= b)%Z -> (a * b <= 2 ^ 53)%Z ->
  float_count (IZR a) (IZR b) = (a * b)%Z.
Proof.
  intros Ha Hb H. unfold float_count. rewrite <- mult_IZR, b64_int by nia. apply Ztrunc_IZR.
Qed.

(** The time of n samples, and the number of samples in it. *)
Lemma count_near n r : (1 <= n < 2 ^ 51)%Z -> bpow radix2 (-900) <= r <= bpow radix2 900 ->
  float_count (b64 (IZR n / r)) r = n \/ float_count (b64 (IZR n / r)) r = (n - 1)%Z.
Proof.
  intros Hn [Hr1 Hr2].
  assert (R0 : 0 < r) by (pose proof (bpow_gt_0 radix2 (-900)); lra).
  assert (N1 : 1 <= IZR n) by (apply IZR_le; lia).
  assert (N2 : IZR n < IZR (2 ^ 51)) by (apply IZR_lt; lia).
  set (x := IZR n / r). assert (xr : x * r = IZR n) by (unfold x; field; lra).
  assert (X0 : bpow radix2 (-900) <= x).
  { apply (Rmult_le_reg_r r); [exact R0|]. rewrite xr.
    apply Rle_trans with (bpow radix2 (-900) * bpow radix2 900).
    - apply Rmult_le_compat_l; [apply bpow_ge_0|exact Hr2].
    - rewrite <- bpow_plus. exact N1. }
  assert (B : bpow radix2 (-1022) <= bpow radix2 (-900)) by (apply bpow_le; lia).
  assert (XA : Rabs x = x) by (apply Rabs_right; pose proof (bpow_gt_0 radix2 (-900)); lra).
  pose proof (b64_rel x ltac:(rewrite XA; lra)) as E1. rewrite XA in E1.
  set (d := b64 x) in *. set (e := bpow radix2 (-53)) in *.
  assert (e0 : 0 < e) by apply bpow_gt_0.
  assert (e1 : e * 4 * IZR (2 ^ 51) = 1).
  { rewrite <- half53. change (2 ^ 53)%Z with (4 * 2 ^ 51)%Z. rewrite mult_IZR. fold e. ring. }
  assert (e2 : e <= 1 / 4) by (assert (1 <= IZR (2 ^ 51)) by (apply IZR_le; lia); nra).
  apply Rabs_le_inv in E1.
  assert (D : (1 - e) * IZR n <= d * r <= (1 + e) * IZR n).
  { rewrite <- xr. split.
    - replace ((1 - e) * (x * r)) with ((x - e * x) * r) by ring. apply Rmult_le_compat_r; lra.
    - replace ((1 + e) * (x * r)) with ((x + e * x) * r) by ring. apply Rmult_le_compat_r; lra. }
  assert (DA : Rabs (d * r) = d * r) by (apply Rabs_right; nra).
  assert (B1 : bpow radix2 (-1022) <= Rabs (d * r)).
  { rewrite DA. apply Rle_trans with (bpow radix2 (-1)); [apply bpow_le; lia|].
    change (bpow radix2 (-1)) with (/ 2). nra. }
  pose proof (b64_rel (d * r) B1) as E2. rewrite DA in E2. fold e in E2. apply Rabs_le_inv in E2.
  assert (S : e * IZR n < 1 / 4) by nra.
  assert (P : IZR n - 1 < b64 (d * r) < IZR n + 1) by nra.
  unfold float_count. rewrite Ztrunc_floor by lra.
  destruct (Rlt_le_dec (b64 (d * r)) (IZR n)) as [L|L].
  - right. apply Zfloor_imp. rewrite minus_IZR. replace (n - 1 + 1)%Z with n by ring. lra.
  - left. apply Zfloor_imp. rewrite plus_IZR. lra.
Qed.

(** 29 samples at 100 Hz. *)
Lemma b64_scaled x e m : bpow radix2 (e - 1) <= x < bpow radix2 e -> (-1021 <= e)%Z ->
  Rabs (x * bpow radix2 (53 - e) - IZR m) < / 2 -> b64 x = IZR m * bpow radix2 (e - 53).
Proof.
  intros Hx He H. unfold b64, round.
  assert (M : mag radix2 x = e :> Z).
  { apply mag_unique. rewrite Rabs_right; [exact Hx|]. pose proof (bpow_gt_0 radix2 (e - 1)). lra. }
  assert (CE : cexp radix2 (FLT_exp (-1074) 53) x = (e - 53)%Z).
  { unfold cexp. rewrite M. unfold FLT_exp. lia. }
  unfold scaled_mantissa. rewrite CE. replace (- (e - 53))%Z with (53 - e)%Z by ring.
  rewrite (Znearest_imp _ _ m H). unfold F2R. reflexivity.
Qed.

Lemma d29 : b64 (29 / 100) = IZR 5224175567749775 * bpow radix2 (-54).
Proof.
  apply (b64_scaled (29/100) (-1)).
  - cbn. lra.
  - lia.
  - change (53 - -1)%Z with 54%Z. rewrite bpow_int by lia.
    change (2 ^ 54)%Z with 18014398509481984%Z.
    apply Rabs_lt. lra.
Qed.

Lemma count_29 : float_count (b64 (29 / 100)) 100 = 28%Z.
Proof.
  unfold float_count. rewrite d29.
  assert (bpow radix2 (-54) * IZR 18014398509481984 = 1) as E.
  { change 18014398509481984%Z with (2 ^ 54)%Z. rewrite <- bpow_int by lia. rewrite <- bpow_plus. reflexivity. }
  set (t := bpow radix2 (-54)) in *. clearbody t.
  rewrite (b64_scaled _ 5 8162774324609023).
  - change (5 - 53)%Z with (-48)%Z.
    assert (bpow radix2 (-48) * IZR 281474976710656 = 1) as E'.
    { change 281474976710656%Z with (2 ^ 48)%Z. rewrite <- bpow_int by lia. rewrite <- bpow_plus. reflexivity. }
    rewrite Ztrunc_floor by (pose proof (bpow_gt_0 radix2 (-48)); lra).
    apply Zfloor_imp. cbn [Z.add Pos.add]. lra.
  - change (5 - 1)%Z with 4%Z. rewrite !bpow_int by lia. change (2 ^ 4)%Z with 16%Z. change (2 ^ 5)%Z with 32%Z. lra.
  - lia.
  - change (53 - 5)%Z with 48%Z. rewrite bpow_int by lia. change (2 ^ 48)%Z with 281474976710656%Z.
    apply Rabs_lt. lra.
Qed.

Lemma float_is_model a b : (Z.abs a < 2 ^ 53)%Z -> (0 < b < 2 ^ 53)%Z ->
  float_ceil a b = M_Chunks.zceil_div a b.
Proof. intros Ha Hb. rewrite float_ceil_eq by assumption. apply zceil_div_real. lia. Qed.

Lemma float_is_model_nat a b : (Z.of_nat a < 2 ^ 53)%Z -> (0 < Z.of_nat b < 2 ^ 53)%Z ->
  float_ceil (Z.of_nat a) (Z.of_nat b) = Z.of_nat (Common.ceil_div a b).
Proof.
  intros Ha Hb. rewrite float_is_model by lia. unfold M_Chunks.zceil_div, Common.ceil_div.
  rewrite Nat2Z.inj_div. replace (Z.of_nat (a + b - 1)) with (Z.of_nat a + Z.of_nat b - 1)%Z by lia.
  set (x := Z.of_nat a). set (y := Z.of_nat b).
  pose proof (Z.div_mod (- x) y ltac:(lia)) as D. pose proof (Z.mod_pos_bound (- x) y ltac:(lia)) as M.
  apply (Z.div_unique_pos _ _ _ (y - 1 - (- x) mod y)); lia.
Qed.
