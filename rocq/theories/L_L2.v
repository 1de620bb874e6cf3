(** * Lemmas about the L2 scan and angle helpers *)
From Coq Require Import Reals Lra Lia.
From Verif Require Import Common M_Hwp L_Hwp M_Quat S_Quat L_Quat M_L2 S_L2.
Open Scope R_scope.

(** ** Wrapping *)
Lemma cos_turns x k : cos (x + 2 * PI * IZR k) = cos x.
Proof.
  destruct (Z_le_gt_dec 0 k) as [Hk|Hk].
  - rewrite <- (Z2Nat.id k), <- INR_IZR_INZ by auto.
    replace (x + 2 * PI * INR (Z.to_nat k)) with (x + 2 * INR (Z.to_nat k) * PI) by ring. apply cos_period.
  - rewrite <- (cos_period (x + 2 * PI * IZR k) (Z.to_nat (- k))). f_equal.
    rewrite INR_IZR_INZ, Z2Nat.id, opp_IZR by lia. ring.
Qed.
Lemma sin_turns x k : sin (x + 2 * PI * IZR k) = sin x.
Proof.
  destruct (Z_le_gt_dec 0 k) as [Hk|Hk].
  - rewrite <- (Z2Nat.id k), <- INR_IZR_INZ by auto.
    replace (x + 2 * PI * INR (Z.to_nat k)) with (x + 2 * INR (Z.to_nat k) * PI) by ring. apply sin_period.
  - rewrite <- (sin_period (x + 2 * PI * IZR k) (Z.to_nat (- k))). f_equal.
    rewrite INR_IZR_INZ, Z2Nat.id, opp_IZR by lia. ring.
Qed.

Lemma trunc_nonneg x z : 0 <= x -> IZR z <= x < IZR z + 1 -> trunc x = z.
Proof. intros H1 H2. unfold trunc. destruct (Rle_dec 0 x); [|contradiction]. now apply floor_unique. Qed.

Lemma npi_cong a n b : wraparound_npi [a] n = Ok b -> exists k, b = [a + n * PI * IZR k].
Proof.
  unfold wraparound_npi. intros H. injection H as <-.
  exists (- (if Rlt_dec a 0 then trunc (a / (n * PI)) - 1 else trunc (a / (n * PI))))%Z.
  f_equal. rewrite opp_IZR. ring.
Qed.
Lemma npi_range a n : 0 < n -> 0 <= a -> exists b k, wraparound_npi [a] n = Ok [b] /\ 0 <= b < n * PI /\ b = a + n * PI * IZR k.
Proof.
  intros Hn Ha. assert (HP := PI_RGT_0). assert (Hm : 0 < n * PI) by (apply Rmult_lt_0_compat; lra).
  unfold wraparound_npi. destruct (Rlt_dec a 0); [lra|].
  unfold trunc. destruct (Rle_dec 0 (a / (n * PI))) as [|N].
  2:{ exfalso. apply N. apply Rmult_le_pos; [lra|]. apply Rlt_le, Rinv_0_lt_compat; lra. }
  set (z := Int_part _). exists (a - IZR z * n * PI), (- z)%Z. split; [reflexivity|]. split.
  - assert (B := rmod_bounds a (n * PI) Hm). unfold rmod in B. fold z in B. lra.
  - rewrite opp_IZR. ring.
Qed.
Lemma npi_range_neg a n : 0 < n -> a < 0 -> (forall k, a <> n * PI * IZR k) ->
  exists b k, wraparound_npi [a] n = Ok [b] /\ 0 <= b < n * PI /\ b = a + n * PI * IZR k.
Proof.
  intros Hn Ha Hk. assert (HP := PI_RGT_0). assert (Hm : 0 < n * PI) by (apply Rmult_lt_0_compat; lra).
  unfold wraparound_npi. destruct (Rlt_dec a 0); [|lra].
  unfold trunc. assert (Q : a / (n * PI) < 0).
  { apply Rmult_lt_reg_r with (n * PI); [lra|]. unfold Rdiv. rewrite Rmult_assoc, Rinv_l by lra. lra. }
  destruct (Rle_dec 0 (a / (n * PI))); [lra|]. set (z := Int_part (- (a / (n * PI)))).
  assert (B := floor_bounds (- (a / (n * PI)))). fold z in B.
  assert (E : a / (n * PI) * (n * PI) = a) by (field; lra).
  assert (Ne : IZR z <> - (a / (n * PI))).
  { intros X. apply (Hk (- z)%Z). rewrite opp_IZR, X. lra. }
  exists (a - IZR (- z - 1) * n * PI), (z + 1)%Z. split; [reflexivity|]. rewrite minus_IZR, opp_IZR, plus_IZR.
  split; [|ring]. set (w := a / (n * PI)) in *. rewrite <- E.
  replace (w * (n * PI) - (- IZR z - 1) * n * PI) with ((w + IZR z + 1) * (n * PI)) by ring.
  assert (0 <= w + IZR z + 1) by lra. assert (w + IZR z + 1 < 1) by lra. split.
  - apply Rmult_le_pos; lra.
  - rewrite <- (Rmult_1_l (n * PI)) at 2. apply Rmult_lt_compat_r; lra.
Qed.
Lemma npi_edge n : 0 < n -> wraparound_npi [- (n * PI)] n = Ok [n * PI].
Proof.
  intros Hn. assert (HP := PI_RGT_0). assert (Hm : 0 < n * PI) by (apply Rmult_lt_0_compat; lra).
  unfold wraparound_npi. destruct (Rlt_dec (- (n * PI)) 0); [|lra].
  replace (- (n * PI) / (n * PI)) with (IZR (-1)) by (field; lra). rewrite trunc_Z. cbn. f_equal. f_equal.  ring.
Qed.

Lemma w2pi_range a : 0 <= a -> exists b k, wraparound_2pi [a] = Ok [b] /\ 0 <= b < 2 * PI /\ b = a + 2 * PI * IZR k.
Proof.
  intros Ha. assert (HP := PI_RGT_0).
  unfold wraparound_2pi, trunc. destruct (Rle_dec 0 (a / (2 * PI))) as [|N].
  2:{ exfalso. apply N. apply Rmult_le_pos; [lra|]. apply Rlt_le, Rinv_0_lt_compat; lra. }
  set (z := Int_part _). exists (a - IZR z * 2 * PI), (- z)%Z. split; [reflexivity|]. split.
  - assert (B := rmod_bounds a (2 * PI) ltac:(lra)). unfold rmod in B. fold z in B. lra.
  - rewrite opp_IZR. ring.
Qed.
Lemma w2pi_cong a : exists k, wraparound_2pi [a] = Ok [a + 2 * PI * IZR k].
Proof. unfold wraparound_2pi. exists (- trunc (a / (2 * PI)))%Z. rewrite opp_IZR. f_equal. f_equal. ring. Qed.
Lemma w2pi_negative : wraparound_2pi [-1] = Ok [-1].
Proof.
  unfold wraparound_2pi. assert (H1 := PI2_1). assert (HP := PI_RGT_0). replace (trunc (-1 / (2 * PI))) with 0%Z.
  - f_equal. f_equal. lra.
  - unfold trunc. assert (Q : -1 / (2 * PI) * (2 * PI) = -1) by (field; lra).
    destruct (Rle_dec 0 (-1 / (2 * PI))) as [H|H].
    + assert (X := Rmult_le_pos _ _ H (Rlt_le 0 (2 * PI) ltac:(lra))). lra.
    + rewrite (floor_unique _ 0); [reflexivity|]. split; [lra|].
      apply Rmult_lt_reg_r with (2 * PI); [lra|]. lra.
Qed.

(** ** Coordinates *)
Lemma colatlong ra dec : -90 < dec <= 90 ->
  let '(l, c) := radec2colatlong ra dec in
  0 <= l < 2 * PI /\ (exists k, l = deg ra + 2 * PI * IZR k) /\ 0 <= c <= PI /\ c = PI / 2 - deg dec.
Proof.
  intros H. unfold radec2colatlong, deg. assert (HP := PI_RGT_0).
  assert (E1 : ra * (PI / 180) = ra * PI / 180) by field. rewrite E1.
  split; [apply rmod_bounds; lra|]. split.
  { destruct (rmod_cong (ra * PI / 180) (2 * PI)) as [z ->]. exists z. reflexivity. }
  assert (E : dec * (PI / 180) * -1 + PI / 2 = PI / 2 - dec * PI / 180) by field. rewrite E.
  assert (B : 0 <= PI / 2 - dec * PI / 180 < PI).
  { split.
    - replace (PI / 2 - dec * PI / 180) with ((90 - dec) / 180 * PI) by field. apply Rmult_le_pos; lra.
    - replace (PI / 2 - dec * PI / 180) with ((90 - dec) / 180 * PI) by field.
      rewrite <- (Rmult_1_l PI) at 2. apply Rmult_lt_compat_r; lra. }
  rewrite rmod_small by exact B. split; [lra|reflexivity].
Qed.
Lemma colatlong_south ra : snd (radec2colatlong ra (-90)) = 0.
Proof.
  unfold radec2colatlong. cbn [snd]. assert (HP := PI_RGT_0).
  replace (-90 * (PI / 180) * -1 + PI / 2) with PI by field.
  unfold rmod. replace (PI / PI) with 1 by (field; lra). rewrite (floor_unique 1 1) by lra. lra.
Qed.

Lemma pixel_index {A} (ang2pix : Z -> R -> R -> A) nside ra dec pix ra' dec' :
  (forall th phi k, ang2pix nside th (phi + 2 * PI * IZR k) = ang2pix nside th phi) ->
  length ra = length dec -> (forall d, In d dec -> -90 < d <= 90) ->
  radec2ind_hp ang2pix nside ra dec = (pix, ra', dec') ->
  length pix = length ra
  /\ forall i r d, nth_error ra i = Some r -> nth_error dec i = Some d ->
     nth_error pix i = Some (ang2pix nside (PI / 2 - deg d) (deg r))
     /\ nth_error dec' i = Some (PI / 2 - deg d)
     /\ exists l k, nth_error ra' i = Some l /\ 0 <= l < 2 * PI /\ l = deg r + 2 * PI * IZR k.
Proof.
  intros HP HL HD H. unfold radec2ind_hp in H. injection H as <- <- <-. rewrite !map_length, combine_length.
  split; [lia|]. revert dec HL HD. induction ra as [|r0 ra IH]; intros [|d0 dec] HL HD i r d Hr Hd; try discriminate.
  - destruct i; discriminate.
  - destruct i as [|i]; cbn in Hr, Hd.
    + injection Hr as <-. injection Hd as <-. pose proof (colatlong r0 d0 (HD d0 (or_introl eq_refl))) as X.
      cbn [combine map nth_error fst snd]. destruct (radec2colatlong r0 d0) as [l c].
      destruct X as (B & [k ->] & _ & ->). cbn [fst snd]. rewrite HP. split; [reflexivity|]. split; [reflexivity|].
      exists (deg r0 + 2 * PI * IZR k), k. auto.
    + cbn [combine map nth_error]. apply IH; [now injection HL|intros x Hx; apply HD; now right|exact Hr|exact Hd].
Qed.

(** ** arctan2 *)
Lemma sq_nonneg x : 0 <= x * x.
Proof. apply Rle_0_sqr. Qed.
Lemma sq_pos x : x <> 0 -> 0 < x * x.
Proof. intros. apply Rsqr_pos_lt. auto. Qed.

Lemma cos_sin_atan t : cos (atan t) = / sqrt (1 + t * t) /\ sin (atan t) = t / sqrt (1 + t * t).
Proof.
  rewrite cos_atan, sin_atan. unfold Rsqr. split; [unfold Rdiv; now rewrite Rmult_1_l|reflexivity].
Qed.

Lemma sqrt_ratio x y : x <> 0 -> sqrt (1 + y / x * (y / x)) = sqrt (x * x + y * y) / Rabs x.
Proof.
  intros Hx. replace (1 + y / x * (y / x)) with ((x * x + y * y) / (x * x)) by (field; auto).
  rewrite sqrt_div_alt by (apply sq_pos; auto).
  f_equal. apply sqrt_Rsqr_abs.
Qed.

Lemma arctan2_spec y x : x * x + y * y <> 0 ->
  sqrt (x * x + y * y) * cos (arctan2 y x) = x /\ sqrt (x * x + y * y) * sin (arctan2 y x) = y.
Proof.
  intros H. assert (P : 0 < x * x + y * y) by (assert (A := sq_nonneg x); assert (B := sq_nonneg y); lra).
  assert (Hs := sqrt_lt_R0 _ P). unfold arctan2. destruct (Rlt_dec 0 x) as [Hx|Hx].
  - destruct (cos_sin_atan (y / x)) as [-> ->]. rewrite sqrt_ratio by lra. rewrite (Rabs_pos_eq x) by lra.
    split; field; lra.
  - destruct (Rlt_dec x 0) as [Hx'|Hx'].
    + assert (A : sqrt (x * x + y * y) * cos (atan (y / x)) = - x /\ sqrt (x * x + y * y) * sin (atan (y / x)) = - y).
      { destruct (cos_sin_atan (y / x)) as [-> ->]. rewrite sqrt_ratio by lra. rewrite (Rabs_left x) by lra. split; field; lra. }
      destruct A as [A1 A2]. destruct (Rle_dec 0 y).
      * rewrite neg_cos, neg_sin. lra.
      * replace (atan (y / x) - PI) with (atan (y / x) + PI + 2 * PI * IZR (-1)) by (cbn; ring).
        rewrite cos_turns, sin_turns, neg_cos, neg_sin. lra.
    + assert (x = 0) by lra. subst x. replace (0 * 0 + y * y) with (Rsqr y) by (unfold Rsqr; ring).
      rewrite sqrt_Rsqr_abs. destruct (Rlt_dec 0 y).
      * rewrite cos_PI2, sin_PI2, Rabs_pos_eq by lra. lra.
      * destruct (Rlt_dec y 0).
        -- replace (- PI / 2) with (- (PI / 2)) by field. rewrite cos_neg, sin_neg, cos_PI2, sin_PI2, Rabs_left by lra. lra.
        -- exfalso. assert (y = 0) by lra. subst. lra.
Qed.

Lemma arctan2_range y x : - PI < arctan2 y x <= PI.
Proof.
  assert (HP := PI_RGT_0). unfold arctan2. assert (B := atan_bound (y / x)).
  destruct (Rlt_dec 0 x); [lra|]. destruct (Rlt_dec x 0) as [Hx|].
  - destruct (Rle_dec 0 y) as [Hy|Hy].
    + split; [lra|]. assert (y / x <= 0).
      { apply Rmult_le_reg_r with (- x); [lra|]. unfold Rdiv. rewrite Rmult_assoc.
        replace (/ x * - x) with (-1) by (field; lra). lra. }
      destruct (Req_dec (y / x) 0) as [->|]; [rewrite atan_0; lra|].
      assert (X := atan_increasing (y / x) 0 ltac:(lra)). rewrite atan_0 in X. lra.
    + split; [|lra]. assert (0 < y / x).
      { replace (y / x) with ((- y) / (- x)) by (field; lra). apply Rdiv_lt_0_compat; lra. }
      assert (X := atan_increasing 0 (y / x) ltac:(lra)). rewrite atan_0 in X. lra.
  - destruct (Rlt_dec 0 y); [lra|]. destruct (Rlt_dec y 0); lra.
Qed.

Lemma arctan2_range_pos y x : 0 < y -> 0 < arctan2 y x < PI.
Proof.
  intros Hy. assert (HP := PI_RGT_0). unfold arctan2. assert (B := atan_bound (y / x)).
  destruct (Rlt_dec 0 x) as [Hx|].
  - assert (0 < y / x) by (apply Rdiv_lt_0_compat; lra).
    assert (X := atan_increasing 0 (y / x) ltac:(lra)). rewrite atan_0 in X. lra.
  - destruct (Rlt_dec x 0) as [Hx|].
    + destruct (Rle_dec 0 y); [|lra]. assert (y / x < 0).
      { replace (y / x) with (- (y / (- x))) by (field; lra). assert (0 < y / (- x)) by (apply Rdiv_lt_0_compat; lra). lra. }
      assert (X := atan_increasing (y / x) 0 ltac:(lra)). rewrite atan_0 in X. lra.
    + destruct (Rlt_dec 0 y); lra.
Qed.

(** The colatitude angle recovered in [deriv_theta]. *)
Lemma theta_wrapped r z : 0 < r -> exists t, wraparound_npi [arctan_div r z + 5 * PI] 1 = Ok [t]
  /\ 0 < t < PI /\ sqrt (z * z + r * r) * cos t = z /\ sqrt (z * z + r * r) * sin t = r.
Proof.
  intros Hr. assert (HP := PI_RGT_0).
  assert (T : forall a, - PI / 2 < a <= PI / 2 -> a <> 0 -> arctan_div r z = a ->
     exists t, wraparound_npi [arctan_div r z + 5 * PI] 1 = Ok [t] /\ (0 < a -> t = a) /\ (a < 0 -> t = a + PI)).
  { intros a Ha Hn ->. unfold wraparound_npi. destruct (Rlt_dec (a + 5 * PI) 0); [lra|].
    assert (E : (a + 5 * PI) / (1 * PI) = a / PI + 5) by (field; lra). rewrite E.
    assert (Q : a / PI * PI = a) by (field; lra).
    destruct (Rlt_dec 0 a).
    - assert (0 < a / PI) by (apply Rdiv_lt_0_compat; lra).
      assert (a / PI < 1) by (apply Rmult_lt_reg_r with PI; lra).
      rewrite (trunc_nonneg _ 5) by lra. eexists. split; [reflexivity|]. split; intros; lra.
    - assert (a / PI < 0) by (apply Rmult_lt_reg_r with PI; lra).
      assert (-1 < a / PI) by (apply Rmult_lt_reg_r with PI; lra).
      rewrite (trunc_nonneg _ 4) by lra. eexists. split; [reflexivity|]. split; intros; lra. }
  assert (Hsq : z * z + r * r <> 0) by (assert (A := sq_nonneg z); assert (B := sq_pos r ltac:(lra)); lra).
  destruct (arctan2_spec r z Hsq) as [S1 S2].
  destruct (Req_EM_T z 0) as [->|Hz].
  - destruct (T (PI / 2)) as (t & E & Ht & _).
    + lra. + lra. + unfold arctan_div. destruct (Req_EM_T 0 0); [|lra]. destruct (Rlt_dec 0 r); lra.
    + rewrite Ht in E by lra. exists (PI / 2). split; auto. split; [lra|]. rewrite cos_PI2, sin_PI2.
      replace (0 * 0 + r * r) with (Rsqr r) by (unfold Rsqr; ring). rewrite sqrt_Rsqr_abs, Rabs_pos_eq by lra. lra.
  - assert (Ed : arctan_div r z = atan (r / z)) by (unfold arctan_div; destruct (Req_EM_T z 0); [contradiction|auto]).
    assert (B := atan_bound (r / z)).
    destruct (Rlt_dec 0 z) as [Hp|Hp].
    + assert (0 < r / z) by (apply Rdiv_lt_0_compat; lra).
      assert (X := atan_increasing 0 (r / z) ltac:(lra)). rewrite atan_0 in X.
      destruct (T (atan (r / z))) as (t & E & Ht & _); auto; try lra.
      exists t. split; auto. rewrite Ht by lra. split; [lra|]. unfold arctan2 in S1, S2. destruct (Rlt_dec 0 z); [|lra]. auto.
    + assert (r / z < 0).
      { replace (r / z) with (- (r / (- z))) by (field; lra). assert (0 < r / (- z)) by (apply Rdiv_lt_0_compat; lra). lra. }
      assert (X := atan_increasing (r / z) 0 ltac:(lra)). rewrite atan_0 in X.
      destruct (T (atan (r / z))) as (t & E & _ & Ht); auto; try lra.
      exists t. split; auto. rewrite Ht by lra. split; [lra|]. unfold arctan2 in S1, S2.
      destruct (Rlt_dec 0 z); [lra|]. destruct (Rlt_dec z 0); [|lra]. destruct (Rle_dec 0 r); [|lra]. auto.
Qed.
