(** * Oblique incidence on a birefringent layer with the axis at 45 degrees *)
From Coq Require Import Reals Lra Psatz.
From Verif Require Import Common Cplx Mat M_Mueller S_Mueller M_Transfer S_Transfer L_Mueller L_Layer L_Layer2
  L_Stack L_Stack2 L_Waveplate L_Plate L_Normal L_Axis.
Open Scope R_scope.

(** A layer thick an odd number of half waves of the ordinary ray and an even
    number of half waves of the extraordinary ray. *)
Definition flip (r b u v : R) : rmat4 :=
  V4 (V4 (- r) 0 (1 - r) 0) (V4 0 (- b) 0 u) (V4 (1 + r) 0 r 0) (V4 0 v 0 b).

Lemma half_wave m nsin t f cO cE kO kE :
  let nO := ordinaryIndex m in let nE := extra_index m nsin (PI / 4) in
  let sO := nsin / nO in let sE := nsin / nE in
  transparent nsin m -> lossless m -> 0 < nsin ->
  0 < cO -> 0 < cE -> sO ^ 2 + cO ^ 2 = 1 -> sE ^ 2 + cE ^ 2 = 1 ->
  wavenumber f * nO * t * cO = PI + 2 * INR kO * PI -> wavenumber f * nE * t * cE = 0 + 2 * INR kE * PI ->
  let k := cO * cE + sO * sE in let G := k * cE + cO ^ 3 in
  transferMatrix m t f nsin (PI / 4)
  = Ok (cmat (flip (sO ^ 3 * sE / ((cO * cE + k) * sE ^ 2)) ((k * cE - cO ^ 3) / G)
                   (2 * cO / G) (2 * cO ^ 2 * (k * cE) / G))).
Proof.
  intros nO nE sO sE T L HN PO PE QO QE WO WE k G.
  rewrite layer_form by assumption. f_equal.
  pose proof (A_layer_regular m nsin (PI / 4) T) as D.
  destruct (extra_index_sq m nsin (PI / 4) T) as (P & _ & _).
  assert (HO : 0 < ordinaryIndex m) by apply T.
  rewrite dO_lossless, dE_lossless by assumption. rewrite Pmat_imag.
  fold nO nE sO sE.
  assert (AO : cos (asin sO) = cO /\ sin (asin sO) = sO).
  { assert (R : -1 <= sO <= 1) by nra. rewrite cos_asin, sin_asin by exact R. split; [|reflexivity].
    replace (1 - sO²) with (cO ^ 2) by (unfold Rsqr; lra). apply sqrt_pow2; lra. }
  assert (AE : cos (asin sE) = cE /\ sin (asin sE) = sE).
  { assert (R : -1 <= sE <= 1) by nra. rewrite cos_asin, sin_asin by exact R. split; [|reflexivity].
    replace (1 - sE²) with (cE ^ 2) by (unfold Rsqr; lra). apply sqrt_pow2; lra. }
  destruct AO as [AO SO'], AE as [AE SE'].
  rewrite AO, AE, WO, WE, !cos_period, !sin_period, cos_PI, sin_PI, cos_0, sin_0.
  apply conj_eq; [assumption|]. clear D. unfold A_layer. cbv zeta. fold nO nE sO sE.
  unfold A_of, Eo, Ee, HOrd, HExtra. cbv zeta. rewrite cos_minus, AO, AE, SO', SE'. fold k.
  assert (PsO : 0 < sO) by (apply Rdiv_lt_0_compat; assumption).
  assert (PsE : 0 < sE) by (apply Rdiv_lt_0_compat; assumption).
  assert (NO : nO = nsin / sO) by (unfold sO; field; split; apply Rgt_not_eq; assumption).
  assert (NE : nE = nsin / sE) by (unfold sE; field; split; apply Rgt_not_eq; assumption).
  rewrite NO, NE. rewrite sin_PI4, cos_PI4.
  assert (Pk : 0 < k) by (unfold k; nra).
  assert (PG : 0 < G) by (unfold G; assert (0 < cO ^ 3) by (apply pow_lt; lra); nra).
  assert (S2 : 0 < sqrt 2) by (apply sqrt_lt_R0; lra).
  assert (F2 : sqrt 2 * sqrt 2 = 2) by (apply sqrt_sqrt; lra).
  clearbody nO nE sO sE. clear - PsO PsE Pk PG S2 F2 HN PO PE.
  set (w := sqrt 2) in *.
  assert (W : (1 / w) ^ 2 = 1 / 2) by (apply (Rmult_eq_reg_r (w * w)); [field_simplify; lra|nra]).
  assert (W' : 1 / w * (1 / w) = 1 / 2) by (rewrite <- W; ring).
  rewrite !W, !W'.
  set (d1 := sqrt (cO ^ 2 + sO ^ 2 * (1 / 2))). set (d2 := sqrt (1 / 2 * cO ^ 2 + 1 / 2 * k ^ 2)).
  set (d3 := sqrt (cO ^ 2 * (1 / 2) + 1 / 2)). set (d4 := sqrt (k ^ 2 * (1 / 2) + cO ^ 2 * (1 / 2))).
  assert (D1 : 0 < d1) by (apply sqrt_lt_R0; nra). assert (D2 : 0 < d2) by (apply sqrt_lt_R0; nra).
  assert (D3 : 0 < d3) by (apply sqrt_lt_R0; nra). assert (D4 : 0 < d4) by (apply sqrt_lt_R0; nra).
  clearbody d1 d2 d3 d4. unfold modes, flip. cbn [fst snd].
  assert (Pp : 0 < cO * cE + k) by nra.
  assert (EG : G = k * cE + cO ^ 3) by reflexivity. clearbody G k.
  m4eq; apply C_eq; cexpand; try (field; repeat split; lra).
  all: rewrite ?EG in *. all: field; repeat split; lra.
Qed.
