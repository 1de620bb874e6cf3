(** * Layers with the optical axis in or perpendicular to the plane of
      incidence; a quarter-wave plate *)
From Coq Require Import Reals Lra Psatz.
From Verif Require Import Common Cplx Mat M_Mueller S_Mueller M_Transfer S_Transfer L_Mueller L_Jones L_JonesRot
  L_Layer L_Layer2 L_Power L_Stack L_Stack2 L_Band L_Normal.
Open Scope R_scope.

Lemma sqrt_of_sq x y : 0 < y -> x = y ^ 2 -> sqrt x = y.
Proof. intros H ->. now rewrite sqrt_pow2 by lra. Qed.

(** Axis perpendicular to the plane of incidence. *)
Lemma perpendicular_slab m nsin chi t f : transparent nsin m -> lossless m -> cos chi = 0 ->
  let nO := ordinaryIndex m in let nE := extraIndex m in
  let cO := cos (asin (nsin / nO)) in let cE := cos (asin (nsin / nE)) in
  transferMatrix m t f nsin chi
  = Ok (slab (nO / cO) (wavenumber f * nO * t * cO) (nE * cE) (wavenumber f * nE * t * cE)).
Proof.
  intros T L HC. cbv zeta. rewrite layer_form by assumption. f_equal.
  pose proof (A_layer_regular m nsin chi T) as D.
  destruct (ray_angles m nsin chi T) as (CO & CE & SS & CK).
  destruct (extra_index_sq m nsin chi T) as (P & _ & _).
  destruct T as (HO & HE & _).
  assert (EI : extra_index m nsin chi = extraIndex m).
  { unfold extra_index. cbv zeta. rewrite HC.
    replace (1 + (/ extraIndex m ^ 2 - / ordinaryIndex m ^ 2) * nsin ^ 2 * 0 ^ 2) with 1 by ring.
    rewrite sqrt_1. ring. }
  rewrite dO_lossless, dE_lossless by (rewrite ?EI; assumption).
  rewrite EI in *. rewrite Pmat_imag.
  apply conj_eq; [assumption|]. unfold A_layer in *. cbv zeta in *. rewrite EI in *. clear D.
  set (nO := ordinaryIndex m) in *. set (nE := extraIndex m) in *.
  set (tO := asin (nsin / nO)) in *. set (tE := asin (nsin / nE)) in *. clearbody nO nE tO tE.
  set (a := wavenumber f * nO * t * cos tO). set (b := wavenumber f * nE * t * cos tE). clearbody a b.
  pose proof (sin2_cos2 chi) as S. unfold Rsqr in S. rewrite HC in S.
  pose proof (sin2_cos2 tO) as S'. unfold Rsqr in S'.
  unfold A_of, Eo, Ee, HOrd, HExtra, slab. cbv zeta. rewrite HC.
  set (s := sin chi) in *. set (u := cos tO) in *. set (v := sin tO) in *. set (U := cos tE) in *.
  set (k := cos (tO - tE)) in *. clearbody s u v U k.
  assert (F : s * s = 1) by lra.
  assert (Q1 : sqrt (u ^ 2 + v ^ 2 * s ^ 2) = 1) by (apply sqrt_of_sq; [lra|nra]).
  assert (Q2 : sqrt (0 ^ 2 * u ^ 2 + s ^ 2 * k ^ 2) = k) by (apply sqrt_of_sq; [lra|nra]).
  assert (Q3 : sqrt (u ^ 2 * 0 ^ 2 + s ^ 2) = 1) by (apply sqrt_of_sq; [lra|nra]).
  assert (Q4 : sqrt (k ^ 2 * s ^ 2 + u ^ 2 * 0 ^ 2) = k) by (apply sqrt_of_sq; [lra|nra]).
  rewrite Q1, Q2, Q3, Q4, F. cbn [fst snd]. unfold modes.
  m4eq; apply C_eq; cexpand; field; lra.
Qed.

(** Axis in the plane of incidence: the slab the code computes. *)
Lemma parallel_slab m nsin chi t f : transparent nsin m -> lossless m -> sin chi = 0 ->
  let nO := ordinaryIndex m in let nE := extra_index m nsin chi in
  let cO := cos (asin (nsin / nO)) in let cE := cos (asin (nsin / nE)) in
  transferMatrix m t f nsin chi
  = Ok (slab (nE / cE) (wavenumber f * nE * t * cE) (nO * cO) (wavenumber f * nO * t * cO)).
Proof.
  intros T L HS. cbv zeta. rewrite layer_form by assumption. f_equal.
  pose proof (A_layer_regular m nsin chi T) as D.
  destruct (ray_angles m nsin chi T) as (CO & CE & SS & CK).
  destruct (extra_index_sq m nsin chi T) as (P & _ & _).
  destruct T as (HO & HE & _).
  rewrite dO_lossless, dE_lossless by assumption. rewrite Pmat_imag.
  apply conj_eq; [assumption|]. unfold A_layer in *. cbv zeta in *. clear D.
  set (nO := ordinaryIndex m) in *. set (nE := extra_index m nsin chi) in *.
  set (tO := asin (nsin / nO)) in *. set (tE := asin (nsin / nE)) in *. clearbody nO nE tO tE.
  set (a := wavenumber f * nO * t * cos tO). set (b := wavenumber f * nE * t * cos tE). clearbody a b.
  pose proof (sin2_cos2 chi) as S. unfold Rsqr in S. rewrite HS in S.
  unfold A_of, Eo, Ee, HOrd, HExtra, slab. cbv zeta. rewrite HS.
  set (c := cos chi) in *. set (u := cos tO) in *. set (v := sin tO) in *. set (U := cos tE) in *.
  set (k := cos (tO - tE)) in *. clearbody c u v U k.
  assert (F : c * c = 1) by lra.
  assert (Q1 : sqrt (u ^ 2 + v ^ 2 * 0 ^ 2) = u) by (apply sqrt_of_sq; [lra|ring]).
  assert (Q2 : sqrt (c ^ 2 * u ^ 2 + 0 ^ 2 * k ^ 2) = u) by (apply sqrt_of_sq; [lra|nra]).
  assert (Q3 : sqrt (u ^ 2 * c ^ 2 + 0 ^ 2) = u) by (apply sqrt_of_sq; [lra|nra]).
  assert (Q4 : sqrt (k ^ 2 * 0 ^ 2 + u ^ 2 * c ^ 2) = u) by (apply sqrt_of_sq; [lra|nra]).
  rewrite Q1, Q2, Q3, Q4, F. cbn [fst snd]. unfold modes.
  m4eq; apply C_eq; cexpand; field; lra.
Qed.

Lemma cos_asin_sq x n : 0 < n -> x ^ 2 < n ^ 2 -> (n * cos (asin (x / n))) ^ 2 = n ^ 2 - x ^ 2 /\ 0 < n * cos (asin (x / n)).
Proof.
  intros H K. destruct (angle_facts x n H (abs_lt_of_sqr _ _ H K)) as [S C].
  split; [|nra]. pose proof (sin2_cos2 (asin (x / n))) as E. unfold Rsqr in E. rewrite S in E.
  set (c := cos (asin (x / n))) in *. clearbody c.
  replace ((n * c) ^ 2) with (n ^ 2 * (c * c)) by ring.
  replace (c * c) with (1 - x / n * (x / n)) by lra. field. lra.
Qed.

(** The wave in the plane of incidence has normal index nE sqrt (1 - nsin^2/nO^2);
    its admittance should be nE^2 over that. *)
Lemma parallel_wrong m nsin t f : transparent nsin m -> lossless m ->
  let nO := ordinaryIndex m in let nE := extraIndex m in
  let nz := nE * sqrt (1 - nsin ^ 2 / nO ^ 2) in
  let cO := cos (asin (nsin / nO)) in
  nsin <> 0 -> nO <> nE -> sin (wavenumber f * nz * t) <> 0 ->
  transferMatrix m t f nsin 0
  <> Ok (slab (nE ^ 2 / nz) (wavenumber f * nz * t) (nO * cO) (wavenumber f * nO * t * cO)).
Proof.
  cbv zeta. intros T L NS NN SN H.
  rewrite parallel_slab in H by (assumption || apply sin_0). cbv zeta in H.
  destruct (extra_index_sq m nsin 0 T) as (P & SQ & LT).
  rewrite cos_0 in SQ.
  set (ne := extra_index m nsin 0) in *. clearbody ne.
  destruct T as (HO & HE & H1 & H2). apply sqr_lt_of_abs in H1; [|assumption]. apply sqr_lt_of_abs in H2; [|assumption].
  set (nO := ordinaryIndex m) in *. set (nE := extraIndex m) in *. clearbody nO nE.
  destruct (cos_asin_sq nsin ne P LT) as [CS CP].
  set (q := ne * cos (asin (nsin / ne))) in *.
  assert (Y : 0 < 1 - nsin ^ 2 / nO ^ 2).
  { apply Rlt_Rminus. apply (Rmult_lt_reg_r (nO ^ 2)); [nra|]. unfold Rdiv. rewrite Rmult_assoc, Rinv_l by nra. lra. }
  assert (NZ : nE * sqrt (1 - nsin ^ 2 / nO ^ 2) = q).
  { assert (ZP : 0 < nE * sqrt (1 - nsin ^ 2 / nO ^ 2)).
    { apply Rmult_lt_0_compat; [assumption|]. now apply sqrt_lt_R0. }
    assert (ZS : (nE * sqrt (1 - nsin ^ 2 / nO ^ 2)) ^ 2 = q ^ 2).
    { rewrite Rpow_mult_distr, pow2_sqrt by lra. rewrite CS, SQ. field. lra. }
    nra. }
  rewrite NZ in *.
  replace (wavenumber f * ne * t * cos (asin (nsin / ne))) with (wavenumber f * q * t) in H by (unfold q; ring).
  set (d := wavenumber f * q * t) in *. clearbody d.
  injection H as E _.
  assert (CC : cos (asin (nsin / ne)) = q / ne) by (unfold q; field; lra).
  rewrite CC in E. clear CC. clearbody q.
  assert (X : sin d * q * (nE ^ 2 - ne ^ 2) = 0).
  { replace (sin d / (ne / (q / ne))) with (sin d * q / ne ^ 2) in E by (field; lra).
    replace (sin d / (nE ^ 2 / q)) with (sin d * q / nE ^ 2) in E by (field; lra).
    replace (sin d * q * (nE ^ 2 - ne ^ 2))
      with ((sin d * q / ne ^ 2 - sin d * q / nE ^ 2) * (ne ^ 2 * nE ^ 2)) by (field; lra).
    rewrite E. field. lra. }
  apply Rmult_integral in X. destruct X as [X|X].
  - apply Rmult_integral in X. destruct X; [contradiction|lra].
  - rewrite SQ in X. assert (Z : nsin ^ 2 * (nE ^ 2 - nO ^ 2) = 0).
    { replace (nsin ^ 2 * (nE ^ 2 - nO ^ 2))
        with (nO ^ 2 * (nE ^ 2 - (nE ^ 2 * (1 - nsin ^ 2 * 1 ^ 2 / nO ^ 2) + nsin ^ 2 * 1 ^ 2))) by (field; lra).
      rewrite X. ring. }
    apply Rmult_integral in Z. destruct Z as [Z|Z].
    + apply NS. nra.
    + apply NN. nra.
Qed.

(** ** Rotation of Mueller matrices *)
Lemma turn_jones_field t e : mvec2 (turn_jones t) e = turn_field t e.
Proof. unfold turn_jones, turn_field. apply v2_eq; mcbn; apply C_eq; cexpand; ring. Qed.

Lemma turned_stack l f rot n1 n3 :
  l <> [] -> 0 <= f -> 0 < n1 -> 0 < n3 ->
  (forall x, In x l -> transparent 0 (snd (fst x)) /\ passive (snd (fst x)) /\ 0 <= fst (fst x)) ->
  exists J K J' K',
    Jones (stack_of l) f 0 0 n1 n3 false = Ok J /\ Jones (stack_of l) f 0 0 n1 n3 true = Ok K
    /\ Jones (stack_of l) f 0 rot n1 n3 false = Ok J' /\ Jones (stack_of l) f 0 rot n1 n3 true = Ok K'
    /\ forall e, mvec2 J' (turn_field rot e) = turn_field rot (mvec2 J e)
              /\ mvec2 K' (turn_field rot e) = turn_field (- rot) (mvec2 K e).
Proof.
  intros NE Hf H1 H3 HL. destruct (jones_turned l f rot n1 n3 NE Hf H1 H3 HL) as (J & K & E1 & E2 & E3 & E4).
  do 4 eexists. repeat (split; [eassumption|]). intros e.
  assert (TI : forall e, mvec2 (turn_jones (- rot)) (mvec2 (turn_jones rot) e) = e).
  { intros x. rewrite <- mvec2_mul. pose proof (turn_jones_inv (- rot)) as I. rewrite Ropp_involutive in I.
    rewrite I. apply mvec2_eye. }
  rewrite <- !turn_jones_field, !mvec2_mul, !TI. now split.
Qed.

Lemma mueller_of_jones s f th rot n1 n3 rfl J :
  Jones s f th rot n1 n3 rfl = Ok J -> Mueller s f th rot n1 n3 rfl = Ok (JonesToMueller J).
Proof.
  unfold Jones, Mueller. destruct (stackTransferMatrix _ _ _ _ _ _) as [x|]; cbn [bind]; [|discriminate].
  destruct (TranToJones x) as [[t r]|]; cbn [bind]; [|discriminate]. now intros [= <-].
Qed.

Lemma turned_mueller l f rot n1 n3 :
  l <> [] -> 0 <= f -> 0 < n1 -> 0 < n3 ->
  (forall x, In x l -> transparent 0 (snd (fst x)) /\ passive (snd (fst x)) /\ 0 <= fst (fst x)) ->
  exists T R T' R',
    Mueller (stack_of l) f 0 0 n1 n3 false = Ok T /\ Mueller (stack_of l) f 0 0 n1 n3 true = Ok R
    /\ Mueller (stack_of l) f 0 rot n1 n3 false = Ok T' /\ Mueller (stack_of l) f 0 rot n1 n3 true = Ok R'
    /\ is_turned rot T T' /\ forall s, rmvec4 R' (turn rot s) = turn (- rot) (rmvec4 R s).
Proof.
  intros NE Hf H1 H3 HL. destruct (jones_turned l f rot n1 n3 NE Hf H1 H3 HL) as (J & K & E1 & E2 & E3 & E4).
  apply mueller_of_jones in E1, E2, E3, E4.
  do 4 eexists. repeat (split; [eassumption|]).
  assert (TI : rmmul4 (JonesToMueller (turn_jones (- rot))) (JonesToMueller (turn_jones rot)) = reye4).
  { rewrite <- jones_mult. pose proof (turn_jones_inv (- rot)) as I. rewrite Ropp_involutive in I.
    rewrite I. apply jones_eye. }
  assert (RM : forall t s, turn t s = rmvec4 (JonesToMueller (turn_jones t)) s).
  { intros t s. symmetry. apply rot2_mueller. }
  split.
  - intros s. rewrite !RM, !jones_mult, !rmvec4_mmul, <- (rmvec4_mmul (JonesToMueller (turn_jones (- rot))) (JonesToMueller (turn_jones rot))), TI, rmvec4_eye.
    reflexivity.
  - intros s. rewrite !RM, !jones_mult, !rmvec4_mmul, <- (rmvec4_mmul (JonesToMueller (turn_jones (- rot))) (JonesToMueller (turn_jones rot))), TI, rmvec4_eye.
    reflexivity.
Qed.
