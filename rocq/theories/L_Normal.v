(** * Layers at normal incidence and isotropic layers *)
From Coq Require Import Reals Lra Psatz.
From Verif Require Import Common Cplx Mat M_Mueller S_Mueller M_Transfer S_Transfer L_Mueller L_Layer L_Layer2
  L_Power L_Stack L_Stack2.
Open Scope R_scope.

(** ** Turned fields *)
Lemma turn_fields_inv t : mmul4 (turn_fields t) (turn_fields (- t)) = eye4.
Proof.
  pose proof (sin2_cos2 t) as S. unfold Rsqr in S. unfold turn_fields. rewrite cos_neg, sin_neg. cbv zeta.
  m4eq; apply C_eq; cexpand; lra.
Qed.
Lemma turn_fields_inv' t : mmul4 (turn_fields (- t)) (turn_fields t) = eye4.
Proof. pose proof (turn_fields_inv (- t)) as H. now rewrite Ropp_involutive in H. Qed.

Lemma turn_fields_add a b : mmul4 (turn_fields a) (turn_fields b) = turn_fields (a + b).
Proof.
  unfold turn_fields. rewrite cos_plus, sin_plus. cbv zeta.
  m4eq; apply C_eq; cexpand; ring.
Qed.

Lemma turn_jones_inv t : mmul2 (turn_jones t) (turn_jones (- t)) = eye2.
Proof.
  pose proof (sin2_cos2 t) as S. unfold Rsqr in S. unfold turn_jones. rewrite cos_neg, sin_neg.
  m2eq; apply C_eq; cexpand; lra.
Qed.

(** ** Normal incidence *)
Lemma extra_index_normal m chi : extra_index m 0 chi = extraIndex m.
Proof.
  unfold extra_index. cbv zeta.
  replace (1 + (/ extraIndex m ^ 2 - / ordinaryIndex m ^ 2) * 0 ^ 2 * cos chi ^ 2) with 1 by ring.
  rewrite sqrt_1. ring.
Qed.

Lemma asin_zero n : asin (0 / n) = 0.
Proof. unfold Rdiv. rewrite Rmult_0_l. apply asin_0. Qed.

Definition A_normal (m : material) : rmat4 :=
  let nO := ordinaryIndex m in let nE := extraIndex m in
  modes 0 (/ nE ^ 2) (/ nO ^ 2) 0 0 (/ nE) (/ nO) 0.

Lemma A_layer_normal m chi : transparent 0 m ->
  A_layer m 0 chi = mmul4 (turn_fields chi) (cmat (A_normal m)).
Proof.
  intros (HO & HE & _). unfold A_layer, A_normal. cbv zeta. rewrite extra_index_normal, !asin_zero.
  set (nO := ordinaryIndex m) in *. set (nE := extraIndex m) in *. clearbody nO nE.
  pose proof (sin2_cos2 chi) as S. unfold Rsqr in S.
  unfold A_of, Eo, Ee, HOrd, HExtra, turn_fields. cbv zeta.
  replace (0 - 0) with 0 by ring. rewrite cos_0, sin_0.
  set (s := sin chi) in *. set (c := cos chi) in *. clearbody s c.
  replace (1 ^ 2 + 0 ^ 2 * s ^ 2) with 1 by ring.
  replace (c ^ 2 * 1 ^ 2 + s ^ 2 * 1 ^ 2) with 1 by lra.
  replace (1 ^ 2 * c ^ 2 + s ^ 2) with 1 by lra.
  replace (1 ^ 2 * s ^ 2 + 1 ^ 2 * c ^ 2) with 1 by lra.
  rewrite sqrt_1. cbn [fst snd].
  assert (E : c * c * 1 * 1 + s * s * 1 = 1) by lra. rewrite E.
  unfold modes. m4eq; apply C_eq; cexpand; field; lra.
Qed.

Lemma A_normal_regular m : transparent 0 m -> det4 (cmat (A_normal m)) <> RtoC 0.
Proof.
  intros T E. apply (A_layer_regular m 0 0 T). rewrite A_layer_normal by assumption.
  rewrite det4_mul, E. ring.
Qed.

Lemma det_turn t : det4 (turn_fields t) <> RtoC 0.
Proof.
  intros E. pose proof (turn_fields_inv t) as H. apply (f_equal det4) in H. rewrite det4_mul, E in H.
  assert (D : det4 eye4 = RtoC 1) by (unfold eye4; rewrite det_diag; ring).
  rewrite D in H. assert (K : RtoC 0 = RtoC 1) by (rewrite <- H; ring). apply RtoC_inj in K. lra.
Qed.

Lemma inv_turned t a : det4 a <> RtoC 0 -> inv4 (mmul4 (turn_fields t) a) = mmul4 (inv4 a) (turn_fields (- t)).
Proof.
  intros H. symmetry. apply inv4_unique.
  - rewrite det4_mul. apply Cmul_neq; [apply det_turn|assumption].
  - rewrite <- mmul4_assoc, (mmul4_assoc (turn_fields (- t))), turn_fields_inv', mmul4_eye_l.
    now apply inv4_l.
Qed.

Lemma layer_turned m chi t f : transparent 0 m -> exists x, transferMatrix m t f 0 0 = Ok x
  /\ transferMatrix m t f 0 chi = Ok (mmul4 (turn_fields chi) (mmul4 x (turn_fields (- chi)))).
Proof.
  intros T. pose proof (A_normal_regular m T) as D.
  eexists. rewrite !layer_form by assumption. split; [reflexivity|]. f_equal.
  rewrite !A_layer_normal, !inv_turned by assumption.
  unfold dE. cbv zeta. rewrite !extra_index_normal.
  set (P := Pmat _ _). set (a := cmat (A_normal m)). set (i := inv4 a).
  assert (E0 : turn_fields 0 = eye4).
  { unfold turn_fields. rewrite cos_0, sin_0. cbv zeta. m4eq; apply C_eq; cexpand; ring. }
  rewrite Ropp_0, E0, mmul4_eye_l, mmul4_eye_r. rewrite !mmul4_assoc. reflexivity.
Qed.

(** ** Characteristic matrices *)
Lemma Csqrt_square n : 0 < n -> Csqrt (RtoC (n ^ 2)) = RtoC n.
Proof. intros H. rewrite Csqrt_real by nra. now rewrite sqrt_pow2 by lra. Qed.

Lemma lossless_ordinary m : 0 < ordinaryIndex m -> lossless m ->
  ordinaryComplexIndex m = RtoC (ordinaryIndex m).
Proof.
  intros H [L _]. unfold ordinaryComplexIndex, epsilon. rewrite L, Ropp_0.
  rewrite <- (Csqrt_square _ H). f_equal. apply C_eq; cexpand; ring.
Qed.

Lemma dO_lossless m nsin t f : 0 < ordinaryIndex m -> lossless m ->
  dO m nsin t f = (0, wavenumber f * ordinaryIndex m * t * cos (asin (nsin / ordinaryIndex m))).
Proof.
  intros H L. unfold dO, delta. rewrite lossless_ordinary by assumption.
  unfold k0_of, c_light, wavenumber. apply C_eq; cexpand; field.
Qed.

Lemma dE_lossless m nsin chi t f : 0 < extra_index m nsin chi -> lossless m ->
  dE m nsin chi t f
  = (0, wavenumber f * extra_index m nsin chi * t * cos (asin (nsin / extra_index m nsin chi))).
Proof.
  intros H [_ L]. unfold dE, delta. cbv zeta. rewrite L, Ropp_0.
  assert (E : Cmul (RtoC (extra_index m nsin chi ^ 2)) (1, 0) = RtoC (extra_index m nsin chi ^ 2))
    by (apply C_eq; cexpand; ring).
  rewrite E, Csqrt_square by assumption.
  unfold k0_of, c_light, wavenumber. apply C_eq; cexpand; field.
Qed.

Lemma Cexp_imag d : Cexp (0, d) = (cos d, sin d).
Proof. unfold Cexp, cis. apply C_eq; cexpand; rewrite exp_0; ring. Qed.

Lemma Pmat_imag a b : Pmat (Copp (0, a)) (Copp (0, b))
  = diag4 (RtoC 0) (cos a, sin a) (cos b, sin b) (cos a, - sin a) (cos b, - sin b).
Proof.
  unfold Pmat.
  assert (E : forall x, Cmul (RtoC (-1)) (Copp (0, x)) = (0, x)) by (intros; apply C_eq; cexpand; ring).
  assert (E' : forall x, Copp (0, x) = (0, - x)) by (intros; apply C_eq; cexpand; ring).
  rewrite !E, !E', !Cexp_imag, !cos_neg, !sin_neg. reflexivity.
Qed.

(** [a] diagonalises [x]. *)
Lemma conj_eq (a p x : mat4) : det4 a <> RtoC 0 -> mmul4 x a = mmul4 a p -> mmul4 a (mmul4 p (inv4 a)) = x.
Proof.
  intros D E. rewrite mmul4_assoc, <- E, <- mmul4_assoc, inv4_r by assumption. apply mmul4_eye_r.
Qed.

Lemma normal_slab m t f : transparent 0 m -> lossless m ->
  let nO := ordinaryIndex m in let nE := extraIndex m in
  transferMatrix m t f 0 0
  = Ok (slab nE (wavenumber f * nE * t) nO (wavenumber f * nO * t)).
Proof.
  intros T L. cbv zeta. rewrite layer_form by assumption. f_equal.
  pose proof (A_layer_regular m 0 0 T) as D.
  pose proof (A_layer_normal m 0 T) as EA.
  assert (E0 : turn_fields 0 = eye4).
  { unfold turn_fields. rewrite cos_0, sin_0. cbv zeta. m4eq; apply C_eq; cexpand; ring. }
  rewrite E0, mmul4_eye_l in EA. destruct T as (HO & HE & _).
  rewrite dO_lossless, dE_lossless by (rewrite ?extra_index_normal; assumption).
  rewrite extra_index_normal, !asin_zero, cos_0, Pmat_imag.
  apply conj_eq; [assumption|]. rewrite EA. unfold A_normal. cbv zeta.
  set (nO := ordinaryIndex m) in *. set (nE := extraIndex m) in *. clearbody nO nE.
  rewrite !Rmult_1_r.
  set (a := wavenumber f * nE * t). set (b := wavenumber f * nO * t). clearbody a b.
  unfold slab, modes. cbv zeta.
  m4eq; apply C_eq; cexpand; field; lra.
Qed.

(** Isotropic layers at any angle. *)
Lemma extra_index_iso m nsin chi : 0 < ordinaryIndex m -> ordinaryIndex m = extraIndex m ->
  extra_index m nsin chi = ordinaryIndex m.
Proof.
  intros H E. unfold extra_index. cbv zeta. rewrite <- E.
  replace (1 + (/ ordinaryIndex m ^ 2 - / ordinaryIndex m ^ 2) * nsin ^ 2 * cos chi ^ 2) with 1 by ring.
  rewrite sqrt_1. ring.
Qed.

Lemma isotropic_slab m nsin chi t f : transparent nsin m -> lossless m -> ordinaryIndex m = extraIndex m ->
  let n := ordinaryIndex m in let ct := cos (asin (nsin / n)) in
  transferMatrix m t f nsin chi
  = Ok (slab (n / ct) (wavenumber f * n * t * ct) (n * ct) (wavenumber f * n * t * ct)).
Proof.
  intros T L I. cbv zeta. rewrite layer_form by assumption. f_equal.
  pose proof (A_layer_regular m nsin chi T) as D.
  destruct (ray_angles m nsin chi T) as (CO & _).
  destruct T as (HO & HE & _).
  assert (EI := extra_index_iso m nsin chi HO I).
  rewrite dO_lossless, dE_lossless by (rewrite ?EI; assumption).
  rewrite EI, Pmat_imag.
  apply conj_eq; [assumption|]. unfold A_layer. cbv zeta. rewrite EI.
  set (n := ordinaryIndex m) in *. set (th := asin (nsin / n)) in *. clearbody n th.
  set (d := wavenumber f * n * t * cos th). clearbody d.
  pose proof (denominators th th chi CO) as (D1 & D2 & D3 & D4).
  { rewrite Rminus_diag_eq by reflexivity. rewrite cos_0. lra. }
  unfold A_of, Eo, Ee, HOrd, HExtra, slab. cbv zeta.
  assert (Z : cos (th - th) = 1) by (rewrite Rminus_diag_eq by reflexivity; apply cos_0).
  rewrite Z in *. clear Z.
  pose proof (sin2_cos2 chi) as S. unfold Rsqr in S. pose proof (sin2_cos2 th) as S'. unfold Rsqr in S'.
  set (s := sin chi) in *. set (c := cos chi) in *. set (u := cos th) in *. set (v := sin th) in *.
  clearbody s c u v.
  assert (F : c * c = 1 - s * s) by lra. assert (F' : v * v = 1 - u * u) by lra.
  replace (u ^ 2 * c ^ 2 + s ^ 2) with (u ^ 2 + v ^ 2 * s ^ 2) in * by (ring [F F']).
  replace (1 ^ 2 * s ^ 2 + u ^ 2 * c ^ 2) with (c ^ 2 * u ^ 2 + s ^ 2 * 1 ^ 2) in * by ring.
  clear D3 D4. apply sqrt_lt_R0 in D1, D2.
  set (d1 := sqrt (u ^ 2 + v ^ 2 * s ^ 2)) in *. set (d2 := sqrt (c ^ 2 * u ^ 2 + s ^ 2 * 1 ^ 2)) in *.
  clearbody d1 d2. cbn [fst snd].
  (* the extraordinary ray's field, simplified *)
  assert (X : (c * c * u * u + s * s * 1) / d2 / n ^ 2 * c - c * s * (v * v) / d2 / n ^ 2 * s = c * (u * u) / d2 / n ^ 2).
  { transitivity ((c * c * u * u + s * s * 1 - s * s * (v * v)) * c / d2 / n ^ 2).
    - field. lra.
    - f_equal. f_equal. rewrite F'. transitivity ((c * c + s * s) * u * u * c); [ring|].
      replace (c * c + s * s) with 1 by lra. ring. }
  assert (Y : (c * c * u * u + s * s * 1) / d2 / n ^ 2 * s + c * s * (v * v) / d2 / n ^ 2 * c = s / d2 / n ^ 2).
  { transitivity ((c * c * u * u + s * s * 1 + c * c * (v * v)) * s / d2 / n ^ 2).
    - field. lra.
    - f_equal. f_equal. rewrite F'. transitivity ((c * c + s * s) * s); [ring|].
      replace (c * c + s * s) with 1 by lra. ring. }
  rewrite X, Y. unfold modes.
  m4eq; apply C_eq; cexpand; field; lra.
Qed.

(** ** Rotating a stack at normal incidence *)
Lemma product_turned t l : product (map (fun x => mmul4 (turn_fields t) (mmul4 x (turn_fields (- t)))) l)
  = mmul4 (turn_fields t) (mmul4 (product l) (turn_fields (- t))).
Proof.
  induction l as [|x l IH]; cbn [map product fold_right].
  - now rewrite mmul4_eye_l, turn_fields_inv.
  - fold (product l). unfold product in IH. rewrite IH. rewrite <- !mmul4_assoc.
    f_equal. f_equal. rewrite (mmul4_assoc (turn_fields (- t))), turn_fields_inv', mmul4_eye_l. reflexivity.
Qed.

Lemma layer_matrix_turned f rot x : transparent 0 (snd (fst x)) -> exists y,
  layer_matrix f 0 0 x = Ok y
  /\ layer_matrix f 0 rot x = Ok (mmul4 (turn_fields rot) (mmul4 y (turn_fields (- rot)))).
Proof.
  intros T. unfold layer_matrix.
  destruct (layer_turned (snd (fst x)) (snd x + 0) (fst (fst x)) f T) as (y & E & F).
  destruct (layer_turned (snd (fst x)) (snd x + rot) (fst (fst x)) f T) as (y' & E' & F').
  rewrite E in E'. injection E' as <-. eexists. split; [exact F|]. rewrite F'. f_equal.
  rewrite <- (turn_fields_add (snd x) 0), <- (turn_fields_add (snd x) rot).
  replace (- (snd x + 0)) with (0 + - snd x) by ring. replace (- (snd x + rot)) with (- rot + - snd x) by ring.
  rewrite <- !turn_fields_add.
  assert (E0 : turn_fields 0 = eye4).
  { unfold turn_fields. rewrite cos_0, sin_0. cbv zeta. m4eq; apply C_eq; cexpand; ring. }
  rewrite E0, mmul4_eye_l, mmul4_eye_r.
  assert (CM : mmul4 (turn_fields (snd x)) (turn_fields rot) = mmul4 (turn_fields rot) (turn_fields (snd x)))
    by (rewrite !turn_fields_add; f_equal; ring).
  assert (CM' : mmul4 (turn_fields (- rot)) (turn_fields (- snd x)) = mmul4 (turn_fields (- snd x)) (turn_fields (- rot)))
    by (rewrite !turn_fields_add; f_equal; ring).
  rewrite CM, CM'. rewrite <- !mmul4_assoc. reflexivity.
Qed.

Lemma stack_turned f rot l : (forall x, In x l -> transparent 0 (snd (fst x))) -> exists ts,
  mapM (layer_matrix f 0 0) l = Ok ts
  /\ mapM (layer_matrix f 0 rot) l
     = Ok (map (fun x => mmul4 (turn_fields rot) (mmul4 x (turn_fields (- rot)))) ts).
Proof.
  induction l as [|x l IH]; intros H.
  - exists []. now split.
  - destruct (layer_matrix_turned f rot x) as (y & E & F); [apply H; now left|].
    destruct IH as (ts & E' & F'); [intros; apply H; now right|].
    exists (y :: ts). cbn [mapM]. rewrite E, F. cbn [bind]. rewrite E', F'. now split.
Qed.

(** Waves turned by [t]; the reflected wave's first component counts backwards. *)
Lemma fields_turned n t a b :
  fields n 0 (mvec2 (turn_jones t) a) (mvec2 (turn_jones (- t)) b)
  = mvec4 (turn_fields t) (fields n 0 a b).
Proof.
  unfold fields, turn_jones, turn_fields. rewrite cos_0, cos_neg, sin_neg, Ropp_involutive.
  destruct a as [[a a'] [b0 b']], b as [[c c'] [d d']].
  apply v4_eq; mcbn; apply C_eq; cexpand; ring.
Qed.

Lemma mvec4_mul a b v : mvec4 (mmul4 a b) v = mvec4 a (mvec4 b v).
Proof. apply v4_eq; mcbn; ring. Qed.
Lemma mvec2_mul a b v : mvec2 (mmul2 a b) v = mvec2 a (mvec2 b v).
Proof. apply v2_eq; mcbn; ring. Qed.
Lemma mvec4_eye v : mvec4 eye4 v = v.
Proof. apply v4_eq; mcbn; ring. Qed.
Lemma mvec2_eye v : mvec2 eye2 v = v.
Proof. apply v2_eq; mcbn; ring. Qed.

Lemma scatters_turned m n1 n3 t e a b : scatters m n1 0 n3 0 e a b ->
  scatters (mmul4 (turn_fields t) (mmul4 m (turn_fields (- t)))) n1 0 n3 0
    (mvec2 (turn_jones t) e) (mvec2 (turn_jones t) a) (mvec2 (turn_jones (- t)) b).
Proof.
  unfold scatters. intros H. rewrite fields_turned, H.
  assert (Z : no_wave = mvec2 (turn_jones (- t)) no_wave).
  { unfold no_wave. apply v2_eq; mcbn; ring. }
  rewrite Z, fields_turned, <- Z.
  rewrite !mvec4_mul, <- (mvec4_mul (turn_fields (- t)) (turn_fields t)), turn_fields_inv', mvec4_eye. reflexivity.
Qed.

Lemma mat2_ext a b : (forall v, mvec2 a v = mvec2 b v) -> a = b.
Proof.
  intros H. pose proof (H (V2 (RtoC 1) (RtoC 0))) as H1. pose proof (H (V2 (RtoC 0) (RtoC 1))) as H2.
  destruct a as [[a1 a2] [a3 a4]], b as [[b1 b2] [b3 b4]].
  assert (E1 : a1 = b1). { apply (f_equal Mat.f0) in H1. revert H1. mcbn. intros H1. ring_simplify in H1. assumption. }
  assert (E2 : a3 = b3). { apply (f_equal Mat.f1) in H1. revert H1. mcbn. intros K. ring_simplify in K. assumption. }
  assert (E3 : a2 = b2). { apply (f_equal Mat.f0) in H2. revert H2. mcbn. intros K. ring_simplify in K. assumption. }
  assert (E4 : a4 = b4). { apply (f_equal Mat.f1) in H2. revert H2. mcbn. intros K. ring_simplify in K. assumption. }
  now subst.
Qed.

Lemma asin_normal n1 n3 : asin (sin 0 * n1 / n3) = 0.
Proof. rewrite sin_0, Rmult_0_l. apply asin_zero. Qed.

Lemma jones_turned l f rot n1 n3 :
  l <> [] -> 0 <= f -> 0 < n1 -> 0 < n3 ->
  (forall x, In x l -> transparent 0 (snd (fst x)) /\ passive (snd (fst x)) /\ 0 <= fst (fst x)) ->
  exists J K,
    Jones (stack_of l) f 0 0 n1 n3 false = Ok J /\ Jones (stack_of l) f 0 0 n1 n3 true = Ok K
    /\ Jones (stack_of l) f 0 rot n1 n3 false = Ok (mmul2 (turn_jones rot) (mmul2 J (turn_jones (- rot))))
    /\ Jones (stack_of l) f 0 rot n1 n3 true = Ok (mmul2 (turn_jones (- rot)) (mmul2 K (turn_jones (- rot)))).
Proof.
  intros NE Hf H1 H3 HL.
  assert (G : forall r x, In x l -> good (sin 0 * n1) r x /\ passive (snd (fst x)) /\ 0 <= fst (fst x)).
  { intros r x Hx. destruct (HL x Hx) as (T & P & Z). rewrite sin_0, Rmult_0_l.
    split; [split; [assumption|now left]|now split]. }
  assert (C0 : 0 < cos 0) by (rewrite cos_0; lra).
  assert (R0 : Rabs (sin 0 * n1) < n3) by (rewrite sin_0, Rmult_0_l, Rabs_R0; assumption).
  destruct (stack_power l f 0 0 n1 n3 NE Hf H1 H3 C0 R0 (G 0)) as (x & J & K & EX & EJ & SC & _).
  destruct (stack_power l f 0 rot n1 n3 NE Hf H1 H3 C0 R0 (G rot)) as (x' & J' & K' & EX' & EJ' & SC' & _).
  rewrite asin_normal in SC, SC'.
  destruct (stack_turned f rot l) as (ts & ET & ET'). { intros y Hy. apply HL. assumption. }
  assert (S0 : sin 0 * n1 = 0) by (rewrite sin_0; ring).
  pose proof EX as EY. pose proof EX' as EY'.
  rewrite stack_spec, S0, ET in EY. rewrite stack_spec, S0, ET' in EY'. cbn [bind] in EY, EY'.
  assert (TT : st_total x' = mmul4 (turn_fields rot) (mmul4 (st_total x) (turn_fields (- rot)))).
  { injection EY as <-. injection EY' as <-. cbn [st_total]. apply product_turned. }
  assert (TI : forall e, mvec2 (turn_jones rot) (mvec2 (turn_jones (- rot)) e) = e).
  { intros e. rewrite <- mvec2_mul, turn_jones_inv. apply mvec2_eye. }
  assert (KEY : forall e, mvec2 J' e = mvec2 (mmul2 (turn_jones rot) (mmul2 J (turn_jones (- rot)))) e
    /\ mvec2 K' e = mvec2 (mmul2 (turn_jones (- rot)) (mmul2 K (turn_jones (- rot)))) e).
  { intros e. set (e' := mvec2 (turn_jones (- rot)) e).
    assert (S : scatters (st_total x) n1 0 n3 0 e' (mvec2 J e') (mvec2 K e')) by (apply SC; now split).
    apply (scatters_turned _ _ _ rot) in S. rewrite <- TT in S. unfold e' in S. rewrite TI in S.
    apply SC' in S. destruct S as [S1 S2]. rewrite !mvec2_mul. split; now symmetry. }
  exists J, K. unfold Jones. rewrite EX, EX'. cbn [bind]. rewrite EJ, EJ'. cbn [bind].
  split; [reflexivity|]. split; [reflexivity|].
  split; f_equal; apply mat2_ext; intros e; apply KEY.
Qed.
