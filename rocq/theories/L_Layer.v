(** * Proofs about a single layer *)
From Coq Require Import Reals Lra Psatz.
From Verif Require Import Common Cplx Mat M_Mueller M_Transfer S_Transfer L_Mueller.
Open Scope R_scope.

(** ** Exponentials and square roots *)
Lemma Cexp_add a b : Cexp (a + b)%C = (Cexp a * Cexp b)%C.
Proof.
  unfold Cexp. cbn [Re Im Cadd fst snd]. rewrite exp_plus, cis_add, RtoC_mul. ring.
Qed.

Lemma Cexp_0 : Cexp (RtoC 0) = RtoC 1.
Proof. unfold Cexp. cbn [Re Im RtoC fst snd]. rewrite exp_0, cis_0. ring. Qed.

Lemma Cexp_opp a : (Cexp a * Cexp (- a))%C = RtoC 1.
Proof. rewrite <- Cexp_add. replace (a + - a)%C with (RtoC 0) by ring. apply Cexp_0. Qed.

Lemma Cnorm2_mul a b : Cnorm2 (a * b)%C = Cnorm2 a * Cnorm2 b.
Proof. destruct a, b. unfold Cnorm2. cbn. ring. Qed.

Lemma Cnorm2_nonneg a : 0 <= Cnorm2 a.
Proof. unfold Cnorm2. nra. Qed.

Lemma Cexp_norm a : Cnorm2 (Cexp a) = exp (2 * Re a).
Proof.
  unfold Cexp. rewrite Cnorm2_mul. unfold Cnorm2 at 2. cbn [Re Im cis fst snd].
  pose proof (sin2_cos2 (Im a)) as S. unfold Rsqr in S.
  replace (cos (Im a) * cos (Im a) + sin (Im a) * sin (Im a)) with 1 by lra.
  unfold Cnorm2. cbn [Re Im RtoC fst snd]. replace (2 * Re a) with (Re a + Re a) by ring.
  rewrite exp_plus. ring.
Qed.

Lemma Csqrt_im_nonpos z : Im z <= 0 -> 0 <= Re z -> Im (Csqrt z) <= 0.
Proof.
  intros H R. unfold Csqrt. cbn [Im snd]. destruct (Rle_dec 0 (Im z)) as [K|K].
  - assert (E : Im z = 0) by lra.
    unfold Cnorm2. rewrite E. replace (Re z * Re z + 0 * 0) with (Rsqr (Re z)) by (unfold Rsqr; ring).
    rewrite sqrt_Rsqr by assumption. replace ((Re z - Re z) / 2) with 0 by field. rewrite sqrt_0. lra.
  - pose proof (sqrt_pos ((sqrt (Cnorm2 z) - Re z) / 2)). lra.
Qed.

Lemma Csqrt_real x : 0 <= x -> Csqrt (RtoC x) = RtoC (sqrt x).
Proof.
  intros H. unfold Csqrt, Cnorm2. cbn [Re Im RtoC fst snd].
  replace (x * x + 0 * 0) with (Rsqr x) by (unfold Rsqr; ring). rewrite sqrt_Rsqr by assumption.
  replace ((x + x) / 2) with x by field. replace ((x - x) / 2) with 0 by field. rewrite sqrt_0.
  destruct (Rle_dec 0 0); [reflexivity|lra].
Qed.

(** ** Diagonal matrices *)
Lemma diag_mul a b c d a' b' c' d' :
  mmul4 (diag4 (RtoC 0) a b c d) (diag4 (RtoC 0) a' b' c' d')
  = diag4 (RtoC 0) (a * a')%C (b * b')%C (c * c')%C (d * d')%C.
Proof. m4eq; ring. Qed.

Lemma diag_vec a b c d v :
  mvec4 (diag4 (RtoC 0) a b c d) v = V4 (a * e0 v)%C (b * e1 v)%C (c * e2 v)%C (d * e3 v)%C.
Proof. apply v4_eq; mcbn; ring. Qed.

Lemma Pmat_mul a b c d : mmul4 (Pmat a b) (Pmat c d) = Pmat (a + c)%C (b + d)%C.
Proof.
  unfold Pmat. rewrite diag_mul, <- !Cexp_add.
  assert (E : forall x y, (RtoC (-1) * x + RtoC (-1) * y)%C = (RtoC (-1) * (x + y))%C)
    by (intros; ring).
  rewrite !E. reflexivity.
Qed.

Lemma Pmat_0 : Pmat (RtoC 0) (RtoC 0) = eye4.
Proof.
  unfold Pmat, eye4. assert (E : (RtoC (-1) * RtoC 0)%C = RtoC 0) by ring.
  rewrite !E, !Cexp_0. reflexivity.
Qed.

Lemma det_diag a b c d : det4 (diag4 (RtoC 0) a b c d) = (a * b * c * d)%C.
Proof. mcbn. ring. Qed.

Lemma Cmul_neq a b : a <> RtoC 0 -> b <> RtoC 0 -> (a * b)%C <> RtoC 0.
Proof.
  intros Ha Hb E. apply Hb. transitivity (Cinv a * (a * b))%C.
  - transitivity (RtoC 1 * b)%C; [ring|]. rewrite <- (Cinv_l a Ha). ring.
  - rewrite E. ring.
Qed.

Lemma Cexp_neq a : Cexp a <> RtoC 0.
Proof.
  intros E. pose proof (Cexp_norm a) as N. rewrite E in N. unfold Cnorm2 in N. cbn in N.
  pose proof (exp_pos (2 * Re a)). lra.
Qed.

Lemma det_Pmat a b : det4 (Pmat a b) <> RtoC 0.
Proof. unfold Pmat. rewrite det_diag. repeat (apply Cmul_neq; [|apply Cexp_neq]); apply Cexp_neq. Qed.

Lemma opp1 a : (RtoC (-1) * a)%C = (- a)%C.
Proof. apply C_eq; cexpand; ring. Qed.

(** A conjugated diagonal matrix. *)
Lemma layer_conj (a : mat4) x y : det4 a <> RtoC 0 ->
  np_inv4 (mmul4 a (Pmat x y)) = Ok (mmul4 (Pmat (- x)%C (- y)%C) (inv4 a)).
Proof.
  intros H. unfold np_inv4.
  assert (D : det4 (mmul4 a (Pmat x y)) <> RtoC 0).
  { rewrite det4_mul. apply Cmul_neq; [assumption|apply det_Pmat]. }
  destruct (Ceq_dec _ _) as [E|_]; [now elim D|]. f_equal. symmetry.
  apply inv4_unique; [assumption|].
  rewrite mmul4_assoc, <- (mmul4_assoc (Pmat (- x)%C (- y)%C)), inv4_l by assumption.
  rewrite mmul4_eye_r, Pmat_mul.
  replace (- x + x)%C with (RtoC 0) by ring. replace (- y + y)%C with (RtoC 0) by ring.
  apply Pmat_0.
Qed.

(** ** The matrix of field modes *)
Definition modes (a b c d p q r s : R) : rmat4 :=
  V4 (V4 a b a b) (V4 p q (- p) (- q)) (V4 c d c d) (V4 r s (- r) (- s)).

Lemma det_modes a b c d p q r s :
  det4 (cmat (modes a b c d p q r s)) = RtoC (-4 * ((a * d - b * c) * (p * s - q * r))).
Proof. unfold modes. mcbn. apply C_eq; cexpand; ring. Qed.

Definition flux (v : v4 C) : R := Re (e0 v * Cconj (e1 v) + e2 v * Cconj (e3 v))%C.

Lemma flux_modes a b c d p q r s w : a * q + c * s = 0 -> b * p + d * r = 0 ->
  flux (mvec4 (cmat (modes a b c d p q r s)) w)
  = (a * p + c * r) * (Cnorm2 (e0 w) - Cnorm2 (e2 w))
    + (b * q + d * s) * (Cnorm2 (e1 w) - Cnorm2 (e3 w)).
Proof.
  intros H K. destruct w as [[x x'] [y y'] [z z'] [t t']].
  unfold flux, modes, Cnorm2. mcbn. cexpand.
  transitivity ((a * p + c * r) * (x * x + x' * x' - (z * z + z' * z'))
    + (b * q + d * s) * (y * y + y' * y' - (t * t + t' * t'))
    + (a * q + c * s) * ((x + z) * (y - t) + (x' + z') * (y' - t'))
    + (b * p + d * r) * ((y + t) * (x - z) + (y' + t') * (x' - z'))); [ring|].
  rewrite H, K. ring.
Qed.

(** ** The rotated dielectric tensor *)
Lemma inv2_unique m n : det2 m <> RtoC 0 -> mmul2 n m = eye2 -> n = inv2 m.
Proof.
  intros H E. rewrite <- (mmul2_eye_r n), <- (inv2_r m H), mmul2_assoc, E. apply mmul2_eye_l.
Qed.

Definition tensor (x y chi : R) : mat2 :=
  let c := cos chi in let s := sin chi in
  V2 (V2 (RtoC (c * c * x + s * s * y)) (RtoC (c * s * (x - y))))
     (V2 (RtoC (c * s * (x - y))) (RtoC (s * s * x + c * c * y))).

Lemma RtoC_neq x : x <> 0 -> RtoC x <> RtoC 0.
Proof. intros H E. apply H. now apply RtoC_inj. Qed.

Lemma det_tensor x y chi : det2 (tensor x y chi) = RtoC (x * y).
Proof.
  pose proof (sin2_cos2 chi) as S. unfold Rsqr in S. unfold tensor. cbv zeta.
  set (s := sin chi) in *. set (c := cos chi) in *. clearbody s c.
  assert (F : c * c = 1 - s * s) by lra. mcbn. apply C_eq; cexpand; ring [F].
Qed.

Lemma tensor_mul x y x' y' chi :
  mmul2 (tensor x y chi) (tensor x' y' chi) = tensor (x * x') (y * y') chi.
Proof.
  pose proof (sin2_cos2 chi) as S. unfold Rsqr in S. unfold tensor. cbv zeta.
  set (s := sin chi) in *. set (c := cos chi) in *. clearbody s c.
  assert (F : c * c = 1 - s * s) by lra. m2eq; apply C_eq; cexpand; ring [F].
Qed.

Lemma tensor_1 chi : tensor 1 1 chi = eye2.
Proof.
  pose proof (sin2_cos2 chi) as S. unfold Rsqr in S. unfold tensor. cbv zeta.
  m2eq; apply C_eq; cexpand; lra.
Qed.

Lemma roteps_eq nO nE chi : roteps nO nE chi = Ok (tensor (nE ^ 2) (nO ^ 2) chi).
Proof.
  pose proof (sin2_cos2 chi) as S. unfold Rsqr in S.
  unfold roteps, np_inv2.
  assert (D : det2 (rot_block chi) = RtoC 1).
  { unfold rot_block. mcbn. apply C_eq; cexpand; lra. }
  rewrite D. destruct (Ceq_dec _ _) as [E|_]; [now apply RtoC_inj in E; lra|].
  cbn [bind]. f_equal. unfold inv2. rewrite D.
  unfold rot_block, tensor. cbv zeta.
  set (s := sin chi) in *. set (c := cos chi) in *. clearbody s c.
  m2eq; apply C_eq; cexpand; field.
Qed.

Lemma rotepsinv_eq nO nE chi : nO <> 0 -> nE <> 0 ->
  np_inv2 (tensor (nE ^ 2) (nO ^ 2) chi) = Ok (tensor (/ nE ^ 2) (/ nO ^ 2) chi).
Proof.
  intros HO HE. unfold np_inv2.
  assert (D : det2 (tensor (nE ^ 2) (nO ^ 2) chi) <> RtoC 0).
  { rewrite det_tensor. apply RtoC_neq. apply Rmult_integral_contrapositive_currified; now apply pow_nonzero. }
  destruct (Ceq_dec _ _) as [E|_]; [now elim D|]. f_equal. symmetry. apply inv2_unique; [assumption|].
  rewrite tensor_mul, !Rinv_l by (now apply pow_nonzero). apply tensor_1.
Qed.

(** Psi times Phi has the form [modes]. *)
Definition Eo (nO tO chi : R) : R * R :=
  let k := cos tO / sqrt (cos tO ^ 2 + sin tO ^ 2 * sin chi ^ 2) / nO ^ 2 in
  (- sin chi * k, cos chi * k).
Definition Ee (nO nE tO tE chi : R) : R * R :=
  let c := cos chi in let s := sin chi in
  let d := sqrt (c ^ 2 * cos tO ^ 2 + s ^ 2 * cos (tO - tE) ^ 2) in
  let al := (c * c * cos tO * cos tE + s * s * cos (tO - tE)) / d / nE ^ 2 in
  let be := c * s * (sin tO * sin tE) / d / nO ^ 2 in
  (al * c - be * s, al * s + be * c).

Definition A_of (nO nE tO tE chi : R) : rmat4 :=
  let o := Eo nO tO chi in let e := Ee nO nE tO tE chi in
  let ho := HOrd tO chi in let he := HExtra tO tE chi in
  modes (fst o) (fst e) (snd o) (snd e) (snd ho / nO) (snd he / nE)
        (- fst ho / nO) (- fst he / nE).

Lemma psi_phi nO nE tO tE chi : nO <> 0 -> nE <> 0 ->
  0 < cos tO ^ 2 + sin tO ^ 2 * sin chi ^ 2 ->
  0 < cos chi ^ 2 * cos tO ^ 2 + sin chi ^ 2 * cos (tO - tE) ^ 2 ->
  mmul4 (Psi (tensor (/ nE ^ 2) (/ nO ^ 2) chi)) (Phi nO nE tO tE chi)
  = cmat (A_of nO nE tO tE chi).
Proof.
  intros HO HE H1 H2. pose proof (sin2_cos2 chi) as S. unfold Rsqr in S.
  unfold Psi, Phi, A_of, modes, tensor, Eo, Ee, DOrd, DExtra. cbv zeta.
  destruct (HOrd tO chi) as [ho0 ho1], (HExtra tO tE chi) as [he0 he1]. cbn [fst snd].
  pose proof (sqrt_lt_R0 _ H1) as D1. pose proof (sqrt_lt_R0 _ H2) as D2.
  set (d1 := sqrt (cos tO ^ 2 + sin tO ^ 2 * sin chi ^ 2)) in *.
  set (d2 := sqrt (cos chi ^ 2 * cos tO ^ 2 + sin chi ^ 2 * cos (tO - tE) ^ 2)) in *.
  clearbody d1 d2. clear H1 H2.
  rewrite cos_minus.
  set (s := sin chi) in *. set (c := cos chi) in *. clearbody s c.
  assert (F : c * c = 1 - s * s) by lra.
  m4eq; apply C_eq; cexpand; try (field_simplify_eq; [|repeat split; lra]); try ring [F].
  all: try (field; repeat split; lra).
Qed.
