(** * Property theorems: quaternions and rotations (C33, C68, C69)

    Vectors, rotations and Hamilton's rules are spelled out in S_Quat.v. *)
From Coq Require Import Reals Lra.
From Verif Require Import M_Quat S_Quat L_Quat.
Open Scope R_scope.

(** C33: the product is Hamilton's, and Hamilton's rules leave no other. *)
Theorem C33_product_is_hamiltons :
  hamilton quat_left_mult
  /\ (forall m, hamilton m -> forall p q, m p q = quat_left_mult p q).
Proof. exact (conj left_mult_hamilton hamilton_unique). Qed.
Print Assumptions C33_product_is_hamiltons.

Theorem C33_associative_with_unit : forall p q r : quat,
  quat_left_mult p (quat_left_mult q r) = quat_left_mult (quat_left_mult p q) r
  /\ quat_left_mult (Q4 1 0 0 0) q = q /\ quat_left_mult q (Q4 1 0 0 0) = q.
Proof.
  exact (fun p q r => conj (ham_assoc _ left_mult_hamilton p q r)
    (conj (ham_one_l _ left_mult_hamilton q) (ham_one_r _ left_mult_hamilton q))).
Qed.
Print Assumptions C33_associative_with_unit.

Theorem C33_norms_multiply : forall p q : quat,
  len2 (quat_left_mult p q) = len2 p * len2 q.
Proof. exact norm_mult. Qed.
Print Assumptions C33_norms_multiply.

Theorem C33_conjugation_reverses_products : forall p q : quat,
  quat_conj (quat_left_mult p q) = quat_left_mult (quat_conj q) (quat_conj p)
  /\ quat_conj (quat_conj q) = q
  /\ quat_left_mult q (quat_conj q) = Q4 (len2 q * 1) (len2 q * 0) (len2 q * 0) (len2 q * 0).
Proof. exact (fun p q => conj (conj_mult p q) (conj (conj_conj q) (conj_self q))). Qed.
Print Assumptions C33_conjugation_reverses_products.

Theorem C33_inverse : forall q : quat, q <> Q4 0 0 0 0 ->
  quat_left_mult q (quat_inv q) = Q4 1 0 0 0 /\ quat_left_mult (quat_inv q) q = Q4 1 0 0 0.
Proof. exact inv_spec. Qed.
Print Assumptions C33_inverse.

(** Normalising returns the unit quaternion in the same direction, and
    modifies the caller's array exactly when asked to. *)
Theorem C33_normalisation : forall (q : quat) (inplace : bool), q <> Q4 0 0 0 0 ->
  let (r, after) := quat_norm q inplace in
  r = scale (/ sqrt (len2 q)) q /\ len2 r = 1
  /\ after = (if inplace then r else q).
Proof. exact norm_spec. Qed.
Print Assumptions C33_normalisation.

(** Conjugating by p is q -> p q p^-1: it preserves lengths and products and composes. *)
Theorem C33_conjugation_by : forall a b p p' : quat, p <> Q4 0 0 0 0 -> p' <> Q4 0 0 0 0 ->
  len2 (quat_conj_by a p) = len2 a
  /\ quat_conj_by (quat_left_mult a b) p
     = quat_left_mult (quat_conj_by a p) (quat_conj_by b p)
  /\ quat_conj_by (quat_conj_by a p) p' = quat_conj_by a (quat_left_mult p' p).
Proof.
  exact (fun a b p p' Hp Hp' => conj (conj_by_len a p Hp)
    (conj (conj_by_mult p a b Hp) (conj_by_conj_by a p p' Hp Hp'))).
Qed.
Print Assumptions C33_conjugation_by.

(** Conjugating a vector by the unit quaternion (cos t/2, sin t/2 n) turns it
    by the angle t about n. *)
Theorem C33_conjugation_rotates : forall (n : vec) (t : R) (v : vec), dot n n = 1 ->
  quat_conj_by (pure v) (rotor n t) = pure (rotated n t v).
Proof. exact rodrigues. Qed.
Print Assumptions C33_conjugation_rotates.

Example C33_nonvacuous :
  Q4 1 2 3 4 <> Q4 0 0 0 0 /\ dot (3/5, 0, 4/5) (3/5, 0, 4/5) = 1
  /\ quat_left_mult (Q4 1 2 3 4) (Q4 5 6 7 8) = Q4 (-60) 12 30 24
  /\ quat_inv (Q4 1 1 1 1) = Q4 (1/4) (-1/4) (-1/4) (-1/4)
  /\ rotated axis_z (PI/2) (1, 0, 0) = (0, 1, 0).
Proof.
  repeat split.
  - intros E; injection E; lra.
  - cbn; field.
  - unfold quat_left_mult; cbn; f_equal; ring.
  - unfold quat_inv, quat_div, sumsq; cbn; f_equal; field.
  - unfold rotated, axis_z; cbn. rewrite cos_PI2, sin_PI2. repeat f_equal; ring.
Qed.

(** C68: whatever direction a detector's offset sends a vector to, with an
    instrument rotation it is sent there turned about the boresight (z) by the
    rotation angle; angles add, zero changes nothing, unit length is kept. *)
Theorem C68_instrument_rotation : forall (angle : R) (off : quat) (v : vec),
  off <> Q4 0 0 0 0 ->
  exists w, quat_conj_by (pure v) off = pure w
  /\ quat_conj_by (pure v) (scan_q_off angle off) = pure (rotated (0, 0, 1) (deg angle) w).
Proof. exact scan_q_off_spec. Qed.
Print Assumptions C68_instrument_rotation.

Theorem C68_rotations_add : forall (a b : R) (off : quat),
  scan_q_off a (scan_q_off b off) = scan_q_off (a + b) off
  /\ scan_q_off 0 off = off
  /\ len2 (scan_q_off a off) = len2 off.
Proof.
  exact (fun a b off => conj (scan_q_off_add a b off)
    (conj (scan_q_off_0 off) (scan_q_off_len a off))).
Qed.
Print Assumptions C68_rotations_add.

Example C68_nonvacuous :
  exists off, off <> Q4 0 0 0 0 /\ scan_q_off 180 off <> off.
Proof.
  exists (Q4 1 0 0 0). split; [intros E; injection E; lra|].
  unfold scan_q_off. replace (180 * PI / 180 / 2) with (PI / 2) by field.
  rewrite cos_PI2, sin_PI2. unfold quat_left_mult; cbn. intros E; injection E; lra.
Qed.

(** C69: the horizontal pointing used for ground scans is a unit quaternion
    that sends the boresight to longitude az and latitude el, with the
    instrument's x axis pointing up. *)
Theorem C69_ground_pointing : forall az el : R,
  len2 (q_boreground az el) = 1
  /\ quat_conj_by (pure (0, 0, 1)) (q_boreground az el) = pure (direction (deg az) (deg el))
  /\ quat_conj_by (pure (1, 0, 0)) (q_boreground az el) = pure (upward (deg az) (deg el)).
Proof. exact boreground. Qed.
Print Assumptions C69_ground_pointing.

Example C69_nonvacuous :
  direction (deg 90) (deg 0) = (0, 1, 0) /\ upward (deg 90) (deg 0) = (0, 0, 1).
Proof.
  unfold direction, upward, deg.
  replace (90 * PI / 180) with (PI / 2) by field. replace (0 * PI / 180) with 0 by field.
  rewrite cos_PI2, sin_PI2, cos_0, sin_0. split; repeat f_equal; ring.
Qed.
