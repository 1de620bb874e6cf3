(** * Specification vocabulary for quaternions (C33, C68, C69)

    Hamilton's rules, vectors of R^3 and rotations, written without reference
    to the model's functions. *)
From Coq Require Import Reals.
From Verif Require Import M_Quat.
Open Scope R_scope.

Definition add (p q : quat) : quat :=
  Q4 (q0 p + q0 q) (q1 p + q1 q) (q2 p + q2 q) (q3 p + q3 q).
Definition scale (c : R) (q : quat) : quat :=
  Q4 (c * q0 q) (c * q1 q) (c * q2 q) (c * q3 q).
Definition qone := Q4 1 0 0 0.
Definition qi := Q4 0 1 0 0.
Definition qj := Q4 0 0 1 0.
Definition qk := Q4 0 0 0 1.
Definition qzero := Q4 0 0 0 0.

(** Euclidean length squared. *)
Definition len2 (q : quat) : R := q0 q ^ 2 + q1 q ^ 2 + q2 q ^ 2 + q3 q ^ 2.

(** [m] is Hamilton's product: bilinear, and i^2 = j^2 = k^2 = ijk = -1. *)
Record hamilton (m : quat -> quat -> quat) : Prop := {
  ham_add_l : forall p p' q, m (add p p') q = add (m p q) (m p' q);
  ham_add_r : forall p q q', m p (add q q') = add (m p q) (m p q');
  ham_scale_l : forall c p q, m (scale c p) q = scale c (m p q);
  ham_scale_r : forall c p q, m p (scale c q) = scale c (m p q);
  ham_one_l : forall q, m qone q = q;
  ham_one_r : forall q, m q qone = q;
  ham_assoc : forall p q r, m p (m q r) = m (m p q) r;
  ham_ii : m qi qi = scale (-1) qone;
  ham_jj : m qj qj = scale (-1) qone;
  ham_kk : m qk qk = scale (-1) qone;
  ham_ijk : m (m qi qj) qk = scale (-1) qone }.

(** Vectors of R^3 as triples and as pure quaternions. *)
Definition vec : Type := (R * R * R)%type.
Definition pure (v : vec) : quat := let '(x, y, z) := v in Q4 0 x y z.
Definition dot (u v : vec) : R :=
  let '(a, b, c) := u in let '(x, y, z) := v in a * x + b * y + c * z.
Definition cross (u v : vec) : vec :=
  let '(a, b, c) := u in let '(x, y, z) := v in
  (b * z - c * y, c * x - a * z, a * y - b * x).
Definition vadd (u v : vec) : vec :=
  let '(a, b, c) := u in let '(x, y, z) := v in (a + x, b + y, c + z).
Definition vscale (t : R) (v : vec) : vec :=
  let '(x, y, z) := v in (t * x, t * y, t * z).

(** Rodrigues' formula: [v] turned by the angle [t] about the unit axis [n]. *)
Definition rotated (n : vec) (t : R) (v : vec) : vec :=
  vadd (vscale (cos t) v)
       (vadd (vscale (sin t) (cross n v)) (vscale ((1 - cos t) * dot n v) n)).

(** The unit quaternion of a rotation by [t] about [n]. *)
Definition rotor (n : vec) (t : R) : quat :=
  let '(x, y, z) := n in
  Q4 (cos (t / 2)) (sin (t / 2) * x) (sin (t / 2) * y) (sin (t / 2) * z).

Definition axis_x : vec := (1, 0, 0).
Definition axis_z : vec := (0, 0, 1).

(** Degrees to radians. *)
Definition deg (x : R) : R := x * PI / 180.

(** Direction with longitude [lon] and latitude [lat], and the direction in
    which the latitude increases there. *)
Definition direction (lon lat : R) : vec :=
  (cos lat * cos lon, cos lat * sin lon, sin lat).
Definition upward (lon lat : R) : vec :=
  (- (sin lat * cos lon), - (sin lat * sin lon), cos lat).
