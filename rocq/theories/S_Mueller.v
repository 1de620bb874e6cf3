(** * Specification vocabulary for Mueller and Jones matrices (C34-C37, C54, C72) *)
From Coq Require Import Reals.
From Verif Require Import Cplx Mat.
Open Scope R_scope.

(** Stokes vectors (I, Q, U, V) and their components I, (Q+iU)/sqrt 2,
    (Q-iU)/sqrt 2, V of spin 0, 2, -2, 0. *)
Definition stokes := v4 R.
Definition spin_components (s : stokes) : v4 C :=
  V4 (RtoC (e0 s)) (e1 s / sqrt 2, e2 s / sqrt 2) (e1 s / sqrt 2, - (e2 s / sqrt 2))
     (RtoC (e3 s)).
(** I, Q + iU, Q - iU, V. *)
Definition ipp_components (s : stokes) : v4 C :=
  V4 (RtoC (e0 s)) (e1 s, e2 s) (e1 s, - e2 s) (RtoC (e3 s)).

(** The ideal half-wave plate: Q kept, U and V reversed. *)
Definition ideal_hwp : rmat4 := diag4 0 1 1 (-1) (-1).

(** Stokes vector of a light wave with complex field components (x, y). *)
Definition stokes_of (e : v2 C) : stokes :=
  let x := f0 e in let y := f1 e in
  let xy := Cmul x (Cconj y) in
  V4 (Cnorm2 x + Cnorm2 y) (Cnorm2 x - Cnorm2 y) (2 * Re xy) (- 2 * Im xy).

(** Degree of polarisation at most one. *)
Definition physical (s : stokes) : Prop :=
  0 <= e0 s /\ e1 s ^ 2 + e2 s ^ 2 + e3 s ^ 2 <= e0 s ^ 2.

(** Turning the polarisation plane by [t]: of a field, of a Stokes vector. *)
Definition turn_field (t : R) (e : v2 C) : v2 C :=
  V2 (RtoC (cos t) * f0 e - RtoC (sin t) * f1 e)%C
     (RtoC (sin t) * f0 e + RtoC (cos t) * f1 e)%C.
Definition turn (t : R) (s : stokes) : stokes :=
  V4 (e0 s) (cos (2 * t) * e1 s - sin (2 * t) * e2 s)
     (sin (2 * t) * e1 s + cos (2 * t) * e2 s) (e3 s).

(** [m'] is the optical element [m] turned by [t]: turning the incoming light
    and the element turns the outgoing light. *)
Definition is_turned (t : R) (m m' : rmat4) : Prop :=
  forall s, rmvec4 m' (turn t s) = turn t (rmvec4 m s).
