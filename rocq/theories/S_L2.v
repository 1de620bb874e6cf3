(** * Specification vocabulary: space-mission boresight *)
From Coq Require Import Reals.
From Verif Require Import M_Quat S_Quat.
Open Scope R_scope.

Definition north : vec := (0, 0, 1).
(** Unit vector in the ecliptic plane at longitude [phi]. *)
Definition ecliptic (phi : R) : vec := (cos phi, sin phi, 0).

(** The spin axis: tilted by [ta] away from [a], then carried around [a] by the
    precession angle [p]. *)
Definition spin_axis (a : vec) (ta p : R) : vec :=
  rotated a p (vadd (vscale (cos ta) a) (vscale (- sin ta) north)).

(** The boresight: tilted by [ta + tb] away from [a], carried around [a] with
    the spin axis, then turned about the spin axis by the spin angle [q]. *)
Definition boresight (a : vec) (ta tb p q : R) : vec :=
  rotated (spin_axis a ta p) q
    (rotated a p (vadd (vscale (cos (ta + tb)) a) (vscale (- sin (ta + tb)) north))).

(** Unit vectors of increasing colatitude and longitude at the direction
    (colatitude [t], longitude [p]), and that direction. *)
Definition at_colat (t p : R) : vec := (sin t * cos p, sin t * sin p, cos t).
Definition e_colat (t p : R) : vec := (cos t * cos p, cos t * sin p, - sin t).
Definition e_long (p : R) : vec := (- sin p, cos p, 0).

(** Away from the poles. *)
Definition off_pole (v : vec) : Prop := let '(x, y, _) := v in x * x + y * y <> 0.

(** Longitude in the ecliptic that the L2 scan uses for the Sun at Unix time [t]. *)
Definition used_phase (t : R) : R := 2 * PI / 365.25 * (t / 86400 + 25567.5 - 2415020).
