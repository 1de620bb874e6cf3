(** * Specification vocabulary for stratified media (C38, C39, C70, C71, C73-C75) *)
From Coq Require Import Reals List String.
From Verif Require Import Cplx Mat S_Mueller M_Transfer.
Import ListNotations.
Open Scope R_scope.

(** Field components tangential to an interface, (Ex, Hy, Ey, -Hx), of a wave
    [fwd] travelling towards the exit and a wave [bwd] coming back, both with
    electric-field components (in the plane of incidence, perpendicular to
    it), at an angle [theta] in a medium of index [n]. *)
Definition fields (n theta : R) (fwd bwd : v2 C) : v4 C :=
  V4 (RtoC (cos theta) * (f0 fwd - f0 bwd))%C
     (RtoC n * (f0 fwd + f0 bwd))%C
     (f1 fwd + f1 bwd)%C
     (RtoC (n * cos theta) * (f1 fwd - f1 bwd))%C.

Definition no_wave : v2 C := V2 (RtoC 0) (RtoC 0).

(** A medium with transfer matrix [m], i.e. giving the fields at its entrance
    from those at its exit, lit by [e] from the input side only, transmits
    [t] and reflects [r]. *)
Definition scatters (m : mat4) (n1 theta1 n3 theta3 : R) (e t r : v2 C) : Prop :=
  fields n1 theta1 e r = mvec4 m (fields n3 theta3 t no_wave).

(** Squared amplitude of a wave; its power through an interface is
    [n * cos theta * intensity]. *)
Definition intensity (e : v2 C) : R := Cnorm2 (f0 e) + Cnorm2 (f1 e).

(** Layers of a stack: thickness, material, angle of the axis. *)
Notation layer := (R * material * R)%type.
Definition stack_of (l : list layer) : stack :=
  Stack (map (fun x => fst (fst x)) l) (map (fun x => snd (fst x)) l) (map snd l).

(** Ordered product of matrices. *)
Definition product (l : list mat4) : mat4 := fold_right mmul4 eye4 l.

(** Light with invariant n sin(theta) = [nsin] enters the material: positive
    indices, no total reflection. *)
Definition transparent (nsin : R) (m : material) : Prop :=
  0 < ordinaryIndex m /\ 0 < extraIndex m
  /\ Rabs nsin < ordinaryIndex m /\ Rabs nsin < extraIndex m.

(** The material absorbs or is lossless. *)
Definition passive (m : material) : Prop := 0 <= ordinaryLoss m /\ 0 <= extraLoss m.
Definition lossless (m : material) : Prop := ordinaryLoss m = 0 /\ extraLoss m = 0.

(** Normal incidence, or an isotropic material, or an optical axis in the
    plane of incidence or perpendicular to it. *)
Definition aligned (nsin : R) (m : material) (chi : R) : Prop :=
  nsin = 0 \/ ordinaryIndex m = extraIndex m \/ cos chi = 0 \/ sin chi = 0.

(** Sum of [f 0 .. f (n-1)]. *)
Definition total (n : nat) (f : nat -> R) : R := fold_right Rplus 0 (map f (seq 0 n)).

(** Weights of the trapezium rule with [n] equidistant points, up to a factor. *)
Definition trapezium (n i : nat) : R :=
  if (Nat.eqb i 0 || Nat.eqb i (n - 1))%bool then 1 / 2 else 1.

(** Wave number in vacuum at [f] Hz, with the speed of light the code uses. *)
Definition wavenumber (f : R) : R := 2 * PI * f / 299800000.

(** Textbook characteristic matrix of a lossless slab: the two polarisations
    have admittances (magnetic over electric tangential field) [yp], [ys] and
    acquire the phases [dp], [ds]. *)
Definition slab (yp dp ys ds : R) : mat4 :=
  let o := RtoC 0 in
  V4 (V4 (RtoC (cos dp)) (0, sin dp / yp) o o)
     (V4 (0, yp * sin dp) (RtoC (cos dp)) o o)
     (V4 o o (RtoC (cos ds)) (0, sin ds / ys))
     (V4 o o (0, ys * sin ds) (RtoC (cos ds))).

(** Tangential fields (Ex, Hy, Ey, -Hx) turned by [t] about the normal. *)
Definition turn_fields (t : R) : mat4 :=
  let o := RtoC 0 in let c := RtoC (cos t) in let s := RtoC (sin t) in let m := RtoC (- sin t) in
  V4 (V4 c o m o) (V4 o c o m) (V4 s o c o) (V4 o s o c).
(** ... and of a Jones vector. *)
Definition turn_jones (t : R) : mat2 :=
  V2 (V2 (RtoC (cos t)) (RtoC (- sin t))) (V2 (RtoC (sin t)) (RtoC (cos t))).

(** The plates known by name; those whose axes all lie along one direction. *)
Definition known : list string := ["SPIDER_95"; "SPIDER_150"; "3AR1BRopti"; "1BR"; "3AR3BRopti"; "3BR";
  "3AR5BRopti"; "3AR5BRstd"; "5BR"]%string.
Definition single_axis : list string := ["SPIDER_95"; "SPIDER_150"; "3AR1BRopti"; "1BR"]%string.

(** A layer of a usable plate. *)
Definition usable (x : layer) : Prop :=
  0 < fst (fst x) /\ 1 < ordinaryIndex (snd (fst x)) /\ 1 < extraIndex (snd (fst x)) /\ passive (snd (fst x)).

(** Mueller matrix of a passive element: light of any polarisation leaves it as
    light, and not more of it; no element exceeds the first. *)
Definition physical_transmission (m : rmat4) : Prop :=
  (forall s, physical s -> physical (rmvec4 m s) /\ e0 (rmvec4 m s) <= e0 s) /\
  forall (i : rmat4 -> v4 R) (j : v4 R -> R),
    In i [e0; e1; e2; e3] -> In j [e0; e1; e2; e3] -> Rabs (j (i m)) <= e0 (e0 m).
