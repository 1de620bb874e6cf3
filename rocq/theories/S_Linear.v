(** * Specification vocabulary: superposition (C89) *)
From Coq Require Import Reals List.
Import ListNotations.
From Verif Require Import Cplx.
Open Scope R_scope.

(** a x + b y, for complex numbers, arrays, and sets of arrays. *)
Definition mix1 (a b : R) (x y : C) : C := (RtoC a * x + RtoC b * y)%C.
Definition mix (a b : R) (x y : list C) : list C :=
  map (fun p => mix1 a b (fst p) (snd p)) (combine x y).
Definition mixes (a b : R) (x y : list (list C)) : list (list C) :=
  map (fun p => mix a b (fst p) (snd p)) (combine x y).
Definition rmix (a b : R) (x y : list R) : list R :=
  map (fun p => a * fst p + b * snd p) (combine x y).

(** The same number of arrays, of the same lengths. *)
Definition same_shape (x y : list (list C)) : Prop := map (@length C) x = map (@length C) y.

(** The harmonic transforms are linear, and the number of pixels depends on the
    number of coefficients only. *)
Definition linear_transforms (alm2map : list C -> list R)
  (alm2map_spin : list C -> list C -> Z -> list R * list R) : Prop :=
  (forall a b x y, length x = length y ->
     length (alm2map x) = length (alm2map y)
     /\ alm2map (mix a b x y) = rmix a b (alm2map x) (alm2map y))
  /\ (forall a b x y x' y' s, length x = length y -> length x' = length y' ->
     let '(p, q) := alm2map_spin x x' s in
     let '(p', q') := alm2map_spin y y' s in
     length p = length p' /\ length q = length q'
     /\ alm2map_spin (mix a b x y) (mix a b x' y') s = (rmix a b p p', rmix a b q q')).

(** Coefficients as handed to the library (none of them NaN or infinite). *)
Definition given (x : list (list C)) : list (list (option C)) := map (map Some) x.
