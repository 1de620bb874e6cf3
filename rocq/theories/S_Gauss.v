(** * Specification vocabulary: Gaussian beams (C94) *)
From Coq Require Import Reals Bool.
From Verif Require Import Common Cplx.
Open Scope R_scope.

Definition arcmin (x : R) : R := x * (PI / 10800).

(** A Gaussian of width [sigma], and its full width at half maximum. *)
Definition profile (sigma theta : R) : R := exp (- (theta ^ 2) / (2 * sigma ^ 2)).
Definition has_fwhm (sigma w : R) : Prop :=
  0 < sigma /\ profile sigma (w / 2) = profile sigma 0 / 2.

(** Its harmonic window for intensity and for polarisation (Challinor et al.
    2000), as healpy smooths. *)
Definition window (sigma : R) (l : nat) : R := exp (- (INR l * (INR l + 1)) * sigma ^ 2 / 2).
Definition pol_window (sigma : R) (l : nat) : R := exp (- (INR l * (INR l + 1) - 4) * sigma ^ 2 / 2).

(** Coefficients of the intensity beam and of the spin -2 part of the
    co-polar beam. *)
Definition gauss_I (a sigma : R) (l m : nat) : C := if (m =? 0)%nat then RtoC (a * window sigma l) else RtoC 0.
Definition gauss_m2 (a sigma : R) (l m : nat) : C :=
  if ((m =? 2)%nat && (2 <=? l)%nat)%bool then RtoC (a * pol_window sigma l) else RtoC 0.

(** The three arrays of a beam, as the spin maps take them. *)
Definition some_arrays (b : list C * list C * list C) : list (list (option C)) :=
  [map Some (fst (fst b)); map Some (snd (fst b)); map Some (snd b)].
