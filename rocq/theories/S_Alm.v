(** * Specification vocabulary for coefficient arrays (independent of the model)

    Layout of healpy arrays: all (l, m) with m <= mmax and m <= l <= lmax, in
    order of m first, then l. *)
From Verif Require Import Common.
Open Scope nat_scope.

(** Row of modes with a given m. *)
Definition row {A} (lmax : nat) (f : nat -> nat -> A) (m : nat) : list A :=
  map (fun l => f l m) (seq m (lmax + 1 - m)).

(** The array that holds [f l m] for mode (l, m). *)
Definition of_modes {A} (lmax mmax : nat) (f : nat -> nat -> A) : list A :=
  concat (map (row lmax f) (seq 0 (mmax + 1))).

(** Coefficient (l, m) for any integer m, from the coefficients with m >= 0 of
    a field of spin s ([own]) and of spin -s ([other]): b(l,-m) of one is
    (-1)^m times the conjugate of b(l,m) of the other. *)
Definition coef {A} (zero : A) (conj opp : A -> A) (own other : nat -> nat -> A)
  (l : nat) (m : Z) : A :=
  if (Z.of_nat l <? Z.abs m)%Z then zero
  else if (0 <=? m)%Z then own l (Z.to_nat m)
  else let c := conj (other l (Z.to_nat (- m))) in
       if Z.even m then c else opp c.
