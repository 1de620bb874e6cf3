(** * Specification vocabulary for crosstalk ghosts *)
From Coq Require Import Reals.

(** The A member ([false]) or B member ([true]) of a pair. *)
Definition part {A} (second : bool) (p : A * A) : A := if second then snd p else fst p.

(** Position of a member when pairs are gone through in order. *)
Definition place (q : nat) (second : bool) : nat := 2 * q + (if second then 1 else 0).
