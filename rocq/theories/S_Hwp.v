(** * Specification vocabulary for angles *)
From Coq Require Import Reals ZArith List.
Open Scope R_scope.

(** Equal up to a whole number of turns (radians). *)
Definition same_phase (x y : R) : Prop := exists z : Z, x = y + 2 * PI * IZR z.

(** Number of samples before chunk [j] when the chunks have lengths [ns]. *)
Definition before (ns : list nat) (j : nat) : nat := fold_right plus O (firstn j ns).
