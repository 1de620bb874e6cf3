(** * Specification vocabulary for work distribution (independent of the model) *)
From Verif Require Import Common.

(** The parts, taken in rank order, are exactly the whole. *)
Definition covers {A} (parts : list (list A)) (whole : list A) : Prop :=
  concat parts = whole.

(** Part sizes never increase with the rank and differ by at most one. *)
Definition balanced {A} (parts : list (list A)) : Prop :=
  forall i j a b, i <= j -> nth_error parts i = Some a ->
    nth_error parts j = Some b ->
    length b <= length a /\ length a <= length b + 1.

(** What all ranks hold, in rank order, for a rank-indexed quantity. *)
Definition on_ranks {B} (size : nat) (f : nat -> B) : list B := map f (seq 0 size).

(** The part [p] is a contiguous slice of [l]. *)
Definition contiguous {A} (p l : list A) : Prop :=
  exists before after, l = before ++ p ++ after.
