(** * Specification vocabulary for chunk tilings (independent of the model) *)
From Verif Require Import Common.
Open Scope Z_scope.

(** The non-empty half-open intervals in [l] are adjacent, in order, start at
    [lo] and end at [hi]. *)
Fixpoint tiles (lo hi : Z) (l : list (Z * Z)) : Prop :=
  match l with
  | [] => lo = hi
  | (a, b) :: r => a = lo /\ a < b /\ tiles b hi r
  end.

(** Interval [a,b) lies in one period of length [p] (periods start at
    multiples of [p]). *)
Definition in_one_period (p : Z) (ab : Z * Z) : Prop :=
  exists k, k * p <= fst ab /\ snd ab <= (k + 1) * p.

(** Interval that begins strictly inside a period and does not extend beyond
    that period. *)
Definition inside_period (p : Z) (ab : Z * Z) : bool :=
  negb (fst ab mod p =? 0) && (snd ab <=? (fst ab / p + 1) * p).

(** Number of elements satisfying a test. *)
Definition count {A} (f : A -> bool) (l : list A) : Z :=
  Z.of_nat (length (filter f l)).

Definition zlen {A} (l : list A) : Z := Z.of_nat (length l).

(** A chunk-size argument that is None, zero or positive. *)
Definition admissible (chunksize : option Z) : Prop :=
  match chunksize with Some c => 0 <= c | None => True end.

(** The chunk size that should be used for [n] samples: the one asked for when
    it is positive and smaller than the mission, else the whole mission. *)
Definition used_size (n : Z) (chunksize : option Z) : Z :=
  match chunksize with
  | Some c => if (0 <? c) && (c <? n) then c else n
  | None => n
  end.
