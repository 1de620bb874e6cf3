(** * Common vocabulary of the model

    Python exceptions are values; slices and a few list operations of Python
    and NumPy that several parts of the model share. *)
From Coq Require Export List Arith ZArith Lia Bool.
Export ListNotations.

(** Exceptions the modelled code raises (explicitly or through the run time). *)
Inductive exn : Set :=
| ValueError | TypeError | IndexError | KeyError | AttributeError
| ZeroDivisionError | NameError | UnboundLocalError | RuntimeError
| IOError | AssertionError | MpiError | StopIteration | OverflowError | LinAlgError.

(** Result of a Python call: a value or a raised exception. *)
Inductive res (A : Type) : Type :=
| Ok (a : A)
| Err (e : exn).
Arguments Ok {A} _.
Arguments Err {A} _.

Definition bind {A B} (r : res A) (f : A -> res B) : res B :=
  match r with Ok a => f a | Err e => Err e end.

Declare Scope res_scope.
Notation "'do' x <- e ; f" := (bind e (fun x => f))
  (at level 200, x pattern, e at level 100, f at level 200) : res_scope.
Open Scope res_scope.

Definition is_ok {A} (r : res A) : Prop := exists a, r = Ok a.

(** Python slice [l[i:j]] for [0 <= i] and [0 <= j]. *)
Definition slice {A} (l : list A) (i j : nat) : list A :=
  firstn (j - i) (skipn i l).

(** Python slice assignment [l[i:i+len(p)] = p] inside the bounds of [l]. *)
Definition splice {A} (l : list A) (i : nat) (p : list A) : list A :=
  firstn i l ++ p ++ skipn (i + length p) l.

(** Python indexing [l[i]] for [0 <= i]. *)
Definition index {A} (l : list A) (i : nat) : res A :=
  match nth_error l i with Some a => Ok a | None => Err IndexError end.

(** [int(np.ceil(a / float(b)))] for naturals, [b > 0].  Exact-arithmetic
    reading; [P_Float] shows binary64 evaluation agrees below 2^53. *)
Definition ceil_div (a b : nat) : nat := (a + b - 1) / b.

Fixpoint sum (l : list nat) : nat :=
  match l with [] => 0 | x :: r => x + sum r end.
