(** * Model of the floating point arithmetic behind sample counts

    Python floats are IEEE binary64 numbers; a float operation is the exact one
    followed by rounding to nearest, ties to even.  Underflow is modelled,
    overflow is not (numbers have no upper bound). *)
From Coq Require Import Reals ZArith.
From Flocq Require Import Core.

(** Rounding to binary64. *)
Definition b64 (x : R) : R := round radix2 (FLT_exp (-1074) 53) ZnearestE x.

(** [int(np.ceil(a / float(b)))] for integers: instrument.py:1529 (chunks of a
    mission), 1575-1580 (sub-chunks), 1844 (pairs per rank), 2086 (steps),
    2262 (elevation checks), 2872 (chunks of a schedule). *)
Definition float_ceil (a b : Z) : Z := Zceil (b64 (b64 (IZR a) / b64 (IZR b))).

(** [int(x * y)] for floats: instrument.py:1264 (number of samples), 1353
    (rotation period), 1468 (elevation steps), 2260 (check interval). *)
Definition float_count (x y : R) : Z := Ztrunc (b64 (x * y)).
