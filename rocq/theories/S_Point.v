(** * Specification vocabulary: boresight motion *)
From Coq Require Import Reals List ZArith.
Import ListNotations.
Open Scope R_scope.

(** Which of the patches is scanned at time [t]: the first one, in the order
    given, that is at [el_min] or higher, at its position then; or, when all
    are lower, the azimuth of the last one at elevation [el_min], with the
    interval flagged when [cut] was asked for. *)
Definition chosen (hor : R -> R -> R -> R * R) (ras decs : list R) (el_min : R) (cut : bool)
  (t az el : R) (flag : bool) : Prop :=
  (exists j ra dec, nth_error ras j = Some ra /\ nth_error decs j = Some dec
     /\ hor ra dec t = (az, el) /\ el_min <= el /\ flag = false
     /\ forall k ra' dec', (k < j)%nat -> nth_error ras k = Some ra' -> nth_error decs k = Some dec' ->
          snd (hor ra' dec' t) < el_min)
  \/ ((forall k ra dec, nth_error ras k = Some ra -> nth_error decs k = Some dec ->
         snd (hor ra dec t) < el_min)
      /\ el = el_min /\ flag = cut
      /\ exists ra dec, nth_error ras (length ras - 1) = Some ra /\ nth_error decs (length decs - 1) = Some dec
           /\ az = fst (hor ra dec t)).

(** Triangle wave of total width [throw] at [speed], with value 0 and rising at
    time 0: period [2 throw / speed], and linear between the turning points. *)
Definition triangle (throw speed t x : R) : Prop :=
  let T := 2 * throw / speed in
  forall k : Z,
    (Rabs (t - IZR k * T) <= T / 4 -> x = speed * (t - IZR k * T))
    /\ (Rabs (t - (IZR k + / 2) * T) <= T / 4 -> x = - speed * (t - (IZR k + / 2) * T)).

(** Sawtooth wave of width [throw] at [speed], at the lower end at time 0. *)
Definition sawtooth (throw speed t x : R) : Prop :=
  - throw / 2 <= x < throw / 2 /\ exists k : Z, x = speed * t - throw / 2 - IZR k * throw.

(** Equal up to whole turns (degrees). *)
Definition same_angle (x y : R) : Prop := exists k : Z, x = y + 360 * IZR k.

(** Angle [x] (degrees) is met going up from [a] to [b], through 360 if [b < a]. *)
Definition on_arc (a b x : R) : Prop :=
  exists y, same_angle x y /\ a <= y <= (if Rlt_dec b a then b + 360 else b).

(** Time of the check that covers sample [i] of a chunk beginning at sample
    [start]: the patches are looked up once every [check_len] samples. *)
Definition check_time (fsamp ctime0 : R) (start : Z) (check_len i : nat) : R :=
  IZR (start + Z.of_nat (i / check_len * check_len)) / fsamp + ctime0.
