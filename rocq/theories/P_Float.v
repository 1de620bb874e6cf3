(** * Property theorems: counts computed in floating point (C84, C85) *)
From Coq Require Import Reals ZArith Lra.
From Flocq Require Import Core.
From Verif Require Import Common M_Chunks M_Float L_Float.
Open Scope R_scope.

(** C84: the number of chunks, steps or rounds computed from integers below
    2^53 with a float division is the smallest integer not below the exact
    quotient ... *)
Theorem C84_smallest_count : forall a b : Z, (Z.abs a < 2 ^ 53)%Z -> (0 < b < 2 ^ 53)%Z ->
  IZR (float_ceil a b) - 1 < IZR a / IZR b <= IZR (float_ceil a b).
Proof. exact float_ceil_spec. Qed.
Print Assumptions C84_smallest_count.

(** ... so the exact integer division of the other models (M_Chunks, M_Mpi,
    M_Steps, M_Point, M_Sched) is the division the program performs. *)
Theorem C84_as_modelled : forall a b : Z, (Z.abs a < 2 ^ 53)%Z -> (0 < b < 2 ^ 53)%Z ->
  float_ceil a b = zceil_div a b.
Proof. exact float_is_model. Qed.
Print Assumptions C84_as_modelled.

Theorem C84_as_modelled_nat : forall a b : nat, (Z.of_nat a < 2 ^ 53)%Z -> (0 < Z.of_nat b < 2 ^ 53)%Z ->
  float_ceil (Z.of_nat a) (Z.of_nat b) = Z.of_nat (ceil_div a b).
Proof. exact float_is_model_nat. Qed.
Print Assumptions C84_as_modelled_nat.

Example C84_case : float_ceil 1000001 1000 = 1001%Z /\ (Z.abs 1000001 < 2 ^ 53)%Z /\ (0 < 1000 < 2 ^ 53)%Z.
Proof. split; [rewrite C84_as_modelled by (split || idtac; reflexivity); reflexivity|]. repeat split; reflexivity. Qed.

(** C85: a whole number of seconds at a whole sample rate. *)
Theorem C85_integers_partial : forall seconds rate : Z, (0 <= seconds)%Z -> (0 <= rate)%Z ->
  (seconds * rate <= 2 ^ 53)%Z -> float_count (IZR seconds) (IZR rate) = (seconds * rate)%Z.
Proof. exact count_int. Qed.
Print Assumptions C85_integers_partial.

(** For the duration n / rate (as a float) the count is n or one less. *)
Theorem C85_near_partial : forall (n : Z) (rate : R), (1 <= n < 2 ^ 51)%Z ->
  bpow radix2 (-900) <= rate <= bpow radix2 900 ->
  float_count (b64 (IZR n / rate)) rate = n \/ float_count (b64 (IZR n / rate)) rate = (n - 1)%Z.
Proof. exact count_near. Qed.
Print Assumptions C85_near_partial.

(** One less it is for 29 samples at 100 Hz. *)
Theorem C85_lost_sample_refuted : float_count (b64 (29 / 100)) 100 = 28%Z.
Proof. exact count_29. Qed.
Print Assumptions C85_lost_sample_refuted.

Example C85_case : (1 <= 29 < 2 ^ 51)%Z /\ bpow radix2 (-900) <= 100 <= bpow radix2 900.
Proof.
  split; [split; reflexivity || discriminate|]. split.
  - apply Rle_trans with (bpow radix2 0); [apply bpow_le; discriminate|cbn; lra].
  - apply Rle_trans with (bpow radix2 7); [cbn; lra|apply bpow_le; discriminate].
Qed.
