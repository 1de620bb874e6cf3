(** * Specification vocabulary for azimuthal orders (C105) *)
From Coq Require Import Reals List ZArith.
From Verif Require Import Cplx Mat S_Alm S_Mueller S_Spin.
Open Scope R_scope.

(** A beam's settings: declared symmetric, band limit mmax, and the argument
    max_spin given when scanning. *)
Record orders_of := Orders { declared : bool; mmax : nat; max_spin : nat }.

(** Azimuthal order [s] is computed: for a beam declared symmetric order [k]
    alone (0 for intensity, 2 for polarisation), otherwise all up to the smaller
    of mmax and max_spin. *)
Definition computed (o : orders_of) (k s : Z) : Prop :=
  if declared o then s = k else (Z.abs s <= Z.of_nat (Nat.min (mmax o) (max_spin o)))%Z.

(** All orders at which the beam (I, -2, +2) has coefficients up to [L] are
    computed.  A plate brings polarisation from order s of the polarised beam to
    orders 2 - s (intensity of the sky) and 4 - s, and the intensity beam from
    order s to s + 2. *)
Definition enough (plate : bool) (L : nat) (bI bm bp : nat -> nat -> C) (o : orders_of) : Prop :=
  forall l s, (l <= L)%nat ->
  (mode bI bI l s <> RtoC 0 -> computed o 0 s /\ (plate = true -> computed o 2 (s + 2)))
  /\ (mode bm bp l s <> RtoC 0 ->
        computed o 2 s /\ (plate = true -> computed o 0 (2 - s) /\ computed o 2 (4 - s))).

(** An axisymmetric beam: intensity at order 0, polarisation at order 2. *)
Definition axisymmetric (bI bm bp : nat -> nat -> C) : Prop :=
  forall l m, (m <> 0%nat -> bI l m = RtoC 0) /\ (m <> 2%nat -> bm l m = RtoC 0) /\ bp l m = RtoC 0.

(** No coefficients above order [M]. *)
Definition order_limited (M : nat) (bI bm bp : nat -> nat -> C) : Prop :=
  forall l m, (M < m)%nat -> bI l m = RtoC 0 /\ bm l m = RtoC 0 /\ bp l m = RtoC 0.

(** A plate that takes as much intensity to Q and U as it takes from them (for
    other plates see C54), and the band limit it needs. *)
Definition plate_ok (L : nat) (hwp : option rmat4) : Prop :=
  match hwp with
  | None => (2 <= L)%nat
  | Some m => (4 <= L)%nat /\ e0 (e1 m) = e1 (e0 m) /\ e0 (e2 m) = e2 (e0 m)
  end.
Definition mueller (hwp : option rmat4) : option mat4 := option_map cmat hwp.
Definition has (hwp : option rmat4) : bool := match hwp with Some _ => true | None => false end.
