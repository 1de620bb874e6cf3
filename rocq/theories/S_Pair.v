(** * Specification vocabulary: detectors at different angles (C103) *)
From Coq Require Import Reals List ZArith String.
Import ListNotations.
From Verif Require Import Cplx M_Tod S_Tod.
Open Scope R_scope.

Notation rad x := (x * (PI / 180)).

(** The pointing of [n] samples on maps of [npix] pixels, with plate angles [h]. *)
Definition pointing (npix n : nat) (pix : list point) (pa : list R) (h : hwpang) : Prop :=
  List.length pix = n /\ List.length pa = n /\ angles_for n h /\ Forall (on_map npix) pix.

(** The spin maps without plate or with an ideal one ... *)
Definition ideal_sets (npix : nat) (d : spindict) (e00 e24 : spinset) : Prop :=
  NoDup (map fst d) /\ (forall k, In k (map fst d) <-> k = "s0a0"%string \/ k = "s2a4"%string)
  /\ In ("s0a0"%string, e00) d /\ In ("s2a4"%string, e24) d
  /\ well_sized npix e00 /\ well_sized npix e24 /\ Forall (fun s => 0 <= s)%Z (ss_svals e00).
(** ... and with any other. *)
Definition plate_sets (npix : nat) (d : spindict) (e00 e24 e20 e02 e22 : spinset) (S : nat) : Prop :=
  five_sets d e00 e24 e20 e02 e22 /\ Forall (well_sized npix) [e00; e24; e20; e02; e22]
  /\ Forall (fun s => 0 <= s)%Z (ss_svals e00) /\ ss_svals e02 = spins_both S.
