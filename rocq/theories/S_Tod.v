(** * Specification vocabulary for timestreams (C23-C25, C53) *)
From Coq Require Import Reals List ZArith String.
Import ListNotations.
From Verif Require Import Cplx M_Tod.
Open Scope R_scope.

Definition csum (l : list C) : C := fold_right Cadd (RtoC 0) l.
Definition rsum (l : list R) : R := fold_right Rplus 0 l.

(** The sky seen by a sample: the value of its pixel, or the weighted mean of
    the pixels around it. *)
Definition value (m : list C) (p : point) : C :=
  match p with
  | Pix i => nth i m (RtoC 0)
  | Interp w => csum (map (fun xi => RtoC (fst xi) * nth (snd xi) m (RtoC 0))%C w)
  end.

(** All pixels of [p] exist in maps of [npix] pixels. *)
Definition on_map (npix : nat) (p : point) : Prop :=
  match p with
  | Pix i => (i < npix)%nat
  | Interp w => Forall (fun xi => (snd xi < npix)%nat) w
  end.

(** sum over s of map_s(p) exp(-i s psi). *)
Definition spin_sum (maps : list (list C)) (spins : list Z) (p : point) (psi : R) : C :=
  csum (map (fun sm => value (snd sm) p * cis (- (IZR (fst sm) * psi)))%C
            (combine spins maps)).

(** The same with the terms of spin s <> 0 counted twice, real part: the sum
    over both signs of s of maps with map_{-s} = conj map_s. *)
Definition two_sided_sum (maps : list (list C)) (spins : list Z) (p : point) (psi : R) : R :=
  rsum (map (fun sm => (if (fst sm =? 0)%Z then 1 else 2)
                       * Re (value (snd sm) p * cis (- (IZR (fst sm) * psi)))%C)
            (combine spins maps)).

(** -S, ..., S and 0, ..., S. *)
Definition spins_upto (S : nat) : list Z := map Z.of_nat (seq 0 (S + 1)).
Definition spins_both (S : nat) : list Z :=
  map (fun k => Z.of_nat k - Z.of_nat S)%Z (seq 0 (2 * S + 1)).

(** A set of one map per spin, all with [npix] pixels. *)
Definition well_sized (npix : nat) (e : spinset) : Prop :=
  ss_svals e <> [] /\ List.length (ss_maps e) = List.length (ss_svals e)
  /\ Forall (fun m => List.length m = npix) (ss_maps e).

(** The physical signal of a detector at angle [pol] (radians) behind a
    half-wave plate at angle [a]: intensity, polarisation modulated by the
    plate, unmodulated polarisation, and the two leakages. *)
Definition signal (s0a0 s2a4 s2a0 s0a2 s2a2 : spinset) (p : point) (psi pol a : R) : R :=
  let sum e := spin_sum (ss_maps e) (ss_svals e) p psi in
  two_sided_sum (ss_maps s0a0) (ss_svals s0a0) p psi
  + Re (sum s2a4 * cis (4 * a + 2 * pol))%C
  + Re (sum s2a0 * cis (2 * pol))%C
  + Re (sum s0a2 * cis (2 * a + 2 * pol))%C
  + Re (sum s2a2 * cis (2 * a))%C.

(** The plate angle at sample [i]; one angle for all samples or one per sample. *)
Definition angle_at (h : hwpang) (i : nat) : R :=
  match h with Fixed a => a | Sampled l => nth i l 0 end.
Definition angles_for (n : nat) (h : hwpang) : Prop :=
  match h with Fixed _ => True | Sampled l => List.length l = n end.

(** A dictionary holding the five sets of spin maps of a non-ideal plate. *)
Definition five_sets (d : spindict) (s0a0 s2a4 s2a0 s0a2 s2a2 : spinset) : Prop :=
  NoDup (map fst d)
  /\ In ("s0a0"%string, s0a0) d /\ In ("s2a4"%string, s2a4) d /\ In ("s2a0"%string, s2a0) d
  /\ In ("s0a2"%string, s0a2) d /\ In ("s2a2"%string, s2a2) d.
