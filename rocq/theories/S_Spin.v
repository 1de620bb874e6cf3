(** * Specification vocabulary for spin maps (C48, C53, C78) *)
From Coq Require Import Reals List ZArith.
Import ListNotations.
From Verif Require Import Cplx S_Alm S_Tod.
Open Scope R_scope.

(** Coefficient (l, m), m of any sign, of a spin field given by its modes
    [own] with m >= 0 and those of its conjugate field [other]. *)
Definition mode (own other : nat -> nat -> C) (l : nat) (m : Z) : C :=
  coef (RtoC 0) Cconj Copp own other l m.

(** -l, ..., l. *)
Definition orders (l : nat) : list Z := map (fun k => Z.of_nat k - Z.of_nat l)%Z (seq 0 (2 * l + 1)).

(** sum over l <= L and -l <= m <= l of f_lm sY_lm at a pixel; [Y s l m p] is
    the spin-weighted spherical harmonic at pixel [p]. *)
Definition field (Y : Z -> nat -> Z -> nat -> C) (L : nat) (s : Z) (f : nat -> Z -> C) (p : nat) : C :=
  csum (map (fun l => csum (map (fun m => f l m * Y s l m p)%C (orders l))) (seq 0 (L + 1))).

(** conj sY_lm = (-1)^(s+m) -sY_l,-m. *)
Definition conj_symmetric (Y : Z -> nat -> Z -> nat -> C) : Prop :=
  forall s l m p, Cconj (Y s l m p)
    = (if Z.even (s + m) then Y (- s)%Z l (- m)%Z p else Copp (Y (- s)%Z l (- m)%Z p)).

(** The coefficients with m = 0 are real (coefficients of a real field). *)
Definition real_m0 (f : nat -> nat -> C) : Prop := forall l, Im (f l 0%nat) = 0.

(** What HEALPix computes: [alm2map] the real field with coefficients a_lm;
    [alm2map_spin] of (a+, a-) the real and imaginary part of the spin-s field
    with coefficients -(a+ + i a-), where a+ and a- belong to real fields. *)
Definition healpix (Y : Z -> nat -> Z -> nat -> C) (npix L : nat)
  (alm2map : list C -> list R) (alm2map_spin : list C -> list C -> Z -> list R * list R) : Prop :=
  (forall a, real_m0 a ->
     alm2map (of_modes L L a) = map (fun p => Re (field Y L 0 (mode a a) p)) (seq 0 npix))
  /\ (forall ap am s, real_m0 ap -> real_m0 am -> (0 < s)%Z ->
     let f := field Y L s (mode (fun l m => - (ap l m + Ci * am l m))%C
                                (fun l m => - (ap l m - Ci * am l m))%C) in
     alm2map_spin (of_modes L L ap) (of_modes L L am) s
     = (map (fun p => Re (f p)) (seq 0 npix), map (fun p => Im (f p)) (seq 0 npix))).

(** Spin +-2 coefficients of a polarised sky with modes E, B. *)
Definition plus2 (E B : nat -> nat -> C) (l m : nat) : C := (- (E l m + Ci * B l m))%C.
Definition minus2 (E B : nat -> nat -> C) (l m : nat) : C := (- (E l m - Ci * B l m))%C.

(** Convolution of sky coefficients f with beam coefficients g, seen at
    pixel [q] by a beam turned by psi. *)
Definition convolved (Y : Z -> nat -> Z -> nat -> C) (L : nat) (f g : nat -> Z -> C)
  (spins : list Z) (q : nat) (psi : R) : C :=
  csum (map (fun s => field Y L s (fun l m => f l m * g l s)%C q * cis (- (IZR s * psi)))%C spins).

(** Sky (I, E, B) and beam (I, -2, +2) given to the library: arrays of modes. *)
Definition sky_arrays (L : nat) (aI aE aB : nat -> nat -> C) : list (list (option C)) :=
  [map Some (of_modes L L aI); map Some (of_modes L L aE); map Some (of_modes L L aB)].
Definition beam_arrays (L : nat) (bI bm bp : nat -> nat -> C) : list (list (option C)) :=
  [map Some (of_modes L L bI); map Some (of_modes L L bm); map Some (of_modes L L bp)].

(** Beam coefficients displaced in azimuthal order by k and scaled by c. *)
Definition displaced (g : nat -> Z -> C) (k : Z) (c : C) (l : nat) (s : Z) : C :=
  if (Z.abs s <=? Z.of_nat l)%Z then (g l (s + k)%Z * c)%C else RtoC 0.

(** Sky (I, E, B, V) and beam (I, -2, +2, V), and coefficients that count only
    if circular polarisation is requested. *)
Definition sky_arrays_v (L : nat) (aI aE aB aV : nat -> nat -> C) : list (list (option C)) :=
  (sky_arrays L aI aE aB ++ [map Some (of_modes L L aV)])%list.
Definition beam_arrays_v (L : nat) (bI bm bp bV : nat -> nat -> C) : list (list (option C)) :=
  (beam_arrays L bI bm bp ++ [map Some (of_modes L L bV)])%list.
Definition only_if (on : bool) (f : nat -> Z -> C) : nat -> Z -> C :=
  if on then f else fun _ _ => RtoC 0.
