(** * Property theorems: harmonic coefficients of beams (C27-C32, C57, C62-C65)

    [of_modes L M f] is the array holding [f l m] for all modes m <= M, m <= l <= L
    in healpy's order; [coef ... own other l m] is the coefficient for any
    integer m of a field given by its m >= 0 coefficients (S_Alm.v). *)
From Verif Require Import Common Cplx M_Alm S_Alm L_Alm M_Blm L_Blm.
Open Scope R_scope.

(** C27: truncation. *)
Theorem C27_truncation_keeps_low_multipoles :
  forall (A : Type) (L M : nat) (f : nat -> nat -> A) (L' : nat) (mmax_old : option nat),
  (M <= L)%nat -> (L' <= L)%nat ->
  (mmax_old = Some M \/ (mmax_old = None /\ M = L)) ->
  trunc_alm (of_modes L M f) L' mmax_old = Ok (of_modes L' (Nat.min L' M) f).
Proof. exact (fun A => @trunc_alm_spec A). Qed.
Print Assumptions C27_truncation_keeps_low_multipoles.

Theorem C27_larger_band_limit_rejected :
  forall (A : Type) (L M : nat) (f : nat -> nat -> A) (L' : nat) (mmax_old : option nat),
  (M <= L)%nat -> (L < L')%nat ->
  (mmax_old = Some M \/ (mmax_old = None /\ M = L)) ->
  trunc_alm (of_modes L M f) L' mmax_old = Err ValueError.
Proof. exact (fun A => @trunc_alm_larger A). Qed.
Print Assumptions C27_larger_band_limit_rejected.

Theorem C27_truncations_compose :
  forall (A : Type) (L M : nat) (f : nat -> nat -> A) (L1 L2 : nat),
  (M <= L)%nat -> (L1 <= L)%nat -> (L2 <= L1)%nat ->
  (do a <- trunc_alm (of_modes L M f) L1 (Some M); trunc_alm a L2 (Some (Nat.min L1 M)))
  = trunc_alm (of_modes L M f) L2 (Some M).
Proof. exact (fun A => @trunc_twice A). Qed.
Print Assumptions C27_truncations_compose.

(** A sequence of arrays is truncated array by array. *)
Theorem C27_sequences :
  forall (A : Type) (L M : nat) (fs : list (nat -> nat -> A)) (L' : nat) (mmax_old : option nat),
  fs <> [] -> (M <= L)%nat -> (L' <= L)%nat ->
  (mmax_old = Some M \/ (mmax_old = None /\ M = L)) ->
  trunc_alms (map (of_modes L M) fs) L' mmax_old
  = Ok (map (of_modes L' (Nat.min L' M)) fs).
Proof. exact (fun A => @trunc_alms_spec A). Qed.
Print Assumptions C27_sequences.

(** Every array of the right length is the array of some modes. *)
Theorem C27_every_array_has_modes :
  forall (A : Type) (d : A) (L M : nat) (arr : list A), (M <= L)%nat ->
  length arr = getsize L M -> exists f, arr = of_modes L M f.
Proof.
  exact (fun A d L M arr HM Hl =>
    ex_intro _ _ (array_of_modes d L M arr HM (eq_trans Hl (getsize_off L M HM)))).
Qed.
Print Assumptions C27_every_array_has_modes.

Example C27_nonvacuous :
  trunc_alm [0; 10; 20; 30; 11; 21; 31; 22; 32]%nat 2 (Some 2%nat) = Ok [0; 10; 20; 11; 21; 22]%nat
  /\ trunc_alm [0; 10; 20; 30; 11; 21; 31; 22; 32]%nat 1 (Some 2%nat) = Ok [0; 10; 11]%nat
  /\ trunc_alm [0; 10; 20; 30; 11; 21; 31; 22; 32]%nat 4 (Some 2%nat) = Err ValueError.
Proof. repeat split; reflexivity. Qed.

(** C28: shifting. *)
Theorem C28_shift_moves_modes :
  forall (L : nat) (shift : Z) (p2 m2 : nat -> nat -> C), (shift <= Z.of_nat L)%Z ->
  shift_blm (RtoC 0) Cconj Copp (of_modes L L m2) (of_modes L L p2) shift
  = Ok (of_modes L L (fun l m => coef (RtoC 0) Cconj Copp m2 p2 l (Z.of_nat m + shift)),
        of_modes L L (fun l m => coef (RtoC 0) Cconj Copp p2 m2 l (Z.of_nat m - shift))).
Proof. exact (shift_blm_spec (RtoC 0) Cconj Copp Cconj0 Copp0). Qed.
Print Assumptions C28_shift_moves_modes.

Theorem C28_shift_zero : forall (L : nat) (p2 m2 : nat -> nat -> C),
  shift_blm (RtoC 0) Cconj Copp (of_modes L L m2) (of_modes L L p2) 0
  = Ok (of_modes L L m2, of_modes L L p2).
Proof. exact (shift_blm_0 (RtoC 0) Cconj Copp Cconj0 Copp0). Qed.
Print Assumptions C28_shift_zero.

Theorem C28_too_large_rejected : forall (L : nat) (shift : Z) (p2 m2 : nat -> nat -> C),
  (Z.of_nat L < shift)%Z ->
  shift_blm (RtoC 0) Cconj Copp (of_modes L L m2) (of_modes L L p2) shift = Err ValueError.
Proof. exact (shift_blm_too_large (RtoC 0) Cconj Copp). Qed.
Print Assumptions C28_too_large_rejected.

Example C28_nonvacuous :
  shift_blm 0%Z Z.opp Z.opp (of_modes 2 2 (fun l m => Z.of_nat (10 * l + m)))
                            (of_modes 2 2 (fun l m => 100 + Z.of_nat (10 * l + m)))%Z 2
  = Ok ([0; 0; 22; 0; 0; 0], [0; 0; -22; 11; 21; 120])%Z.
Proof. reflexivity. Qed.

(** With E/B arrays and an even shift, the result is the E/B form of the shifted
    spin coefficients (for shift 0 the m = 0 modes must be real, as they are
    for real fields). *)
Theorem C28_eb_even_shift_partial : forall (L : nat) (e b : nat -> nat -> C) (s : Z),
  (s <= Z.of_nat L)%Z -> Z.even s = true ->
  (s = 0%Z -> forall l, (l <= L)%nat -> Im (e l 0%nat) = 0 /\ Im (b l 0%nat) = 0) ->
  exists e' b', shift_blm_eb (of_modes L L e) (of_modes L L b) s = Ok (e', b')
    /\ (let '(m2, p2) := eb2spin (of_modes L L e) (of_modes L L b) in
        shift_blm (RtoC 0) Cconj Copp m2 p2 s) = Ok (eb2spin e' b').
Proof. exact shift_eb_even. Qed.
Print Assumptions C28_eb_even_shift_partial.

(** For odd shifts the m = 0 modes of the result are erased, whatever they
    should be: the shift law fails for E/B arrays. *)
Theorem C28_eb_odd_shift_refuted :
  forall (L : nat) (e b : nat -> nat -> C) (s : Z) (l : nat),
  (s <= Z.of_nat L)%Z -> Z.odd s = true -> (l <= L)%nat ->
  exists e' b', shift_blm_eb (of_modes L L e) (of_modes L L b) s = Ok (e', b')
    /\ nth_error e' l = Some (RtoC 0) /\ nth_error b' l = Some (RtoC 0).
Proof. exact shift_eb_odd. Qed.
Print Assumptions C28_eb_odd_shift_refuted.

(** ... while the shifted spin coefficient is not zero for some beam. *)
Theorem C28_eb_odd_shift_witness :
  exists e b : nat -> nat -> C,
  coef (RtoC 0) Cconj Copp (m2_of e b) (p2_of e b) 1 (0 + 1) <> RtoC 0.
Proof. exact odd_witness. Qed.
Print Assumptions C28_eb_odd_shift_witness.

(** C29: unpolarised to polarised. *)
Theorem C29_copolar_coefficients : forall (L : nat) (b : nat -> nat -> C), (1 <= L)%nat ->
  unpol2pol (RtoC 0) Cconj Copp (of_modes L L b)
  = Ok (of_modes L L (fun l m =>
          if (l <? 2)%nat then RtoC 0 else coef (RtoC 0) Cconj Copp b b l (Z.of_nat m - 2)),
        of_modes L L (fun l m =>
          if (l <? 2)%nat then RtoC 0 else coef (RtoC 0) Cconj Copp b b l (Z.of_nat m + 2))).
Proof. exact (unpol2pol_spec (RtoC 0) Cconj Copp). Qed.
Print Assumptions C29_copolar_coefficients.

(** A polarised beam built from Q and U beams adds i times the U part to
    spin -2 and subtracts it from spin +2; without a U beam it is the co-polar one. *)
Theorem C29_pol_beam : forall (L : nat) (q : nat -> nat -> C), (1 <= L)%nat ->
  get_pol_beam (of_modes L L q) (of_modes L L (fun _ _ => RtoC 0)) false false
  = unpol2pol (RtoC 0) Cconj Copp (of_modes L L q)
  /\ forall u, exists mq pq mu pu mr pr,
     unpol2pol (RtoC 0) Cconj Copp (of_modes L L q) = Ok (of_modes L L mq, of_modes L L pq)
     /\ unpol2pol (RtoC 0) Cconj Copp (of_modes L L u) = Ok (of_modes L L mu, of_modes L L pu)
     /\ get_pol_beam (of_modes L L q) (of_modes L L u) false false
        = Ok (of_modes L L mr, of_modes L L pr)
     /\ (forall l m, mr l m = mq l m + Ci * mu l m)%C
     /\ (forall l m, pr l m = pq l m - Ci * pu l m)%C.
Proof. exact pol_beam_full. Qed.
Print Assumptions C29_pol_beam.

Example C29_nonvacuous :
  unpol2pol 0%Z Z.opp Z.opp (of_modes 3 3 (fun l m => Z.of_nat (10 * l + m)))
  = Ok ([0; 0; -22; -32; 0; 21; 31; 20; 30; 31], [0; 0; 22; 32; 0; 0; 33; 0; 0; 0])%Z.
Proof. reflexivity. Qed.

(** A beam with band limit 0 cannot be converted (the loop reads an unset
    variable); outside the property's domain. *)
Theorem C29_monopole_only_fails : forall b : nat -> nat -> C,
  unpol2pol (RtoC 0) Cconj Copp (of_modes 0 0 b) = Err UnboundLocalError.
Proof. exact (unpol2pol_monopole_only (RtoC 0) Cconj Copp). Qed.
Print Assumptions C29_monopole_only_fails.

(** C30: E/B and spin are inverse for even spin; for odd spin the
    negative-spin array comes back negated. *)
Theorem C30_spin_eb_spin : forall (m p : list C) (s : Z), length m = length p ->
  Z.even s = true -> (let '(e, b) := spin2eb m p s in eb2spin e b) = (m, p).
Proof. exact eb_roundtrip. Qed.
Print Assumptions C30_spin_eb_spin.

Theorem C30_eb_spin_eb : forall (e b : list C) (s : Z), length e = length b ->
  Z.even s = true -> (let '(m, p) := eb2spin e b in spin2eb m p s) = (e, b).
Proof. exact spin_roundtrip. Qed.
Print Assumptions C30_eb_spin_eb.

Theorem C30_odd_spin_sign : forall (m p : list C) (s : Z), length m = length p ->
  Z.odd s = true ->
  (let '(e, b) := spin2eb m p s in eb2spin e b) = (map Copp m, p).
Proof. exact eb_roundtrip_odd. Qed.
Print Assumptions C30_odd_spin_sign.

Example C30_nonvacuous :
  eb2spin [RtoC 1] [RtoC 2] = ([(-1, 2)], [(-1, -2)]).
Proof. exact eb2spin_example. Qed.

(** C31: normalisation and deconvolution of one or several arrays (the first
    one is the unpolarised beam). *)
Theorem C31_monopole_is_one : forall (L : nat) (f0 : nat -> nat -> C) fs (dq : bool),
  f0 0%nat 0%nat <> RtoC 0 ->
  exists b0 rest,
    scale_blm (map (of_modes L L) (f0 :: fs)) true dq = Ok ((RtoC 1 :: b0) :: rest).
Proof. exact scale_blm_monopole. Qed.
Print Assumptions C31_monopole_is_one.

(** All coefficients are divided by one number, after multiplication by
    2 sqrt(pi / (2l+1)) = sqrt(4 pi / (2l+1)) if asked for. *)
Theorem C31_ratios_kept : forall (L : nat) (f0 : nat -> nat -> C) fs (dq : bool),
  scale_blm (map (of_modes L L) (f0 :: fs)) true dq
  = Ok (map (fun f => of_modes L L (fun l m =>
        let q := fun l => if dq then RtoC (2 * sqrt (PI / (2 * INR l + 1))) else RtoC 1 in
        (f l m * q l) / (f0 0%nat 0%nat * q 0%nat))%C) (f0 :: fs)).
Proof. exact scale_blm_norm. Qed.
Print Assumptions C31_ratios_kept.

Theorem C31_normalising_is_idempotent : forall (L : nat) (f0 : nat -> nat -> C) fs (dq : bool),
  f0 0%nat 0%nat <> RtoC 0 ->
  (do r <- scale_blm (map (of_modes L L) (f0 :: fs)) true dq; scale_blm r true false)
  = scale_blm (map (of_modes L L) (f0 :: fs)) true dq.
Proof. exact scale_norm_idem. Qed.
Print Assumptions C31_normalising_is_idempotent.

Theorem C31_overall_factor_irrelevant :
  forall (L : nat) (k : C) (f0 : nat -> nat -> C) fs (dq : bool),
  k <> RtoC 0 -> f0 0%nat 0%nat <> RtoC 0 ->
  scale_blm (map (scale_all k) (map (of_modes L L) (f0 :: fs))) true dq
  = scale_blm (map (of_modes L L) (f0 :: fs)) true dq.
Proof. exact scale_norm_factor. Qed.
Print Assumptions C31_overall_factor_irrelevant.

Theorem C31_deconvolution : forall (L : nat) (fs : list (nat -> nat -> C)), fs <> [] ->
  scale_blm (map (of_modes L L) fs) false true
  = Ok (map (fun f => of_modes L L (fun l m =>
          (f l m * RtoC (2 * sqrt (PI / (2 * INR l + 1))))%C)) fs).
Proof. exact scale_blm_deconv. Qed.
Print Assumptions C31_deconvolution.

Theorem C31_no_options_unchanged : forall rows, scale_blm rows false false = Ok rows.
Proof. exact scale_blm_off. Qed.
Print Assumptions C31_no_options_unchanged.

Example C31_nonvacuous : (fun _ _ : nat => RtoC 2) 0%nat 0%nat <> RtoC 0.
Proof. exact two_neq. Qed.

(** C32: files with limited azimuthal modes. *)
Theorem C32_one_component : forall (L M : nat) (f : nat -> nat -> C) (mm : nat), (M <= L)%nat ->
  read_file (Fits [(of_modes L M f, M)]) mm
  = Ok ([of_modes L L (fun l m => if (m <=? M)%nat then f l m else RtoC 0)], Nat.min M mm).
Proof. exact read_fits_1. Qed.
Print Assumptions C32_one_component.

Theorem C32_three_components : forall (L M : nat) (f g h : nat -> nat -> C) (mm : nat),
  (M <= L)%nat ->
  read_file (Fits [(of_modes L M f, M); (of_modes L M g, M); (of_modes L M h, M)]) mm
  = Ok (map (fun f => of_modes L L (fun l m => if (m <=? M)%nat then f l m else RtoC 0)) [f; g; h],
        Nat.min M mm).
Proof. exact read_fits_3. Qed.
Print Assumptions C32_three_components.

Theorem C32_four_components : forall (L M : nat) (f g h v : nat -> nat -> C) (mm : nat),
  (M <= L)%nat ->
  read_file (Fits [(of_modes L M f, M); (of_modes L M g, M); (of_modes L M h, M);
                   (of_modes L M v, M)]) mm
  = Ok (map (fun f => of_modes L L (fun l m => if (m <=? M)%nat then f l m else RtoC 0)) [f; g; h; v],
        Nat.min M mm).
Proof. exact read_fits_4. Qed.
Print Assumptions C32_four_components.

Theorem C32_different_azimuthal_limits_rejected :
  forall (L M M2 Mp : nat) (f : nat -> nat -> C) m2 p2 rest (mm : nat), (M <= L)%nat ->
  ~ (M = M2 /\ M2 = Mp) ->
  read_file (Fits ((of_modes L M f, M) :: (m2, M2) :: (p2, Mp) :: rest)) mm = Err ValueError.
Proof. exact read_fits_mmax_differ'. Qed.
Print Assumptions C32_different_azimuthal_limits_rejected.

(** The fourth (V) component is not checked: with other limits its modes are
    misplaced (here mode (1,1) ends up as mode (2,0)). *)
Theorem C32_unequal_v_component_refuted :
  exists rows mm', read_file (Fits [(of_modes 2 2 vrow, 2%nat); (of_modes 2 2 vrow, 2%nat);
                     (of_modes 2 2 vrow, 2%nat); (of_modes 1 1 vrow, 1%nat)]) 2 = Ok (rows, mm')
  /\ nth_error rows 3 = Some [vrow 0 0; vrow 1 0; vrow 1 1; RtoC 0; RtoC 0; RtoC 0]%nat
  /\ of_modes 2 2 (fun l m => if (l <=? 1)%nat then vrow l m else RtoC 0)
     = [vrow 0 0; vrow 1 0; RtoC 0; vrow 1 1; RtoC 0; RtoC 0]%nat.
Proof. exact read_fits_v_misplaced. Qed.
Print Assumptions C32_unequal_v_component_refuted.

Example C32_nonvacuous :
  expand_blm 0%nat [1; 2; 3; 4; 5]%nat 1 = Ok [1; 2; 3; 4; 5; 0]%nat.
Proof. reflexivity. Qed.

(** C57: one azimuthal mode as a function of l. *)
Theorem C57_row : forall (L : nat) (f : nat -> nat -> C) (m : nat), (m <= L)%nat ->
  blm2bl (RtoC 0) (of_modes L L f) (Z.of_nat m) false
  = Ok (map (fun l => f l m) (seq m (L + 1 - m)))
  /\ blm2bl (RtoC 0) (of_modes L L f) (Z.of_nat m) true
  = Ok (map (fun l => if (l <? m)%nat then RtoC 0 else f l m) (seq 0 (L + 1))).
Proof. exact blm2bl_row. Qed.
Print Assumptions C57_row.

Theorem C57_negative_rejected : forall (blm : list C) (m : Z) (full : bool), (m < 0)%Z ->
  blm2bl (RtoC 0) blm m full = Err ValueError.
Proof. exact (blm2bl_negative (RtoC 0)). Qed.
Print Assumptions C57_negative_rejected.

(** An m beyond the band limit is not rejected: unrelated modes come back. *)
Theorem C57_beyond_band_limit_refuted : forall f : nat -> nat -> C,
  blm2bl (RtoC 0) (of_modes 2 2 f) 7 false = Ok [f 0 0; f 1 0]%nat.
Proof. exact (blm2bl_beyond (RtoC 0)). Qed.
Print Assumptions C57_beyond_band_limit_refuted.

Example C57_nonvacuous :
  blm2bl 0%nat (of_modes 2 2 (fun l m => 10 * l + m)%nat) 1 true = Ok [0; 11; 21]%nat.
Proof. reflexivity. Qed.

(** C62: the amplitude of a loaded beam is a factor on all coefficients: for
    files with three (or four) components, and for co-polar beams that are not
    normalised. *)
Theorem C62_amplitude_polarised_partial :
  forall (f : blm_file) (amp : R) (cp norm dq : bool) (mm : nat) rows mm',
  read_file f mm = Ok (rows, mm') ->
  (length rows = 3%nat \/ length rows = 4%nat /\ cp = true) ->
  load_blm f amp cp norm dq mm
  = do (rows, mmax) <- load_blm f 1 cp norm dq mm; Ok (map (scale_all (RtoC amp)) rows, mmax).
Proof. exact load_amp_polarised. Qed.
Print Assumptions C62_amplitude_polarised_partial.

Theorem C62_amplitude_copolar_partial :
  forall (L : nat) (f : blm_file) (amp : R) (cp dq : bool) (mm : nat) rows b mm', (1 <= L)%nat ->
  read_file f mm = Ok (of_modes L L b :: rows, mm') ->
  (length rows <> 2%nat) -> (length rows = 3%nat -> cp = false) ->
  load_blm f amp cp false dq mm
  = do (rows, mmax) <- load_blm f 1 cp false dq mm; Ok (map (scale_all (RtoC amp)) rows, mmax).
Proof. exact load_amp_copol. Qed.
Print Assumptions C62_amplitude_copolar_partial.

(** A normalised co-polar beam loses its amplitude: every non-zero amplitude
    gives the same coefficients. *)
Theorem C62_amplitude_refuted :
  forall (L : nat) (f : blm_file) (amp : R) (cp dq : bool) (mm : nat) rows b mm', (1 <= L)%nat ->
  amp <> 0 -> b 0%nat 0%nat <> RtoC 0 ->
  read_file f mm = Ok (of_modes L L b :: rows, mm') ->
  (length rows <> 2%nat) -> (length rows = 3%nat -> cp = false) ->
  load_blm f amp cp true dq mm = load_blm f 1 cp true dq mm.
Proof. exact load_amp_lost. Qed.
Print Assumptions C62_amplitude_refuted.

Example C62_nonvacuous :
  read_file (Npy [of_modes 1 1 (fun _ _ => RtoC 2)]) 1
  = Ok ([of_modes 1 1 (fun _ _ => RtoC 2)], 1%nat).
Proof. reflexivity. Qed.

(** C63: with the cross-polar response switched off a four-component file gives
    the co-polar beam of its first component. *)
Theorem C63_four_components_partial :
  forall (f : blm_file) (amp : R) (norm dq : bool) (mm : nat) b r1 r2 r3 mm',
  read_file f mm = Ok ([b; r1; r2; r3], mm') ->
  load_blm f amp false norm dq mm
  = do (rows, _) <- load_blm (Npy [b]) amp false norm dq mm; Ok (rows, mm').
Proof. exact load_four_copol. Qed.
Print Assumptions C63_four_components_partial.

(** With three components the option is ignored... *)
Theorem C63_option_ignored_refuted :
  forall (f : blm_file) (amp : R) (cp norm dq : bool) (mm : nat) rows mm',
  read_file f mm = Ok (rows, mm') -> length rows = 3%nat ->
  load_blm f amp cp norm dq mm = load_blm f amp (negb cp) norm dq mm.
Proof. exact load_three_ignores_cross_pol. Qed.
Print Assumptions C63_option_ignored_refuted.

(** ... so a beam with a cross-polar part keeps it. *)
Theorem C63_cross_polar_kept_refuted :
  exists f copolar kept,
    read_file (Npy f) 2 = Ok (f, 2%nat)
    /\ load_blm (Npy (firstn 1 f)) 1 false false false 2 = Ok (copolar, 2%nat)
    /\ load_blm (Npy f) 1 false false false 2 = Ok (kept, 2%nat)
    /\ copolar <> kept.
Proof. exact cross_polar_kept. Qed.
Print Assumptions C63_cross_polar_kept_refuted.

(** C64: scaling overwrites the caller's array. *)
Theorem C64_argument_preserved_refuted :
  exists rows, scale_blm_arg rows true false <> rows.
Proof. exact (ex_intro (fun rows => scale_blm_arg rows true false <> rows) _ scale_blm_mutates). Qed.
Print Assumptions C64_argument_preserved_refuted.

(** ... but not when no option is set. *)
Theorem C64_argument_preserved_partial :
  forall rows, scale_blm_arg rows false false = rows.
Proof. exact (fun rows => eq_refl). Qed.
Print Assumptions C64_argument_preserved_partial.

(** C65: the polarised part of the generated Gaussian beam is the co-polar
    beam of its unpolarised part, for every profile. *)
Theorem C65_gaussian_polarisation : forall (L : nat) (bell : list R), (1 <= L)%nat ->
  length bell = (L + 1)%nat ->
  exists b m2, gauss_blm (RtoC 0) L (map RtoC bell) = Ok (b, m2)
    /\ unpol2pol (RtoC 0) Cconj Copp b = Ok (m2, of_modes L L (fun _ _ => RtoC 0)).
Proof. exact gauss_copol. Qed.
Print Assumptions C65_gaussian_polarisation.

Theorem C65_gaussian_profile : forall (L : nat) (bell : list R), length bell = (L + 1)%nat ->
  gauss_blm (RtoC 0) L (map RtoC bell)
  = Ok (of_modes L L (fun l m => if (m =? 0)%nat then RtoC (nth l bell 0) else RtoC 0),
        of_modes L L (fun l m => if (m =? 2)%nat then RtoC (nth l bell 0) else RtoC 0)).
Proof. exact gauss_profile. Qed.
Print Assumptions C65_gaussian_profile.

Example C65_nonvacuous :
  gauss_blm 0%nat 2 [9; 8; 7]%nat = Ok ([9; 8; 7; 0; 0; 0], [0; 0; 0; 0; 0; 7])%nat.
Proof. reflexivity. Qed.
