(** * Property C94: the beam generated for a detector without a beam file

    [gen_gaussian_blm fwhm a L] is what [Beam.gen_gaussian_blm] stores for a
    beam of [fwhm] arcmin, amplitude [a] and band limit [L].  [has_fwhm sigma w]
    says that a Gaussian of width [sigma] has fallen to half its peak at [w / 2].
    healpy's [gauss_beam] is modelled by its documented formula. *)
From Coq Require Import Reals.
From Verif Require Import Common M_Alm S_Alm M_Gauss S_Gauss L_Gauss.
From Verif Require M_Spin S_Spin S_Bin L_Spin4.
From Verif Require Import Cplx.
Open Scope R_scope.

(** The coefficients are those of a Gaussian with this full width at half
    maximum: its intensity window in [m = 0], its polarisation window in
    [m = 2] of the spin -2 part, nothing elsewhere. *)
Theorem C94_gaussian : forall fwhm a L sigma,
  (1 <= L)%nat -> has_fwhm sigma (arcmin fwhm) ->
  gen_gaussian_blm fwhm a L
  = Ok (of_modes L L (gauss_I a sigma), of_modes L L (gauss_m2 a sigma), of_modes L L (fun _ _ => RtoC 0)).
Proof. exact gaussian_coefficients. Qed.
Print Assumptions C94_gaussian.

(** There is exactly one such Gaussian for every positive width. *)
Theorem C94_one_width : forall w, 0 < w -> exists! sigma, has_fwhm sigma w.
Proof. exact one_width. Qed.
Print Assumptions C94_one_width.

Example C94_case : exists sigma, has_fwhm sigma (arcmin 30) /\ (1 <= 700)%nat.
Proof. exact half_degree. Qed.

(** Without width, a pencil beam: the amplitude at all multipoles. *)
Theorem C94_pencil : forall a L, (1 <= L)%nat ->
  gen_gaussian_blm 0 a L
  = Ok (of_modes L L (fun _ m => if (m =? 0)%nat then RtoC a else RtoC 0),
        of_modes L L (fun l m => if ((m =? 2)%nat && (2 <=? l)%nat)%bool then RtoC a else RtoC 0),
        of_modes L L (fun _ _ => RtoC 0)).
Proof. exact pencil. Qed.
Print Assumptions C94_pencil.

(** What a scan with this beam sees: the sky with every mode scaled by the
    window, that of polarisation for E and B. *)
Theorem C94_smoothed : forall Y npix Ls Lb alm2map alm2map_spin aI aE aB S fwhm a sigma b,
  let L := Nat.min Ls Lb in
  S_Spin.conj_symmetric Y -> S_Spin.healpix Y npix L alm2map alm2map_spin ->
  S_Spin.real_m0 aI -> S_Spin.real_m0 aE -> S_Spin.real_m0 aB -> (S <= L)%nat -> (2 <= L)%nat ->
  has_fwhm sigma (arcmin fwhm) -> gen_gaussian_blm fwhm a Lb = Ok b ->
  exists d m0 m2,
  M_Spin.init_spinmaps1 alm2map alm2map_spin (S_Spin.sky_arrays Ls aI aE aB) (some_arrays b) S true None false false = M_Spin.Maps d
  /\ S_Bin.symmetric_maps m0 m2 d /\ length m0 = npix /\ length m2 = npix
  /\ forall p, (p < npix)%nat ->
     nth p m0 (RtoC 0) = S_Spin.field Y L 0 (fun l m => S_Spin.mode aI aI l m * RtoC (a * window sigma l))%C p
     /\ nth p m2 (RtoC 0)
        = S_Spin.field Y L 2 (fun l m => S_Spin.mode (S_Spin.plus2 aE aB) (S_Spin.minus2 aE aB) l m
                                         * (if (2 <=? l)%nat then RtoC (a * pol_window sigma l) else RtoC 0))%C p.
Proof. exact gaussian_smoothed. Qed.
Print Assumptions C94_smoothed.
Example C94_smoothed_case :
  (exists Y, S_Spin.conj_symmetric Y)
  /\ (forall Y npix L, exists alm2map alm2map_spin, S_Spin.healpix Y npix L alm2map alm2map_spin)
  /\ S_Spin.real_m0 (fun l m => match m with O => RtoC (INR l) | _ => (1, 2) end)
  /\ exists sigma b, has_fwhm sigma (arcmin 30) /\ gen_gaussian_blm 30 2 700 = Ok b.
Proof.
  exact (conj (ex_intro _ _ L_Spin4.toyY_sym) (conj L_Spin4.transforms_exist (conj (fun l => eq_refl) half_degree_beam))).
Qed.

(** The intensity beam keeps at its monopole the amplitude, and falls with the
    multipole. *)
Theorem C94_falls : forall sigma l l', 0 < sigma -> (l < l')%nat ->
  window sigma 0 = 1 /\ window sigma l' < window sigma l /\ pol_window sigma l' < pol_window sigma l.
Proof. exact windows_fall. Qed.
Print Assumptions C94_falls.

(** At band limit zero nothing is generated: the polarised part fails. *)
Theorem C94_monopole_raises : forall fwhm a, gen_gaussian_blm fwhm a 0 = Err UnboundLocalError.
Proof. exact gaussian_monopole. Qed.
Print Assumptions C94_monopole_raises.
