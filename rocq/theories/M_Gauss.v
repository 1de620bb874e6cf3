(** * Model of the generated Gaussian beam

    [Beam.gen_gaussian_blm] of /repo/beamconv/detector.py on top of
    [gauss_blm] and [get_copol_blm] of /repo/beamconv/tools.py.  Exact
    arithmetic. *)
From Coq Require Import Reals.
From Verif Require Import Common Cplx M_Alm M_Blm.
Open Scope R_scope.

(** healpy [gauss_beam(fwhm, lmax, pol=False)] at [l], fwhm in radians
    (external; as healpy documents it). *)
Definition gauss_beam (fwhm : R) (l : nat) : R :=
  let sigma := fwhm / sqrt (8 * ln 2) in
  exp (- (1 / 2) * INR l * (INR l + 1) * sigma ^ 2).

(** tools.py:102-103: the profile for [fwhm] arcmin. *)
Definition bell (fwhm : R) (lmax : nat) : list C :=
  map (fun l => RtoC (gauss_beam (fwhm / 60 * PI / 180) l)) (seq 0 (lmax + 1)).

(** detector.py:269-288 [gen_gaussian_blm]: what the [blm] attribute gets. *)
Definition gen_gaussian_blm (fwhm amplitude : R) (lmax : nat) : res (list C * list C * list C) :=
  do (blm, _) <- gauss_blm (RtoC 0) lmax (bell fwhm lmax);
  let blm := if Req_EM_T amplitude 1 then blm else map (fun x => Cmul x (RtoC amplitude)) blm in
  get_copol_blm blm (Some fwhm) false false.
