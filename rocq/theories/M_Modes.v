(** * Model of the choice of azimuthal orders in [ScanStrategy.init_spinmaps]
      (instrument.py:3840-3856) *)
From Coq Require Import List.
From Verif Require Import Common Cplx Mat M_Tod M_Spin.

(** instrument.py:3845-3852: the spin maps of a main beam with coefficients
    [blm], azimuthal band limit [mmax] and attributes [symmetric] and
    [hwp_mueller], for the argument [max_spin].  [mmax] of a beam is at most
    its [lmax], so that it does not exceed the band limit of [blm].  The maps of
    ghosts (instrument.py:3874-3884) are made in the same way. *)
Definition main_spinmaps (alm2map : list C -> list Reals.Rdefinitions.R)
  (alm2map_spin : list C -> list C -> Z -> list Reals.Rdefinitions.R * list Reals.Rdefinitions.R)
  (alm blm : raw) (mmax max_spin : nat) (symmetric : bool) (hwp_mueller : option mat4)
  (input_v beam_v : bool) : outcome :=
  let max_s := Nat.min mmax max_spin in
  init_spinmaps1 alm2map alm2map_spin alm blm max_s symmetric hwp_mueller input_v beam_v.
