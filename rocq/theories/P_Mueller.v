(** * Property theorems: Mueller and Jones matrices (C34-C37, C54, C72)

    Stokes vectors, their spin components, light waves and turned elements
    are defined in S_Mueller.v; arrays of beam modes in S_Alm.v.  [mmul4],
    [mvec4] are complex, [rmmul4], [rmvec4] real matrix products (Mat.v), and
    [cmat] reads a real matrix as a complex one. *)
From Coq Require Import Reals Lra String.
From Verif Require Import Common Cplx Mat M_Alm S_Alm M_Blm M_Mueller S_Mueller
  L_Mueller L_Jones L_JonesRot L_Blmxhwp.
Open Scope R_scope.

(** ** C34 *)

(** The converted matrix acts on spin components as the Mueller matrix does on
    Stokes vectors. *)
Theorem C34_acts_on_spin_components : forall (m : rmat4) (s : stokes),
  mvec4 (mueller2spin (cmat m)) (spin_components s) = spin_components (rmvec4 m s).
Proof. exact spin_operator. Qed.
Print Assumptions C34_acts_on_spin_components.

Theorem C34_multiplicative_with_unit : forall a b : mat4,
  mueller2spin (mmul4 a b) = mmul4 (mueller2spin a) (mueller2spin b)
  /\ mueller2spin eye4 = eye4.
Proof. exact (fun a b => conj (spin_mult a b) spin_eye). Qed.
Print Assumptions C34_multiplicative_with_unit.

Theorem C34_conjugate_elements : forall m : rmat4,
  let h := mueller2spin (cmat m) in
  e2 (e2 h) = Cconj (e1 (e1 h)) /\ e1 (e2 h) = Cconj (e2 (e1 h))
  /\ e0 (e2 h) = Cconj (e0 (e1 h)) /\ e3 (e2 h) = Cconj (e3 (e1 h))
  /\ e2 (e0 h) = Cconj (e1 (e0 h)) /\ e2 (e3 h) = Cconj (e1 (e3 h))
  /\ Im (e0 (e0 h)) = 0 /\ Im (e0 (e3 h)) = 0 /\ Im (e3 (e0 h)) = 0 /\ Im (e3 (e3 h)) = 0.
Proof. exact spin_conj. Qed.
Print Assumptions C34_conjugate_elements.

Theorem C34_ideal_half_wave_plate :
  mueller2spin (cmat ideal_hwp)
  = V4 (V4 (RtoC 1) (RtoC 0) (RtoC 0) (RtoC 0))
       (V4 (RtoC 0) (RtoC 0) (RtoC 1) (RtoC 0))
       (V4 (RtoC 0) (RtoC 1) (RtoC 0) (RtoC 0))
       (V4 (RtoC 0) (RtoC 0) (RtoC 0) (RtoC (-1))).
Proof. exact spin_ideal. Qed.
Print Assumptions C34_ideal_half_wave_plate.

(** ** C35 *)

(** A real unpolarised beam (modes [b]; the m = 0 modes of a real field are
    real) without power in the two highest azimuthal modes of each degree, in
    particular any axisymmetric one, behind the ideal half-wave plate: the
    beams used are those of the default treatment, the rest is zero. *)
Theorem C35_ideal_plate_is_the_default : forall (L : nat) (b : nat -> nat -> C),
  (4 <= L)%nat ->
  (forall l, Im (b l 0%nat) = 0) ->
  (forall l m, (1 <= m)%nat -> (l <= m + 1)%nat -> b l m = RtoC 0) ->
  exists m2 p2,
  let B := of_modes L L b in
  let blm := [B; m2; p2] in
  let zeros := of_modes L L (fun _ _ => RtoC 0) in
  let h := mueller2spin (cmat ideal_hwp) in
  unpol2pol (RtoC 0) Cconj Copp B = Ok (m2, p2)
  /\ blmxhwp blm h "s0a0" false = Ok [B]
  /\ blmxhwp blm h "s2a4" false = Ok [m2; p2]
  /\ blmxhwp blm h "s0a0_v" false = Ok [zeros]
  /\ blmxhwp blm h "s0a2" false = Ok [zeros; zeros]
  /\ blmxhwp blm h "s0a2_v" false = Ok [zeros; zeros]
  /\ blmxhwp blm h "s2a2" false = Ok [zeros; zeros]
  /\ blmxhwp blm h "s2a0" false = Ok [zeros; zeros].
Proof. exact ideal_couplings. Qed.
Print Assumptions C35_ideal_plate_is_the_default.

(** Every axisymmetric beam qualifies. *)
Example C35_axisymmetric_beams_qualify : forall profile : nat -> R,
  let b := fun l m : nat => RtoC (match m with O => profile l | S _ => 0 end) in
  (forall l, Im (b l 0%nat) = 0)
  /\ (forall l m, (1 <= m)%nat -> (l <= m + 1)%nat -> b l m = RtoC 0).
Proof. intros profile. split; [reflexivity|]. intros l [|m] H _; [inversion H|reflexivity]. Qed.

(** At band limits below four the modulated beam is not formed: an exception. *)
Theorem C35_below_band_limit_four_refuted : forall (L : nat) (b b1 b2 : nat -> nat -> C) h v,
  (L < 4)%nat ->
  blmxhwp [of_modes L L b; of_modes L L b1; of_modes L L b2] h "s2a4" v = Err ValueError.
Proof. exact (fun L b b1 b2 h v => small_band_limit L b1 b2 (of_modes L L b) h v). Qed.
Print Assumptions C35_below_band_limit_four_refuted.

(** ** C36 *)

(** The Mueller matrix does to Stokes vectors what the Jones matrix does to waves. *)
Theorem C36_represents_the_jones_matrix : forall (J : mat2) (e : v2 C),
  rmvec4 (JonesToMueller J) (stokes_of e) = stokes_of (mvec2 J e).
Proof. exact jones_stokes. Qed.
Print Assumptions C36_represents_the_jones_matrix.

(** Taking the real part discards nothing. *)
Theorem C36_real : forall (J : mat2) (i j : v4 mat2 -> mat2),
  In i [e0; e1; e2; e3] -> In j [e0; e1; e2; e3] ->
  Im (mueller_elem J (i sigma) (j sigma)) = 0.
Proof. exact mueller_elem_real. Qed.
Print Assumptions C36_real.

Theorem C36_multiplicative_with_unit : forall J K : mat2,
  JonesToMueller (mmul2 J K) = rmmul4 (JonesToMueller J) (JonesToMueller K)
  /\ JonesToMueller eye2 = reye4.
Proof. exact (fun J K => conj (jones_mult J K) jones_eye). Qed.
Print Assumptions C36_multiplicative_with_unit.

(** A common factor enters by its squared modulus, so a phase not at all. *)
Theorem C36_phase_drops_out : forall (k : C) (t : R) (J : mat2),
  JonesToMueller (mscale2 k J) = map4 (map4 (Rmult (Cnorm2 k))) (JonesToMueller J)
  /\ JonesToMueller (mscale2 (cis t) J) = JonesToMueller J.
Proof. exact (fun k t J => conj (jones_factor k J) (jones_phase t J)). Qed.
Print Assumptions C36_phase_drops_out.

(** Physical light stays physical; hence the first element dominates. *)
Theorem C36_physical : forall (J : mat2) (s : stokes),
  physical s -> physical (rmvec4 (JonesToMueller J) s).
Proof. exact jones_physical. Qed.
Print Assumptions C36_physical.

Theorem C36_total_power_dominates : forall J : mat2,
  let m := JonesToMueller J in
  0 <= e0 (e0 m) /\
  forall (i : v4 (v4 R) -> v4 R) (j : v4 R -> R),
    In i [e0; e1; e2; e3] -> In j [e0; e1; e2; e3] -> Rabs (j (i m)) <= e0 (e0 m).
Proof. exact jones_dominates. Qed.
Print Assumptions C36_total_power_dominates.

Example C36_case : physical (V4 2 1 1 1) /\ ~ physical (V4 1 1 1 1).
Proof. unfold physical. cbn. split; [lra|]. intros [_ H]. lra. Qed.

(** ** C37 *)

(** The rotated Jones matrix is the element turned by that many degrees, and
    its Mueller matrix the turned Mueller matrix. *)
Theorem C37_rotated_jones_matrix : forall (J : mat2) (t : R) (e : v2 C),
  mvec2 (JonesRotation J t) (turn_field (t * PI / 180) e)
  = turn_field (t * PI / 180) (mvec2 J e)
  /\ is_turned (t * PI / 180) (JonesToMueller J) (JonesToMueller (JonesRotation J t)).
Proof. exact (fun J t e => conj (jones_rotation J t e) (jones_rotation_mueller J t)). Qed.
Print Assumptions C37_rotated_jones_matrix.

Theorem C37_jones_rotations_compose : forall (J : mat2) (a b : R),
  JonesRotation (JonesRotation J a) b = JonesRotation J (a + b)
  /\ JonesRotation J 0 = J /\ JonesRotation eye2 a = eye2.
Proof.
  exact (fun J a b => conj (jones_rotation_add J a b)
    (conj (jones_rotation_zero J) (jones_rotation_eye a))).
Qed.
Print Assumptions C37_jones_rotations_compose.

(** The rotated Mueller matrix (angle in radians) gives the right I, Q and V
    of the turned element for any angle.  Missing: its U. *)
Theorem C37_rotated_mueller_matrix_partial : forall (m : rmat4) (t : R) (s : stokes),
  let got := rmvec4 (MuellerRotation m t) (turn t s) in
  let want := turn t (rmvec4 m s) in
  e0 got = e0 want /\ e1 got = e1 want /\ e3 got = e3 want.
Proof. exact mueller_rotation_rows. Qed.
Print Assumptions C37_rotated_mueller_matrix_partial.

(** Where sin 2t = 0, and in particular for no rotation, all of it is right. *)
Theorem C37_rotated_mueller_matrix_at_right_angles_partial : forall (m : rmat4) (t : R),
  (sin (2 * t) = 0 -> is_turned t m (MuellerRotation m t)) /\ MuellerRotation m 0 = m.
Proof. exact (fun m t => conj (mueller_rotation_good m t) (mueller_rotation_zero m)). Qed.
Print Assumptions C37_rotated_mueller_matrix_at_right_angles_partial.

(** At every other angle the rotated identity is not the turned identity; it
    is not the identity, and two rotations are not one. *)
Theorem C37_rotated_mueller_matrix_refuted :
  (forall t, sin (2 * t) <> 0 -> ~ is_turned t reye4 (MuellerRotation reye4 t))
  /\ sin (2 * (PI / 4)) <> 0
  /\ MuellerRotation reye4 (PI / 4) <> reye4
  /\ MuellerRotation (MuellerRotation reye4 (PI / 4)) (PI / 4)
     <> MuellerRotation reye4 (PI / 4 + PI / 4).
Proof.
  exact (conj mueller_rotation_bad (conj sin_2_quarter
    (conj mueller_rotation_eye_bad mueller_rotation_add_bad))).
Qed.
Print Assumptions C37_rotated_mueller_matrix_refuted.

(** ** C54 *)

(** The intensity couplings of any Mueller matrix: the beams of spin -2 and +2
    with shifted modes times M_IQ + i M_IU and M_QI - i M_UI.  The former is
    the first row where the first column belongs. *)
Theorem C54_intensity_leakage_partial : forall (L : nat) (m : rmat4) b b1 b2 v,
  (2 <= L)%nat ->
  let mode := coef (RtoC 0) Cconj Copp in
  blmxhwp [b; of_modes L L b1; of_modes L L b2] (mueller2spin (cmat m)) "s0a2" v
  = Ok [of_modes L L (fun l k => Cmul (mode b1 b2 l (Z.of_nat k + 2)%Z) (e1 (e0 m), e2 (e0 m)));
        of_modes L L (fun l k => Cmul (mode b2 b1 l (Z.of_nat k - 2)%Z) (e0 (e1 m), - e0 (e2 m)))].
Proof. exact s0a2_law. Qed.
Print Assumptions C54_intensity_leakage_partial.

(** Two Mueller matrices with the same first column and different couplings. *)
Theorem C54_intensity_leakage_refuted : exists (m m' : rmat4) (blm : list (list C)),
  map4 e0 m = map4 e0 m'
  /\ blmxhwp blm (mueller2spin (cmat m)) "s0a2" false
     <> blmxhwp blm (mueller2spin (cmat m')) "s0a2" false.
Proof. exact s0a2_first_row_matters. Qed.
Print Assumptions C54_intensity_leakage_refuted.

(** Circular polarisation: M_VQ + i M_VU, the last row, where the last column
    belongs; a wave plate with retardance has M_VU = - M_UV. *)
Theorem C54_circular_leakage_partial : forall (L : nat) (m : rmat4) b b1 b2 bv v,
  (2 <= L)%nat ->
  let mode := coef (RtoC 0) Cconj Copp in
  blmxhwp [b; of_modes L L b1; of_modes L L b2; bv] (mueller2spin (cmat m)) "s0a2_v" v
  = Ok [of_modes L L (fun l k => Cmul (mode b1 b2 l (Z.of_nat k + 2)%Z) (e1 (e3 m), e2 (e3 m)));
        of_modes L L (fun l k => Cmul (mode b2 b1 l (Z.of_nat k - 2)%Z) (e3 (e1 m), - e3 (e2 m)))].
Proof. exact s0a2v_law. Qed.
Print Assumptions C54_circular_leakage_partial.

Theorem C54_circular_leakage_refuted : exists (m m' : rmat4) (blm : list (list C)),
  map4 e3 m = map4 e3 m'
  /\ blmxhwp blm (mueller2spin (cmat m)) "s0a2_v" false
     <> blmxhwp blm (mueller2spin (cmat m')) "s0a2_v" false.
Proof. exact s0a2v_last_row_matters. Qed.
Print Assumptions C54_circular_leakage_refuted.

(** ** C72 *)

(** The two conversions undo each other. *)
Theorem C72_round_trip : forall m : mat4,
  ippv2iquv (iquv2ippv m) = m /\ iquv2ippv (ippv2iquv m) = m.
Proof. exact ippv_roundtrip. Qed.
Print Assumptions C72_round_trip.

(** The matrix acting on (I, Q + iU, Q - iU, V) is returned by the function
    for the opposite conversion ... *)
Theorem C72_exchanged_partial : forall (m : rmat4) (s : stokes),
  mvec4 (ippv2iquv (cmat m)) (ipp_components s) = ipp_components (rmvec4 m s).
Proof. exact ippv_operator. Qed.
Print Assumptions C72_exchanged_partial.

(** ... and not by the one documented to do it. *)
Theorem C72_documented_meaning_refuted : exists (m : rmat4) (s : stokes),
  mvec4 (iquv2ippv (cmat m)) (ipp_components s) <> ipp_components (rmvec4 m s).
Proof. exact ippv_wrong. Qed.
Print Assumptions C72_documented_meaning_refuted.
