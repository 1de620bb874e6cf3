(** * Property C92: from the sky to its map

    [observed] (in [S_Bin]) describes a scan by one process: any scan strategy,
    half-wave plate, chunks, rotation and focal plane, with symmetric beams and
    without ghosts, cross-talk, filters and ground.  [sound] lists what is
    assumed of the pointing library.  [stokes sign m0 m2 delta p] are the Stokes
    parameters in pixel [p] of the sky seen through the beam, the polarisation
    turned by [delta] degrees. *)
From Coq Require Import Reals String.
From Verif Require Import Common M_Quat M_Hwp M_Detpair M_Scan M_Bin S_Scan S_Saved S_Contrib M_Tod S_Bin L_Bin L_Bin2 L_Bin3 L_Bin4 L_BinEx Cplx.
From Verif Require M_Solve S_Solve M_Spin S_Spin L_Spin4 Mat M_Alm M_Blm S_Alm M_Mueller S_Mueller.
Open Scope R_scope.

(** The scans of any number of processes, binned and solved: a pixel seen under
    three polarisation angles, by whichever detectors, and whose matrix qpoint
    accepts, holds the sky seen through the beam. *)
Theorem C92_recovered : forall P nside m0 m2 ranks maps0 E O s s' new gs well cond fill p,
  sound P (12 * nside ^ 2) -> List.length m0 = (12 * nside ^ 2)%nat -> List.length m2 = (12 * nside ^ 2)%nat ->
  ranks <> [] -> x_varphi P = 0 ->
  (forall r, In r ranks -> observed P m0 m2 0 (E r) O (s r) (s' r) (new r)) ->
  (forall r, In r ranks -> M_Solve.own_flag (maps0 r) = None) ->
  Forall2 (S_Solve.rank_maps nside) (map (fun r : nat => (maps0 r, bin_calls_of P (new r))) ranks) gs ->
  (p < 12 * nside ^ 2)%nat ->
  let seen := S_Solve.ranks_used (map (fun r => (maps0 r, bin_calls_of P (new r))) ranks) in
  S_Solve.three_angles p seen -> well (S_Solve.angle_sums (S_Solve.in_pixel p seen)) = true ->
  exists m c Q, M_Solve.solve_for_map well cond true 0 gs fill = (Some m, c, Some Q)
    /\ nth_error m p = Some (Re (nth p m0 (RtoC 0)), Re (nth p m2 (RtoC 0)), - (x_sign P * Im (nth p m2 (RtoC 0)))).
Proof. exact solved_true. Qed.
Print Assumptions C92_recovered.

(** With a common error of the polarisation angles, and a phase [varphi] of the
    plate, the polarisation in the map is turned by that error and twice that
    phase. *)
Theorem C92_turned : forall P nside m0 m2 err ranks maps0 E O s s' new gs well cond fill p,
  sound P (12 * nside ^ 2) -> List.length m0 = (12 * nside ^ 2)%nat -> List.length m2 = (12 * nside ^ 2)%nat ->
  ranks <> [] ->
  (forall r, In r ranks -> observed P m0 m2 err (E r) O (s r) (s' r) (new r)) ->
  (forall r, In r ranks -> M_Solve.own_flag (maps0 r) = None) ->
  Forall2 (S_Solve.rank_maps nside) (map (fun r : nat => (maps0 r, bin_calls_of P (new r))) ranks) gs ->
  (p < 12 * nside ^ 2)%nat ->
  let seen := S_Solve.ranks_used (map (fun r => (maps0 r, bin_calls_of P (new r))) ranks) in
  S_Solve.three_angles p seen -> well (S_Solve.angle_sums (S_Solve.in_pixel p seen)) = true ->
  exists m c Q, M_Solve.solve_for_map well cond true 0 gs fill = (Some m, c, Some Q)
    /\ nth_error m p = Some (stokes (x_sign P) m0 m2 (err + 2 * x_varphi P) p).
Proof.
  exact (fun P nside m0 m2 err ranks maps0 E O s s' new gs well cond fill p SD =>
    solved P _ SD m0 m2 err nside ranks maps0 E O s s' new gs well cond fill p eq_refl).
Qed.
Print Assumptions C92_turned.

Example C92_case : forall err,
  sound (ex_optics err) (12 * 1 ^ 2) /\ List.length ex_m0 = (12 * 1 ^ 2)%nat /\ List.length ex_m2 = (12 * 1 ^ 2)%nat
  /\ (forall r, In r [0; 1]%nat ->
       exists s', observed (ex_optics err) ex_m0 ex_m2 err (sky_env err r) sky_opts sky_state s' (sky_log err r))
  /\ M_Solve.own_flag no_maps = None
  /\ (exists gs, Forall2 (S_Solve.rank_maps 1) (map (fun r : nat => (no_maps, bin_calls_of (ex_optics err) (sky_log err r))) [0; 1]%nat) gs)
  /\ S_Solve.three_angles 5 (S_Solve.ranks_used (map (fun r => (no_maps, bin_calls_of (ex_optics err) (sky_log err r))) [0; 1]%nat)).
Proof.
  exact (fun err => conj (ex_sound err) (conj eq_refl (conj eq_refl (conj (fun r H => sky_observed err r (small_rank r H))
    (conj eq_refl (conj (sky_binned err) (sky_three err))))))).
Qed.

(** Where [m0] and [m2] come from: for a symmetric beam they are the maps of the
    sky (I, E, B) with every multipole scaled by the beam's. *)
Theorem C92_smoothed_sky : forall Y npix Ls Lb alm2map alm2map_spin aI aE aB bI bm bp S,
  let L := Nat.min Ls Lb in
  S_Spin.conj_symmetric Y -> S_Spin.healpix Y npix L alm2map alm2map_spin ->
  S_Spin.real_m0 aI -> S_Spin.real_m0 aE -> S_Spin.real_m0 aB -> S_Spin.real_m0 bI ->
  (forall l, bm l 0%nat = Cconj (bp l 0%nat)) -> (S <= L)%nat -> (2 <= L)%nat ->
  exists d m0 m2,
  M_Spin.init_spinmaps1 alm2map alm2map_spin (S_Spin.sky_arrays Ls aI aE aB) (S_Spin.beam_arrays Lb bI bm bp)
    S true None false false = M_Spin.Maps d
  /\ symmetric_maps m0 m2 d /\ List.length m0 = npix /\ List.length m2 = npix
  /\ forall p, (p < npix)%nat ->
     nth p m0 (RtoC 0) = S_Spin.field Y L 0 (fun l m => S_Spin.mode aI aI l m * bI l 0%nat)%C p
     /\ nth p m2 (RtoC 0)
        = S_Spin.field Y L 2 (fun l m => S_Spin.mode (S_Spin.plus2 aE aB) (S_Spin.minus2 aE aB) l m
                                         * (if (2 <=? l)%nat then bm l 2%nat else RtoC 0))%C p.
Proof. exact symmetric_smoothed. Qed.
Print Assumptions C92_smoothed_sky.
Example C92_smoothed_case :
  (exists Y, S_Spin.conj_symmetric Y)
  /\ (forall Y npix L, exists alm2map alm2map_spin, S_Spin.healpix Y npix L alm2map alm2map_spin)
  /\ S_Spin.real_m0 (fun l m => match m with O => RtoC (INR l) | _ => (1, 2) end).
Proof. exact (conj (ex_intro _ _ L_Spin4.toyY_sym) (conj L_Spin4.transforms_exist (fun l => eq_refl))). Qed.

(** The maps of a symmetric beam without Mueller matrix are seen as such; *)
Theorem C92_no_matrix : forall m0 m2 maps, symmetric_maps m0 m2 maps -> seen_as m0 m2 maps.
Proof. exact plain_seen. Qed.
Print Assumptions C92_no_matrix.

(** so are those of an axisymmetric, co-polarised beam behind the ideal plate,
    given by its Mueller matrix: the sky with every multipole scaled by the
    beam's. *)
Theorem C92_ideal_plate : forall Y npix Ls Lb alm2map alm2map_spin aI aE aB bI S,
  let L := Nat.min Ls Lb in
  S_Spin.conj_symmetric Y -> S_Spin.healpix Y npix L alm2map alm2map_spin ->
  S_Spin.real_m0 aI -> S_Spin.real_m0 aE -> S_Spin.real_m0 aB -> S_Spin.real_m0 bI ->
  (forall l m, (1 <= m)%nat -> bI l m = RtoC 0) -> (S <= L)%nat -> (4 <= L)%nat ->
  exists bm2 bp2 d m0 m2,
  M_Alm.unpol2pol (RtoC 0) Cconj Copp (S_Alm.of_modes Lb Lb bI) = Ok (bm2, bp2)
  /\ M_Spin.init_spinmaps1 alm2map alm2map_spin (S_Spin.sky_arrays Ls aI aE aB)
       [map Some (S_Alm.of_modes Lb Lb bI); map Some bm2; map Some bp2]
       S true (Some (Mat.cmat S_Mueller.ideal_hwp)) false false = M_Spin.Maps d
  /\ seen_as m0 m2 d /\ List.length m0 = npix /\ List.length m2 = npix
  /\ forall p, (p < npix)%nat ->
     nth p m0 (RtoC 0) = S_Spin.field Y L 0 (fun l m => S_Spin.mode aI aI l m * bI l 0%nat)%C p
     /\ nth p m2 (RtoC 0)
        = S_Spin.field Y L 2 (fun l m => S_Spin.mode (S_Spin.plus2 aE aB) (S_Spin.minus2 aE aB) l m
                                         * (if (2 <=? l)%nat then bI l 0%nat else RtoC 0))%C p.
Proof. exact ideal_smoothed. Qed.
Print Assumptions C92_ideal_plate.
Example C92_ideal_plate_case :
  (exists Y, S_Spin.conj_symmetric Y)
  /\ (forall Y npix L, exists alm2map alm2map_spin, S_Spin.healpix Y npix L alm2map alm2map_spin)
  /\ (let bI l m := match m with O => RtoC (INR l) | _ => RtoC 0 end in
      S_Spin.real_m0 bI /\ forall l m, (1 <= m)%nat -> bI l m = RtoC 0).
Proof.
  refine (conj (ex_intro _ _ L_Spin4.toyY_sym) (conj L_Spin4.transforms_exist (conj (fun l => eq_refl) _))).
  intros l [|m] H; [inversion H|reflexivity].
Qed.

(** Sample by sample: the pixel and polarisation angle used for binning are
    those of the beam that was scanned, less the error of the detector's angle
    and twice the phase of the plate. *)
Theorem C92_same_angle : forall P npix d v j x theta, sound P npix -> plate_at v j theta ->
  let o := bin_sample P d v j x in let seen := x_look P (scan_q_det P d v j) in
  exists psi, M_Solve.o_pix o = fst seen /\ M_Solve.o_val o = x
    /\ M_Solve.o_cos o = cos (2 * psi) /\ M_Solve.o_sin o = x_sign P * sin (2 * psi)
    /\ same_angle psi (snd seen * PI / 180 + x_polang P d * PI / 180 + 2 * theta - 2 * (x_varphi P * PI / 180)).
Proof. exact bin_plate. Qed.
Print Assumptions C92_same_angle.

(** What is assumed of the library holds of quaternions made from three angles:
    turning about the line of sight changes the third only. *)
Theorem C92_line_of_sight : forall ra dec psi a, quat_left_mult (aimed ra dec psi) (q_z a) = aimed ra dec (psi - a).
Proof. exact aimed_turned. Qed.
Print Assumptions C92_line_of_sight.
Example C92_angle_case : sound (ex_optics 1) 12.
Proof. exact (ex_sound 1). Qed.
