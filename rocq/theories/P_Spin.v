(** * Theorems about spin maps and whole timestreams: C48, C53, C35, C78 *)
From Coq Require Import Reals String Lra.
From Verif Require Import Common Cplx LibList Mat M_Alm M_Mueller S_Mueller M_Tod M_Spin S_Alm S_Tod S_Spin
  L_Blmxhwp L_Spin4 L_Spin2 L_Spin5 L_Spin6.
Open Scope R_scope.

(** C78: from coefficients to timestream.  Let sY_lm be harmonics with the
    usual conjugation symmetry and let the transforms be HEALPix's.  Then the
    timestream simulated for a sky (I, E, B) with band limit Ls and a beam with
    band limit Lb is, up to the smaller band limit L, the sum over l, m and
    beam azimuthal orders s of sky times beam times sY_lm(q) exp(-i s psi). *)
Theorem C78_timestream_is_the_convolution :
  forall Y npix Ls Lb alm2map alm2map_spin aI aE aB bI bm bp symmetric S n qs pa polang h,
  let L := Nat.min Ls Lb in
  conj_symmetric Y -> healpix Y npix L alm2map alm2map_spin ->
  real_m0 aI -> real_m0 aE -> real_m0 aB -> real_m0 bI ->
  (forall l, bm l 0%nat = Cconj (bp l 0%nat)) -> (S <= L)%nat -> (2 <= L)%nat ->
  List.length qs = n -> List.length pa = n -> angles_for n h -> Forall (fun q => (q < npix)%nat) qs ->
  exists d tod,
  init_spinmaps1 alm2map alm2map_spin (sky_arrays Ls aI aE aB) (beam_arrays Lb bI bm bp)
    S symmetric None false false = Maps d
  /\ scan_tod n d (map Pix qs) pa polang h = Ok (map RtoC tod) /\ List.length tod = n
  /\ forall i, (i < n)%nat ->
     let q := nth i qs 0%nat in
     let psi := PI - nth i pa 0 * (PI / 180) in
     nth i tod 0
     = Re (convolved Y L (mode aI aI) (mode bI bI) (if symmetric then [0%Z] else spins_both S) q psi)
       + Re (convolved Y L (mode (plus2 aE aB) (minus2 aE aB)) (mode bm bp)
               (if symmetric then [2%Z] else spins_both S) q psi
             * cis (4 * angle_at h i + 2 * (polang * (PI / 180))))%C.
Proof. exact convolution. Qed.
Print Assumptions C78_timestream_is_the_convolution.

(** Behind a plate with Mueller matrix [m], for a detector at a multiple of
    180 degrees.  Missing: other detector angles (see C53) and plates with
    M_IQ <> M_QI or M_IU <> M_UI (see C54). *)
Theorem C78_behind_a_plate_partial :
  forall Y npix Ls Lb alm2map alm2map_spin aI aE aB bI bm bp (m : rmat4) symmetric S n qs pa z h,
  let L := Nat.min Ls Lb in
  conj_symmetric Y -> healpix Y npix L alm2map alm2map_spin ->
  real_m0 aI -> real_m0 aE -> real_m0 aB -> real_m0 bI ->
  (forall l, bm l 0%nat = Cconj (bp l 0%nat)) -> (S <= L)%nat -> (4 <= L)%nat ->
  e0 (e1 m) = e1 (e0 m) -> e0 (e2 m) = e2 (e0 m) ->
  List.length qs = n -> List.length pa = n -> angles_for n h -> Forall (fun q => (q < npix)%nat) qs ->
  exists d tod,
  init_spinmaps1 alm2map alm2map_spin (sky_arrays Ls aI aE aB) (beam_arrays Lb bI bm bp)
    S symmetric (Some (cmat m)) false false = Maps d
  /\ scan_tod n d (map Pix qs) pa (180 * IZR z) h = Ok (map RtoC tod) /\ List.length tod = n
  /\ forall i, (i < n)%nat ->
     let q := nth i qs 0%nat in
     let psi := PI - nth i pa 0 * (PI / 180) in
     let a := angle_at h i in
     let sky := mode (plus2 aE aB) (minus2 aE aB) in
     let sI := if symmetric then [0%Z] else spins_both S in
     let sP := if symmetric then [2%Z] else spins_both S in
     let k24 := (1/2 * (e1 (e1 m) - e2 (e2 m)), 1/2 * (e1 (e2 m) + e2 (e1 m))) in
     let k20 := (1/2 * (e1 (e1 m) + e2 (e2 m)), - (1/2) * (e1 (e2 m) - e2 (e1 m))) in
     let k02 := (e0 (e1 m), - e0 (e2 m)) in
     let k22 := (e1 (e0 m), e2 (e0 m)) in
     nth i tod 0
     = Re (convolved Y L (mode aI aI) (fun l s => mode bI bI l s * RtoC (e0 (e0 m)))%C sI q psi)
       + Re (convolved Y L sky (displaced (mode bp bm) (-4) k24) sP q psi * cis (4 * a))%C
       + Re (convolved Y L sky (displaced (mode bm bp) 0 k20) sP q psi)
       + Re (convolved Y L (mode aI aI) (displaced (mode bp bm) (-2) k02) sI q psi * cis (2 * a))%C
       + Re (convolved Y L sky (displaced (mode bI bI) (-2) k22) sP q psi * cis (2 * a))%C.
Proof. exact aligned_plate. Qed.
Print Assumptions C78_behind_a_plate_partial.

(** A plate that only modulates: it passes intensity and polarisation without
    mixing them, and all polarisation it passes is modulated (M_QQ = -M_UU,
    M_QU = M_UQ; any elements for V).  Then any detector angle is right. *)
Theorem C78_modulating_plate :
  forall Y npix Ls Lb alm2map alm2map_spin aI aE aB bI bm bp (m : rmat4) symmetric S n qs pa polang h,
  let L := Nat.min Ls Lb in
  conj_symmetric Y -> healpix Y npix L alm2map alm2map_spin ->
  real_m0 aI -> real_m0 aE -> real_m0 aB -> real_m0 bI ->
  (forall l, bm l 0%nat = Cconj (bp l 0%nat)) -> (S <= L)%nat -> (4 <= L)%nat ->
  e0 (e1 m) = 0 -> e1 (e0 m) = 0 -> e0 (e2 m) = 0 -> e2 (e0 m) = 0 ->
  e2 (e2 m) = - e1 (e1 m) -> e2 (e1 m) = e1 (e2 m) ->
  List.length qs = n -> List.length pa = n -> angles_for n h -> Forall (fun q => (q < npix)%nat) qs ->
  exists d tod,
  init_spinmaps1 alm2map alm2map_spin (sky_arrays Ls aI aE aB) (beam_arrays Lb bI bm bp) S symmetric (Some (cmat m)) false false
  = Maps d
  /\ scan_tod n d (map Pix qs) pa polang h = Ok (map RtoC tod) /\ List.length tod = n
  /\ forall i, (i < n)%nat ->
     let q := nth i qs 0%nat in
     let psi := PI - nth i pa 0 * (PI / 180) in
     nth i tod 0
     = Re (convolved Y L (mode aI aI) (fun l s => mode bI bI l s * RtoC (e0 (e0 m)))%C
             (if symmetric then [0%Z] else spins_both S) q psi)
       + Re (convolved Y L (mode (plus2 aE aB) (minus2 aE aB))
               (displaced (mode bp bm) (-4) (e1 (e1 m), e1 (e2 m)))
               (if symmetric then [2%Z] else spins_both S) q psi
             * cis (4 * angle_at h i + 2 * (polang * (PI / 180))))%C.
Proof. exact modulator_plate. Qed.
Print Assumptions C78_modulating_plate.

(** A plate passing 9/10 of the intensity and 4/5 of the polarisation, mounted
    at an angle. *)
Example C78_modulating_case :
  let m := V4 (V4 (9/10) 0 0 0) (V4 0 (12/25) (16/25) 0) (V4 0 (16/25) (-12/25) (1/10)) (V4 0 0 (-1/10) (1/3)) in
  e0 (e1 m) = 0 /\ e1 (e0 m) = 0 /\ e0 (e2 m) = 0 /\ e2 (e0 m) = 0
  /\ e2 (e2 m) = - e1 (e1 m) /\ e2 (e1 m) = e1 (e2 m).
Proof. cbn. repeat split; lra. Qed.

(** The same with circular polarisation, for a sky (I, E, B, V) and a beam
    (I, -2, +2, V): V takes part if both it is requested for the sky and the
    beam. *)
Theorem C78_circular_polarisation :
  forall Y npix Ls Lb alm2map alm2map_spin aI aE aB aV bI bm bp bV input_v beam_v symmetric S n qs pa polang h,
  let L := Nat.min Ls Lb in
  conj_symmetric Y -> healpix Y npix L alm2map alm2map_spin ->
  real_m0 aI -> real_m0 aE -> real_m0 aB -> real_m0 aV -> real_m0 bI -> real_m0 bV ->
  (forall l, bm l 0%nat = Cconj (bp l 0%nat)) -> (S <= L)%nat -> (2 <= L)%nat ->
  List.length qs = n -> List.length pa = n -> angles_for n h -> Forall (fun q => (q < npix)%nat) qs ->
  exists d tod,
  init_spinmaps1 alm2map alm2map_spin (sky_arrays_v Ls aI aE aB aV) (beam_arrays_v Lb bI bm bp bV) S symmetric None input_v beam_v
  = Maps d
  /\ scan_tod n d (map Pix qs) pa polang h = Ok (map RtoC tod) /\ List.length tod = n
  /\ forall i, (i < n)%nat ->
     let q := nth i qs 0%nat in
     let psi := PI - nth i pa 0 * (PI / 180) in
     let sI := if symmetric then [0%Z] else spins_both S in
     nth i tod 0
     = Re (convolved Y L (mode aI aI) (mode bI bI) sI q psi)
       + Re (convolved Y L (mode (plus2 aE aB) (minus2 aE aB)) (mode bm bp)
               (if symmetric then [2%Z] else spins_both S) q psi
             * cis (4 * angle_at h i + 2 * (polang * (PI / 180))))%C
       + (if (input_v && beam_v)%bool then Re (convolved Y L (mode aV aV) (mode bV bV) sI q psi) else 0).
Proof. exact convolution_v. Qed.
Print Assumptions C78_circular_polarisation.

(** ... and behind a plate, whose elements M_IV, M_VI, M_VV and so on couple V
    to the other components.  Missing: as above, and plates with M_QV <> M_VQ or
    M_UV <> M_VU (see C54). *)
Theorem C78_circular_plate_partial :
  forall Y npix Ls Lb alm2map alm2map_spin aI aE aB aV bI bm bp bV input_v beam_v (m : rmat4) symmetric S n qs pa z h,
  let L := Nat.min Ls Lb in
  conj_symmetric Y -> healpix Y npix L alm2map alm2map_spin ->
  real_m0 aI -> real_m0 aE -> real_m0 aB -> real_m0 aV -> real_m0 bI -> real_m0 bV ->
  (forall l, bm l 0%nat = Cconj (bp l 0%nat)) -> (S <= L)%nat -> (4 <= L)%nat ->
  e0 (e1 m) = e1 (e0 m) -> e0 (e2 m) = e2 (e0 m) ->
  (input_v = true -> e3 (e1 m) = e1 (e3 m) /\ e3 (e2 m) = e2 (e3 m)) ->
  List.length qs = n -> List.length pa = n -> angles_for n h -> Forall (fun q => (q < npix)%nat) qs ->
  exists d tod,
  init_spinmaps1 alm2map alm2map_spin (sky_arrays_v Ls aI aE aB aV) (beam_arrays_v Lb bI bm bp bV) S symmetric
    (Some (cmat m)) input_v beam_v = Maps d
  /\ scan_tod n d (map Pix qs) pa (180 * IZR z) h = Ok (map RtoC tod) /\ List.length tod = n
  /\ forall i, (i < n)%nat ->
     let q := nth i qs 0%nat in
     let psi := PI - nth i pa 0 * (PI / 180) in
     let a := angle_at h i in
     let I := mode aI aI in
     let P := mode (plus2 aE aB) (minus2 aE aB) in
     let V := only_if input_v (mode aV aV) in
     let beamI := mode bI bI in
     let beamV := only_if beam_v (mode bV bV) in
     let sI := if symmetric then [0%Z] else spins_both S in
     let sP := if symmetric then [2%Z] else spins_both S in
     let k24 := (1/2 * (e1 (e1 m) - e2 (e2 m)), 1/2 * (e1 (e2 m) + e2 (e1 m))) in
     let k20 := (1/2 * (e1 (e1 m) + e2 (e2 m)), - (1/2) * (e1 (e2 m) - e2 (e1 m))) in
     let k02 := (e0 (e1 m), - e0 (e2 m)) in
     let kv02 := (e3 (e1 m), - e3 (e2 m)) in
     let k22 := (e1 (e0 m), e2 (e0 m)) in
     let kv22 := (e1 (e3 m), e2 (e3 m)) in
     nth i tod 0
     = Re (convolved Y L I (fun l s => beamI l s * RtoC (e0 (e0 m)) + beamV l s * RtoC (e0 (e3 m)))%C sI q psi)
       + Re (convolved Y L V (fun l s => beamI l s * RtoC (e3 (e0 m)) + beamV l s * RtoC (e3 (e3 m)))%C sI q psi)
       + Re (convolved Y L P (displaced (mode bp bm) (-4) k24) sP q psi * cis (4 * a))%C
       + Re (convolved Y L P (displaced (mode bm bp) 0 k20) sP q psi)
       + Re (convolved Y L I (displaced (mode bp bm) (-2) k02) sI q psi * cis (2 * a))%C
       + Re (convolved Y L V (displaced (mode bp bm) (-2) kv02) sI q psi * cis (2 * a))%C
       + Re (convolved Y L P (fun l s => displaced beamI (-2) k22 l s + displaced beamV (-2) kv22 l s)%C sP q psi
             * cis (2 * a))%C.
Proof. exact aligned_plate_v. Qed.
Print Assumptions C78_circular_plate_partial.

(** With circular polarisation and any detector angle, for a plate that only
    modulates: linear polarisation mixes neither with intensity nor with V, and
    all of it is modulated.  I and V may mix. *)
Theorem C78_circular_modulating_plate :
  forall Y npix Ls Lb alm2map alm2map_spin aI aE aB aV bI bm bp bV input_v beam_v (m : rmat4) symmetric S n qs pa polang h,
  let L := Nat.min Ls Lb in
  conj_symmetric Y -> healpix Y npix L alm2map alm2map_spin ->
  real_m0 aI -> real_m0 aE -> real_m0 aB -> real_m0 aV -> real_m0 bI -> real_m0 bV ->
  (forall l, bm l 0%nat = Cconj (bp l 0%nat)) -> (S <= L)%nat -> (4 <= L)%nat ->
  e0 (e1 m) = 0 -> e1 (e0 m) = 0 -> e0 (e2 m) = 0 -> e2 (e0 m) = 0 ->
  ((input_v || beam_v)%bool = true -> e3 (e1 m) = 0 /\ e1 (e3 m) = 0 /\ e3 (e2 m) = 0 /\ e2 (e3 m) = 0) ->
  e2 (e2 m) = - e1 (e1 m) -> e2 (e1 m) = e1 (e2 m) ->
  List.length qs = n -> List.length pa = n -> angles_for n h -> Forall (fun q => (q < npix)%nat) qs ->
  exists d tod,
  init_spinmaps1 alm2map alm2map_spin (sky_arrays_v Ls aI aE aB aV) (beam_arrays_v Lb bI bm bp bV) S symmetric
    (Some (cmat m)) input_v beam_v = Maps d
  /\ scan_tod n d (map Pix qs) pa polang h = Ok (map RtoC tod) /\ List.length tod = n
  /\ forall i, (i < n)%nat ->
     let q := nth i qs 0%nat in
     let psi := PI - nth i pa 0 * (PI / 180) in
     let I := mode aI aI in
     let V := only_if input_v (mode aV aV) in
     let beamI := mode bI bI in
     let beamV := only_if beam_v (mode bV bV) in
     let sI := if symmetric then [0%Z] else spins_both S in
     nth i tod 0
     = Re (convolved Y L I (fun l s => beamI l s * RtoC (e0 (e0 m)) + beamV l s * RtoC (e0 (e3 m)))%C sI q psi)
       + Re (convolved Y L V (fun l s => beamI l s * RtoC (e3 (e0 m)) + beamV l s * RtoC (e3 (e3 m)))%C sI q psi)
       + Re (convolved Y L (mode (plus2 aE aB) (minus2 aE aB))
               (displaced (mode bp bm) (-4) (e1 (e1 m), e1 (e2 m)))
               (if symmetric then [2%Z] else spins_both S) q psi
             * cis (4 * angle_at h i + 2 * (polang * (PI / 180))))%C.
Proof. exact modulator_plate_v. Qed.
Print Assumptions C78_circular_modulating_plate.

Example C78_circular_modulating_case :
  let m := V4 (V4 (9/10) 0 0 (1/20)) (V4 0 (12/25) (16/25) 0) (V4 0 (16/25) (-12/25) 0) (V4 (1/30) 0 0 (-4/5)) in
  e0 (e1 m) = 0 /\ e1 (e0 m) = 0 /\ e0 (e2 m) = 0 /\ e2 (e0 m) = 0
  /\ (e3 (e1 m) = 0 /\ e1 (e3 m) = 0 /\ e3 (e2 m) = 0 /\ e2 (e3 m) = 0)
  /\ e2 (e2 m) = - e1 (e1 m) /\ e2 (e1 m) = e1 (e2 m).
Proof. cbn. repeat split; lra. Qed.

(** Transforms as required exist for any harmonics and band limit, and there
    are harmonics with the required symmetry. *)
Example C78_case :
  (exists Y, conj_symmetric Y /\ Y 1%Z 1%nat 0%Z 0%nat <> RtoC 0)
  /\ (forall Y npix L, exists alm2map alm2map_spin, healpix Y npix L alm2map alm2map_spin)
  /\ real_m0 (fun l m => match m with O => RtoC (INR l) | _ => (1, 2) end).
Proof.
  split; [|split; [exact transforms_exist|intros l; reflexivity]].
  exists toyY. split; [exact toyY_sym|]. intros E. apply (f_equal snd) in E. cbn in E. lra.
Qed.

(** C35: with a co-polarised beam the ideal half-wave plate gives, sample by
    sample, the timestream simulated without Mueller matrix. *)
Theorem C35_ideal_plate_timestream :
  forall Y npix Ls Lb alm2map alm2map_spin aI aE aB bI symmetric S n qs pa polang h,
  let L := Nat.min Ls Lb in
  conj_symmetric Y -> healpix Y npix L alm2map alm2map_spin ->
  real_m0 aI -> real_m0 aE -> real_m0 aB -> real_m0 bI ->
  (forall l m, (1 <= m)%nat -> (l <= m + 1)%nat -> bI l m = RtoC 0) -> (S <= L)%nat -> (4 <= L)%nat ->
  List.length qs = n -> List.length pa = n -> angles_for n h -> Forall (fun q => (q < npix)%nat) qs ->
  exists m2 p2,
  unpol2pol (RtoC 0) Cconj Copp (of_modes Lb Lb bI) = Ok (m2, p2)
  /\ let sky := sky_arrays Ls aI aE aB in
     let beam := [map Some (of_modes Lb Lb bI); map Some m2; map Some p2] in
     exists d d' tod,
     init_spinmaps1 alm2map alm2map_spin sky beam S symmetric (Some (cmat ideal_hwp)) false false = Maps d
     /\ init_spinmaps1 alm2map alm2map_spin sky beam S symmetric None false false = Maps d'
     /\ scan_tod n d (map Pix qs) pa polang h = Ok tod
     /\ scan_tod n d' (map Pix qs) pa polang h = Ok tod.
Proof. exact ideal_plate. Qed.
Print Assumptions C35_ideal_plate_timestream.

(** C53: with the identity as Mueller matrix the timestream lacks the factor
    exp(i (4 a + 2 polang)) of the timestream without plate (a = 0 there):
    they agree for detectors at multiples of 180 degrees only. *)
Theorem C53_identity_plate :
  forall Y npix Ls Lb alm2map alm2map_spin aI aE aB bI bm bp symmetric S n qs pa polang h,
  let L := Nat.min Ls Lb in
  conj_symmetric Y -> healpix Y npix L alm2map alm2map_spin ->
  real_m0 aI -> real_m0 aE -> real_m0 aB -> real_m0 bI ->
  (forall l, bm l 0%nat = Cconj (bp l 0%nat)) -> (S <= L)%nat -> (4 <= L)%nat ->
  List.length qs = n -> List.length pa = n -> angles_for n h -> Forall (fun q => (q < npix)%nat) qs ->
  exists d tod,
  init_spinmaps1 alm2map alm2map_spin (sky_arrays Ls aI aE aB) (beam_arrays Lb bI bm bp)
    S symmetric (Some (cmat reye4)) false false = Maps d
  /\ scan_tod n d (map Pix qs) pa polang h = Ok (map RtoC tod) /\ List.length tod = n
  /\ forall i, (i < n)%nat ->
     let q := nth i qs 0%nat in
     let psi := PI - nth i pa 0 * (PI / 180) in
     nth i tod 0
     = Re (convolved Y L (mode aI aI) (mode bI bI) (if symmetric then [0%Z] else spins_both S) q psi)
       + Re (convolved Y L (mode (plus2 aE aB) (minus2 aE aB)) (mode bm bp)
               (if symmetric then [2%Z] else spins_both S) q psi).
Proof. exact identity_plate. Qed.
Print Assumptions C53_identity_plate.

(** C48: a NaN or infinity in the sky is always reported as one of the sky. *)
Theorem C48_sky_partial : forall alm2map alm2map_spin alm blm S symmetric hwp input_v beam_v,
  (exists x, In x alm /\ In None x) ->
  (input_v = true -> List.length alm = 4%nat) -> (beam_v = true -> List.length blm = 4%nat) ->
  exists i, init_spinmaps1 alm2map alm2map_spin alm blm S symmetric hwp input_v beam_v = NotFinite "alm" i.
Proof.
  exact (fun a2m a2ms alm blm S sym hwp iv bv H => sky_rejected a2m a2ms alm blm S sym hwp iv bv (bad_raw alm H)).
Qed.
Print Assumptions C48_sky_partial.

(** The component it names is the first bad one if the beam has no further
    components ... *)
Theorem C48_named_component_partial : forall alm2map alm2map_spin alm blm S symmetric hwp k,
  (k < List.length alm)%nat -> In None (nth k alm []) ->
  (forall j, (j < k)%nat -> ~ In None (nth j alm [])) -> (List.length blm <= k + 1)%nat ->
  init_spinmaps1 alm2map alm2map_spin alm blm S symmetric hwp false false = NotFinite "alm" k.
Proof.
  exact (fun a2m a2ms alm blm S sym hwp k H1 H2 H3 =>
    sky_last_named a2m a2ms alm blm S sym hwp k H1 (bad_one _ H2) (fun j Hj => good_one _ (H3 j Hj))).
Qed.
Print Assumptions C48_named_component_partial.

(** ... but is wrong, whatever the values, if the (finite) beam has more. *)
Theorem C48_named_component_refuted : forall alm2map alm2map_spin alm blm S symmetric hwp k,
  (k < List.length alm)%nat -> In None (nth k alm []) ->
  (forall j, (j < k)%nat -> ~ In None (nth j alm [])) ->
  (forall x, In x blm -> ~ In None x) -> (k + 1 < List.length blm)%nat ->
  exists i, init_spinmaps1 alm2map alm2map_spin alm blm S symmetric hwp false false = NotFinite "alm" i
  /\ i <> k.
Proof.
  exact (fun a2m a2ms alm blm S sym hwp k H1 H2 H3 H4 H5 =>
    ex_intro _ (List.length blm - 1)%nat (conj
      (sky_named_wrong a2m a2ms alm blm S sym hwp k H1 (bad_one _ H2) (fun j Hj => good_one _ (H3 j Hj))
        (good_raw blm H4) H5) (wrong_index k _ H5))).
Qed.
Print Assumptions C48_named_component_refuted.

(** A beam with as many components as the sky is not checked: spin maps are
    computed from NaNs. *)
Theorem C48_beam_refuted : forall alm2map alm2map_spin alm blm S symmetric hwp,
  (forall x, In x alm -> ~ In None x) -> (List.length blm <= List.length alm)%nat ->
  (exists x, In x blm /\ In None x) ->
  init_spinmaps1 alm2map alm2map_spin alm blm S symmetric hwp false false = Poisoned.
Proof.
  exact (fun a2m a2ms alm blm S sym hwp H1 H2 H3 =>
    beam_unchecked a2m a2ms alm blm S sym hwp (good_raw alm H1) H2 (bad_raw blm H3)).
Qed.
Print Assumptions C48_beam_refuted.

(** Finite coefficients are never rejected as non-finite. *)
Theorem C48_finite_accepted : forall alm2map alm2map_spin alm blm S symmetric hwp input_v beam_v,
  (forall x, In x alm -> ~ In None x) -> (forall x, In x blm -> ~ In None x) ->
  forall name i,
  init_spinmaps1 alm2map alm2map_spin alm blm S symmetric hwp input_v beam_v <> NotFinite name i.
Proof.
  exact (fun a2m a2ms alm blm S sym hwp iv bv H1 H2 =>
    finite_accepted a2m a2ms alm blm S sym hwp iv bv (good_raw alm H1) (good_raw blm H2)).
Qed.
Print Assumptions C48_finite_accepted.

Example C48_case :
  let alm := [[None; Some (RtoC 1)]; [Some (RtoC 1)]; [Some (RtoC 2)]] in
  let blm := [[Some (RtoC 1)]; [Some (RtoC 0)]; [Some (RtoC 3)]] in
  (0 < List.length alm)%nat /\ In None (nth 0 alm []) /\ (0 + 1 < List.length blm)%nat
  /\ (forall x, In x blm -> ~ In None x) /\ (exists x, In x alm /\ In None x)
  /\ (List.length alm <= List.length blm)%nat.
Proof.
  cbn. repeat split; try lia; try tauto.
  - intros x H. intuition subst; cbn in *; intuition discriminate.
  - eexists. split; [left; reflexivity|]. cbn. tauto.
Qed.
