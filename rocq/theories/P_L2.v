(** * Theorems: L2 scan, angle helpers *)
From Coq Require Import Reals Lra Lia.
From Verif Require Import Common M_Hwp M_Quat S_Quat M_L2 S_L2 L_L2 L_L2b L_L2c L_L2d.
Open Scope R_scope.

(** ** C43: space-mission boresight geometry *)

(** The motion specified in [S_L2] has the angles of the property: unit norm,
    [ta] between spin axis and reference direction, [tb] between boresight and
    spin axis. *)
Theorem C43_angles : forall phi ta tb p q,
  let a := ecliptic phi in let s := spin_axis a ta p in let b := boresight a ta tb p q in
  dot b b = 1 /\ dot s s = 1 /\ dot s a = cos ta /\ dot b s = cos tb.
Proof. exact boresight_angles. Qed.
Print Assumptions C43_angles.

(** The vector computed for a sample is the one of that motion, whatever the
    angles and rates; psi is the angle from the direction of increasing
    colatitude to the direction of the spin motion. *)
Theorem C43_vector : forall ta tb om os s, s_theta s = PI / 2 -> 0 < tb < PI ->
  let a := ecliptic (s_phi s) in let p := om * s_time s + 3 / 2 * PI in let q := os * s_time s + PI in
  let b := boresight a ta tb p q in
  off_pole b ->
  exists psi t l, LB_rotmatrix_multi2 ta tb om os [s] = Ok [(b, psi)] /\ 0 < t < PI /\ b = at_colat t l
    /\ cross (spin_axis a ta p) b = vscale (sin tb) (vadd (vscale (cos psi) (e_colat t l)) (vscale (sin psi) (e_long l))).
Proof. exact LB_one. Qed.
Print Assumptions C43_vector.

(** From the time to the arguments for qpoint, for one sample: the direction
    opposite to the boresight of the motion about the Sun, hence the motion
    about the anti-Sun direction. *)
Theorem C43_scan_partial : forall t ta tb per rate, 0 < tb < 180 -> per <> 0 ->
  let a := ecliptic (used_phase t) in
  let p := 2 * PI / (per * 60) * t + 3 / 2 * PI in
  let q := 2 * PI * rate / 60 * t + PI in
  let s := spin_axis a (deg ta) p in let b := boresight a (deg ta) (deg tb) p q in
  off_pole b ->
  exists ra dec psi, ctime2bore [t] ta tb per rate = Ok [(ra, dec, psi)]
    /\ direction (deg ra) (deg dec) = vscale (-1) b
    /\ exists th l, 0 < th < PI /\ b = at_colat th l
         /\ cross s b = vscale (sin (deg tb)) (vadd (vscale (cos (deg psi)) (e_colat th l)) (vscale (sin (deg psi)) (e_long l))).
Proof. exact ctime2bore_one. Qed.
Print Assumptions C43_scan_partial.

(** Every longer chunk fails. *)
Theorem C43_chunk_refuted : forall t t' l ta tb per rate, ctime2bore (t :: t' :: l) ta tb per rate = Err NameError.
Proof. exact ctime2bore_many. Qed.
Print Assumptions C43_chunk_refuted.

(** Whatever angles and rates are asked for, the scan keeps 45 degrees between
    Sun direction and spin axis and 50 degrees between spin axis and boresight. *)
Theorem C43_options_refuted : forall theta_antisun theta_boresight freq_antisun freq_boresight sample_rate jitter
  c0 fs i,
  let t := INR i / fs + c0 in
  let axis := spin_axis (ecliptic (used_phase t)) (deg 45) (2 * PI / (192.348 * 60) * t + 3 / 2 * PI) in
  off_pole (boresight (ecliptic (used_phase t)) (deg 45) (deg 50) (2 * PI / (192.348 * 60) * t + 3 / 2 * PI)
              (2 * PI * 0.05 / 60 * t + PI)) ->
  exists ra dec psi,
    l2_scan theta_antisun theta_boresight freq_antisun freq_boresight sample_rate jitter (l2_ctime c0 fs i 1)
    = Ok [(ra, dec, psi)]
    /\ dot axis (ecliptic (used_phase t)) = cos (deg 45)
    /\ dot (vscale (-1) (direction (deg ra) (deg dec))) axis = cos (deg 50).
Proof. exact l2_options. Qed.
Print Assumptions C43_options_refuted.

Example C43_case : 0 < 50 < 180 /\ 192.348 <> 0
  /\ off_pole (boresight (ecliptic (used_phase 0)) (deg 45) (deg 50) (2 * PI / (192.348 * 60) * 0 + 3 / 2 * PI)
       (2 * PI * 0.05 / 60 * 0 + PI)).
Proof. split; [lra|]. split; [apply Rgt_not_eq; lra|]. exact (off_pole_case _ _ _). Qed.

(** ** C44: wrap-around helpers *)

(** One angle, not negative. *)
Theorem C44_2pi_partial : forall a, 0 <= a ->
  exists b k, wraparound_2pi [a] = Ok [b] /\ 0 <= b < 2 * PI /\ b = a + 2 * PI * IZR k.
Proof. exact w2pi_range. Qed.
Print Assumptions C44_2pi_partial.

Theorem C44_npi_partial : forall a n, 0 < n -> 0 <= a ->
  exists b k, wraparound_npi [a] n = Ok [b] /\ 0 <= b < n * PI /\ b = a + n * PI * IZR k.
Proof. exact npi_range. Qed.
Print Assumptions C44_npi_partial.

(** One negative angle, not at a multiple of the period. *)
Theorem C44_npi_negative_partial : forall a n, 0 < n -> a < 0 -> (forall k, a <> n * PI * IZR k) ->
  exists b k, wraparound_npi [a] n = Ok [b] /\ 0 <= b < n * PI /\ b = a + n * PI * IZR k.
Proof. exact npi_range_neg. Qed.
Print Assumptions C44_npi_negative_partial.

(** Several angles, or none: neither helper returns.  One negative angle: the
    first leaves it negative.  Minus one period: the second returns the
    excluded end of the interval. *)
Theorem C44_refuted :
  (forall a b l, wraparound_2pi (a :: b :: l) = Err NameError)
  /\ (forall a b l n, wraparound_npi (a :: b :: l) n = Err TypeError)
  /\ (forall n, wraparound_2pi [] = Err UnboundLocalError /\ wraparound_npi [] n = Err UnboundLocalError)
  /\ wraparound_2pi [-1] = Ok [-1]
  /\ (forall n, 0 < n -> wraparound_npi [- (n * PI)] n = Ok [n * PI]).
Proof.
  exact (conj (fun _ _ _ => eq_refl) (conj (fun _ _ _ _ => eq_refl) (conj (fun _ => conj eq_refl eq_refl)
    (conj w2pi_negative npi_edge)))).
Qed.
Print Assumptions C44_refuted.

Example C44_case : (0 <= 7 /\ 0 < 1) /\ (-1 < 0 /\ forall k, -1 <> 2 * PI * IZR k).
Proof.
  split; [lra|]. split; [lra|]. intros k E. assert (H := PI2_1).
  destruct (Z_le_gt_dec 0 k) as [Hk|Hk].
  - apply IZR_le in Hk. assert (X := Rmult_le_pos (2 * PI) (IZR k) ltac:(lra) Hk). lra.
  - assert (Hk' : (k <= -1)%Z) by lia. apply IZR_le in Hk'. assert (X := Rmult_le_compat_l (2 * PI) _ _ ltac:(lra) Hk'). lra.
Qed.

(** ** C45: equatorial to spherical coordinates *)

Theorem C45_partial : forall ra dec, -90 < dec <= 90 ->
  let '(l, c) := radec2colatlong ra dec in
  0 <= l < 2 * PI /\ (exists k, l = deg ra + 2 * PI * IZR k) /\ 0 <= c <= PI /\ c = PI / 2 - deg dec.
Proof. exact colatlong. Qed.
Print Assumptions C45_partial.

(** The pixel numbers are those of the directions, for any pixelisation of the
    sphere by colatitude and (periodic) longitude; the arrays handed in hold the
    coordinates in radians afterwards. *)
Theorem C45_pixels_partial : forall (A : Type) (ang2pix : Z -> R -> R -> A) nside ra dec pix ra' dec',
  (forall th phi k, ang2pix nside th (phi + 2 * PI * IZR k) = ang2pix nside th phi) ->
  length ra = length dec -> (forall d, In d dec -> -90 < d <= 90) ->
  radec2ind_hp ang2pix nside ra dec = (pix, ra', dec') ->
  length pix = length ra
  /\ forall i r d, nth_error ra i = Some r -> nth_error dec i = Some d ->
     nth_error pix i = Some (ang2pix nside (PI / 2 - deg d) (deg r))
     /\ nth_error dec' i = Some (PI / 2 - deg d)
     /\ exists l k, nth_error ra' i = Some l /\ 0 <= l < 2 * PI /\ l = deg r + 2 * PI * IZR k.
Proof. exact @pixel_index. Qed.
Print Assumptions C45_pixels_partial.

Example C45_pixels_case : let rings (_ : Z) (th _ : R) := Int_part th in
  (forall th phi k, rings 1%Z th (phi + 2 * PI * IZR k) = rings 1%Z th phi)
  /\ (forall d, In d [10; -20] -> -90 < d <= 90).
Proof. split; [reflexivity|]. intros d [<-|[<-|[]]]; lra. Qed.

(** The south pole becomes the north pole. *)
Theorem C45_south_refuted : forall ra, snd (radec2colatlong ra (-90)) = 0.
Proof. exact colatlong_south. Qed.
Print Assumptions C45_south_refuted.

(** ** C81: dates *)

(** The Sun's phase for a Dublin Julian date, and the one the L2 scan uses: the
    date has been shifted twice, and the phases are never equal. *)
Theorem C81_date_refuted : forall t,
  (exists k, sun_position_quick [ctime2DJD t] = Ok [2 * PI / 365.25 * (t / 86400 + 25567.5) + 2 * PI * IZR k])
  /\ (exists k, sun_position_quick [convert_Julian2Dublin (ctime2DJD t)] = Ok [used_phase t + 2 * PI * IZR k])
  /\ forall k, used_phase t + 2 * PI * IZR k <> 2 * PI / 365.25 * (t / 86400 + 25567.5).
Proof. exact (fun t => conj (sun_documented t) (conj (sun_one t) (phase_differs t))). Qed.
Print Assumptions C81_date_refuted.
