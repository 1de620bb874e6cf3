(** * Model of the L2 scan and of angle helpers

    /repo/beamconv/scanning.py unless noted.  Arrays are lists; a triple of
    arrays (x, y, z) is a list of triples.  Numbers are reals. *)
From Coq Require Import Reals.
From Verif Require Import Common M_Hwp.
Open Scope R_scope.

(** ** Wrapping *)

(** 45-64 [wraparound_2pi].  [int_] is not defined, and [n] is not set for an
    empty array. *)
Definition wraparound_2pi (x : list R) : res (list R) :=
  match x with
  | [] => Err UnboundLocalError
  | [a] => Ok [a - IZR (trunc (a / (2 * PI))) * 2 * PI]
  | _ => Err NameError
  end.

(** 66-90 [wraparound_npi].  [int] of an array with several elements raises. *)
Definition wraparound_npi (x : list R) (n : R) : res (list R) :=
  match x with
  | [] => Err UnboundLocalError
  | [a] =>
      let w := trunc (a / (n * PI)) in
      let w := if Rlt_dec a 0 then (w - 1)%Z else w in
      Ok [a - IZR w * n * PI]
  | _ => Err TypeError
  end.

(** tools.py:472-497 [radec2colatlong] for one element of each array: what it
    holds afterwards. *)
Definition radec2colatlong (ra dec : R) : R * R :=
  (rmod (ra * (PI / 180)) (2 * PI), rmod (dec * (PI / 180) * -1 + PI / 2) PI).

(** tools.py:499-522 [radec2ind_hp]: the pixels, and what the two arrays hold
    afterwards ([radec2colatlong] works in place).  [ang2pix]: healpy's, by
    colatitude and longitude. *)
Definition radec2ind_hp {A} (ang2pix : Z -> R -> R -> A) (nside : Z) (ra dec : list R) : list A * list R * list R :=
  let coords := map (fun p => radec2colatlong (fst p) (snd p)) (combine ra dec) in
  (map (fun p => ang2pix nside (snd p) (fst p)) coords, map fst coords, map snd coords).

(** ** Elementary functions *)

(** [np.arctan2(y, x)]; zero is taken to be [+0.]. *)
Definition arctan2 (y x : R) : R :=
  if Rlt_dec 0 x then atan (y / x)
  else if Rlt_dec x 0 then (if Rle_dec 0 y then atan (y / x) + PI else atan (y / x) - PI)
  else if Rlt_dec 0 y then PI / 2
  else if Rlt_dec y 0 then - PI / 2
  else 0.

(** [np.arctan(a / z)] with [a >= 0]; division by (positive) zero gives
    infinity when [a > 0].  [0 / 0] (NaN in NumPy) is given the value 0. *)
Definition arctan_div (a z : R) : R :=
  if Req_EM_T z 0 then (if Rlt_dec 0 a then PI / 2 else 0) else atan (a / z).

Definition v3 : Type := (R * R * R)%type.

(** 112-132 [matrix2x2_multi_xy], 134-154 [matrix2x2_multi_xz] *)
Definition rot_xy (phi : R) (v : v3) : v3 :=
  let '(x, y, z) := v in (cos phi * x - sin phi * y, sin phi * x + cos phi * y, z).
Definition rot_xz (theta : R) (v : v3) : v3 :=
  let '(x, y, z) := v in (cos theta * x + sin theta * z, y, - sin theta * x + cos theta * z).

(** 156-164 [cosangle] *)
Definition cosangle (u v : v3) : R :=
  let '(x, y, z) := u in let '(x', y', z') := v in
  acos ((x * x' + y * y' + z * z') / sqrt (x * x + y * y + z * z) / sqrt (x' * x' + y' * y' + z' * z')).

Definition zip_with {A B C} (f : A -> B -> C) (l : list A) (l' : list B) : list C :=
  map (fun p => f (fst p) (snd p)) (combine l l').

(** 166-179 [deriv_theta] *)
Definition deriv_theta (l : list v3) : res (list v3) :=
  do theta <- wraparound_npi (map (fun v => let '(x, y, z) := v in arctan_div (sqrt (x * x + y * y)) z + 5 * PI) l) 1;
  do phi <- wraparound_npi (map (fun v => let '(x, y, z) := v in arctan2 y x + 10 * PI) l) 2;
  Ok (zip_with (fun t p => (cos t * cos p, cos t * sin p, - sin t)) theta phi).

(** 181-193 [deriv_phi] *)
Definition deriv_phi (l : list v3) : res (list v3) :=
  do theta <- wraparound_npi (map (fun v => let '(x, y, z) := v in arctan_div (sqrt (x * x + y * y)) z) l) 1;
  do phi <- wraparound_npi (map (fun v => let '(x, y, z) := v in arctan2 y x + 10 * PI) l) 2;
  Ok (map (fun p => (- sin p, cos p, p * 0)) phi).

(** ** [LB_rotmatrix_multi2] *)

(** Per sample: [theta_asp], [phi_asp], [time]. *)
Record sample := mks { s_theta : R; s_phi : R; s_time : R }.

(** 235-237, 244-249, 253: anti-Sun unit vector, precession and spin angle,
    [rel_phi]. *)
Definition asp (s : sample) : v3 :=
  (sin (s_theta s) * cos (s_phi s), sin (s_theta s) * sin (s_phi s), cos (s_theta s)).
Definition pre_t (omega_pre : R) (s : sample) : R := omega_pre * s_time s + 3 / 2 * PI.
Definition spin_t (omega_spin : R) (s : sample) : R := omega_spin * s_time s + PI.
Definition rel_phi (s : sample) : R :=
  let '(x, y, _) := asp s in if Rle_dec 0 y then acos x else - acos x + 2 * PI.

(** 258-261 *)
Definition in_spin_frame (theta_boresight omega_spin : R) (s : sample) : v3 :=
  rot_xy (spin_t omega_spin s) (rot_xz theta_boresight (rot_xz (- PI / 2) (rot_xy (- rel_phi s) (asp s)))).

(** 269-272, and 281-284 *)
Definition to_sky (theta_antisun omega_pre : R) (s : sample) (v : v3) : v3 :=
  rot_xy (rel_phi s) (rot_xz (PI / 2) (rot_xy (pre_t omega_pre s) (rot_xz theta_antisun v))).

Definition both (a b c d : R) (x y : R) : bool :=
  (if Rlt_dec a x then true else false) && (if Rle_dec x b then true else false)
  && (if Rlt_dec c y then true else false) && (if Rle_dec y d then true else false).

(** 292-297 *)
Definition signed (t p : R) : R :=
  let t := if both 0 (1 / 2 * PI) (1 / 2 * PI) PI t p then - t else t in
  if both (1 / 2 * PI) PI (1 / 2 * PI) PI t p then - t else t.

(** 195-299: the boresight vectors and psi. *)
Definition LB_rotmatrix_multi2 (theta_antisun theta_boresight omega_pre omega_spin : R) (l : list sample)
  : res (list (v3 * R)) :=
  let spin := map (in_spin_frame theta_boresight omega_spin) l in
  let out := zip_with (to_sky theta_antisun omega_pre) l spin in
  do d <- deriv_phi spin;
  let d := zip_with (to_sky theta_antisun omega_pre) l d in
  do o <- deriv_theta out;
  let psi_theta := zip_with cosangle o d in
  do o <- deriv_phi out;
  let psi_phi := zip_with cosangle o d in
  Ok (combine out (zip_with signed psi_theta psi_phi)).

(** ** [ctime2bore] *)

(** 21-43, 302-321, 92-110 *)
Definition convert_Julian2Dublin (jd : R) : R := jd - 2415020.
Definition ctime2DJD (ctime : R) : R := ctime / 86400 + (2440587.5 - 2415020).
Definition sun_position_quick (djd : list R) : res (list R) :=
  let freq := 1 / (365.25 * 24 * 60 * 60) in
  wraparound_2pi (map (fun d => 2 * PI * freq * d * (24 * 60 * 60)) djd).

(** 323-387: what is handed to qpoint, [(ra, dec, psi)] in degrees per sample. *)
Definition ctime2bore (ctime : list R) (theta_antisun theta_boresight period_antisun rate_boresight : R)
  : res (list (R * R * R)) :=
  let ta := radians theta_antisun in
  let tb := radians theta_boresight in
  let freq_antisun := 1 / (period_antisun * 60) in
  let freq_boresight := rate_boresight / 60 in
  do phi_asp <- sun_position_quick (map (fun t => convert_Julian2Dublin (ctime2DJD t)) ctime);
  let l := zip_with (fun p t => mks (PI / 2 - 0) p t) phi_asp ctime in
  do p <- LB_rotmatrix_multi2 ta tb (2 * PI * freq_antisun) (2 * PI * freq_boresight) l;
  do theta <- wraparound_npi (map (fun q => let '((x, y, z), _) := q in arctan2 (sqrt (x ^ 2 + y ^ 2)) z) p) 1;
  do phi <- wraparound_npi (map (fun q => let '((x, y, z), _) := q in arctan2 y x) p) 2;
  do psi <- wraparound_2pi (map snd p);
  Ok (zip_with (fun tp s => (degrees (snd tp) - 180, degrees (fst tp) - 90, degrees s)) (combine theta phi) psi).

(** instrument.py:2417-2439 [l2_ctime] and 2441-2524 [l2_scan] without MPI: times
    and pointing of the samples [start .. start + n - 1].  The options are
    accepted and not used (the body calls [ctime2bore] with its defaults). *)
Definition l2_ctime (ctime0 fsamp : R) (start n : nat) : list R :=
  map (fun i => INR i / fsamp + ctime0) (seq start n).
Definition l2_scan (theta_antisun theta_boresight freq_antisun freq_boresight sample_rate jitter_amp : R)
  (ctime : list R) : res (list (R * R * R)) :=
  ctime2bore ctime 45 50 192.348 0.05.
