(** * Model of the pointing used for scanning and for binning

    /repo/beamconv/instrument.py: the detector quaternion of [scan] (3473-3566,
    without interpolation, over the sky) and of [bin_tod] (4369-4394, 4427), and
    what the two make of a view of the mission.  qpoint is external: its
    [hwp_quat] and the order in which [from_tod] multiplies the quaternions are
    modelled from its documentation.  Quaternions are from [M_Quat], the
    timestream from [M_Tod], binning from [M_Solve]. *)
From Coq Require Import Reals.
From Verif Require Import Common M_Quat M_Hwp M_Scan.
From Verif Require M_Tod M_Solve Cplx.
Open Scope R_scope.

(** A rotation about the third axis, as at 3486-3487 and 4388. *)
Definition q_z (ang : R) : quat := Q4 (cos (ang / 2)) 0 0 (sin (ang / 2)).

(** qpoint [hwp_quat(theta)], degrees. *)
Definition hwp_quat (theta : R) : quat := q_z (-2 * (theta * PI / 180)).

(** 4386-4389: [polang] (degrees) as first rotation of the offset [q_off]. *)
Definition bin_q_off (q_off : quat) (polang : R) : quat :=
  let polang := - (polang * PI / 180) in quat_left_mult q_off (q_z polang).

(** 4370: [hwp_ang] in radians, [varphi] in degrees. *)
Definition bin_q_hwp (hwp_ang varphi : R) : quat := hwp_quat (hwp_ang * 180 / PI - varphi).

(** qpoint [from_tod]: boresight, detector offset, half-wave plate. *)
Definition bin_q_det (q_bore q_off : quat) (polang hwp_ang varphi : R) : quat :=
  quat_left_mult (quat_left_mult q_bore (bin_q_off q_off polang)) (bin_q_hwp hwp_ang varphi).

(** The instrument and the pointing library: pixel number and position angle
    (degrees) of a quaternion; the boresight quaternion of a sample; the offset
    quaternion, [polang] and [polang_error] of a detector; [hwp_dict['varphi']];
    the sign of sin(2 psi) in the polarisation convention of the maps. *)
Record optics := mkoptics {
  x_look : quat -> nat * R;
  x_bore : view -> nat -> quat;
  x_off : Z -> quat;
  x_polang : Z -> R;
  x_error : Z -> R;
  x_varphi : R;
  x_sign : R }.

(** 3483-3492, 3560: what [scan] asks qpoint for. *)
Definition scan_q_det (P : optics) (d : Z) (v : view) (j : nat) : quat :=
  quat_left_mult (x_bore P v j) (scan_q_off (v_rot v) (x_off P d)).

(** [self.hwp_ang] (3586: 0 if not set); an array of one angle is broadcast.
    [HStale] (no angle for this stretch) does not happen in the modes that are
    documented. *)
Definition view_hwp (v : view) : M_Tod.hwpang :=
  match v_hwp v with
  | Some (HScalar a) | Some (HArray [a]) => M_Tod.Fixed a
  | Some (HArray l) => M_Tod.Sampled l
  | _ => M_Tod.Fixed 0
  end.

(** detector.py:256-258 [polang_truth]. *)
Definition polang_truth (P : optics) (d : Z) : R := x_polang P d + x_error P d.

(** The timestream of [scan] for a view of the sky and spin maps [maps]. *)
Definition view_tod (P : optics) (d : Z) (maps : M_Tod.spindict) (v : view) : res (list Cplx.C) :=
  let n := length (v_bore v) in
  let at_ j := x_look P (scan_q_det P d v j) in
  M_Tod.scan_tod n maps (map (fun j => M_Tod.Pix (fst (at_ j))) (seq 0 n))
    (map (fun j => snd (at_ j)) (seq 0 n)) (polang_truth P d) (view_hwp v).

(** The plate angle at a sample (radians), for [bin_tod]. *)
Definition bin_hwp (v : view) (j : nat) : R :=
  match view_hwp v with M_Tod.Fixed a => a | M_Tod.Sampled l => nth j l 0 end.

(** 4369-4427: the samples that a call of [bin_tod] hands to qpoint. *)
Definition bin_sample (P : optics) (d : Z) (v : view) (j : nat) (x : R) : M_Solve.obs :=
  let q := bin_q_det (x_bore P v j) (scan_q_off (v_rot v) (x_off P d)) (x_polang P d) (bin_hwp v j) (x_varphi P) in
  let psi := snd (x_look P q) * PI / 180 in
  {| M_Solve.o_pix := fst (x_look P q); M_Solve.o_val := x;
     M_Solve.o_cos := cos (2 * psi); M_Solve.o_sin := x_sign P * sin (2 * psi) |}.
Fixpoint bin_from (P : optics) (d : Z) (v : view) (j : nat) (tod : list R) : list M_Solve.obs :=
  match tod with
  | [] => []
  | x :: tod => bin_sample P d v j x :: bin_from P d v (S j) tod
  end.

(** 1951-1996: the calls of [bin_tod] in a scan, from its trace; no flags. *)
Fixpoint bin_calls_of (P : optics) (log : list event) : list M_Solve.call :=
  match log with
  | [] => []
  | EBin d v t :: r =>
      {| M_Solve.c_samples := bin_from P d v 0 t; M_Solve.c_flag := M_Solve.FNone;
         M_Solve.c_start := Z.to_nat (v_start v); M_Solve.c_end := Z.to_nat (v_start v) + length t |}
      :: bin_calls_of P r
  | _ :: r => bin_calls_of P r
  end.
