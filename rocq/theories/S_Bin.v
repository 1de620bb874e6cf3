(** * Specification vocabulary: from a sky to its map (C92) *)
From Coq Require Import Reals List String Permutation.
Import ListNotations.
From Verif Require Import Common M_Quat M_Hwp M_Detpair M_Scan M_Bin S_Detpair S_Scan S_Saved S_Contrib.
From Verif Require Import M_Tod S_Tod Cplx.
Open Scope R_scope.

(** Equal angles, up to full turns. *)
Definition same_angle (a b : R) : Prop := exists k : Z, a = b + 2 * PI * IZR k.

(** The quaternion of a beam at right ascension [ra] and declination [dec] with
    position angle [psi] (radians): the product of rotations about the third,
    second and third axis. *)
Definition aimed (ra dec psi : R) : quat :=
  quat_left_mult (quat_left_mult (q_z ra) (Q4 (cos ((PI / 2 - dec) / 2)) 0 (sin ((PI / 2 - dec) / 2)) 0))
    (q_z (PI - psi)).

(** Of the pointing library: turning a beam about its line of sight changes the
    position angle only, by the angle turned. *)
Definition turns_about_line_of_sight (look : quat -> nat * R) : Prop :=
  forall q a, sumsq q = 1 ->
    fst (look (quat_left_mult q (q_z a))) = fst (look q)
    /\ same_angle (snd (look (quat_left_mult q (q_z a))) * PI / 180) (snd (look q) * PI / 180 - a).

(** Instrument and library are sound: unit quaternions, pixels of maps of
    [npix] pixels, one of the two polarisation conventions. *)
Record sound (P : optics) (npix : nat) : Prop := mksound {
  sd_turns : turns_about_line_of_sight (x_look P);
  sd_pixels : forall q, (fst (x_look P q) < npix)%nat;
  sd_bore : forall v j, sumsq (x_bore P v j) = 1;
  sd_off : forall d, sumsq (x_off P d) = 1;
  sd_sign : x_sign P = 1 \/ x_sign P = -1 }.

(** The angle of the half-wave plate (radians) at sample [j] of a stretch of
    the scan: none set, one for the whole stretch, or one per sample. *)
Inductive plate_at (v : view) (j : nat) : R -> Prop :=
| plate_none : v_hwp v = None -> plate_at v j 0
| plate_still a : v_hwp v = Some (HScalar a) \/ v_hwp v = Some (HArray [a]) -> plate_at v j a
| plate_turning l a : v_hwp v = Some (HArray l) -> nth_error l j = Some a -> plate_at v j a.

(** Spin maps of a symmetric beam without Mueller matrix:
    the map [m0] of spin 0 and the map [m2] of spin 2. *)
Definition symmetric_maps (m0 m2 : list C) (maps : spindict) : Prop :=
  Permutation maps
    [("s0a0", {| ss_maps := [m0]; ss_svals := [0%Z] |}); ("s2a4", {| ss_maps := [m2]; ss_svals := [2%Z] |})]%string.

(** Two sets of spin maps of [npix] pixels that give the same timestreams,
    wherever the beam points and however it and the plate are turned. *)
Definition same_timestreams (npix : nat) (maps maps' : spindict) : Prop :=
  forall n qs pa polang h, List.length qs = n -> List.length pa = n -> angles_for n h ->
    Forall (fun q => (q < npix)%nat) qs ->
    scan_tod n maps (map Pix qs) pa polang h = scan_tod n maps' (map Pix qs) pa polang h.

(** Spin maps through which the sky is seen as [m0], [m2]. *)
Definition seen_as (m0 m2 : list C) (maps : spindict) : Prop :=
  exists maps', symmetric_maps m0 m2 maps' /\ same_timestreams (List.length m0) maps maps'.

(** A scan, by one process, of a sky that all its live detectors see as [m0],
    [m2]: symmetric beams, no ghosts, no cross-talk, the same error [err]
    (degrees) of the polarisation angle for all detectors. *)
Record observed (P : optics) (m0 m2 : list C) (err : R) (E : env spindict) (O : opts) (s s' : state spindict)
  (new : list event) : Prop := mkobserved {
  od_set : well_set E O s;
  od_rate : 0 < sg_fsamp (s_strat s);
  od_sky : sky_only O;
  od_talk : o_ctalk O = 0;
  od_ready : all_ready s;
  od_dets : forall d, In d (dets (s_beams s)) -> d_dead d = false -> d_ghosts d = [] /\ x_error P (d_id d) = err;
  od_maps : forall a ob maps, In (Some a, ob) (s_beams s) -> main_beam a maps -> seen_as m0 m2 maps;
  od_signal : forall d maps v tod j, v_ground v = false -> view_tod P d maps v = Ok tod ->
    e_signal E (Main d) maps v j = Re (nth j tod (RtoC 0));
  od_run : scan_instrument E O s = Ok s';
  od_log : s_log s' = s_log s ++ new }.

(** The Stokes parameters of pixel [p] of the sky, its polarisation turned by
    [delta] degrees. *)
Definition stokes (sign : R) (m0 m2 : list C) (delta : R) (p : nat) : R * R * R :=
  let z := (nth p m2 (RtoC 0) * cis (2 * (delta * PI / 180)))%C in
  (Re (nth p m0 (RtoC 0)), Re z, - (sign * Im z)).
