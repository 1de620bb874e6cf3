(** * Specification vocabulary: saved timestreams, and the sequence of views *)
From Coq Require Import Reals.
From Verif Require Import Common M_Chunks M_Hwp M_Detpair M_Scan S_Chunks S_Scan.
Open Scope R_scope.

(** The samples [t], that start at sample [start] of the mission, are found in
    the saved data: in the array that [data] ([get]) gives for the chunk that
    covers these samples, at their place. *)
Definition saved_in {A} (chunks : list chunk) (get : chunk -> res (list A))
  (start : Z) (t : list A) : Prop :=
  exists k c ar, nth_error chunks k = Some c /\ get c = Ok ar
    /\ Z.of_nat (length ar) = (c_end c - c_start c)%Z
    /\ (c_start c <= start)%Z /\ (start + Z.of_nat (length t) <= c_end c)%Z
    /\ forall j, (j < length t)%nat ->
         nth_error ar (Z.to_nat (start - c_start c) + j) = nth_error t j.

(** Views of the sky a detector was scanned with, and those it was binned
    with, in order. *)
Fixpoint sky_views (d : Z) (log : list event) : list view :=
  match log with
  | [] => []
  | EScan (Main d') v _ :: r =>
      if (d' =? d)%Z && negb (v_ground v) then v :: sky_views d r else sky_views d r
  | _ :: r => sky_views d r
  end.

Fixpoint bin_views (d : Z) (log : list event) : list view :=
  match log with
  | [] => []
  | EBin d' v _ :: r => if (d' =? d)%Z then v :: bin_views d r else bin_views d r
  | _ :: r => bin_views d r
  end.

(** The angle of the HWP at sample [j] of a view, in degrees.  (One angle, or an
    array of one angle, stands for all samples.) *)
Definition hwp_reading (v : view) (j : nat) : R :=
  match v_hwp v with
  | Some (HScalar a) | Some (HArray [a]) => a * 180 / PI
  | Some (HArray l) => nth j l 0 * 180 / PI
  | _ => 0
  end.

(** ** The course of an observation
    One pass over the mission: for every chunk, the elevation is stepped; for
    every stretch without a boresight rotation inside, the boresight is rotated
    if a rotation is due, and the HWP goes on for as many samples as the
    stretch is long.  Detectors, their pairs and processes play no role. *)
Fixpoint course_subs (c : chunk) (bore : list R) (subs : list chunk) (u : strat)
  : res (list view * strat) :=
  match subs with
  | [] => Ok ([], u)
  | x :: r =>
      let u1 := if c_norot x then (Ok XNone, u) else run_op ORotate u in
      do _ <- fst u1;
      let u2 := run_op (OHwp None (Z.to_nat (c_end x - c_start x))) (snd u1) in
      do o <- fst u2;
      let v := mkview false (ir_angle (sg_rot (snd u2)))
                 (match o with XHwp h => Some h | _ => None end)
                 (slice bore (Z.to_nat (c_start x - c_start c)) (Z.to_nat (c_end x - c_start c)))
                 (c_start x) in
      do (l, u) <- course_subs c bore r (snd u2);
      Ok (v :: l, u)
  end.

(** Elevation (boresight) of a chunk: given from outside, or computed and
    stepped. *)
Definition course_point (ext : bool) (elev : chunk -> list R) (c : chunk) (u : strat)
  : res (list R * strat) :=
  if ext then Ok (elev c, u)
  else
    let y := run_op (OEl (elev c)) u in
    do x <- fst y;
    match x with XEl l => Ok (l, snd y) | _ => Err TypeError end.

Definition course_chunk (ext : bool) (elev : chunk -> list R) (c : chunk) (u : strat)
  : res (list view * strat) :=
  do (bore, u) <- course_point ext elev c u;
  let y := run_op (OSub c) u in
  do x <- fst y;
  match x with XSub subs => course_subs c bore subs (snd y) | _ => Err TypeError end.

Fixpoint course (ext : bool) (elev : chunk -> list R) (cs : list chunk) (u : strat)
  : res (list view * strat) :=
  match cs with
  | [] => Ok ([], u)
  | c :: r =>
      do (l, u) <- course_chunk ext elev c u;
      do (l', u) <- course ext elev r u;
      Ok (l ++ l', u)
  end.

(** ** What the settings prescribe for sample [k] of the mission *)

(** Elevation step, in the sequence of steps that lasts a period each. *)
Definition planned_el (f : config) (k : Z) : option R :=
  match cf_el f with
  | None => Some 0
  | Some (p, l) =>
      if Req_EM_T p 0 then Some 0
      else let l := match l with Some l => l | None => [0; 1; 2; 3; 4; 4; 3; 2; 1; 0] end in
           nth_error l (Z.to_nat (k / trunc (cf_fsamp f * p)) mod length l)
  end.

(** The angles of the boresight and of the HWP that were set. *)
Definition rot_angles (f : config) : list R :=
  match cf_rot_angles f with
  | Some l => l
  | None => map (fun i => rmod (cf_rot_start f + INR i * 45) 360) (seq 0 8)
  end.
Definition hwp_angles (f : config) : list R :=
  match cf_hwp_angles f with
  | Some l => l
  | None => map (fun i => rmod (cf_hwp_start f + INR i * 22.5) 360) (seq 0 16)
  end.

(** The settings are in use: the number is there and not zero. *)
Definition on (x : option R) : Prop := exists v, x = Some v /\ v <> 0.

Section S.
  Context {B : Type}.

  (** A scan from freshly configured settings.  (Not a preview; the memory map
      of the boresight, if any, is made by this scan; the elevation array of a
      chunk is as long as the chunk.) *)
  Record well_set (E : env B) (O : opts) (s : state B) : Prop := mkwell {
    ws_mission : covers_mission E s;
    ws_rotation : rotation_ok s;
    ws_marks : chunks_unmarked O s;
    ws_ids : NoDup (map d_id (dets (s_beams s)));
    ws_fresh : freshly_set (s_strat s);
    ws_mode : h_mode (sg_hwp (s_strat s)) <> OtherMode;
    ws_preview : o_preview O = false;
    ws_mmap : e_ext E = true \/ o_memmap O = true \/ s_mmap s = None;
    ws_elev : forall c, Z.of_nat (length (e_elev E c)) = Z.max 0 (c_end c - c_start c) }.

  (** The detector is live and belongs to a pair this process works on. *)
  Definition observes (E : env B) (O : opts) (s : state B) (d : det B) : Prop :=
    d_dead d = false
    /\ exists i p, nth_error (s_beams s) i = Some p /\ In d (pair_dets p) /\ In (Some i) (my_pairs E O s).

  (** Chunks of the scan: those that were set, else the default division. *)
  Definition chunks_used (E : env B) (s : state B) : res (list chunk) :=
    match s_chunks s with
    | Some l => Ok (map fst l)
    | None => partition_mission (e_nsamp E) None
    end.
End S.
