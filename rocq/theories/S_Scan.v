(** * Specification vocabulary for scans of the whole instrument: reading a
      trace of events *)
From Coq Require Import Reals.
From Verif Require Import Common M_Chunks M_Hwp M_Mpi M_Detpair M_Scan S_Chunks S_Detpair.
Open Scope R_scope.

(** Samples [start, start+len) covered by an event. *)
Definition stretch (v : view) (tod : list R) : Z * Z :=
  (v_start v, (v_start v + Z.of_nat (length tod))%Z).

Definition same_who (w w' : who) : bool :=
  match w, w' with
  | Main d, Main d' => (d =? d')%Z
  | Ghost d k, Ghost d' k' => (d =? d')%Z && (k =? k')%nat
  | _, _ => false
  end.

(** Stretches for which the given beam was scanned (over the sky: [ground] =
    false), in order. *)
Fixpoint scanned (w : who) (ground : bool) (log : list event) : list (Z * Z) :=
  match log with
  | [] => []
  | EScan w' v t :: r =>
      if same_who w w' && Bool.eqb (v_ground v) ground then stretch v t :: scanned w ground r
      else scanned w ground r
  | _ :: r => scanned w ground r
  end.

(** Stretches of the given detector that were binned. *)
Fixpoint binned (d : Z) (log : list event) : list (Z * Z) :=
  match log with
  | [] => []
  | EBin d' v t :: r => if (d' =? d)%Z then stretch v t :: binned d r else binned d r
  | _ :: r => binned d r
  end.

(** Stretches for which the boresight was moved. *)
Fixpoint pointed (log : list event) : list (Z * Z) :=
  match log with
  | [] => []
  | EPoint c _ :: r => span c :: pointed r
  | _ :: r => pointed r
  end.

(** An event that has to do with the detector. *)
Definition about (d : Z) (e : event) : Prop :=
  match e with
  | EPoint _ _ => False
  | EScan (Main d') _ _ => d' = d
  | EScan (Ghost d' _) _ _ => d' = d
  | EBin d' _ _ => d' = d
  end.

(** Detectors of a focal plane, absent ones left out. *)
Section S.
  Context {B : Type}.

  Definition pair_dets (p : bpair B) : list (det B) :=
    match p with
    | (Some a, Some b) => [a; b]
    | (Some a, None) => [a]
    | (None, Some b) => [b]
    | (None, None) => []
    end.

  Definition dets (beams : list (bpair B)) : list (det B) := flat_map pair_dets beams.

  (** The beams of the detector were scanned for every one of the [n] samples
      exactly once: its main beam over the sky (and over the ground template
      when there is one), each of its live ghosts; dead ghosts never. *)
  Definition generated_once (n : Z) (d : det B) (ground : bool) (log : list event) : Prop :=
    tiles 0 n (scanned (Main (d_id d)) false log)
    /\ (if ground then tiles 0 n (scanned (Main (d_id d)) true log)
        else scanned (Main (d_id d)) true log = [])
    /\ forall k,
         match nth_error (d_ghosts d) k with
         | Some g => if gh_dead g then scanned (Ghost (d_id d) k) ground log = []
                     else tiles 0 n (scanned (Ghost (d_id d) k) ground log)
         | None => scanned (Ghost (d_id d) k) ground log = []
         end
         /\ scanned (Ghost (d_id d) k) (negb ground) log = [].

  Definition not_generated (d : det B) (log : list event) : Prop :=
    forall g k, scanned (Main (d_id d)) g log = [] /\ scanned (Ghost (d_id d) k) g log = [].

  (** What is to happen for a live detector in a scan. *)
  Definition handled_once (n : Z) (O : opts) (d : det B) (log : list event) : Prop :=
    (if o_preview O then not_generated d log else generated_once n d (o_ground O) log)
    /\ (if o_binning O then tiles 0 n (binned (d_id d) log) else binned (d_id d) log = []).

  Definition left_alone (d : det B) (log : list event) : Prop :=
    forall e, In e log -> ~ about (d_id d) e.

  (** Chunks that cover the mission once, numbered by position. *)
  Definition mission (n : Z) (chunks : list (chunk * bool)) : Prop :=
    tiles 0 n (map (fun cg => span (fst cg)) chunks)
    /\ forall k cg, nth_error chunks k = Some cg -> c_cidx (fst cg) = Some k.

  (** The chunks a scan will use: those set, or else the whole mission. *)
  Definition covers_mission (E : env B) (s : state B) : Prop :=
    (1 <= e_nsamp E)%Z
    /\ forall l, s_chunks s = Some l -> mission (e_nsamp E) l.

  (** The rotation settings make sense: with a period, it is at least a sample
      long, and what is left of a period is not negative. *)
  Definition rotation_ok (s : state B) : Prop :=
    let r := ir_rot (sg_rot (s_strat s)) in
    rot_period r = true -> (0 < rot_chunk_size r)%Z /\ (0 <= rot_remainder r)%Z.

  (** No 'ground' mark left in the chunks by an earlier scan, unless this scan
      has a ground template too. *)
  Definition chunks_unmarked (O : opts) (s : state B) : Prop :=
    forall l, s_chunks s = Some l -> o_ground O = false -> forall cg, In cg l -> snd cg = false.

  (** Filters keep the number of samples. *)
  Definition filters_keep_length (O : opts) : Prop :=
    forall m t t', o_filter O m t = Ok t' -> length t' = length t.

  Definition no_filters (O : opts) : Prop := forall m t, o_filter O m t = Ok t.

  (** Sum of what the live ghosts see, the [k]-th through its own beam. *)
  Fixpoint ghost_signal (E : env B) (i : Z) (k : nat) (gs : list (gh B)) (bs : list B)
    (v : view) (j : nat) : R :=
    match gs, bs with
    | g :: gs, b :: bs =>
        (if gh_dead g then 0 else e_signal E (Ghost i k) b v j)
        + ghost_signal E i (S k) gs bs v j
    | _, _ => 0
    end.

  (** Superposition of the main beam [x] and the ghost beams [bs]. *)
  Definition own_signal (E : env B) (d : det B) (x : B) (bs : list B) (v : view) (j : nat) : R :=
    e_signal E (Main (d_id d)) x v j + ghost_signal E (d_id d) 0 (d_ghosts d) bs v j.

  (** Sky plus ground, both through beam [x] of detector [d], at sample [j] of the
      sky pointing [v] and the ground pointing [vg]. *)
  Definition sky_and_ground (E : env B) (d : det B) (x : B) (v vg : view) (j : nat) : R :=
    (e_signal E (Main (d_id d)) x v j + e_signal E (Main (d_id d)) x vg j)%R.

  (** A pair whose beams can all be made and looked up: see C49. *)
  Definition pair_ready (a : det B) (ob : option (det B)) : Prop :=
    beams_available a ob /\ no_gap (d_ghosts a) /\ consistent (d_ghosts a)
    /\ forall b g, ob = Some b -> In g (d_ghosts b) ->
         exists g', In g' (d_ghosts a) /\ gh_idx g' = gh_idx g
                    /\ forall x, ghost_beam g' x -> ghost_beam g x.

  (** No coefficients were assigned: they come from the settings. *)
  Definition from_settings (p : bpair B) : Prop :=
    forall d, In d (pair_dets p) ->
      d_blm d = None /\ forall g, In g (d_ghosts d) -> gh_blm g = None /\ gh_gen g <> Err AttributeError.

  (** The positions (in the list of pairs) this process works on. *)
  Definition my_pairs (E : env B) (O : opts) (s : state B) : list (option nat) :=
    rank_iterations (e_mpi E) (o_scatter O) (e_size E) (e_rank E)
      (seq 0 (length (s_beams s))) (seq 0 (length (s_beams s))).
End S.

(** ** Repeated scans *)
Section Repeat.
  Context {B : Type}.

  (** Scans in a row, with the documented resets of rotation, HWP and elevation
      steps ([reset_instr_rot], [reset_hwp_mod], [reset_el_steps]) between them. *)
  Fixpoint scans (E : env B) (O : opts) (n : nat) (s : state B) : res (state B) :=
    match n with
    | 0%nat => Ok s
    | S n => do s <- scan_instrument E O s; scans E O n (set_strat s (reset (s_strat s)))
    end.

  (** ... and without. *)
  Fixpoint plain_scans (E : env B) (O : opts) (n : nat) (s : state B) : res (state B) :=
    match n with
    | 0%nat => Ok s
    | S n => do s <- scan_instrument E O s; plain_scans E O n s
    end.

  (** Nothing turns or steps. *)
  Definition still (u : strat) : Prop :=
    rot_period (ir_rot (sg_rot u)) = false
    /\ (h_mode (sg_hwp u) = NoMode \/ truthy (h_freq (sg_hwp u)) = false)
    /\ match sg_el u with None => True | Some e => el_on e = false end.

  (** Rotation and HWP stand where a reset puts them; elevation steps too (the
      current step is not among what a reset changes). *)
  Definition freshly_set (u : strat) : Prop := exists c, configure c = Ok u.

  (** What a scan needs to be repeatable. *)
  Definition repeatable (E : env B) (O : opts) (s : state B) : Prop :=
    o_ground O = false /\ o_reuse O = false
    /\ (forall p, In p (s_beams s) -> from_settings p)
    /\ chunks_unmarked O s
    /\ h_mode (sg_hwp (s_strat s)) <> OtherMode
    /\ (o_memmap O && negb (e_ext E) = true \/ s_mmap s = None).
End Repeat.
