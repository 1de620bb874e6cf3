(** * Model of the scan loop: [scan_instrument_mpi], [implement_scan] (the part
      that concerns state), [_scan_detector], [scan], [bin_tod] (up to the
      projection), [_update_tod] and the storage of timestreams

    All code cited is /repo/beamconv/instrument.py.  What a beam sees at a
    sample is an external function [e_signal] of the beam, of the coefficients
    its spin map was made from and of the pointing (the formula itself is in
    [M_Tod]).  The boresight quaternion of a sample is represented by the
    elevation it is computed from (az, time and the conversion are external and
    depend on the sample only).  Interpolation is off.  A call that raises ends
    the scan; the state it leaves is not described. *)
From Coq Require Import Reals.
From Verif Require Import Common M_Chunks M_Steps M_Hwp M_Mpi M_Detpair.
From Verif Require M_Tod.
Open Scope R_scope.

(** ** Ingredients *)

(** Which beam: main beam of the detector with that [idx], or its [k]-th ghost. *)
Inductive who := Main (d : Z) | Ghost (d : Z) (k : nat).

(** What determines the pointing of a stretch of samples: horizontal or
    celestial frame, boresight rotation angle, [self.hwp_ang] ([None]:
    attribute not set), boresight positions, first sample. *)
Record view := mkview {
  v_ground : bool; v_rot : R; v_hwp : option hwp_out; v_bore : list R; v_start : Z }.

(** Trace: boresight positions computed for a chunk, a call of [scan] that
    produced a timestream, a call of [bin_tod]. *)
Inductive event :=
| EPoint (c : chunk) (bore : list R)
| EScan (w : who) (v : view) (tod : list R)
| EBin (d : Z) (v : view) (tod : list R).

Section Scan.
  Context {B : Type}.

  (** Fixed surroundings: signal, elevation before stepping, external pointing,
      mission length, the place of this process in the communicator; pixel
      number and position angle [deg] of a detector's main beam at a sample
      ([bore2pix], or [bore2radec] and [ang2pix]; the resolution is that of
      the maps). *)
  Record env := mkenv {
    e_signal : who -> B -> view -> nat -> R;
    e_elev : chunk -> list R;
    e_ext : bool;
    e_nsamp : Z;
    e_mpi : bool; e_size : nat; e_rank : nat;
    e_pos : Z -> view -> nat -> Z * R }.

  (** Keyword arguments of [scan_instrument_mpi].  [o_filter]: the filters
      [bin_tod] applies in place (4389-4407), given the HWP mode. *)
  Record opts := mkopts {
    o_alm : bool; o_ground : bool; o_binning : bool; o_memmap : bool; o_scatter : bool;
    o_reuse : bool; o_save_tod : bool; o_save_point : bool; o_ctalk : R; o_preview : bool;
    o_filter : hmode -> list R -> res (list R) }.

  Definition bpair : Type := (option (det B) * option (det B))%type.

  (** Attributes of the scan strategy that the loop reads and writes.
      [s_chunks]: chunks with their optional 'ground' key; [s_qoff]: rotation
      angle in the [q_off] attribute of each detector; [s_data]: the 'tod'
      entries of [_data]; [s_point]: its 'pix' and 'pa' entries (allocated and
      written together); [s_hwps]: its 'hwp_ang' entries.  For the latter two
      [[]] stands for an entry that is not there. *)
  Record state := mkstate {
    s_strat : strat;
    s_beams : list bpair;
    s_chunks : option (list (chunk * bool));
    s_maps : option (spinmaps B);
    s_mmap : option (list R);
    s_bore : list R;
    s_gbore : option (list R);
    s_hwp : option hwp_out;
    s_tod : option (list R);
    s_qoff : Z -> option R;
    s_data : nat -> Z -> option (list R);
    s_point : nat -> Z -> list (Z * R);
    s_hwps : nat -> list R;
    s_log : list event }.

  Definition set_strat (s : state) x := mkstate x (s_beams s) (s_chunks s) (s_maps s) (s_mmap s)
    (s_bore s) (s_gbore s) (s_hwp s) (s_tod s) (s_qoff s) (s_data s) (s_point s) (s_hwps s) (s_log s).
  Definition set_beams (s : state) x := mkstate (s_strat s) x (s_chunks s) (s_maps s) (s_mmap s)
    (s_bore s) (s_gbore s) (s_hwp s) (s_tod s) (s_qoff s) (s_data s) (s_point s) (s_hwps s) (s_log s).
  Definition set_chunks (s : state) x := mkstate (s_strat s) (s_beams s) x (s_maps s) (s_mmap s)
    (s_bore s) (s_gbore s) (s_hwp s) (s_tod s) (s_qoff s) (s_data s) (s_point s) (s_hwps s) (s_log s).
  Definition set_maps (s : state) x := mkstate (s_strat s) (s_beams s) (s_chunks s) x (s_mmap s)
    (s_bore s) (s_gbore s) (s_hwp s) (s_tod s) (s_qoff s) (s_data s) (s_point s) (s_hwps s) (s_log s).
  Definition set_mmap (s : state) x := mkstate (s_strat s) (s_beams s) (s_chunks s) (s_maps s) x
    (s_bore s) (s_gbore s) (s_hwp s) (s_tod s) (s_qoff s) (s_data s) (s_point s) (s_hwps s) (s_log s).
  Definition set_bore (s : state) x := mkstate (s_strat s) (s_beams s) (s_chunks s) (s_maps s)
    (s_mmap s) x (s_gbore s) (s_hwp s) (s_tod s) (s_qoff s) (s_data s) (s_point s) (s_hwps s) (s_log s).
  Definition set_gbore (s : state) x := mkstate (s_strat s) (s_beams s) (s_chunks s) (s_maps s)
    (s_mmap s) (s_bore s) x (s_hwp s) (s_tod s) (s_qoff s) (s_data s) (s_point s) (s_hwps s) (s_log s).
  Definition set_hwp (s : state) x := mkstate (s_strat s) (s_beams s) (s_chunks s) (s_maps s)
    (s_mmap s) (s_bore s) (s_gbore s) x (s_tod s) (s_qoff s) (s_data s) (s_point s) (s_hwps s) (s_log s).
  Definition set_tod (s : state) x := mkstate (s_strat s) (s_beams s) (s_chunks s) (s_maps s)
    (s_mmap s) (s_bore s) (s_gbore s) (s_hwp s) x (s_qoff s) (s_data s) (s_point s) (s_hwps s) (s_log s).
  Definition set_qoff (s : state) x := mkstate (s_strat s) (s_beams s) (s_chunks s) (s_maps s)
    (s_mmap s) (s_bore s) (s_gbore s) (s_hwp s) (s_tod s) x (s_data s) (s_point s) (s_hwps s) (s_log s).
  Definition set_data (s : state) x := mkstate (s_strat s) (s_beams s) (s_chunks s) (s_maps s)
    (s_mmap s) (s_bore s) (s_gbore s) (s_hwp s) (s_tod s) (s_qoff s) x (s_point s) (s_hwps s) (s_log s).
  Definition set_point (s : state) x := mkstate (s_strat s) (s_beams s) (s_chunks s) (s_maps s)
    (s_mmap s) (s_bore s) (s_gbore s) (s_hwp s) (s_tod s) (s_qoff s) (s_data s) x (s_hwps s) (s_log s).
  Definition set_hwps (s : state) x := mkstate (s_strat s) (s_beams s) (s_chunks s) (s_maps s)
    (s_mmap s) (s_bore s) (s_gbore s) (s_hwp s) (s_tod s) (s_qoff s) (s_data s) (s_point s) x (s_log s).
  Definition add_log (s : state) e := mkstate (s_strat s) (s_beams s) (s_chunks s) (s_maps s)
    (s_mmap s) (s_bore s) (s_gbore s) (s_hwp s) (s_tod s) (s_qoff s) (s_data s) (s_point s) (s_hwps s) (s_log s ++ [e]).

  (** ** Helpers *)

  Definition csize (c : chunk) : nat := Z.to_nat (c_end c - c_start c).

  (** [self.chunks] as [_chunk2idx] reads it. *)
  Definition plain_chunks (s : state) : list chunk :=
    match s_chunks s with Some l => map fst l | None => [] end.

  (** [arr[qidx_start:qidx_end]].  Simplification: negative indices (a chunk
      whose cidx is not its position) are an error here. *)
  Definition chunk_slice (s : state) (c : chunk) (arr : list R) : res (list R) :=
    do (i, j) <- chunk2idx (plain_chunks s) c;
    if (i <? 0)%Z then Err ValueError else Ok (slice arr (Z.to_nat i) (Z.to_nat j)).

  Definition upd {X} (f : Z -> X) (k : Z) (x : X) : Z -> X :=
    fun k' => if (k' =? k)%Z then x else f k'.

  Definition upd2 {X} (f : nat -> Z -> X) (i : nat) (k : Z) (x : X) : nat -> Z -> X :=
    fun i' k' => if (i' =? i)%nat && (k' =? k)%Z then x else f i' k'.

  (** ** [scan] *)

  (** 3684-3690 (and 3480-3486): [self.tod += tod] or [self.tod = tod]. *)
  Definition store_tod (add : bool) (tod : list R) (s : state) : res state :=
    match add, s_tod s with
    | true, Some old => do t <- M_Tod.radd_arr old tod; Ok (set_tod s (Some t))
    | _, _ => Ok (set_tod s (Some tod))
    end.

  (** 3394-3725 [scan].  [gidx]: the [ghost_idx] of a ghost, [None] for a main
      beam.  The value is the returned timestream; the flags [ret_tod],
      [ret_point] matter for the check at 3466 only (the position arrays
      returned with [return_point] are not described). *)
  Definition scan (E : env) (w : who) (dead : bool) (gidx : option nat)
    (add ret_tod ret_point skip ground : bool) (c : chunk) (s : state) : res (list R * state) :=
    if dead then Err ValueError
    else if skip && (ret_tod || ret_point) then Err ValueError
    else
      let n := csize c in
      let ang := ir_angle (sg_rot (s_strat s)) in
      let s := match w with
               | Main d => set_qoff s (upd (s_qoff s) d (Some ang))
               | Ghost _ _ => s
               end in
      if skip then
        do s <- store_tod add (repeat 0 n) s;
        Ok ([], s)
      else
        do b <- find_maps (s_maps s) gidx ground;
        do arr <- (if ground then match s_gbore s with Some g => Ok g | None => Err AttributeError end
                   else Ok (s_bore s));
        do bore <- chunk_slice s c arr;
        if negb (length bore =? n)%nat then Err ValueError
        else
          let v := mkview ground ang (s_hwp s) bore (c_start c) in
          let tod := map (e_signal E w b v) (seq 0 n) in
          do s <- store_tod add tod s;
          Ok (match s_tod s with Some t => t | None => [] end, add_log s (EScan w v tod)).

  (** ** [_scan_detector] *)

  (** 3293-3308: the loop over ghosts; [n] counts live ghosts seen. *)
  Fixpoint scan_ghosts (E : env) (d : Z) (k n : nat) (gs : list (gh B)) (skip ground : bool)
    (c : chunk) (s : state) : res (nat * state) :=
    match gs with
    | [] => Ok (n, s)
    | g :: r =>
        if gh_dead g then scan_ghosts E d (S k) n r skip ground c s
        else
          do (_, s) <- scan E (Ghost d k) false (Some (gh_idx g)) (negb (n =? 0)%nat)
                         false false skip ground c s;
          scan_ghosts E d (S k) (S n) r skip ground c s
    end.

  (** 3338-3362 and [_update_tod] 2038-2058: [_data[cidx][idx]['tod'][i:j] = tod]. *)
  Definition put_tod (d : Z) (c : chunk) (tod : list R) (s : state) : res state :=
    do (i, j) <- chunk2idx (plain_chunks s) c;
    match c_cidx c with
    | None => Err KeyError
    | Some ci =>
        match s_data s ci d with
        | None => Err KeyError
        | Some arr =>
            if (i <? 0)%Z then Err ValueError
            else Ok (set_data s (upd2 (s_data s) ci d (Some (splice arr (Z.to_nat i) tod))))
        end
    end.

  (** 3704-3716: what [scan] returns with [return_point]: pixels and position
      angles, and the HWP angle in degrees (0 if not set).  Assigned to a slice
      of [n] elements (3351, 3362): a number or an array of one element is
      repeated, an array of another size raises. *)
  Definition ret_hwp (h : option hwp_out) (n : nat) : res (list R) :=
    match h with
    | None => Ok (repeat 0 n)
    | Some (HScalar a) => Ok (repeat (degrees a) n)
    | Some (HArray l) =>
        if (length l =? n)%nat then Ok (map degrees l)
        else match l with [a] => Ok (repeat (degrees a) n) | _ => Err ValueError end
    | Some HStale => Err ValueError
    end.

  (** 3347-3362 for 'pix', 'pa' and 'hwp_ang', with the values [scan] has just
      returned.  Simplification: the entries are there (they are allocated for
      the same chunk and detector before, 1914-1925). *)
  Definition put_point (E : env) (d : Z) (c : chunk) (s : state) : res state :=
    do (i, j) <- chunk2idx (plain_chunks s) c;
    match c_cidx c with
    | None => Err KeyError
    | Some ci =>
        if (i <? 0)%Z then Err ValueError
        else
          do bore <- chunk_slice s c (s_bore s);
          let v := mkview false (ir_angle (sg_rot (s_strat s))) (s_hwp s) bore (c_start c) in
          let pos := map (e_pos E d v) (seq 0 (csize c)) in
          do h <- ret_hwp (s_hwp s) (csize c);
          let i := Z.to_nat i in
          let s := set_point s (upd2 (s_point s) ci d (splice (s_point s ci d) i pos)) in
          Ok (set_hwps s (fun k => if (k =? ci)%nat then splice (s_hwps s ci) i h else s_hwps s k))
    end.

  (** 3262-3362 [_scan_detector].  With a ground template, the code at
      3317-3318 uses variables assigned later only. *)
  Definition scan_detector (E : env) (O : opts) (d : det B) (ground : bool) (c : chunk) (s : state)
    : res state :=
    let skip := o_preview O in
    if d_ghost d then Err ValueError
    else if skip && (o_save_tod O || o_save_point O) then Err ValueError
    else
      do (n, s) <- scan_ghosts E (d_id d) 0 0 (d_ghosts d) skip ground c s;
      let tod_exists := negb (n =? 0)%nat in
      do (tod_exists, s) <-
         (if ground then
            do (_, s) <- scan E (Main (d_id d)) (d_dead d) None tod_exists false (o_save_point O)
                           false true c s;
            if o_save_point O then Err UnboundLocalError else Ok (true, s)
          else Ok (tod_exists, s));
      do (tod, s) <- scan E (Main (d_id d)) (d_dead d) None tod_exists (o_save_tod O)
                       (o_save_point O) skip false c s;
      do s <- (if o_save_tod O then put_tod (d_id d) c tod s else Ok s);
      if o_save_point O then put_point E (d_id d) c s else Ok s.

  (** ** [bin_tod] *)

  (** 4339-4432 with [add_to_global].  [tod = None] uses [self.tod], which the
      filters change in place.  The projection on the sky map ([from_tod]) and
      the sums into [vec], [proj] are represented by the logged event; flags
      are not used. *)
  Definition bin_tod (O : opts) (d : det B) (tod : option (list R)) (c : chunk) (s : state)
    : res (list R * state) :=
    match s_hwp s with
    | None => Err AttributeError
    | Some h =>
        do bore <- chunk_slice s c (s_bore s);
        match s_qoff s (d_id d) with
        | None => Err AttributeError
        | Some ang =>
            do t <- match tod with
                    | Some t => Ok t
                    | None => match s_tod s with Some t => Ok t | None => Err AttributeError end
                    end;
            do t <- o_filter O (h_mode (sg_hwp (s_strat s))) t;
            let s := match tod with None => set_tod s (Some t) | Some _ => s end in
            Ok (t, add_log s (EBin (d_id d) (mkview false ang (Some h) bore (c_start c)) t))
        end
    end.

  (** ** The loop *)

  Definition lift_op (o : op) (s : state) : res (out * state) :=
    let (x, st) := run_op o (s_strat s) in
    match x with Ok x => Ok (x, set_strat s st) | Err e => Err e end.

  (** 2129-2415 [implement_scan], as far as state goes: external pointing;
      pointing read back from the memory map; or computed, with elevation
      steps, the horizontal pointing when [ground], and stored in the memory
      map. *)
  Definition implement_scan (E : env) (precomputed ground : bool) (c : chunk) (s : state)
    : res state :=
    if e_ext E then
      let bore := e_elev E c in
      Ok (add_log (set_bore s bore) (EPoint c bore))
    else
      match (if precomputed then s_mmap s else None) with
      | Some m =>
          let bore := slice m (Z.to_nat (c_start c)) (Z.to_nat (c_end c)) in
          Ok (add_log (set_bore s bore) (EPoint c bore))
      | None =>
          do (x, s) <- lift_op (OEl (e_elev E c)) s;
          let bore := match x with XEl l => l | _ => [] end in
          let s := if ground then set_gbore s (Some bore) else s in
          let s := set_mmap s (option_map (fun m => splice m (Z.to_nat (c_start c)) bore)
                                 (s_mmap s)) in
          Ok (add_log (set_bore s bore) (EPoint c bore))
      end.

  (** 3166-3194 [_allocate_hwp_data]. *)
  Definition allocate_hwp (O : opts) (c : chunk) (s : state) : res state :=
    if o_save_point O then
      match c_cidx c with
      | None => Err KeyError
      | Some ci => Ok (set_hwps s (fun k => if (k =? ci)%nat then repeat 0 (csize c) else s_hwps s k))
      end
    else Ok s.

  (** 3196-3258 [_allocate_detector_data]. *)
  Definition allocate (O : opts) (d : det B) (c : chunk) (s : state) : res state :=
    match c_cidx c with
    | None => Err KeyError
    | Some ci =>
        let s := set_data s (upd2 (s_data s) ci (d_id d)
                               (if o_save_tod O then Some (repeat 0 (csize c)) else None)) in
        Ok (set_point s (upd2 (s_point s) ci (d_id d)
                           (if o_save_point O then repeat (0%Z, 0) (csize c) else [])))
    end.

  (** A detector that is there and not dead (1882, 1947, 1969). *)
  Definition live (d : option (det B)) : option (det B) :=
    match d with Some d => if d_dead d then None else Some d | None => None end.

  Definition on_live (d : option (det B)) (f : det B -> state -> res state) (s : state) : res state :=
    match live d with Some d => f d s | None => Ok s end.

  (** 1941-1993: body for one sub-chunk after the ground flag is set.  The
      variable [do_ctalk] is False when A is not scanned. *)
  Definition scan_sub (E : env) (O : opts) (p : bpair) (ground : bool) (c : chunk) (s : state)
    : res state :=
    let (a, b) := p in
    do (_, s) <- (if c_norot c then Ok (XNone, s) else lift_op ORotate s);
    do (x, s) <- lift_op (OHwp None (csize c)) s;
    let s := match x with
             | XHwp HStale => s
             | XHwp h => set_hwp s (Some h)
             | _ => s
             end in
    do (ctalk_a, s) <-
       match live a with
       | None => Ok (None, s)
       | Some a =>
           do s <- scan_detector E O a ground c s;
           let do_ctalk := match live b with
                           | Some _ => if Req_EM_T (o_ctalk O) 0 then false else true
                           | None => false
                           end in
           if do_ctalk then
             Ok (Some (match s_tod s with Some t => t | None => [] end), s)
           else if o_binning O then do (_, s) <- bin_tod O a None c s; Ok (None, s)
           else Ok (None, s)
       end;
    do s <-
       match live b with
       | None => Ok s
       | Some b =>
           do s <- scan_detector E O b ground c s;
           match ctalk_a with
           | Some _ => Ok s
           | None =>
               if o_binning O then do (_, s) <- bin_tod O b None c s; Ok s
               else Ok s
           end
       end;
    match ctalk_a, live a, live b with
    | Some tod_a, Some a, Some b =>
        let tod_b := match s_tod s with Some t => t | None => [] end in
        do (tod_a, tod_b) <- M_Tod.cross_talk tod_a tod_b (o_ctalk O);
        let s := set_tod s (Some tod_b) in
        do s <- (if o_save_tod O then
                   do s <- put_tod (d_id a) c tod_a s; put_tod (d_id b) c tod_b s
                 else Ok s);
        if o_binning O then
          do (_, s) <- bin_tod O a (Some tod_a) c s;
          do (tod_b, s) <- bin_tod O b (Some tod_b) c s;
          Ok (set_tod s (Some tod_b))
        else Ok s
    | _, _, _ => Ok s
    end.

  Fixpoint scan_subs (E : env) (O : opts) (p : bpair) (subs : list (chunk * bool)) (s : state)
    : res state :=
    match subs with
    | [] => Ok s
    | (c, g) :: r =>
        do s <- scan_sub E O p g c s;
        scan_subs E O p r s
    end.

  Fixpoint set_ground (l : list (chunk * bool)) (k : nat) : list (chunk * bool) :=
    match l, k with
    | [], _ => []
    | (c, _) :: r, O => (c, true) :: r
    | x :: r, S k => x :: set_ground r k
    end.

  (** 1866-1943, body for the [k]-th chunk.  Without a rotation period
      [subpart_chunk] returns the chunk dictionary itself, so that the
      'ground' key set at 1930 stays in [self.chunks]; sub-chunks made by
      splitting are new dictionaries without that key. *)
  Definition scan_chunk (E : env) (O : opts) (bidx : nat) (p : bpair) (k : nat) (s : state)
    : res state :=
    match nth_error (match s_chunks s with Some l => l | None => [] end) k with
    | None => Ok s
    | Some (c, g) =>
        do s <- implement_scan E (negb (bidx =? 0)%nat) (g || o_ground O) c s;
        do s <- (if (bidx =? 0)%nat then allocate_hwp O c s else Ok s);
        do s <- on_live (fst p) (fun d => allocate O d c) s;
        do s <- on_live (snd p) (fun d => allocate O d c) s;
        let rotating := rot_period (ir_rot (sg_rot (s_strat s))) in
        do (x, s) <- lift_op (OSub c) s;
        let subs := match x with XSub l => l | _ => [] end in
        if rotating then scan_subs E O p (map (fun c => (c, o_ground O)) subs) s
        else
          let s := if o_ground O
                   then set_chunks s (option_map (fun l => set_ground l k) (s_chunks s)) else s in
          scan_subs E O p (map (fun c => (c, g || o_ground O)) subs) s
    end.

  Fixpoint scan_chunks (E : env) (O : opts) (bidx : nat) (p : bpair) (ks : list nat) (s : state)
    : res state :=
    match ks with
    | [] => Ok s
    | k :: r => do s <- scan_chunk E O bidx p k s; scan_chunks E O bidx p r s
    end.

  Fixpoint put_pair (l : list bpair) (i : nat) (p : bpair) : list bpair :=
    match l, i with
    | [], _ => []
    | _ :: r, O => p :: r
    | x :: r, S i => x :: put_pair r i p
    end.

  (** 1838-1865: one pass of the loop over pairs.  [who_pair]: position of the
      pair in [self.beams], [None] when this process has none left.
      Simplification: the objects handed out by [scatter_list] are those in
      [self.beams]. *)
  Definition scan_pair (E : env) (O : opts) (bidx : nat) (which : option nat) (s : state)
    : res state :=
    let s := if (bidx =? 0)%nat then s else set_strat s (reset (s_strat s)) in
    let p := match which with
             | Some i => match nth_error (s_beams s) i with Some p => p | None => (None, None) end
             | None => (None, None)
             end in
    do (p, s) <-
       match p with
       | (None, None) => Ok (p, s)
       | (a, b) =>
           if o_preview O then Ok (p, s)
           else if (match s_maps s with Some _ => true | None => false end) && o_reuse O
           then Ok (p, s)
           else
             do (m, p) <- init_detpair a b (o_ground O);
             let s := set_maps s (Some m) in
             Ok (p, match which with Some i => set_beams s (put_pair (s_beams s) i p) | None => s end)
       end;
    do s <- match s_chunks s with
            | Some _ => Ok s
            | None =>
                do l <- partition_mission (e_nsamp E) None;
                Ok (set_chunks s (Some (map (fun c => (c, false)) l)))
            end;
    do _ <- (if forallb (fun c => match c_cidx c with Some _ => true | None => false end)
                 (plain_chunks s) then Ok tt else Err KeyError);
    scan_chunks E O bidx p (seq 0 (length (plain_chunks s))) s.

  Fixpoint scan_pairs (E : env) (O : opts) (bidx : nat) (l : list (option nat)) (s : state)
    : res state :=
    match l with
    | [] => Ok s
    | w :: r => do s <- scan_pair E O bidx w s; scan_pairs E O (S bidx) r s
    end.

  (** 1724-1996 [scan_instrument_mpi]. *)
  Definition scan_instrument (E : env) (O : opts) (s : state) : res state :=
    if negb (o_alm O) && negb (o_preview O) then Err TypeError
    else if o_preview O && (o_save_tod O || o_save_point O) then Err ValueError
    else
      let s := if o_memmap O && negb (e_ext E)
               then set_mmap s (Some (repeat 0 (Z.to_nat (e_nsamp E)))) else s in
      let idx := seq 0 (length (s_beams s)) in
      scan_pairs E O 0 (rank_iterations (e_mpi E) (o_scatter O) (e_size E) (e_rank E) idx idx) s.

  (** 3364-3392 [data]: the arrays of a chunk, and of a detector. *)
  Definition data_tod (s : state) (c : chunk) (d : Z) : res (list R) :=
    match c_cidx c with
    | None => Err KeyError
    | Some ci => match s_data s ci d with Some a => Ok a | None => Err KeyError end
    end.
  Definition data_point (s : state) (c : chunk) (d : Z) : res (list (Z * R)) :=
    match c_cidx c with
    | None => Err KeyError
    | Some ci => match s_point s ci d with [] => Err KeyError | a => Ok a end
    end.
  Definition data_hwp (s : state) (c : chunk) : res (list R) :=
    match c_cidx c with
    | None => Err KeyError
    | Some ci => match s_hwps s ci with [] => Err KeyError | a => Ok a end
    end.
End Scan.
Arguments env : clear implicits.
Arguments bpair : clear implicits.
Arguments state : clear implicits.
