(** * Where a scan can stop (C101)

    A scan that is interrupted (by the user, by the batch system, by an
    exception in an external call) leaves the objects in the state they have
    just then.  The predicates below say which states these are: [stops_… s t]
    holds if the corresponding function of [M_Scan], started in [s], can be cut
    off in [t].  A sequence of statements stops in one of them, after those
    before it have been completed.  Making the spin maps of a pair, one
    operation on the strategy, one array that is stored, one call of [bin_tod]
    are not divided further. *)
From Coq Require Import Reals.
From Verif Require Import Common M_Chunks M_Steps M_Hwp M_Mpi M_Detpair M_Scan.
From Verif Require M_Tod.
Open Scope R_scope.

(** In [f] (as [inside] says), or after it in what follows. *)
Definition one_by_one {A} (f : res A) (inside : Prop) (after : A -> Prop) : Prop :=
  inside \/ exists a, f = Ok a /\ after a.

Section S.
  Context {B : Type}.
  Implicit Types (s t : state B) (d : det B).

  (** [scan]: before it, once the rotation of the detector is set, after it. *)
  Definition stops_scan (E : env B) w dead gidx add rt rp skip ground c s t : Prop :=
    t = s \/ (exists i : Z, w = Main i /\ t = set_qoff s (upd (s_qoff s) i (Some (ir_angle (sg_rot (s_strat s))))))
    \/ exists x, scan E w dead gidx add rt rp skip ground c s = Ok (x, t).

  Fixpoint stops_ghosts (E : env B) (d : Z) (k n : nat) (gs : list (gh B)) (skip ground : bool)
    (c : chunk) s t : Prop :=
    match gs with
    | [] => t = s
    | g :: r =>
        if gh_dead g then stops_ghosts E d (S k) n r skip ground c s t
        else one_by_one (scan E (Ghost d k) false (Some (gh_idx g)) (negb (n =? 0)%nat) false false skip ground c s)
               (stops_scan E (Ghost d k) false (Some (gh_idx g)) (negb (n =? 0)%nat) false false skip ground c s t)
               (fun x => stops_ghosts E d (S k) (S n) r skip ground c (snd x) t)
    end.

  Definition stops_detector (E : env B) (O : opts) d (ground : bool) (c : chunk) s t : Prop :=
    let skip := o_preview O in
    one_by_one (scan_ghosts E (d_id d) 0 0 (d_ghosts d) skip ground c s)
      (stops_ghosts E (d_id d) 0 0 (d_ghosts d) skip ground c s t)
      (fun x =>
         let tod_exists := negb (fst x =? 0)%nat in
         let s := snd x in
         one_by_one
           (if ground then
              do (_, s) <- scan E (Main (d_id d)) (d_dead d) None tod_exists false (o_save_point O) false true c s;
              Ok (true, s)
            else Ok (tod_exists, s))
           (ground = true /\ stops_scan E (Main (d_id d)) (d_dead d) None tod_exists false (o_save_point O) false true c s t)
           (fun x =>
              let s := snd x in
              one_by_one
                (scan E (Main (d_id d)) (d_dead d) None (fst x) (o_save_tod O) (o_save_point O) skip false c s)
                (stops_scan E (Main (d_id d)) (d_dead d) None (fst x) (o_save_tod O) (o_save_point O) skip false c s t)
                (fun x =>
                   let s := snd x in
                   one_by_one (if o_save_tod O then put_tod (d_id d) c (fst x) s else Ok s) (t = s)
                     (fun s => t = s \/ (o_save_point O = true /\ put_point E (d_id d) c s = Ok t))))).

  (** [bin_tod]: before or after. *)
  Definition stops_bin (O : opts) d (tod : option (list R)) (c : chunk) s t : Prop :=
    t = s \/ exists x, bin_tod O d tod c s = Ok (x, t).

  (** One sub-chunk: rotation, HWP, detector A, detector B, crosstalk. *)
  Definition stops_sub (E : env B) (O : opts) (p : bpair B) (ground : bool) (c : chunk) s t : Prop :=
    let (a, b) := p in
    one_by_one (if c_norot c then Ok (XNone, s) else lift_op ORotate s) (t = s) (fun x =>
    one_by_one (lift_op (OHwp None (csize c)) (snd x)) (t = snd x) (fun x =>
    let s := match fst x with
             | XHwp HStale => snd x
             | XHwp h => set_hwp (snd x) (Some h)
             | _ => snd x
             end in
    let do_ctalk := match live b with
                    | Some _ => if Req_EM_T (o_ctalk O) 0 then false else true
                    | None => false
                    end in
    t = s \/
    one_by_one (match live a with
             | None => Ok (None, s)
             | Some a =>
                 do s <- scan_detector E O a ground c s;
                 if do_ctalk then Ok (Some (match s_tod s with Some t => t | None => [] end), s)
                 else if o_binning O then do (_, s) <- bin_tod O a None c s; Ok (None, s)
                 else Ok (None, s)
             end)
      (exists a', live a = Some a'
         /\ (stops_detector E O a' ground c s t
             \/ exists s2, scan_detector E O a' ground c s = Ok s2 /\ stops_bin O a' None c s2 t
                /\ do_ctalk = false /\ o_binning O = true))
      (fun x =>
    let s := snd x in
    t = s \/
    one_by_one (match live b with
             | None => Ok s
             | Some b =>
                 do s <- scan_detector E O b ground c s;
                 match fst x with
                 | Some _ => Ok s
                 | None => if o_binning O then do (_, s) <- bin_tod O b None c s; Ok s else Ok s
                 end
             end)
      (exists b', live b = Some b'
         /\ (stops_detector E O b' ground c s t
             \/ exists s2, scan_detector E O b' ground c s = Ok s2 /\ stops_bin O b' None c s2 t
                /\ fst x = None /\ o_binning O = true))
      (fun s =>
    t = s \/
    match fst x, live a, live b with
    | Some tod_a, Some a, Some b =>
        let tod_b := match s_tod s with Some t => t | None => [] end in
        exists ta tb, M_Tod.cross_talk tod_a tod_b (o_ctalk O) = Ok (ta, tb)
        /\ let s := set_tod s (Some tb) in
           t = s \/
           one_by_one (if o_save_tod O then do s <- put_tod (d_id a) c ta s; put_tod (d_id b) c tb s else Ok s)
             (o_save_tod O = true /\ put_tod (d_id a) c ta s = Ok t)
             (fun s =>
                t = s \/
                (o_binning O = true /\
                 one_by_one (bin_tod O a (Some ta) c s) (stops_bin O a (Some ta) c s t)
                   (fun x => one_by_one (bin_tod O b (Some tb) c (snd x)) (stops_bin O b (Some tb) c (snd x) t)
                               (fun x => t = set_tod (snd x) (Some (fst x))))))
    | _, _, _ => False
    end)))).

  Fixpoint stops_subs (E : env B) (O : opts) (p : bpair B) (subs : list (chunk * bool)) s t : Prop :=
    match subs with
    | [] => t = s
    | (c, g) :: r => one_by_one (scan_sub E O p g c s) (stops_sub E O p g c s t) (fun s => stops_subs E O p r s t)
    end.

  (** One chunk: pointing, allocation, sub-chunks. *)
  Definition stops_chunk (E : env B) (O : opts) (bidx : nat) (p : bpair B) (k : nat) s t : Prop :=
    match nth_error (match s_chunks s with Some l => l | None => [] end) k with
    | None => t = s
    | Some (c, g) =>
        one_by_one (implement_scan E (negb (bidx =? 0)%nat) (g || o_ground O) c s)
          (t = s \/ exists x, lift_op (OEl (e_elev E c)) s = Ok (x, t)) (fun s =>
        one_by_one (if (bidx =? 0)%nat then allocate_hwp O c s else Ok s) (t = s) (fun s =>
        one_by_one (on_live (fst p) (fun d => allocate O d c) s) (t = s) (fun s =>
        one_by_one (on_live (snd p) (fun d => allocate O d c) s) (t = s) (fun s =>
        let rotating := rot_period (ir_rot (sg_rot (s_strat s))) in
        one_by_one (lift_op (OSub c) s) (t = s) (fun x =>
        let s := snd x in
        let subs := match fst x with XSub l => l | _ => [] end in
        t = s \/
        if rotating then stops_subs E O p (map (fun c => (c, o_ground O)) subs) s t
        else
          let s := if o_ground O
                   then set_chunks s (option_map (fun l => set_ground l k) (s_chunks s)) else s in
          stops_subs E O p (map (fun c => (c, g || o_ground O)) subs) s t)))))
    end.

  Fixpoint stops_chunks (E : env B) (O : opts) (bidx : nat) (p : bpair B) (ks : list nat) s t : Prop :=
    match ks with
    | [] => t = s
    | k :: r => one_by_one (scan_chunk E O bidx p k s) (stops_chunk E O bidx p k s t) (fun s => stops_chunks E O bidx p r s t)
    end.

  (** One pair: reset, spin maps, partition, chunks. *)
  Definition stops_pair (E : env B) (O : opts) (bidx : nat) (which : option nat) s t : Prop :=
    t = s \/
    let s := if (bidx =? 0)%nat then s else set_strat s (reset (s_strat s)) in
    t = s \/
    let p := match which with
             | Some i => match nth_error (s_beams s) i with Some p => p | None => (None, None) end
             | None => (None, None)
             end in
    one_by_one
       (match p with
        | (None, None) => Ok (p, s)
        | (a, b) =>
            if o_preview O then Ok (p, s)
            else if (match s_maps s with Some _ => true | None => false end) && o_reuse O then Ok (p, s)
            else
              do (m, p) <- init_detpair a b (o_ground O);
              let s := set_maps s (Some m) in
              Ok (p, match which with Some i => set_beams s (put_pair (s_beams s) i p) | None => s end)
        end) False (fun x =>
    let p := fst x in let s := snd x in
    t = s \/
    one_by_one (match s_chunks s with
             | Some _ => Ok s
             | None =>
                 do l <- partition_mission (e_nsamp E) None;
                 Ok (set_chunks s (Some (map (fun c => (c, false)) l)))
             end) False (fun s =>
    t = s \/ stops_chunks E O bidx p (seq 0 (length (plain_chunks s))) s t)).

  Fixpoint stops_pairs (E : env B) (O : opts) (bidx : nat) (l : list (option nat)) s t : Prop :=
    match l with
    | [] => t = s
    | w :: r => one_by_one (scan_pair E O bidx w s) (stops_pair E O bidx w s t) (fun s => stops_pairs E O (S bidx) r s t)
    end.

  (** The whole call. *)
  Definition can_stop (E : env B) (O : opts) s t : Prop :=
    t = s \/
    let s := if o_memmap O && negb (e_ext E)
             then set_mmap s (Some (repeat 0 (Z.to_nat (e_nsamp E)))) else s in
    let idx := seq 0 (length (s_beams s)) in
    stops_pairs E O 0 (rank_iterations (e_mpi E) (o_scatter O) (e_size E) (e_rank E) idx idx) s t.
End S.
