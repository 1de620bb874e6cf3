(** * Specification vocabulary for focal planes *)
From Coq Require Import Reals String.
From Verif Require Import Common M_Beam M_Focal.
Open Scope string_scope.

(** References of the beams that are on the focal plane, in order. *)
Definition present (st : inst) : list nat :=
  flat_map (fun p => flat_map (fun s => match s with Some r => [r] | None => [] end)
                       [fst p; snd p]) (fp st).

(** The detector index of a beam. *)
Definition idx_of (st : inst) (r : nat) : option Z :=
  match nth_error (objs st) r with Some b => idx b | None => None end.

Definition ghosts_of (h : heap) (r : nat) : list nat :=
  match nth_error h r with Some b => ghosts b | None => [] end.

(** A possible outcome of drawing [m] of the numbers 0 .. n-1 without
    replacement. *)
Definition draws_distinct (choice : nat -> nat -> list nat) : Prop :=
  forall n m, (m <= n)%nat ->
    List.length (choice n m) = m /\ NoDup (choice n m) /\ forall k, In k (choice n m) -> (k < n)%nat.

(** ** Histories of focal plane operations *)
Inductive op :=
| NewBeam (kw : dict)                            (* Beam( **kw ) *)
| Add (a : beams_arg) (combine : bool)
| Remove (a : beams_arg)
| Create (nrow ncol : nat) (fov : R) (no_pairs : bool) (ab_diff : R) (combine : bool) (kw : dict)
| Input (azs els polangs : list (R * R)) (deads : option (list (bool * bool))) (combine : bool) (kw : dict)
| Load (d : directory) (tag : string) (names : list string) (no_pairs combine : bool)
       (pA pB : R) (kw : dict)
| Ghost (r : nat) (tag : option string) (kw : dict)
| Reflect (tag : string) (rand : bool) (rnd : list R) (kw : dict)
| Crosstalk (offs : list ((R * R) * (R * R))) (tag : string) (rand : bool) (rnd : list R) (kw : dict)
| SetAttr (r : nat) (k : string) (v : val)
| SetGlobal (prop : dict) (incl_ghosts no_B no_A : bool)
| AddToProp (prop : list (string * R)) (incl_ghosts no_B no_A : bool)
| SetBtypes (btype : string)
| Kill (killfrac : R) (pairs : bool) (choice : nat -> nat -> list nat).

Definition step (st : inst) (o : op) : res inst :=
  match o with
  | NewBeam kw => do b <- beam_init kw; Ok (mkinst (fst (alloc (objs st) b)) (fp st) (ndet st))
  | Add a c => add_to_focal_plane st a c
  | Remove a => remove_from_focal_plane st a
  | Create nrow ncol fov np ab c kw => create_focal_plane st nrow ncol fov np ab c kw
  | Input azs els polangs deads c kw => input_focal_plane st azs els polangs deads c kw
  | Load d tag names np c pA pB kw => load_focal_plane st d tag names np c pA pB kw
  | Ghost r tag kw =>
      do h <- create_ghost (objs st) r tag kw; Ok (mkinst h (fp st) (ndet st))
  | Reflect tag rand rnd kw => create_reflected_ghosts st tag rand rnd kw
  | Crosstalk offs tag rand rnd kw => create_crosstalk_ghosts st offs tag rand rnd kw
  | SetAttr r k v => do h <- setattr (objs st) r k v; Ok (mkinst h (fp st) (ndet st))
  | SetGlobal prop ig nb na => set_global_prop st prop ig nb na
  | AddToProp prop ig nb na => add_to_prop st prop ig nb na
  | SetBtypes t => set_btypes st t
  | Kill f pairs choice => kill_channels st f pairs choice
  end.

(** Beams named by an argument. *)
Definition arg_refs (a : beams_arg) : list nat :=
  match a with
  | One r => [r]
  | Many rs => rs
  | Pairs ps => flat_map (fun p => flat_map (fun s => match s with Some r => [r] | None => [] end)
                       [fst p; snd p]) ps
  end.

(** Removal is asked for beams, not for empty slots, and arrays that describe
    detectors have the same length. *)
Definition well_counted (o : op) : Prop :=
  match o with
  | Remove (Pairs ps) => forall p, In p ps -> fst p <> None /\ snd p <> None
  | Input azs els polangs deads _ _ =>
      List.length els = List.length azs /\ List.length polangs = List.length azs
      /\ forall d, deads = Some d -> List.length d = List.length azs
  | _ => True
  end.

(** The beams of one call are different and, when they are combined with
    existing ones, not yet on the focal plane. *)
Definition adds_once (st : inst) (o : op) : Prop :=
  match o with
  | Add a combine =>
      NoDup (arg_refs a)
      /\ (combine = true -> forall r, In r (arg_refs a) -> ~ In r (present st))
  | _ => True
  end.

Definition is_input (o : op) : bool := match o with Input _ _ _ _ _ _ => true | _ => false end.

(** The keywords of a Python call are different. *)
Definition keywords (o : op) : dict :=
  match o with
  | NewBeam kw | Create _ _ _ _ _ _ kw | Input _ _ _ _ _ kw | Load _ _ _ _ _ _ _ kw | Ghost _ _ kw
  | Reflect _ _ _ kw | Crosstalk _ _ _ _ kw => kw
  | _ => []
  end.

(** Attributes that an operation assigns to existing beams. *)
Definition assigned (o : op) : list string :=
  match o with
  | SetAttr _ k _ => [k]
  | SetGlobal prop _ _ _ => map fst prop
  | AddToProp prop _ _ _ => map fst prop
  | SetBtypes _ => ["btype"]
  | Kill _ _ _ => ["dead"]
  | _ => []
  end.

(** A history that runs without exceptions, all of whose steps satisfy [ok]. *)
Inductive history (ok : inst -> op -> Prop) : inst -> list op -> inst -> Prop :=
| h_nil st : history ok st [] st
| h_cons st o st' os st'' :
    ok st o -> NoDup (map fst (keywords o)) -> step st o = Ok st' -> history ok st' os st'' ->
    history ok st (o :: os) st''.

(** Options of the two beams described by a file: of a single dictionary both,
    with A / B appended to a non-empty name; of a sequence of two, one each. *)
Definition tagged_name (v : option val) (s : string) : option val :=
  match v with
  | Some (VStr n) => if n =? "" then v else Some (VStr (n ++ s))
  | _ => v
  end.
Definition entry (f : beam_file) (second : bool) (k : string) : option val :=
  match f with
  | Single d => if k =? "name" then tagged_name (dget d k) (if second then "B" else "A") else dget d k
  | Sequence [da; db] => dget (if second then db else da) k
  | _ => None
  end.

(** The two beams of a file are built from two dictionaries (not twice from
    the same dictionary object). *)
Definition loads_separate (o : op) : Prop :=
  match o with Load d _ _ _ _ _ _ _ => forall x, ~ In (Shared x) (map snd d) | _ => True end.

(** The beams of some pairs, in order. *)
Definition refs (ps : list pair) : list nat :=
  flat_map (fun p => flat_map (fun s => match s with Some r => [r] | None => [] end)
                       [fst p; snd p]) ps.

(** Attributes that are stored as given: not lmax, mmax, fwhm (which are
    processed) nor the read-only ones. *)
Definition plain (k : string) : bool :=
  negb (existsb (fun k' => k' =? k)
          ["idx"; "ghost"; "ghosts"; "polang_truth"; "lmax"; "fwhm"; "mmax"]).
Definition plain_prop (prop : dict) : Prop := forall k, In k (map fst prop) -> plain k = true.

(** The options of a beam and their defaults. *)
Definition options : dict :=
  [("az", VNum 0); ("el", VNum 0); ("polang", VNum 0); ("name", VNone); ("pol", VStr "A");
   ("btype", VStr "Gaussian"); ("dead", VBool false); ("amplitude", VNum 1);
   ("po_file", VNone); ("eg_file", VNone); ("cross_pol", VBool true);
   ("lmax", VInt 700); ("mmax", VNone); ("sensitive_freq", VNum 150); ("fwhm", VNone);
   ("deconv_q", VBool true); ("normalize", VBool true); ("polang_error", VNum 0);
   ("symmetric", VBool false); ("hwp", VNone); ("hwp_mueller", VNone)].

(** The options that ghosts take over from their beam. *)
Definition taken_over : list string :=
  ["az"; "el"; "polang"; "pol"; "btype"; "fwhm"; "dead"; "lmax"; "mmax"; "amplitude";
   "po_file"; "eg_file"; "cross_pol"; "deconv_q"; "normalize"; "polang_error"].

(** Offset number [k] of [n] that span a field of view [f]. *)
Definition grid_offset (f : R) (n k : nat) : R :=
  match n with
  | 1%nat => (- f / 2)%R
  | _ => (- f / 2 + INR k * (f / (INR n - 1)))%R
  end.

(** A name that contains a tag. *)
Definition has_tag (tag name : string) : Prop := exists a b, name = a ++ tag ++ b.

(** The first index for new beams: one above the highest, or 0. *)
Definition first_index (st : inst) (combine : bool) (i : Z) : Prop :=
  if combine then
    (present st = [] /\ i = 0%Z)
    \/ ((exists r, In r (present st) /\ idx_of st r = Some (i - 1)%Z)
        /\ forall r, In r (present st) -> exists j, idx_of st r = Some j /\ (j < i)%Z)
  else i = 0%Z.

(** Beams on which an assignment to a selection of A / B beams acts. *)
Definition chosen (st : inst) (no_B no_A : bool) : list nat :=
  flat_map (fun p => ((if no_A then [] else slot_list (fst p))
                      ++ (if no_B then [] else slot_list (snd p)))%list) (fp st).

(** Sum of the first [n] numbers. *)
Fixpoint prefix_sum (l : list R) (n : nat) : R :=
  match l, n with x :: l, S n => (x + prefix_sum l n)%R | _, _ => 0%R end.

(** The name of the beam in column [azi] and row [eli]. *)
Definition cell_name (azi eli : nat) (pol : string) : string :=
  ("r" ++ fmt03 eli ++ "c" ++ fmt03 azi) ++ pol.

(** Order in which files are read: by file name. *)
Definition name_le (a b : string) : Prop := String.leb (a ++ ".pkl") (b ++ ".pkl") = true.

(** What a beam read from a file looks like: [e] are the options in the file,
    [kw] the keywords given to the call, [p] the offset of the angle. *)
Definition loaded_as (e : string -> option val) (kw : dict) (second no_pairs : bool) (p : R) (i : Z)
  (b : beam) : Prop :=
  let opt k := match dget kw k with Some v => Some v | None => e k end in
  idx b = Some i
  /\ attrs b "pol" = Some (VStr (if second then "B" else "A"))
  /\ (exists x, vnum (opt "polang") 0%R = Ok x /\ attrs b "polang" = Some (VNum (x + p)))
  /\ (second = true -> no_pairs = true -> attrs b "dead" = Some (VBool true))
  /\ forall k d, In (k, d) options -> plain k = true -> k <> "pol" -> k <> "polang" ->
       (k = "dead" -> second && no_pairs = false)%bool ->
       attrs b k = match opt k with Some v => Some v | None => Some d end.
