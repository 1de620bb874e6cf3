(** * Model of the focal plane of an [Instrument]

    /repo/beamconv/instrument.py:305-1193.  One process (no MPI): distribution
    over ranks is the subject of M_Mpi.v. *)
From Coq Require Import Reals String Decimal DecimalString.
From Verif Require Import Common M_Beam.
Open Scope string_scope.

Definition slot := option nat.
Definition pair := (slot * slot)%type.

(** Objects, the [beams] attribute (pairs of references or None), [ndet].
    Simplification: a pair is a value, not a shared mutable list. *)
Record inst := mkinst { objs : heap; fp : list pair; ndet : Z }.

(** instrument.py:301-302 *)
Definition empty_inst : inst := mkinst [] [] 0.

Definition slot_list (s : slot) : list nat := match s with Some r => [r] | None => [] end.
Definition pair_list (p : pair) : list nat := (slot_list (fst p) ++ slot_list (snd p))%list.

(** instrument.py:305-322 [beams_idxs] *)
Fixpoint idxs_of (h : heap) (rs : list nat) : res (list Z) :=
  match rs with
  | [] => Ok []
  | r :: rest =>
      do b <- index h r;
      match idx b with
      | None => Err TypeError
      | Some i => do is_ <- idxs_of h rest; Ok (i :: is_)
      end
  end.
Definition beams_idxs (st : inst) : res (list Z) :=
  idxs_of (objs st) (concat (map pair_list (fp st))).

(** instrument.py:364-372 (also 508-518, 595-605, 702-710): the first index for
    new beams: [idxs.max() + 1], 0 for an empty focal plane or [combine=False]. *)
Definition next_idx (st : inst) (combine : bool) : res Z :=
  if combine then
    do l <- beams_idxs st;
    match l with
    | [] => Ok 0%Z
    | x :: r => Ok (fold_left Z.max r x + 1)%Z
    end
  else Ok 0%Z.

(** [beam._idx = i] *)
Definition set_idx (h : heap) (s : slot) (i : Z) : res heap :=
  match s with
  | None => Err AttributeError
  | Some r => do b <- index h r; Ok (hset h r (with_idx b (Some i)))
  end.

(** Argument of [add_to_focal_plane] / [remove_from_focal_plane]: one beam, a
    list of beams, or a list of pairs. *)
Inductive beams_arg :=
| One (r : nat)
| Many (rs : list nat)
| Pairs (ps : list pair).

(** instrument.py:381-395, list of beams *)
Fixpoint add_many (h : heap) (rs : list nat) (i : Z) : res (heap * list pair) :=
  match rs with
  | [] => Ok (h, [])
  | r :: rest =>
      do h <- set_idx h (Some r) i;
      do (h, ps) <- add_many h rest (i + 1)%Z;
      Ok (h, (Some r, None) :: ps)
  end.

(** instrument.py:381-395, list of pairs *)
Fixpoint add_pairs (h : heap) (ps : list pair) (i : Z) : res (heap * list pair) :=
  match ps with
  | [] => Ok (h, [])
  | p :: rest =>
      do h <- set_idx h (fst p) i;
      do h <- set_idx h (snd p) (i + 1)%Z;
      do (h, qs) <- add_pairs h rest (i + 2)%Z;
      Ok (h, p :: qs)
  end.

(** instrument.py:397-405: [self.beams = new] or [+= new], same for ndet *)
Definition put (st : inst) (h : heap) (new : list pair) (n : Z) (combine : bool) : inst :=
  if combine then mkinst h (fp st ++ new)%list (ndet st + n)
  else mkinst h new n.

(** instrument.py:324-405 [add_to_focal_plane] *)
Definition add_to_focal_plane (st : inst) (a : beams_arg) (combine : bool) : res inst :=
  match a with
  | One r =>
      do i <- next_idx st combine;
      do h <- set_idx (objs st) (Some r) i;
      Ok (put st h [(Some r, None)] 1 combine)
  | Many [] | Pairs [] => Err IndexError
  | Many rs =>
      do i <- next_idx st combine;
      do (h, ps) <- add_many (objs st) rs i;
      Ok (put st h ps (Z.of_nat (List.length rs)) combine)
  | Pairs ps =>
      do i <- next_idx st combine;
      do (h, ps) <- add_pairs (objs st) ps i;
      Ok (put st h ps (2 * Z.of_nat (List.length ps)) combine)
  end.

(** instrument.py:418-431: [bad_beams] as a flat list (of references or None) *)
Definition flatten_arg (a : beams_arg) : res (list slot) :=
  match a with
  | One r => Ok [Some r]
  | Many [] | Pairs [] => Err IndexError
  | Many rs => Ok (map Some rs)
  | Pairs ps => Ok (concat (map (fun p => [fst p; snd p]) ps))
  end.

Definition slot_eqb (a b : slot) : bool :=
  match a, b with
  | None, None => true
  | Some x, Some y => Nat.eqb x y
  | _, _ => false
  end.

(** [beam in bad_beams] *)
Definition slot_in (s : slot) (l : list slot) : bool := existsb (slot_eqb s) l.

(** instrument.py:437-439: one slot; the change of [ndet] *)
Definition strike (bad : list slot) (s : slot) : slot * Z :=
  if slot_in s bad then (None, 1%Z) else (s, 0%Z).

Definition strike_pair (bad : list slot) (p : pair) : pair * Z :=
  let (a, n) := strike bad (fst p) in
  let (b, m) := strike bad (snd p) in
  ((a, b), (n + m)%Z).

Definition both_none (p : pair) : bool :=
  match p with (None, None) => true | _ => false end.

(** instrument.py:407-448 [remove_from_focal_plane] *)
Definition remove_from_focal_plane (st : inst) (a : beams_arg) : res inst :=
  do bad <- flatten_arg a;
  let r := map (strike_pair bad) (fp st) in
  Ok (mkinst (objs st)
        (filter (fun p => negb (both_none p)) (map fst r))
        (ndet st - fold_right Z.add 0%Z (map snd r))).

(** ** Creation on a grid *)

(** Python ['{:03d}'.format(n)] *)
Definition pad3 (u : uint) : uint :=
  match nb_digits u with
  | 0 => D0 (D0 (D0 u))
  | 1 => D0 (D0 u)
  | 2 => D0 u
  | _ => u
  end.
Definition fmt03 (n : nat) : string := NilEmpty.string_of_uint (pad3 (Nat.to_uint n)).

(** NumPy [linspace(a, b, n)[k]] *)
Definition linspace (a b : R) (n k : nat) : R :=
  if (n =? 1)%nat then a else (a + INR k * ((b - a) / INR (n - 1)))%R.

(** instrument.py:528-538: beams of the grid cell (az_idx, el_idx) *)
Definition grid_beams (nrow ncol : nat) (fov polang ab_diff : R) (dead no_pairs : bool) (kw : dict)
  (azi eli : nat) (i : Z) : res (beam * beam) :=
  let az := VNum (linspace (- fov / 2) (fov / 2) ncol azi) in
  let el := VNum (linspace (- fov / 2) (fov / 2) nrow eli) in
  let det_str := "r" ++ fmt03 eli ++ "c" ++ fmt03 azi in
  do a <- beam_init (dupdate kw
            [("az", az); ("el", el); ("name", VStr (det_str ++ "A")); ("polang", VNum polang);
             ("dead", VBool dead); ("pol", VStr "A"); ("idx", VInt i)]);
  do b <- beam_init (dupdate kw
            [("az", az); ("el", el); ("name", VStr (det_str ++ "B"));
             ("polang", VNum (polang + ab_diff)); ("dead", VBool (dead || no_pairs));
             ("pol", VStr "B"); ("idx", VInt (i + 1))]);
  Ok (a, b).

(** Two new objects as a pair. *)
Definition alloc_pair (h : heap) (ab : beam * beam) : heap * pair :=
  let (h, ra) := alloc h (fst ab) in
  let (h, rb) := alloc h (snd ab) in
  (h, (Some ra, Some rb)).

(** instrument.py:525-541, the cells in loop order *)
Fixpoint create_cells (h : heap) (cells : list (nat * nat)) (i : Z)
  (mk : nat -> nat -> Z -> res (beam * beam)) : res (heap * list pair) :=
  match cells with
  | [] => Ok (h, [])
  | (azi, eli) :: rest =>
      do ab <- mk azi eli i;
      let (h, p) := alloc_pair h ab in
      do (h, ps) <- create_cells h rest (i + 2)%Z mk;
      Ok (h, p :: ps)
  end.

Definition cells (nrow ncol : nat) : list (nat * nat) :=
  concat (map (fun azi => map (fun eli => (azi, eli)) (seq 0 nrow)) (seq 0 ncol)).

Definition vbool (v : option val) (d : bool) : res bool :=
  match v with None => Ok d | Some (VBool b) => Ok b | _ => Err TypeError end.
Definition vnum (v : option val) (d : R) : res R :=
  match v with None => Ok d | Some (VNum x) => Ok x | _ => Err TypeError end.

(** instrument.py:450-553 [create_focal_plane], scatter=False.  Simplification:
    [polang] and [dead] keywords are a number and a boolean. *)
Definition create_focal_plane (st : inst) (nrow ncol : nat) (fov : R) (no_pairs : bool)
  (ab_diff : R) (combine : bool) (kw : dict) : res inst :=
  let kw := fold_left dpop ["az"; "el"; "pol"; "name"; "ghost"; "idx"] kw in
  do polang <- vnum (dget kw "polang") 0%R;
  do dead <- vbool (dget kw "dead") false;
  let kw := dpop (dpop kw "polang") "dead" in
  do i <- next_idx st combine;
  do (h, ps) <- create_cells (objs st) (cells nrow ncol) i
                  (grid_beams nrow ncol fov polang ab_diff dead no_pairs kw);
  Ok (put st h ps (2 * Z.of_nat (nrow * ncol)) combine).

(** instrument.py:611-614: beams of one user-supplied position; note the index.
    Python rejects a keyword that is given twice. *)
Definition input_beams (kw : dict) (i : nat) (p : (R * R) * (R * R) * (R * R) * (bool * bool))
  : res (beam * beam) :=
  let '(az, el, polang, dead) := p in
  if existsb (fun kv => is_key (fst kv) ["az"; "el"; "name"; "polang"; "dead"; "pol"; "idx"]) kw
  then Err TypeError else
  let name := VStr ("det" ++ NilEmpty.string_of_uint (Nat.to_uint i)) in
  do a <- beam_init (dupdate kw
            [("az", VNum (fst az)); ("el", VNum (fst el)); ("name", name);
             ("polang", VNum (fst polang)); ("dead", VBool (fst dead)); ("pol", VStr "A");
             ("idx", VInt (Z.of_nat i))]);
  do b <- beam_init (dupdate kw
            [("az", VNum (snd az)); ("el", VNum (snd el)); ("name", name);
             ("polang", VNum (snd polang)); ("dead", VBool (snd dead)); ("pol", VStr "B");
             ("idx", VInt (Z.of_nat i))]);
  Ok (a, b).

Fixpoint input_cells (h : heap) (kw : dict) (i : nat)
  (l : list ((R * R) * (R * R) * (R * R) * (bool * bool))) : res (heap * list pair) :=
  match l with
  | [] => Ok (h, [])
  | p :: rest =>
      do ab <- input_beams kw i p;
      let (h, q) := alloc_pair h ab in
      do (h, ps) <- input_cells h kw (i + 1) rest;
      Ok (h, q :: ps)
  end.

(** instrument.py:555-629 [input_focal_plane], scatter=False.  The arrays are
    zipped, so the shortest decides how many pairs are made, but the count
    grows with the first.  With [combine=False] undefined names are used. *)
Definition input_focal_plane (st : inst) (azs els polangs : list (R * R)) (deads : option (list (bool * bool)))
  (combine_ : bool) (kw : dict) : res inst :=
  let deads := match deads with Some d => d | None => map (fun _ => (false, false)) azs end in
  if combine_ then
    do _ <- next_idx st combine_;
    do (h, ps) <- input_cells (objs st) kw 0 (combine (combine (combine azs els) polangs) deads);
    Ok (put st h ps (2 * Z.of_nat (List.length azs)) combine_)
  else Err NameError.

(** ** Loading from files *)

(** Contents of a beam file: one dictionary, a sequence of dictionaries, or a
    sequence of two references to the same dictionary. *)
Inductive beam_file :=
| Single (d : dict)
| Sequence (l : list dict)
| Shared (d : dict).

(** instrument.py:787-790: polarisation offset of one dictionary *)
Definition add_polang (d : dict) (p : R) : res dict :=
  do x <- vnum (dget d "polang") 0%R; Ok (dset d "polang" (VNum (x + p))).

(** instrument.py:763-765: append A / B to a name *)
Definition append_name (d : dict) (s : string) : res dict :=
  match dget d "name" with
  | None | Some VNone => Ok d
  | Some (VStr n) => if n =? "" then Ok d else Ok (dset d "name" (VStr (n ++ s)))
  | _ => Err TypeError
  end.

(** instrument.py:777-799: from the two dictionaries to the two beams. *)
Definition finish_pair (da db : dict) (kw : dict) (i : Z) (no_pairs : bool) (pA pB : R)
  : res (beam * beam) :=
  let da := dset (dupdate da kw) "idx" (VInt i) in
  let db := dset (dupdate db kw) "idx" (VInt (i + 1)) in
  do da <- add_polang da pA;
  do db <- add_polang db pB;
  let db := if no_pairs then dset db "dead" (VBool true) else db in
  do a <- beam_init (dset (dpop da "pol") "pol" (VStr "A"));
  do b <- beam_init (dset (dpop db "pol") "pol" (VStr "B"));
  Ok (a, b).

(** The same when both dictionaries are one object: every update is seen by
    both; the second offset is read before the first is written. *)
Definition finish_shared (d : dict) (kw : dict) (i : Z) (no_pairs : bool) (pA pB : R)
  : res (beam * beam) :=
  let d := dset (dupdate d kw) "idx" (VInt (i + 1)) in
  do d <- add_polang d pB;
  let d := if no_pairs then dset d "dead" (VBool true) else d in
  do a <- beam_init (dset (dpop d "pol") "pol" (VStr "A"));
  do b <- beam_init (dset (dpop d "pol") "pol" (VStr "B"));
  Ok (a, b).

(** instrument.py:750-801: one file.  Simplification: a file whose content is
    neither a dictionary nor a sequence is left out. *)
Definition load_file (f : beam_file) (kw : dict) (i : Z) (no_pairs : bool) (pA pB : R)
  : res (beam * beam) :=
  match f with
  | Single d =>
      do da <- append_name d "A";
      do db <- append_name d "B";
      finish_pair da db kw i no_pairs pA pB
  | Sequence [da; db] => finish_pair da db kw i no_pairs pA pB
  | Sequence _ => Err ValueError
  | Shared d => finish_shared d kw i no_pairs pA pB
  end.

Fixpoint load_files (h : heap) (fs : list beam_file) (kw : dict) (i : Z) (no_pairs : bool)
  (pA pB : R) : res (heap * list pair) :=
  match fs with
  | [] => Ok (h, [])
  | f :: rest =>
      do ab <- load_file f kw i no_pairs pA pB;
      let (h, p) := alloc_pair h ab in
      do (h, ps) <- load_files h rest kw (i + 2)%Z no_pairs pA pB;
      Ok (h, p :: ps)
  end.

(** A directory: file names (without .pkl) and contents. *)
Definition directory := list (string * beam_file).

(** insertion of a name in sorted order: [file_list.sort()] *)
Fixpoint insert_name (n : string) (l : list string) : list string :=
  match l with
  | [] => [n]
  | x :: r => if String.leb (n ++ ".pkl") (x ++ ".pkl") then n :: x :: r else x :: insert_name n r
  end.
Definition sort_names (l : list string) : list string := fold_right insert_name [] l.

(** Python [tag in name] *)
Fixpoint contains (tag name : string) : bool :=
  String.prefix tag name ||
  match name with EmptyString => false | String _ r => contains tag r end.

Fixpoint lookup_file (d : directory) (n : string) : option beam_file :=
  match d with
  | [] => None
  | (m, f) :: r => if m =? n then Some f else lookup_file r n
  end.

Fixpoint all_some {A} (l : list (option A)) : option (list A) :=
  match l with
  | [] => Some []
  | None :: _ => None
  | Some a :: r => match all_some r with Some s => Some (a :: s) | None => None end
  end.

(** instrument.py:721-741: the sorted list of files.  Simplifications: tags
    contain no glob characters; all files are in one directory. *)
Definition file_list (d : directory) (tag : string) (file_names : list string)
  : res (list beam_file) :=
  do names <-
    match file_names with
    | [] =>
        let l := filter (contains tag) (map fst d) in
        match l with [] => Err RuntimeError | _ => Ok l end
    | _ =>
        let l := filter (contains tag) file_names in
        if forallb (fun n => match lookup_file d n with Some _ => true | None => false end) l
        then Ok l else Err IOError
    end;
  match all_some (map (lookup_file d) (sort_names names)) with
  | Some fs => Ok fs
  | None => Err IOError
  end.

(** instrument.py:631-827 [load_focal_plane], one process. *)
Definition load_focal_plane (st : inst) (d : directory) (tag : string) (file_names : list string)
  (no_pairs combine : bool) (pA pB : R) (kw : dict) : res inst :=
  do i <- next_idx st combine;
  let kw := fold_left dpop ["pol"; "ghost"; "idx"] kw in
  do fs <- file_list d tag file_names;
  do (h, ps) <- load_files (objs st) fs kw i no_pairs pA pB;
  Ok (put st h ps (2 * Z.of_nat (List.length ps)) combine).

(** ** Ghosts for the whole focal plane *)

(** instrument.py:937-941 (and 879-883): the optional random amplitude.  [rnd]
    are the random numbers drawn; the keywords are updated in place. *)
Definition perturb (kw : dict) (rand : bool) (rnd : list R) : res (dict * list R) :=
  if rand then
    match rnd with
    | [] => Err StopIteration
    | x :: rnd =>
        do a <- vnum (dget kw "amplitude") 1%R;
        Ok (dset kw "amplitude" (VNum (a + x)), rnd)
    end
  else Ok (kw, rnd).

(** instrument.py:887-943 [create_reflected_ghosts] for the beams [rs] (empty
    slots are skipped): every beam gets a ghost at the opposite offset. *)
Fixpoint reflected (h : heap) (rs : list nat) (tag : string) (rand : bool) (rnd : list R) (kw : dict)
  : res heap :=
  match rs with
  | [] => Ok h
  | r :: rest =>
      do b <- index h r;
      do az <- vnum (attrs b "az") 0%R;
      do el <- vnum (attrs b "el") 0%R;
      let kw := dupdate kw [("az", VNum (- az)); ("el", VNum (- el))] in
      do (kw, rnd) <- perturb kw rand rnd;
      do h <- create_ghost h r (Some tag) kw;
      reflected h rest tag rand rnd kw
  end.

Definition create_reflected_ghosts (st : inst) (tag : string) (rand : bool) (rnd : list R) (kw : dict)
  : res inst :=
  do h <- reflected (objs st) (concat (map pair_list (fp st))) tag rand rnd kw;
  Ok (mkinst h (fp st) (ndet st)).

(** instrument.py:864-885: offsets are given per slot; an empty slot raises (its
    [polang] is read). *)
Fixpoint crosstalk (h : heap) (l : list (slot * (R * R))) (tag : string) (rand : bool) (rnd : list R)
  (kw : dict) : res heap :=
  match l with
  | [] => Ok h
  | (None, _) :: _ => Err AttributeError
  | (Some r, (az, el)) :: rest =>
      do b <- index h r;
      let dead_ghost := if Req_EM_T az 0 then true else false in
      do p <- vnum (attrs b "polang") 0%R;
      let kw := dupdate kw [("az", VNum az); ("el", VNum el); ("polang", VNum (p + 90));
                            ("dead", VBool dead_ghost)] in
      do (kw, rnd) <- perturb kw rand rnd;
      do h <- create_ghost h r (Some tag) kw;
      crosstalk h rest tag rand rnd kw
  end.

(** instrument.py:829-885 [create_crosstalk_ghosts] for the whole focal plane;
    [zip] stops at the shorter of focal plane and offsets. *)
Definition create_crosstalk_ghosts (st : inst) (offs : list ((R * R) * (R * R))) (tag : string)
  (rand : bool) (rnd : list R) (kw : dict) : res inst :=
  let l := concat (map (fun po => [(fst (fst po), fst (snd po)); (snd (fst po), snd (snd po))])
                       (combine (fp st) offs)) in
  do h <- crosstalk (objs st) l tag rand rnd kw;
  Ok (mkinst h (fp st) (ndet st)).

(** ** Dead detectors and properties *)

Definition nth_pair (st : inst) (q : nat) : res pair := index (fp st) q.

Definition kill_slot (h : heap) (s : slot) : res heap :=
  match s with
  | None => Err AttributeError
  | Some r => setattr h r "dead" (VBool true)
  end.

(** instrument.py:981-988: one drawn index *)
Definition kill_one (fp : list pair) (pairs : bool) (h : heap) (k : nat) : res heap :=
  if pairs then
    do p <- index fp k;
    do h <- kill_slot h (fst p);
    kill_slot h (snd p)
  else
    do p <- index fp (k / 2);
    kill_slot h (if (k mod 2 =? 0)%nat then fst p else snd p).

(** instrument.py:945-988 [kill_channels]; [choice n m] is the outcome of
    [choice(n, m, replace=False)]. *)
Definition kill_channels (st : inst) (killfrac : R) (pairs : bool) (choice : nat -> nat -> list nat)
  : res inst :=
  let n := if pairs then (ndet st / 2)%Z else ndet st in
  let draw := choice (Z.to_nat n) (Z.to_nat (Int_part (IZR n * killfrac))) in
  do h <- fold_left (fun h k => do h <- h; kill_one (fp st) pairs h k) draw (Ok (objs st));
  Ok (mkinst h (fp st) (ndet st)).

(** Beams selected by [no_A] / [no_B] (lines 1023-1031, 1145-1149). *)
Definition selected (no_A no_B : bool) (p : pair) : list nat :=
  ((if no_A then [] else slot_list (fst p)) ++ (if no_B then [] else slot_list (snd p)))%list.

(** [for key in prop: setattr(beam, key, prop[key])] *)
Definition set_props (h : heap) (r : nat) (prop : dict) : res heap :=
  fold_left (fun h kv => do h <- h; setattr h r (fst kv) (snd kv)) prop (Ok h).

(** instrument.py:1033-1043 *)
Definition set_beam (prop : dict) (incl_ghosts : bool) (h : heap) (r : nat) : res heap :=
  do h <- set_props h r prop;
  if incl_ghosts then
    do b <- index h r;
    fold_left (fun h g => do h <- h; set_props h g prop) (ghosts b) (Ok h)
  else Ok h.

(** instrument.py:990-1043 [set_global_prop].  Simplification: no beam of the
    focal plane is itself a ghost. *)
Definition set_global_prop (st : inst) (prop : dict) (incl_ghosts no_B no_A : bool) : res inst :=
  do h <- fold_left (fun h r => do h <- h; set_beam prop incl_ghosts h r)
            (concat (map (selected no_A no_B) (fp st))) (Ok (objs st));
  Ok (mkinst h (fp st) (ndet st)).

(** instrument.py:1161-1174: one beam; [x] is the value (with the random number
    added).  Note line 1174: ghosts get the value itself. *)
Definition add_beam (key : string) (x : R) (incl_ghosts : bool) (h : heap) (r : nat) : res heap :=
  do b <- index h r;
  do v0 <- vnum (attrs b key) 0%R;
  do h <- setattr h r key (VNum (v0 + x));
  if incl_ghosts then
    fold_left (fun h g => do h <- h; setattr h g key (VNum x)) (ghosts b) (Ok h)
  else Ok h.

(** instrument.py:1091-1174 [add_to_prop] with [rand_stdev=0]. *)
Definition add_to_prop (st : inst) (prop : list (string * R)) (incl_ghosts no_B no_A : bool)
  : res inst :=
  match prop with
  | [(key, x)] =>
      do h <- fold_left (fun h r => do h <- h; add_beam key x incl_ghosts h r)
                (concat (map (selected no_A no_B) (fp st))) (Ok (objs st));
      Ok (mkinst h (fp st) (ndet st))
  | _ => Err ValueError
  end.

(** instrument.py:1176-1193 [set_btypes] *)
Definition set_btypes (st : inst) (btype : string) : res inst :=
  do h <- fold_left (fun h r => do h <- h; setattr h r "btype" (VStr btype))
            (concat (map pair_list (fp st))) (Ok (objs st));
  Ok (mkinst h (fp st) (ndet st)).
