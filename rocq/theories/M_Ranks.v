(** * Model of focal plane operations called by all MPI processes

    /repo/beamconv/instrument.py.  Every process runs the same script, so every
    process calls every operation; a process sees its own random numbers and its
    own file system.  [broadcast] delivers the object of process 0 to all (as a
    copy made of new objects on the other processes).  If process 0 raises in a
    call that ends in a broadcast, the others wait forever: the whole run counts
    as that error here. *)
From Coq Require Import Reals String.
From Verif Require Import Common M_Beam M_Focal M_Random S_Focal.
Local Notation length := List.length.

(** instrument.py:121-141 [MPIBase.broadcast], value returned on [rank];
    [vals r] is what rank [r] passes. *)
Definition broadcast {A} (mpi : bool) (rank : nat) (vals : nat -> A) : A :=
  if negb mpi then vals rank else vals 0%nat.

(** instrument.py:143-178 [MPIBase.broadcast_array].  [arrs r]: array passed by
    rank [r] ([None] allowed except on process 0); [junk n]: content of
    [np.empty] of [n] elements.  [Bcast] overwrites the first elements of the
    receive buffer and fails if the buffer is too short. *)
Definition broadcast_array {A} (mpi : bool) (rank : nat) (arrs : nat -> option (list A)) (junk : nat -> list A)
  : res (option (list A)) :=
  if negb mpi then Ok (arrs rank)
  else
    match arrs 0%nat with
    | None => Err AttributeError
    | Some root =>
        let shape := length root in
        let buf := if (rank =? 0)%nat then root else junk shape in
        if (length buf <? shape)%nat then Err MpiError
        else Ok (Some (root ++ skipn shape buf)%list)
    end.

(** References of a received copy, made after the objects the process has. *)
Definition moved (n : nat) (p : pair) : pair :=
  (option_map (fun r => (n + r)%nat) (fst p), option_map (fun r => (n + r)%nat) (snd p)).

(** instrument.py:699-804: what process 0 makes of its files (new objects and
    pairs of them). *)
Definition load_root (st : inst) (d : directory) (tag : string) (file_names : list string)
  (no_pairs combine : bool) (pA pB : R) (kw : dict) : res (heap * list pair) :=
  do i <- next_idx st combine;
  let kw := fold_left dpop ["pol"; "ghost"; "idx"]%string kw in
  do fs <- file_list d tag file_names;
  load_files [] fs kw i no_pairs pA pB.

(** instrument.py:806-827: what every process does with the received pairs. *)
Definition load_received (msg : heap * list pair) (combine : bool) (st : inst) : inst :=
  put st (objs st ++ fst msg)%list (map (moved (length (objs st))) (snd msg))
    (2 * Z.of_nat (length (snd msg))) combine.

(** instrument.py:963-977: the draw of process 0. *)
Definition kill_draw (st : inst) (killfrac : R) (pairs : bool) (choice : nat -> nat -> list nat) : list nat :=
  let n := if pairs then (ndet st / 2)%Z else ndet st in
  choice (Z.to_nat n) (Z.to_nat (Int_part (IZR n * killfrac))).

(** instrument.py:981-988 *)
Definition kill_received (pairs : bool) (draw : list nat) (st : inst) : res inst :=
  do h <- fold_left (fun h k => do h <- h; kill_one (fp st) pairs h k) draw (Ok (objs st));
  Ok (mkinst h (fp st) (ndet st)).

(** A call made by all processes; [nat ->]: what differs between them. *)
Inductive call :=
| Alike (o : op)                        (* no random numbers, no files, not killing *)
| LoadCall (d : nat -> directory) (tag : string) (names : list string) (no_pairs combine : bool)
           (pA pB : R) (kw : dict)
| KillCall (killfrac : R) (pairs : bool) (choice : nat -> nat -> nat -> list nat)
| ReflectCall (tag : string) (rand : bool) (rnd : nat -> list R) (kw : dict)
| CrosstalkCall (offs : list ((R * R) * (R * R))) (tag : string) (rand : bool) (rnd : nat -> list R) (kw : dict)
| RandomCall (z : nat -> nat -> R) (prop : list (string * R)) (incl_ghosts : bool)
| AddCall (z : nat -> nat -> R) (prop : list (string * R)) (incl_ghosts : bool) (stdev : R)
          (per_pair no_B no_A : bool).

(** [f 0, f 1, ...] on the processes in order; the first error wins. *)
Fixpoint on_all (f : nat -> inst -> res inst) (r : nat) (sts : list inst) : res (list inst) :=
  match sts with
  | [] => Ok []
  | st :: rest => do st <- f r st; do rest <- on_all f (S r) rest; Ok (st :: rest)
  end.

(** One call; [sts] are the instruments of the processes. *)
Definition call_all (sts : list inst) (c : call) : res (list inst) :=
  match sts with
  | [] => Err MpiError
  | root :: _ =>
      match c with
      | Alike o => on_all (fun _ st => step st o) 0 sts
      | LoadCall d tag names np comb pA pB kw =>
          do msg <- load_root root (d 0%nat) tag names np comb pA pB kw;
          on_all (fun r st => Ok (load_received (broadcast true r (fun _ => msg)) comb st)) 0 sts
      | KillCall f pairs choice =>
          on_all (fun r st => kill_received pairs
                    (broadcast true r (fun r => kill_draw root f pairs (choice r))) st) 0 sts
      | ReflectCall tag rand rnd kw => on_all (fun r st => create_reflected_ghosts st tag rand (rnd r) kw) 0 sts
      | CrosstalkCall offs tag rand rnd kw =>
          on_all (fun r st => create_crosstalk_ghosts st offs tag rand (rnd r) kw) 0 sts
      | RandomCall z prop ig => on_all (fun r st => set_global_prop_random (z r) st prop ig) 0 sts
      | AddCall z prop ig stdev pp nb na =>
          on_all (fun r st => add_to_prop_random (z r) st prop ig stdev pp nb na) 0 sts
      end
  end.

Fixpoint calls_all (sts : list inst) (cs : list call) : res (list inst) :=
  match cs with [] => Ok sts | c :: cs => do sts <- call_all sts c; calls_all sts cs end.
