(** * Model of random deviations of detector properties

    /repo/beamconv/instrument.py:1045-1174.  The random numbers are a stream
    [z] of standard normal draws; numpy's [normal(loc, scale)] is
    [loc + scale * z n] for the next unused [n].  Exact arithmetic. *)
From Coq Require Import Reals String.
From Verif Require Import Common M_Beam M_Focal.
Open Scope R_scope.

(** instrument.py:1076-1078 (mean 1: [np.random.normal(1)]) and 1082-1085
    (mean 0): one object.  Simplification: the attributes are floats. *)
Fixpoint shift_props (mean : R) (z : nat -> R) (h : heap) (n : nat) (r : nat) (prop : list (string * R))
  : res (heap * nat) :=
  match prop with
  | [] => Ok (h, n)
  | (key, s) :: rest =>
      do b <- index h r;
      do v <- aget (attrs b) key;
      do v <- vnum (Some v) 0;
      do h <- setattr h r key (VNum (v + (mean + z n) * s));
      shift_props mean z h (S n) r rest
  end.

(** instrument.py:1081-1085 *)
Fixpoint shift_ghosts (z : nat -> R) (prop : list (string * R)) (h : heap) (n : nat) (gs : list nat)
  : res (heap * nat) :=
  match gs with
  | [] => Ok (h, n)
  | g :: rest => do (h, n) <- shift_props 0 z h n g prop; shift_ghosts z prop h n rest
  end.

(** instrument.py:1071-1085: the beams in order. *)
Fixpoint shift_beams (z : nat -> R) (prop : list (string * R)) (incl_ghosts : bool) (h : heap) (n : nat)
  (rs : list nat) : res (heap * nat) :=
  match rs with
  | [] => Ok (h, n)
  | r :: rest =>
      do (h, n) <- shift_props 1 z h n r prop;
      do (h, n) <- (if incl_ghosts then do b <- index h r; shift_ghosts z prop h n (ghosts b) else Ok (h, n));
      shift_beams z prop incl_ghosts h n rest
  end.

(** instrument.py:1045-1085 [set_global_prop_random] *)
Definition set_global_prop_random (z : nat -> R) (st : inst) (prop : list (string * R)) (incl_ghosts : bool)
  : res inst :=
  do (h, _) <- shift_beams z prop incl_ghosts (objs st) 0 (concat (map pair_list (fp st)));
  Ok (mkinst h (fp st) (ndet st)).

(** instrument.py:1144-1174: one member of a pair; [rv] is the number drawn for
    the pair. *)
Definition rnd_slot (z : nat -> R) (key : string) (x stdev : R) (per_pair incl_ghosts : bool)
  (rv : R) (h : heap) (n : nat) (skipped : bool) (s : slot) : res (heap * nat) :=
  if skipped then Ok (h, n)
  else
    let random := if Req_EM_T stdev 0 then false else true in
    let own := (random && negb per_pair)%bool in
    let rv := if own then stdev * z n else rv in
    let n := if own then S n else n in
    match s with
    | None => Ok (h, n)
    | Some r => do h <- add_beam key (if random then x + rv else x) incl_ghosts h r; Ok (h, n)
    end.

(** instrument.py:1136-1174: the pairs in order. *)
Fixpoint rnd_pairs (z : nat -> R) (key : string) (x stdev : R) (per_pair incl_ghosts no_B no_A : bool)
  (h : heap) (n : nat) (ps : list pair) : res (heap * nat) :=
  match ps with
  | [] => Ok (h, n)
  | (a, b) :: rest =>
      let shared := ((if Req_EM_T stdev 0 then false else true) && per_pair)%bool in
      let rv := if shared then stdev * z n else 0 in
      let n := if shared then S n else n in
      do (h, n) <- rnd_slot z key x stdev per_pair incl_ghosts rv h n no_A a;
      do (h, n) <- rnd_slot z key x stdev per_pair incl_ghosts rv h n no_B b;
      rnd_pairs z key x stdev per_pair incl_ghosts no_B no_A h n rest
  end.

(** instrument.py:1091-1174 [add_to_prop] *)
Definition add_to_prop_random (z : nat -> R) (st : inst) (prop : list (string * R)) (incl_ghosts : bool)
  (stdev : R) (per_pair no_B no_A : bool) : res inst :=
  match prop with
  | [(key, x)] =>
      do (h, _) <- rnd_pairs z key x stdev per_pair incl_ghosts no_B no_A (objs st) 0 (fp st);
      Ok (mkinst h (fp st) (ndet st))
  | _ => Err ValueError
  end.
