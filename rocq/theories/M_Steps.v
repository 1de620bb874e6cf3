(** * Model of angle generators and stepped arrays

    /repo/beamconv/tools.py [angle_gen] and
    /repo/beamconv/instrument.py [ScanStrategy.step_array]. *)
From Verif Require Import Common.
Open Scope nat_scope.

Section Gen.
  Context {A : Type}.

  (** A running generator: the list it was created with and the position of
      the next element. *)
  Record gen := mkgen { g_angles : list A; g_pos : nat }.

  (** tools.py:524, 539: [angle_gen(angles)]; [n = 0]. *)
  Definition angle_gen (angles : list A) : gen := mkgen angles 0.

  (** tools.py:540-543: [yield angles[n]; n += 1; n = n % len(angles)]. *)
  Definition next (g : gen) : res (A * gen) :=
    do a <- index (g_angles g) (g_pos g);
    Ok (a, mkgen (g_angles g) ((g_pos g + 1) mod length (g_angles g))).

  (** Drawing [k] values in a row. *)
  Fixpoint draw (k : nat) (g : gen) : res (list A * gen) :=
    match k with
    | O => Ok ([], g)
    | S k' =>
        do (a, g1) <- next g;
        do (l, g2) <- draw k' g1;
        Ok (a :: l, g2)
    end.
End Gen.
Arguments gen : clear implicits.

Section Steps.
  Context {A : Type} (add : A -> A -> A).

  (** The parts of [step_dict] (or [hwp_dict]) that [step_array] reads and
      writes, with the generator passed beside it. *)
  Record steps := mksteps {
    st_size : nat;      (** 'step_size' *)
    st_angle : A;       (** 'angle' *)
    st_rem : nat;       (** 'remainder' *)
    st_gen : gen A
  }.

  (** [arr[i:j] += v] *)
  Definition add_slice (arr : list A) (i j : nat) (v : A) : list A :=
    firstn i arr ++ map (fun x => add x v) (slice arr i j) ++ skipn (Nat.max i j) arr.

  (** instrument.py:2111-2119: the loop over full steps.  Returns the array,
      the end index, the last angle and the generator. *)
  Fixpoint step_loop (n : nat) (arr : list A) (startidx size : nat) (angle : A) (g : gen A)
    : res (list A * nat * A * gen A) :=
    match n with
    | O => Ok (arr, startidx, angle, g)
    | S n' =>
        let endidx := startidx + size in
        do (a, g1) <- next g;
        step_loop n' (add_slice arr startidx endidx a) endidx size a g1
    end.

  (** instrument.py:2060-2126 [step_array].  Simplifications: sizes are
      naturals, so [chunk_size - remainder] is cut off at 0 (both a negative
      and a zero quotient are replaced by 1 at line 2087); the array is
      one-dimensional. *)
  Definition step_array (arr : list A) (d : steps) : res (list A * steps) :=
    let chunk_size := length arr in
    let size := st_size d in
    let rem := st_rem d in
    if size =? 0 then Err ZeroDivisionError
    else
      let nsteps := ceil_div (chunk_size - rem) size in
      let nsteps := if nsteps <? 1 then 1 else nsteps in
      if nsteps =? 1 then
        if chunk_size <=? rem then
          Ok (add_slice arr 0 chunk_size (st_angle d),
              mksteps size (st_angle d) (rem - chunk_size) (st_gen d))
        else
          let arr := add_slice arr 0 rem (st_angle d) in
          do (a, g) <- next (st_gen d);
          let arr := add_slice arr rem (length arr) a in
          Ok (arr, mksteps size a (size - length (skipn rem arr)) g)
      else
        let arr := if rem =? 0 then arr else add_slice arr 0 rem (st_angle d) in
        do (s, g) <- step_loop (nsteps - 1) arr rem size (st_angle d) (st_gen d);
        let '(arr, endidx, _) := s in
        do (a, g) <- next g;
        let arr := add_slice arr endidx (length arr) a in
        Ok (arr, mksteps size a (size - length (skipn endidx arr)) g).

  (** Stepping the arrays of successive chunks. *)
  Fixpoint step_arrays (arrs : list (list A)) (d : steps) : res (list (list A) * steps) :=
    match arrs with
    | [] => Ok ([], d)
    | a :: rest =>
        do (o, d1) <- step_array a d;
        do (os, d2) <- step_arrays rest d1;
        Ok (o :: os, d2)
    end.
End Steps.
Arguments steps : clear implicits.
