(** * Model of mission chunking: [partition_mission], [subpart_chunk],
    [_chunk2idx] and the rotation bookkeeping of [scan_instrument_mpi].

    All code cited is /repo/beamconv/instrument.py.  Sample numbers are [Z]. *)
From Verif Require Import Common.
Open Scope Z_scope.

(** A chunk dictionary: keys [start], [end], optional [cidx], optional [norot].
    (The optional ['ground'] key is modelled in [M_Scan].) *)
Record chunk := mkchunk {
  c_start : Z;
  c_end : Z;
  c_cidx : option nat;
  c_norot : bool
}.

(** The half-open sample range a chunk dictionary stands for. *)
Definition span (c : chunk) : Z * Z := (c_start c, c_end c).

(** [int(np.ceil(a / float(b)))] on [Z], [b <> 0]. *)
Definition zceil_div (a b : Z) : Z := - ((- a) / b).

(** instrument.py:1533-1537, loop body for chunk numbers [cidx, cidx+1, ...]. *)
Fixpoint mission_loop (fuel : nat) (nsamp chunksize start : Z) (cidx : nat)
  : list chunk :=
  match fuel with
  | O => []
  | S k =>
      let e := start + chunksize in
      let e := if e >=? nsamp then nsamp else e in
      mkchunk start e (Some cidx) false
      :: mission_loop k nsamp chunksize (start + chunksize) (S cidx)
  end.

(** instrument.py:1504-1543 [partition_mission].  Simplification: the chunk
    size is an integer (or None). *)
Definition partition_mission (nsamp : Z) (chunksize : option Z)
  : res (list chunk) :=
  let cs := match chunksize with
            | None => nsamp
            | Some c => if (c =? 0) || (c >=? nsamp) then nsamp else c
            end in
  if cs =? 0 then Err ZeroDivisionError
  else
    let nchunks := zceil_div nsamp cs in
    Ok (mission_loop (Z.to_nat nchunks) nsamp cs 0 0).

(** The part of [rot_dict] that [subpart_chunk] uses. *)
Record rot := mkrot {
  rot_period : bool;      (** truth value of rot_dict['period'] *)
  rot_chunk_size : Z;     (** int(period * fsamp), instrument.py:1353 *)
  rot_remainder : Z
}.

(** instrument.py:1350-1356 [set_instr_rot] / 1367-1375 [reset_instr_rot] with a
    true period: nothing is left over from an earlier period. *)
Definition fresh_rot (p : Z) : rot := mkrot true p 0.

Definition set_rem (r : rot) (rem : Z) : rot :=
  mkrot (rot_period r) (rot_chunk_size r) rem.

(** instrument.py:1614-1618: full-sized rotation chunks; returns them and the
    next start. *)
Fixpoint full_rot_chunks (n : nat) (start size : Z) (cidx : option nat)
  : list chunk * Z :=
  match n with
  | O => ([], start)
  | S k =>
      let e := start + size in
      let '(rest, last) := full_rot_chunks k e size cidx in
      (mkchunk start e cidx false :: rest, last)
  end.

(** instrument.py:1545-1630 [subpart_chunk]: sub-chunks and updated remainder.
    The cidx of the parent is inherited (1625-1628). *)
Definition subpart_chunk (r : rot) (c : chunk) : res (list chunk * rot) :=
  if negb (rot_period r) then Ok ([c], r)
  else if rot_chunk_size r =? 0 then Err ZeroDivisionError
  else
    let chunk_size := c_end c - c_start c in
    let rem := rot_remainder r in
    let nchunks := zceil_div (chunk_size - rem) (rot_chunk_size r) in
    let nchunks := if nchunks <? 1 then 1 else nchunks in
    if nchunks =? 1 then
      if rem >=? chunk_size then
        Ok ([mkchunk (c_start c) (c_end c) (c_cidx c) false],
            set_rem r (rem - chunk_size))
      else
        let e := rem + c_start c in
        let first := if rem =? 0 then []
                     else [mkchunk (c_start c) e (c_cidx c) true] in
        Ok (first ++ [mkchunk e (c_end c) (c_cidx c) false],
            set_rem r (rot_chunk_size r - (c_end c - e)))
    else
      let '(first, start) :=
        if rem =? 0 then ([], c_start c)
        else ([mkchunk (c_start c) (rem + c_start c) (c_cidx c) true],
              rem + c_start c) in
      let '(fulls, start) :=
        full_rot_chunks (Z.to_nat (nchunks - 1)) start (rot_chunk_size r) (c_cidx c) in
      Ok (first ++ fulls ++ [mkchunk start (c_end c) (c_cidx c) false],
          set_rem r (rot_chunk_size r - (c_end c - start))).

(** instrument.py:1892, 1927: sub-chunks of all chunks, in order. *)
Fixpoint subpart_all (r : rot) (cs : list chunk) : res (list (list chunk) * rot) :=
  match cs with
  | [] => Ok ([], r)
  | c :: rest =>
      do (subs, r1) <- subpart_chunk r c;
      do (more, r2) <- subpart_all r1 rest;
      Ok (subs :: more, r2)
  end.

(** instrument.py:1939-1940: [rotate_instr] is called for each sub-chunk that
    is not marked norot.  The trace lists each sub-chunk with the number of
    rotations performed up to and including it. *)
Fixpoint rotation_trace (nrot : Z) (subs : list chunk) : list (chunk * Z) :=
  match subs with
  | [] => []
  | s :: rest =>
      let nrot' := if c_norot s then nrot else nrot + 1 in
      (s, nrot') :: rotation_trace nrot' rest
  end.

(** instrument.py:1998-2036 [_chunk2idx] when start and end are given. *)
Definition chunk2idx (chunks : list chunk) (s : chunk) : res (Z * Z) :=
  match c_cidx s with
  | Some i =>
      match nth_error chunks i with
      | Some parent => Ok (c_start s - c_start parent, c_end s - c_start parent)
      | None => Err IndexError
      end
  | None => Ok (0, c_end s - c_start s)
  end.
