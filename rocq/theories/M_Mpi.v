(** * Model of the MPI helpers of [MPIBase] and of the parallel pointing code.

    All code cited is /repo/beamconv/instrument.py.  The communicator itself
    (mpi4py) is modelled by what its collectives deliver: [scatter] hands
    element [r] of the root's list to rank [r]; [Allgatherv] writes rank [r]'s
    contribution of [counts[r]] elements at displacement [offsets[r]] of every
    rank's receive buffer. *)
From Verif Require Import Common.

(** NumPy [array_split]: section sizes, [Neach_section, extras = divmod(n, p)],
    sizes = [extras * [Neach+1] + (p-extras) * [Neach]].  Used at
    instrument.py:112. *)
Definition split_sizes (n p : nat) : list nat :=
  repeat (n / p + 1) (n mod p) ++ repeat (n / p) (p - n mod p).

(** NumPy [cumsum]. *)
Fixpoint cumsum_from (acc : nat) (l : list nat) : list nat :=
  match l with
  | [] => []
  | x :: r => (acc + x) :: cumsum_from (acc + x) r
  end.
Definition cumsum (l : list nat) : list nat := cumsum_from 0 l.

(** NumPy [array_split]: [div_points = cumsum([0] + sizes)], sub-array [i] is
    [ary[div_points[i]:div_points[i+1]]].  Used at instrument.py:112. *)
Definition array_split {A} (l : list A) (p : nat) : list (list A) :=
  let div_points := cumsum (0 :: split_sizes (length l) p) in
  map (fun i => slice l (nth i div_points 0) (nth (S i) div_points 0)) (seq 0 p).

(** instrument.py:90-119 [MPIBase.scatter_list], value returned on [rank]. *)
Definition scatter_list {A} (mpi : bool) (size rank : nat) (list_tot : list A)
  : list A :=
  if negb mpi then list_tot
  else nth rank (array_split list_tot size) [].

(** instrument.py:229-235 (also 2347-2354, 2493-2499, 2633-2640, 2727-2734,
    3030-3037): [sub_size = zeros(size) + quot; sub_size[:remainder] += 1]. *)
Definition sub_sizes (n size : nat) : list nat :=
  let quot := n / size in
  let remainder := n mod size in
  let sub := map (fun z => z + quot) (repeat 0 size) in
  if remainder =? 0 then sub
  else map (fun z => z + 1) (firstn remainder sub) ++ skipn remainder sub.

(** instrument.py:237-238: [start = sum(sub_size[:rank])],
    [end = start + sub_size[rank]]. *)
Definition sub_start (n size rank : nat) : nat :=
  sum (firstn rank (sub_sizes n size)).
Definition sub_end (n size rank : nat) : nat :=
  sub_start n size rank + nth rank (sub_sizes n size) 0.

(** instrument.py:211-245 [MPIBase.distribute_array]. *)
Definition distribute_array {A} (mpi : bool) (size rank : nat) (arr : list A)
  : list A :=
  if mpi then slice arr (sub_start (length arr) size rank)
                        (sub_end (length arr) size rank)
  else arr.

(** Quaternions as 4-tuples; [ravel] / [reshape(chunk_size, 4)]. *)
Definition quat (F : Type) : Type := (F * F * F * F)%type.

Definition ravel {F} (q : list (quat F)) : list F :=
  flat_map (fun x => match x with (a, b, c, d) => [a; b; c; d] end) q.

Fixpoint reshape4 {F} (l : list F) : list (quat F) :=
  match l with
  | a :: b :: c :: d :: r => (a, b, c, d) :: reshape4 r
  | _ => []
  end.

(** One rank's contribution written in a receive buffer by [Allgatherv]:
    the message must have the announced count and fit in the buffer. *)
Definition put {F} (buf : list F) (off cnt : nat) (piece : list F)
  : res (list F) :=
  if (length piece =? cnt) && (off + cnt <=? length buf)
  then Ok (splice buf off piece)
  else Err MpiError.

(** [comm.Allgatherv(sub, [buf, counts, offsets, MPI.DOUBLE])]. *)
Fixpoint allgatherv {F} (buf : list F) (pieces : list (list F))
  (counts offsets : list nat) : res (list F) :=
  match pieces, counts, offsets with
  | [], [], [] => Ok buf
  | p :: ps, c :: cs, o :: os =>
      do buf' <- put buf o c p; allgatherv buf' ps cs os
  | _, _, _ => Err MpiError
  end.

(** The per-sample pointing function is applied to slices of az, el, ctime
    (instrument.py:2381-2384 and the four other scan modes). *)
Fixpoint map3 {A B C D} (f : A -> B -> C -> D) (a : list A) (b : list B)
  (c : list C) : list D :=
  match a, b, c with
  | x :: a', y :: b', z :: c' => f x y z :: map3 f a' b' c'
  | _, _, _ => []
  end.

(** instrument.py:2381-2385: what rank [rank] computes and ravels. *)
Definition bore_sub {S1 S2 S3 F} (azel2bore : S1 -> S2 -> S3 -> quat F)
  (az : list S1) (el : list S2) (ct : list S3) (size rank : nat) : list F :=
  let n := length az in
  let s := sub_start n size rank in
  let e := sub_end n size rank in
  ravel (map3 azel2bore (slice az s e) (slice el s e) (slice ct s e)).

(** instrument.py:2389-2390: [offsets = zeros(size); offsets[1:] =
    cumsum(sub_size)[:-1]] on the sizes multiplied by 4 (line 2387). *)
Definition gather_offsets (n size : nat) : list nat :=
  let sub4 := map (fun z => z * 4) (sub_sizes n size) in
  0 :: removelast (cumsum sub4).

(** instrument.py:2345-2395 (and the same code in l2_scan, satellite_scan,
    strictly_az, schedule_scan): pointing of a chunk with MPI; [junk] is the
    arbitrary initial content of [np.empty(chunk_size * 4)]. *)
Definition parallel_bore {S1 S2 S3 F} (azel2bore : S1 -> S2 -> S3 -> quat F)
  (az : list S1) (el : list S2) (ct : list S3) (size : nat) (junk : list F)
  : res (list (quat F)) :=
  let n := length az in
  let counts := map (fun z => z * 4) (sub_sizes n size) in
  do flat <- allgatherv junk
               (map (bore_sub azel2bore az el ct size) (seq 0 size))
               counts (gather_offsets n size);
  Ok (reshape4 flat).

(** instrument.py:2406-2407: without MPI. *)
Definition serial_bore {S1 S2 S3 F} (azel2bore : S1 -> S2 -> S3 -> quat F)
  (az : list S1) (el : list S2) (ct : list S3) : list (quat F) :=
  map3 azel2bore az el ct.

(** instrument.py:180-209 [reduce_array]: elementwise sum on the root. *)
Fixpoint zipadd {M} (add : M -> M -> M) (a b : list M) : list M :=
  match a, b with
  | x :: a', y :: b' => add x y :: zipadd add a' b'
  | _, _ => []
  end.
Definition reduce_array {M} (add : M -> M -> M) (arrs : list (list M))
  : list M :=
  match arrs with
  | [] => []
  | a :: r => fold_left (zipadd add) r a
  end.

(** instrument.py:4429-4432 ([bin_tod] with [add_to_global]): the maps of the
    detectors a rank has scanned are added, one after the other, to its
    accumulated map. *)
Definition accumulate {M} (add : M -> M -> M) (map0 : list M) (contribs : list (list M))
  : list M := fold_left (zipadd add) contribs map0.

(** instrument.py:1836-1859: the outer loop of [scan_instrument_mpi] as seen by
    one rank.  [self_beams] is the rank's own [self.beams]; [root_beams] that
    of rank 0 (they are equal unless pairs were distributed at creation).
    [None] marks an iteration in which the rank has no pair to work on
    ([beampair = [None, None]]). *)
Definition nmax (self_beams size : nat) : nat := ceil_div self_beams size.

Definition rank_iterations {A} (mpi scatter : bool) (size rank : nat)
  (root_beams self_beams : list A) : list (option A) :=
  let beams := if scatter then scatter_list mpi size rank root_beams
               else self_beams in
  map (fun bidx => nth_error beams bidx) (seq 0 (nmax (length self_beams) size)).

(** Pairs the rank really works on. *)
Definition somes {A} (l : list (option A)) : list A :=
  flat_map (fun o => match o with Some a => [a] | None => [] end) l.

Definition rank_pairs {A} (mpi scatter : bool) (size rank : nat)
  (root_beams self_beams : list A) : list A :=
  somes (rank_iterations mpi scatter size rank root_beams self_beams).
