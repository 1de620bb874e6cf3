(** * Model of map binning and map solving

    /repo/beamconv/instrument.py: [allocate_maps], [bin_tod] (the part after the
    filters), [reduce_array] and [solve_for_map].  qpoint is external: its
    [from_tod], [solve_map] and [proj_cond] are modelled from its documentation,
    per pixel, with real numbers. *)
From Coq Require Import Reals.
From Verif Require Import Common M_Mpi.
Open Scope R_scope.

(** The pixel of a sample, its value, and the cosine and sine of twice the
    polarisation angle of the detector on the sky. *)
Record obs : Type := { o_pix : nat; o_val : R; o_cos : R; o_sin : R }.

(** A column of [vec] and of [proj] (upper triangle by rows). *)
Definition vec3 : Type := (R * R * R)%type.
Definition sym3 : Type := (R * R * R * R * R * R)%type.
Definition pixel : Type := (vec3 * sym3)%type.
Definition zero_pixel : pixel := ((0, 0, 0), (0, 0, 0, 0, 0, 0)).
Definition add_pixel (p q : pixel) : pixel :=
  let '((a, b, c), (u, v, w, x, y, z)) := p in
  let '((a', b', c'), (u', v', w', x', y', z')) := q in
  ((a + a', b + b', c + c'), (u + u', v + v', w + w', x + x', y + y', z + z')).

(** What qpoint adds for one sample. *)
Definition contribution (o : obs) : pixel :=
  let d := o_val o in let c := o_cos o in let s := o_sin o in
  ((d, d * c, d * s), (1, c, s, c * c, c * s, s * s)).

Fixpoint add_at (m : list pixel) (i : nat) (p : pixel) : list pixel :=
  match m, i with
  | [], _ => []
  | q :: m', O => add_pixel q p :: m'
  | q :: m', S i' => q :: add_at m' i' p
  end.
(** qpoint [from_tod]: every sample that is not flagged is added to [depo]. *)
Definition from_tod (depo : list pixel) (samples : list obs) (flag : list bool) : list pixel :=
  fold_left (fun m (x : obs * bool) => if snd x then m else add_at m (o_pix (fst x)) (contribution (fst x)))
    (combine samples flag) depo.

(** The maps of the instance ([None] before [allocate_maps]), the maps inside
    qpoint, the [flag] attribute if there is one, the output resolution. *)
Record maps : Type := { global : option (list pixel); depo : list pixel; own_flag : option (list bool); npix : nat }.

(** 1632-1644 *)
Definition allocate_maps (nside : nat) (s : maps) : maps :=
  let n := (12 * nside ^ 2)%nat in
  {| global := Some (repeat zero_pixel n); depo := depo s; own_flag := own_flag s; npix := n |}.

(** Values of the [flag] argument. *)
Inductive flag_arg : Type := FNone | FFalse | FArray (l : list bool).

(** 4417-4432 [bin_tod] once filtered; [samples] combine the timestream with the
    pointing of the samples [qidx_start] to [qidx_end].  An array of several
    flags has no truth value (4423).  qpoint wants as many flags as samples. *)
Definition bin_tod (s : maps) (samples : list obs) (flag : flag_arg) (init add_to_global : bool)
  (qidx_start qidx_end : nat) : res maps :=
  do fl <- match flag, own_flag s with
           | FFalse, _ => Ok (repeat false (length samples))
           | FNone, Some f => Ok (slice f qidx_start qidx_end)
           | FNone, None => Ok (repeat false (length samples))
           | FArray l, _ => if (2 <=? length l)%nat then Err ValueError else Ok l
           end;
  if negb (length fl =? length samples)%nat then Err ValueError
  else
    let d := from_tod (if init then repeat zero_pixel (npix s) else depo s) samples fl in
    do g <- (if add_to_global then
               match global s with
               | None => Err AttributeError
               | Some g => Ok (Some (zipadd add_pixel g d))
               end
             else Ok (global s));
    Ok {| global := g; depo := d; own_flag := own_flag s; npix := npix s |}.

(** 1951-1996: the calls of [bin_tod] in a scan, one per detector and subchunk,
    each with the default [init] and with [add_to_global]. *)
Record call : Type := { c_samples : list obs; c_flag : flag_arg; c_start : nat; c_end : nat }.
Fixpoint bin_calls (s : maps) (l : list call) : res maps :=
  match l with
  | [] => Ok s
  | c :: r => do s <- bin_tod s (c_samples c) (c_flag c) true true (c_start c) (c_end c); bin_calls s r
  end.

Definition det3 (p : sym3) : R :=
  let '(u, v, w, x, y, z) := p in u * (x * z - y * y) - v * (v * z - y * w) + w * (v * y - x * w).

Section Solve.
  (** Whether qpoint accepts the condition number of a matrix; the condition
      number, [None] for infinity. *)
  Context (well : sym3 -> bool) (cond : sym3 -> option R).

  (** qpoint [solve_map] for one pixel: exact solution of the linear system. *)
  Definition solve_pixel (fill : R) (p : pixel) : vec3 :=
    let '((a, b, c), m) := p in
    let '(u, v, w, x, y, z) := m in
    if well m then
      let d := det3 m in
      if Req_EM_T d 0 then (fill, fill, fill)
      else ((a * (x * z - y * y) - v * (b * z - y * c) + w * (b * y - x * c)) / d,
            (u * (b * z - y * c) - a * (v * z - y * w) + w * (v * c - b * w)) / d,
            (u * (x * c - b * y) - v * (v * c - b * w) + a * (v * y - x * w)) / d)
    else (fill, fill, fill).

  (** 4434-4485 [solve_for_map] on rank [rank], given the maps of all ranks;
      [None] stands for Python's [None]. *)
  Definition solve_for_map (mpi : bool) (rank : nat) (all : list (list pixel)) (fill : R)
    : option (list vec3) * option (list R) * option (list sym3) :=
    let m := if mpi then (if (rank =? 0)%nat then Some (reduce_array add_pixel all) else None)
             else nth_error all rank in
    if (rank =? 0)%nat then
      match m with
      | Some m => (Some (map (solve_pixel fill) m),
                   Some (map (fun p => match cond (snd p) with Some k => k | None => fill end) m),
                   Some (map snd m))
      | None => (None, None, None)
      end
    else (None, None, option_map (map snd) m).
End Solve.
