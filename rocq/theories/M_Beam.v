(** * Model of [Beam] objects: attributes, setters, ghosts

    /repo/beamconv/detector.py.  Objects live in a heap (a list); a reference
    is a position in it.  Attribute values are tagged Python values. *)
From Coq Require Import Reals String.
From Verif Require Import Common.
Open Scope string_scope.

(** Python values.  [VObj] is a reference to some other object (an HWP, an
    array), of which only identity matters here. *)
Inductive val :=
| VNone
| VBool (b : bool)
| VInt (z : Z)
| VNum (r : R)
| VStr (s : string)
| VObj (n : nat).

(** ** Dictionaries (keyword arguments) *)
Definition dict := list (string * val).

Fixpoint dget (d : dict) (k : string) : option val :=
  match d with
  | [] => None
  | (k', v) :: r => if k' =? k then Some v else dget r k
  end.

(** [d[k] = v] *)
Fixpoint dset (d : dict) (k : string) (v : val) : dict :=
  match d with
  | [] => [(k, v)]
  | (k', v') :: r => if k' =? k then (k, v) :: r else (k', v') :: dset r k v
  end.

(** [d.update(e)] *)
Definition dupdate (d e : dict) : dict := fold_left (fun d kv => dset d (fst kv) (snd kv)) e d.

(** [d.pop(k, None)] *)
Definition dpop (d : dict) (k : string) : dict := filter (fun kv => negb (fst kv =? k)) d.

(** ** Objects *)

(** Attributes as a finite map; the read-only [idx], and what concerns ghosts,
    are separate fields. *)
Record beam := mkbeam {
  attrs : string -> option val;
  idx : option Z;
  ghost : bool;
  ghosts : list nat;       (* references *)
  ghost_count : nat;
  ghost_idx : option nat }.

Definition with_attrs (b : beam) (a : string -> option val) : beam :=
  mkbeam a (idx b) (ghost b) (ghosts b) (ghost_count b) (ghost_idx b).
Definition with_idx (b : beam) (i : option Z) : beam :=
  mkbeam (attrs b) i (ghost b) (ghosts b) (ghost_count b) (ghost_idx b).
Definition with_ghosts (b : beam) (g : list nat) (n : nat) : beam :=
  mkbeam (attrs b) (idx b) (ghost b) g n (ghost_idx b).
Definition with_ghost_idx (b : beam) (i : option nat) : beam :=
  mkbeam (attrs b) (idx b) (ghost b) (ghosts b) (ghost_count b) i.

(** Reading an attribute that was never set. *)
Definition aget (a : string -> option val) (k : string) : res val :=
  match a k with Some v => Ok v | None => Err AttributeError end.

Definition aset (a : string -> option val) (k : string) (v : val) : string -> option val :=
  fun k' => if k' =? k then Some v else a k'.

Definition radians (x : R) : R := x * PI / 180.
Definition degrees (x : R) : R := x * 180 / PI.

(** detector.py:176-187: setter of [lmax].  Simplification: a given value is an
    integer. *)
Definition set_lmax (a : string -> option val) (v : val) : res (string -> option val) :=
  match v with
  | VNone =>
      do f <- aget a "fwhm";
      match f with
      | VNum f =>
          if Req_EM_T f 0 then Err OverflowError
          else Ok (aset a "lmax" (VInt (Int_part (2 * PI / radians (f / 60) * (14 / 10)))))
      | _ => Err TypeError
      end
  | VInt z => Ok (aset a "lmax" (VInt (Z.max z 0)))
  | _ => Err TypeError
  end.

(** detector.py:189-204: setter of [fwhm].  Simplification: a given value is a
    float. *)
Definition set_fwhm (a : string -> option val) (v : val) : res (string -> option val) :=
  match v with
  | VNone =>
      do l <- aget a "lmax";
      match l with
      | VInt l =>
          if (l =? 0)%Z then Err TypeError
          else Ok (aset a "fwhm" (VNum (degrees ((14 / 10 * 2 * PI) / IZR l) * 60)))
      | _ => Err TypeError
      end
  | VNum x => Ok (aset a "fwhm" (VNum (Rabs x)))
  | _ => Err TypeError
  end.

(** detector.py:206-210: setter of [mmax]. *)
Definition set_mmax (a : string -> option val) (v : val) : res (string -> option val) :=
  do l <- aget a "lmax";
  match v, l with
  | VNone, VInt l => Ok (aset a "mmax" (VInt l))
  | VInt m, VInt l => Ok (aset a "mmax" (VInt (Z.min m l)))
  | _, _ => Err TypeError
  end.

(** Assignment [self.k = v] on the object itself.  Properties without a setter
    (detector.py:121-135, 256-258) reject it; the two ghost counters are
    handled by [create_ghost]. *)
Definition read_only (k : string) : bool :=
  (k =? "idx") || (k =? "ghost") || (k =? "ghosts") || (k =? "polang_truth").
Definition set1 (a : string -> option val) (k : string) (v : val) : res (string -> option val) :=
  if read_only k then Err AttributeError
  else if k =? "lmax" then set_lmax a v
  else if k =? "fwhm" then set_fwhm a v
  else if k =? "mmax" then set_mmax a v
  else Ok (aset a k v).

(** ** Heap *)
Definition heap := list beam.

Fixpoint hset (h : heap) (r : nat) (b : beam) : heap :=
  match h, r with
  | [], _ => []
  | _ :: t, O => b :: t
  | x :: t, S r => x :: hset t r b
  end.

Definition set_obj (h : heap) (r : nat) (k : string) (v : val) : res heap :=
  do b <- index h r;
  do a <- set1 (attrs b) k v;
  Ok (hset h r (with_attrs b a)).

(** [setattr(beam, k, v)]; the setter of [dead] also sets the ghosts
    (detector.py:161-170). *)
Definition setattr (h : heap) (r : nat) (k : string) (v : val) : res heap :=
  if k =? "dead" then
    do b <- index h r;
    do h <- set_obj h r k v;
    fold_left (fun h g => do h <- h; set_obj h g k v) (ghosts b) (Ok h)
  else set_obj h r k v.

Definition getattr (h : heap) (r : nat) (k : string) : option val :=
  match nth_error h r with Some b => attrs b k | None => None end.

(** ** Construction *)

(** detector.py:12-19: keywords and defaults, in the order of the assignments
    at lines 92-113. *)
Definition beam_defaults : dict :=
  [("az", VNum 0); ("el", VNum 0); ("polang", VNum 0); ("name", VNone); ("pol", VStr "A");
   ("btype", VStr "Gaussian"); ("dead", VBool false); ("amplitude", VNum 1);
   ("po_file", VNone); ("eg_file", VNone); ("cross_pol", VBool true);
   ("lmax", VInt 700); ("mmax", VNone); ("sensitive_freq", VNum 150); ("fwhm", VNone);
   ("deconv_q", VBool true); ("normalize", VBool true); ("polang_error", VNum 0);
   ("symmetric", VBool false); ("hwp", VNone); ("hwp_mueller", VNone)].

Definition is_key (k : string) (ks : list string) : bool := existsb (fun k' => k' =? k) ks.

Definition beam_keys : list string := (map fst beam_defaults ++ ["idx"; "ghost"])%list.

(** detector.py:92-119 [Beam.__init__].  An unknown keyword is a TypeError.
    Simplification: [idx] is an integer or None and [ghost] a boolean. *)
Definition beam_init (kw : dict) : res beam :=
  if negb (forallb (fun kv => is_key (fst kv) beam_keys) kw) then Err TypeError
  else
    do a <- fold_left
              (fun a kd =>
                 do a <- a;
                 set1 a (fst kd) (match dget kw (fst kd) with Some v => v | None => snd kd end))
              beam_defaults (Ok (fun _ => None));
    do i <- match dget kw "idx" with
            | None | Some VNone => Ok None
            | Some (VInt z) => Ok (Some z)
            | _ => Err TypeError
            end;
    do g <- match dget kw "ghost" with
            | None => Ok false
            | Some (VBool g) => Ok g
            | _ => Err TypeError
            end;
    Ok (mkbeam a i g [] 0 None).

(** A new object in the heap; its reference is the old size of the heap. *)
Definition alloc (h : heap) (b : beam) : heap * nat := ((h ++ [b])%list, List.length h).

(** detector.py:443-460: options a ghost takes over from its parent. *)
Definition inherited : list string :=
  ["az"; "el"; "polang"; "pol"; "btype"; "fwhm"; "dead"; "lmax"; "mmax"; "amplitude";
   "po_file"; "eg_file"; "cross_pol"; "deconv_q"; "normalize"; "polang_error"].

(** detector.py:433-441: the name of a ghost. *)
Definition ghost_name (parent tag : option string) : val :=
  match tag with
  | Some t =>
      if t =? "" then match parent with Some p => VStr p | None => VNone end
      else match parent with
           | Some p => if p =? "" then VStr t else VStr (p ++ "_" ++ t)
           | None => VStr t
           end
  | None => match parent with Some p => VStr p | None => VNone end
  end.

Definition parent_opts (a : string -> option val) : res dict :=
  fold_left (fun d k => do d <- d; do v <- aget a k; Ok (dset d k v)) inherited (Ok []).

(** detector.py:408-472 [Beam.create_ghost] on the beam [r]. *)
Definition create_ghost (h : heap) (r : nat) (tag : option string) (kw : dict) : res heap :=
  do b <- index h r;
  if ghost b then Err RuntimeError
  else
    do nm <- aget (attrs b) "name";
    do parent <- match nm with
                 | VNone => Ok None
                 | VStr s => Ok (Some s)
                 | _ => Err TypeError
                 end;
    let kw := dpop kw "name" in
    do opts <- parent_opts (attrs b);
    let opts := dset opts "name" (ghost_name parent tag) in
    let opts := dupdate opts kw in
    let opts := dset opts "ghost" (VBool true) in
    do g <- beam_init opts;
    let g := with_ghost_idx g (Some (ghost_count b)) in
    let (h, gr) := alloc h g in
    Ok (hset h r (with_ghosts b (ghosts b ++ [gr])%list (ghost_count b + 1))).

(** detector.py:474-495 [Beam.reuse_blm] (apart from the coefficients). *)
Definition reuse_blm (h : heap) (r partner : nat) : res heap :=
  do b <- index h r;
  do p <- index h partner;
  let h := if ghost p && ghost b then hset h r (with_ghost_idx b (ghost_idx p)) else h in
  fold_left (fun h k => do h <- h; do v <- aget (attrs p) k; setattr h r k v)
    ["btype"; "lmax"; "mmax"; "amplitude"] (Ok h).
