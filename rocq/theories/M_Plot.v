(** * Model of the plotting helpers

    /repo/beamconv/plot_tools.py.  Drawing and writing the picture is external:
    a call of [plot_map] becomes a [drawing], which says which file is written
    and what healpy's function is called with.  Pixels are real numbers, [None]
    is NaN.  Keyword arguments are dictionaries (see [M_Beam]); functions are
    [VObj]s. *)
From Coq Require Import Reals String.
From Verif Require Import Common M_Beam.
Local Notation length := List.length.
Open Scope string_scope.

Definition pixels := list (option R).

(** plot_tools.py:8-42 [plot_map]: the picture that is written. *)
Record drawing := mkdrawing {
  d_dir : string;        (* [write_dir] *)
  d_file : string;       (* file name in it *)
  d_func : val;          (* healpy's plotting function *)
  d_pix : pixels;        (* its first argument *)
  d_opts : dict;         (* its keyword arguments *)
  d_tight : bool; d_dpi : val; d_transparent : val
}.

Definition has (d : dict) (k : string) : bool := match dget d k with Some _ => true | None => false end.
Definition getd (d : dict) (k : string) (v : val) : val := match dget d k with Some w => w | None => v end.

(** 8-9, 33-42; as called from [plot_iqu], by position up to [tag] and with
    [plot_func] and [tight]: a second value for one of these is a TypeError.
    Simplification: [os.path.join] is left to the reader of [d_dir] and [d_file]. *)
Definition plot_map (map_arr : pixels) (write_dir tag : string) (plot_func : val) (tight : bool) (kw : dict)
  : res drawing :=
  if existsb (has kw) ["map_arr"; "write_dir"; "tag"; "plot_func"; "tight"] then Err TypeError
  else Ok (mkdrawing write_dir (tag ++ ".png") plot_func map_arr (dpop (dpop kw "dpi") "transparent")
             tight (getd kw "dpi" (VInt 150)) (getd kw "transparent" (VBool false))).

(** [np.rint]: to the nearest integer, halves to the even one. *)
Definition rint (x : R) : Z :=
  let f := Int_part x in
  if Rlt_dec (x - IZR f) (1 / 2) then f
  else if Rlt_dec (1 / 2) (x - IZR f) then (f + 1)%Z
  else if Z.even f then f else (f + 1)%Z.

(** [np.round(x, d)] *)
Definition np_round (x : R) (d : Z) : R := (IZR (rint (x * powerRZ 10 d)) / powerRZ 10 d)%R.

(** 44-46 [round_sig]; at zero [np.log10] gives minus infinity, which [int]
    refuses. *)
Definition round_sig (x : R) (sig : Z) : res R :=
  if Req_EM_T x 0 then Err OverflowError
  else Ok (np_round x (sig - Int_part (ln (Rabs x) / ln 10) - 1)).

(** [np.nanmin], [np.nanmax]; [None]: no pixel is a number.  (Then [int] of
    the NaN is a ValueError, as is the minimum of an empty array.) *)
Definition nan_fold (f : R -> R -> R) (m : pixels) : option R :=
  fold_right (fun x r => match x, r with
                         | Some a, Some b => Some (f a b)
                         | Some a, None => Some a
                         | None, r => r
                         end) None m.

(** 129, 132 *)
Definition auto_limit (f : R -> R -> R) (m : pixels) (v : val) : res val :=
  match v with
  | VNone => match nan_fold f m with
             | Some x => do y <- round_sig x 1; Ok (VNum y)
             | None => Err ValueError
             end
  | _ => Ok v
  end.

(** 134-135 [map2plot[~mask] = np.nan] *)
Definition apply_mask (m : pixels) (mask : option (list bool)) : res pixels :=
  match mask with
  | None => Ok m
  | Some k => if (length k =? length m)%nat
              then Ok (map (fun p => if snd p : bool then fst p else None) (combine m k))
              else Err IndexError
  end.

(** [limits] and [sym_limits]: None, a number, or a sequence *)
Inductive lims (A : Type) := LNone | LScalar (x : R) | LSeq (l : list A).
Arguments LNone {A}. Arguments LScalar {A} x. Arguments LSeq {A} l.

(** What stays the same over the loop: 85-101.  [p_lim]: [Some (inl _)] with
    symmetric limits, [Some (inr _)] with others, [None] without. *)
Record plan := mkplan {
  p_maps : list pixels; p_dir : string; p_tag : string;
  p_lim : option (list R + list (R * R));
  p_no_limits : bool; p_mask : option (list bool); p_tight : bool
}.

(** 103-145: the loop.  [maxx], [minn], [kwargs] and [plot_func] are carried
    from one map to the next. *)
Fixpoint iqu_loop (P : plan) (items : list (string * dict)) (pidx : nat) (minn maxx : val) (kwargs : dict)
  (plot_func : val) : res (list drawing) :=
  match items with
  | [] => Ok []
  | (st, udict) :: rest =>
      do (minn, maxx, kwargs) <-
        match p_lim P with
        | Some (inl sym) => do s <- index sym pidx; Ok (VNum (- s), VNum s, kwargs)
        | Some (inr lim) => do l <- index lim pidx; Ok (VNum (fst l), VNum (snd l), kwargs)
        | None =>
            match maxx, minn with
            | VNone, VNone => Ok (getd kwargs "min" (VInt (-10)), getd kwargs "max" (VInt 10),
                                  dpop (dpop kwargs "max") "min")
            | _, _ => Ok (minn, maxx, kwargs)
            end
        end;
      let zwargs := dupdate kwargs udict in
      do map2plot <- index (p_maps P) pidx;
      do minn <- auto_limit Rmin map2plot minn;
      do maxx <- auto_limit Rmax map2plot maxx;
      do map2plot <- apply_mask map2plot (p_mask P);
      let plot_func := getd zwargs "plot_func" plot_func in
      let zwargs := dpop zwargs "plot_func" in
      do d <- (if p_no_limits P then
                 plot_map map2plot (p_dir P) (p_tag P ++ "_" ++ st) plot_func (p_tight P) zwargs
               else if has zwargs "min" || has zwargs "max" then Err TypeError
               else plot_map map2plot (p_dir P) (p_tag P ++ "_" ++ st) plot_func (p_tight P)
                      (dset (dset zwargs "min" minn) "max" maxx));
      do ds <- iqu_loop P rest (S pidx) minn maxx kwargs plot_func;
      Ok (d :: ds)
  end.

(** 48-145 [plot_iqu].  Simplifications: the maps have one shape; [dpi] is
    accepted and not used (as in the code); the pictures written before an
    error are not recorded. *)
Definition plot_iqu (maps : list pixels) (write_dir tag : string) (plot_func : val) (no_limits : bool)
  (limits : lims (R * R)) (sym_limits : lims R) (symmetric : bool) (mask : option (list bool)) (tight : bool)
  (dpi : val) (udicts : option (list dict)) (kwargs : dict) : res (list drawing) :=
  let dim1 := length maps in
  if negb ((dim1 =? 3)%nat || (dim1 =? 4)%nat) then Err ValueError
  else
    let lim :=
      match limits with
      | LSeq l => Some (inr l)
      | _ => match sym_limits with
             | LSeq l => Some (inl l)
             | LScalar x => if symmetric then Some (inl [x; x; x]) else None
             | LNone => None
             end
      end in
    let stokes := match udicts with
                  | None => if (dim1 =? 4)%nat then ["I"; "Q"; "U"; "V"] else ["I"; "Q"; "U"]
                  | Some _ => ["I"; "Q"; "U"]
                  end in
    let udicts := match udicts with Some u => u | None => repeat [] dim1 end in
    iqu_loop (mkplan maps write_dir tag lim no_limits mask tight) (combine stokes udicts) 0 VNone VNone kwargs plot_func.
