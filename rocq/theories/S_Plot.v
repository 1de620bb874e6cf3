(** * Specification vocabulary for plotting (C98, C99) *)
From Coq Require Import Reals String.
From Verif Require Import Common M_Beam M_Plot.
Open Scope string_scope.

(** A Python dictionary: no key twice. *)
Definition a_dict (d : dict) : Prop := NoDup (map fst d).

(** Keyword arguments [plot_iqu] can be called with: the names of its own
    parameters are not among them. *)
Definition extra_keywords (kw : dict) : Prop :=
  forall k, In k ["maps"; "write_dir"; "tag"; "plot_func"; "no_limits"; "limits"; "sym_limits"; "symmetric";
                  "mask"; "tight"; "dpi"; "udicts"] -> dget kw k = None.

(** The settings of map [i] alone. *)
Definition settings (udicts : option (list dict)) (i : nat) : dict :=
  match udicts with Some us => nth i us [] | None => [] end.

(** One dictionary for each of three maps, none naming a plotting function; or
    none at all. *)
Definition own_settings (maps : list pixels) (udicts : option (list dict)) : Prop :=
  forall us, udicts = Some us ->
    List.length us = 3%nat /\ List.length maps = 3%nat /\ forall u, In u us -> a_dict u /\ dget u "plot_func" = None.

Definition letter (i : nat) : string := nth i ["I"; "Q"; "U"; "V"] "".

(** Pixels the mask leaves visible. *)
Definition visible (mask : option (list bool)) (j : nat) : bool :=
  match mask with None => true | Some k => nth j k false end.

(** The limits asked for in the call for map [i]: [limits] before [sym_limits];
    a number for [sym_limits] counts with [symmetric]. *)
Definition asked (limits : lims (R * R)) (sym_limits : lims R) (symmetric : bool) (i : nat) : option (R * R) :=
  match limits, sym_limits with
  | LSeq l, _ => nth_error l i
  | _, LSeq l => option_map (fun s => (- s, s)%R) (nth_error l i)
  | _, LScalar x => if symmetric then Some (- x, x)%R else None
  | _, LNone => None
  end.

(** No limits in the call. *)
Definition none_asked (limits : lims (R * R)) (sym_limits : lims R) (symmetric : bool) : Prop :=
  (forall l, limits <> LSeq l) /\ (forall l, sym_limits <> LSeq l)
  /\ (forall x, sym_limits = LScalar x -> symmetric = false).

(** Least and greatest number among the pixels. *)
Definition is_least (m : pixels) (x : R) : Prop :=
  In (Some x) m /\ forall y, In (Some y) m -> (x <= y)%R.
Definition is_greatest (m : pixels) (x : R) : Prop :=
  In (Some x) m /\ forall y, In (Some y) m -> (y <= x)%R.

(** [y] is [x] rounded to [sig] significant digits: with [10^(e+sig-1)] the
    decimal place of the first digit of [x], [y] is a number of [sig] digits (or
    [10^sig], with sign) at place [10^e], off by at most half of that. *)
Definition rounded (sig : Z) (x y : R) : Prop := exists n e : Z,
  (powerRZ 10 (e + sig - 1) <= Rabs x < powerRZ 10 (e + sig))%R
  /\ y = (IZR n * powerRZ 10 e)%R
  /\ (10 ^ (sig - 1) <= Z.abs n <= 10 ^ sig)%Z
  /\ (Rabs (y - x) <= powerRZ 10 e / 2)%R.
