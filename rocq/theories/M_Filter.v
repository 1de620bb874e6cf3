(** * Model of the HWP filter

    /repo/beamconv/tools.py.  Numbers are reals; spectra are lists of elements
    of a type with multiplication by a real ([scale]). *)
From Coq Require Import Reals.
From Verif Require Import Common M_Hwp.
Open Scope R_scope.

(** 816-841 [tukey_window].  [window[-0:]] is the whole array, so one element
    fails: an empty array cannot be written to it. *)
Definition tukey_window (n : nat) : res (list R) :=
  let L := INR (n + 1) in
  let k := Z.to_nat (trunc (0.5 * L / 2)) in
  let window := map (fun i => if (i <? k + 1)%nat then 1 - (0.5 * cos (2 * PI * INR i / 0.5 / L) + 0.5) else 1) (seq 0 n) in
  let h := Z.to_nat (trunc (INR n / 2)) in
  if (h =? 0)%nat then (if (n =? 0)%nat then Ok window else Err ValueError)
  else Ok (firstn (n - h) window ++ rev (firstn h window)).

(** Bounds of the Python slice [l[i:j]] for an array of [n] elements. *)
Definition norm_idx (n : nat) (i : Z) : nat :=
  Z.to_nat (Z.min (Z.of_nat n) (Z.max 0 (if (i <? 0)%Z then i + Z.of_nat n else i))).

Section Spectrum.
  Context {A : Type} (scale : R -> A -> A).

  (** 843-875 [filter_ft_hwp]: the array afterwards.  [width / 2.] is not
      negative here. *)
  Definition filter_ft_hwp (fd : list A) (center width : Z) : res (list A) :=
    let n := length fd in
    let left := (center - trunc (IZR width / 2))%Z in
    let right := (center + trunc (IZR width / 2) + 1)%Z in
    let l := norm_idx n left in
    let r := norm_idx n right in
    do w <- tukey_window (r - l);
    let fd := firstn l fd ++ map (fun p => scale (snd p) (fst p)) (combine (slice fd l r) w) ++ skipn (Nat.max l r) fd in
    let fd := map (scale 0) (firstn l fd) ++ skipn l fd in
    Ok (firstn r fd ++ map (scale 0) (skipn r fd)).

  (** Python [round(x)]: to the nearest integer, ties to even. *)
  Definition round (x : R) : Z :=
    let f := Int_part x in
    if Rlt_dec (x - IZR f) (1 / 2) then f
    else if Rlt_dec (1 / 2) (x - IZR f) then (f + 1)%Z
    else if Z.even f then f else (f + 1)%Z.

  (** 877-908 [filter_tod_hwp]; the Fourier transforms are external.  The
      spectrum before the inverse transform is returned as well. *)
  Definition filter_tod_hwp (rfft : list R -> list A) (irfft : list A -> nat -> list R)
    (tod : list R) (fsamp hwp_freq : R) : res (list R * list A) :=
    let n := INR (length tod) in
    let fd := rfft tod in
    let center := round (4 * hwp_freq / fsamp * n) in
    let left := round (3 * hwp_freq / fsamp * n) in
    let right := round (5 * hwp_freq / fsamp * n) in
    do fd <- filter_ft_hwp fd center (right - left + 1);
    Ok (irfft fd (length tod), fd).
End Spectrum.

(** 910-929 [filter_tod_highpass] with an integer order [m >= 0]; the Fourier
    transforms are external.  The factor of mode [k], at frequency
    [k * fsamp / n]; [None] is NaN.  At zero frequency [w_c / 0] is infinite,
    or NaN if [w_c] is zero. *)
Definition highpass_factor (n : nat) (fsamp w_c : R) (m k : nat) : option R :=
  match k with
  | O => match m with
         | O => Some (sqrt (1 / (1 + 1)))
         | S _ => if Req_EM_T w_c 0 then None else Some 0
         end
  | S _ => let freq := INR k / (INR n * (1 / fsamp)) in
           Some (sqrt (1 / (1 + (w_c / freq) ^ (2 * m))))
  end.

(** The spectrum after the filter, one factor per mode ([rfftfreq] has as many
    entries as [rfft]). *)
Definition filter_tod_highpass {A} (scale : R -> A -> A) (rfft : list R -> list A)
  (tod : list R) (fsamp w_c : R) (m : nat) : list (option A) :=
  map (fun p => option_map (fun g => scale g (snd p)) (highpass_factor (length tod) fsamp w_c m (fst p)))
    (combine (seq 0 (length (rfft tod))) (rfft tod)).

(** 4414 (instrument.py, [bin_tod]) [tod -= np.average(tod)] for a non-empty
    timestream. *)
Definition sub_average (tod : list R) : list R :=
  map (fun x => x - fold_right Rplus 0 tod / INR (length tod)) tod.

(** 1486-1502 (instrument.py) [set_filter_dict]: cutoff and order; [None] is
    the empty dictionary of a new instance (1282). *)
Definition set_filter_dict (w_c : R) (m : nat) : option (R * nat) := Some (w_c, m).

(** 4397-4414 (instrument.py, [bin_tod]): the timestream after the filters asked
    for.  [freq]: the 'freq' entry of [hwp_dict].  Simplification: a timestream
    that becomes NaN (see [highpass_factor]) is an error here. *)
Definition bin_filters {A} (scale : R -> A -> A) (rfft : list R -> list A) (irfft : list A -> nat -> list R)
  (fsamp freq : R) (filter_dict : option (R * nat)) (filter_4fhwp filter_highpass : bool)
  (mode : hmode) (tod : list R) : res (list R) :=
  do tod <- (if filter_4fhwp then
               match mode with
               | Continuous => do (t, _) <- filter_tod_hwp scale rfft irfft tod fsamp freq; Ok t
               | _ => Err ValueError
               end
             else Ok tod);
  if filter_highpass then
    match filter_dict with
    | Some (w_c, m) =>
        do fd <- fold_right (fun x r => do r <- r; match x with Some v => Ok (v :: r) | None => Err ValueError end)
                   (Ok []) (filter_tod_highpass scale rfft tod fsamp w_c m);
        Ok (irfft fd (length tod))
    | None => Ok (sub_average tod)
    end
  else Ok tod.
