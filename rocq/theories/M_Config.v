(** * Model of scan-strategy / instrument construction and of sample times

    /repo/beamconv/instrument.py.  Exact real arithmetic. *)
From Verif Require Import Common M_Chunks M_Hwp.
Open Scope R_scope.

(** Attributes set by [ScanStrategy.__init__]: sample rate, mission length,
    number of samples. *)
Record mission := mkmission { fsamp : R; mlen : R; nsamp : Z }.

(** instrument.py:1241-1273 [ScanStrategy.__init__], argument handling.
    Simplification: [num_samples] is an integer. *)
Definition init_mission (duration sample_rate : option R) (num_samples : option Z)
  : res mission :=
  if match sample_rate with
     | Some r => if Rle_dec r 0 then true else false
     | None => false
     end
  then Err ValueError
  else
    let sample_rate :=
      match duration with
      | Some d => if Req_EM_T d 0 then Some 0 else sample_rate
      | None => sample_rate
      end in
    match duration with
    | None =>
        match num_samples, sample_rate with
        | Some n, Some r => Ok (mkmission r (IZR n / r) n)
        | _, _ => Err ValueError
        end
    | Some d =>
        match sample_rate with
        | None =>
            match num_samples with
            | None => Err ValueError
            | Some n => Ok (mkmission (IZR n / d) d n)
            end
        | Some r =>
            let ns := trunc (d * r) in
            match num_samples with
            | Some n => if (ns =? n)%Z then Ok (mkmission r d ns) else Err ValueError
            | None => Ok (mkmission r d ns)
            end
        end
    end.

(** instrument.py:1312-1317, setter of [ctime0]; [now] is [time.time()]. *)
Definition set_ctime0 (now : R) (val : option R) : R :=
  match val with
  | Some v => if truthy val then v else now
  | None => now
  end.

Inductive location := Spole | Atacama | Space | OtherLocation.

(** instrument.py:280-299 [Instrument.__init__]: latitude and longitude.
    [None] inside the result is Python's None. *)
Definition init_location (loc : location) (lat lon : option R)
  : res (option R * option R) :=
  (* attributes before 292: unset (outer None) for an unknown name *)
  let '(a, b) :=
    match loc with
    | Spole => (Some (Some (-89.9)), Some (Some 169.15))
    | Atacama => (Some (Some (-22.958)), Some (Some (-67.786)))
    | Space => (Some None, Some None)
    | OtherLocation => (None, None)
    end in
  let a := if truthy lat then Some lat else a in
  let b := if truthy lon then Some lon else b in
  match loc with
  | Space =>
      match a, b with
      | Some x, Some y => Ok (x, y)
      | _, _ => Err AttributeError
      end
  | _ =>
      match a with
      | None => Err AttributeError
      | Some x =>
          if negb (truthy x) then Err ValueError
          else match b with
               | None => Err AttributeError
               | Some y => if negb (truthy y) then Err ValueError else Ok (x, y)
               end
      end
  end.

(** [np.arange(start, end)] on integers. *)
Definition zrange (a b : Z) : list Z :=
  map (fun i => (a + Z.of_nat i)%Z) (seq 0 (Z.to_nat (b - a))).

(** instrument.py:2243-2246 (also 2235-2238, 2435-2437 [l2_ctime] and
    2544-2546 [satellite_ctime]): times of the samples of a chunk. *)
Definition chunk_ctime (fs ctime0 : R) (c : chunk) : list R :=
  map (fun k => IZR k / fs + ctime0) (zrange (c_start c) (c_end c)).
