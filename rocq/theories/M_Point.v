(** * Model of the boresight motion: azimuth and elevation arrays, satellite and
      schedule-driven scans

    All code cited is /repo/beamconv/instrument.py unless noted.  Numbers are
    reals.  Conversions between the horizontal and the celestial frame are those
    of qpoint and external: [hor ra dec t] is what [radec2azel(ra, dec, 0, lon,
    lat, t)] returns. *)
From Coq Require Import Reals.
From Verif Require Import Common M_Chunks M_Steps M_Hwp.
Open Scope R_scope.

(** ** Arrays *)

(** [l[::k]] for [k > 0]. *)
Definition every (k : nat) (l : list R) : list R :=
  map (fun i => nth (i * k) l 0) (seq 0 (ceil_div (length l) k)).

(** [l.reshape(n, k)]. *)
Definition reshape (n k : nat) (l : list R) : res (list (list R)) :=
  if (length l =? n * k)%nat then Ok (map (fun i => slice l (i * k) (i * k + k)) (seq 0 n))
  else Err ValueError.

(** [m += v[:, np.newaxis]; m.ravel()] *)
Definition add_rows (m : list (list R)) (v : list R) : list R :=
  concat (map (fun x => map (fun y => y + snd x) (fst x)) (combine m v)).

(** [np.linspace(a, b, num=n)] *)
Definition linspace_to (a b : R) (n : nat) : list R :=
  map (fun i => if (n =? 1)%nat then a else a + INR i * ((b - a) / INR (n - 1))) (seq 0 n).

(** [np.roll(l, k)] *)
Definition roll (k : Z) (l : list R) : list R :=
  map (fun i => nth (Z.to_nat ((Z.of_nat i - k) mod Z.of_nat (length l))) l 0) (seq 0 (length l)).

(** ** [implement_scan] *)

(** 2224-2226, 2431-2437, 2540-2546: [arange(start, end) / fsamp + ctime0]. *)
Definition ctimes (fsamp ctime0 : R) (start : Z) (n : nat) : list R :=
  map (fun i => IZR (start + Z.of_nat i) / fsamp + ctime0) (seq 0 n).

Definition below (el_min : R) (p : R * R) : bool := if Rlt_dec (snd p) el_min then true else false.

Definition map2 {A B C} (f : A -> B -> C) (l : list A) (l' : list B) : list C :=
  map (fun x => f (fst x) (snd x)) (combine l l').

(** 2259-2286: the loop [while np.any(el0 < el_min)].  One unit of [fuel] is
    one pass; [None]: still running when the fuel is used up. *)
Fixpoint patch_loop (fuel : nat) (hor : R -> R -> R -> R * R) (ras decs ts : list R) (el_min : R) (cut : bool)
  (n : nat) (cur : list (R * R)) (flags : list bool) : option (res (list (R * R) * list bool)) :=
  if existsb (below el_min) cur then
    match fuel with
    | O => None
    | S fuel =>
        if (n <? length decs)%nat then
          match index ras n, index decs n with
          | Ok ra, Ok dec =>
              let new := map (hor ra dec) ts in
              patch_loop fuel hor ras decs ts el_min cut (S n)
                (map2 (fun c w => if below el_min c then w else c) cur new) flags
          | Err e, _ => Some (Err e)
          | _, Err e => Some (Err e)
          end
        else
          patch_loop fuel hor ras decs ts el_min cut (S n)
            (map (fun c => if below el_min c then (fst c, el_min) else c) cur)
            (map2 (fun f c => f || (below el_min c && cut)) flags cur)
    end
  else Some (Ok (cur, flags)).

(** 2249-2286: position of the patch at the start of each check interval. *)
Definition patches (fuel : nat) (hor : R -> R -> R -> R * R) (ras decs ts : list R) (el_min : R) (cut : bool)
  : option (res (list (R * R) * list bool)) :=
  match index ras 0, index decs 0 with
  | Ok ra, Ok dec =>
      patch_loop fuel hor ras decs ts el_min cut 1 (map (hor ra dec) ts) (map (fun _ => false) ts)
  | Err e, _ => Some (Err e)
  | _, Err e => Some (Err e)
  end.

(** tools.py:721-745 [sawtooth_wave]. *)
Definition sawtooth_wave (n : nat) (speed period : R) : list R :=
  map (fun x => rmod x period) (linspace 0 (speed * INR n) n).

Inductive prf := Triangle | Sawtooth | OtherPrf.

(** 2289-2315: azimuth relative to the patch centre, for [p_len] samples
    ([chunk] of them when there is no throw). *)
Definition az_profile (fsamp throw speed : R) (p : prf) (p_len chunk : nat) : res (list R) :=
  let speed := if Req_EM_T speed 0 then / 10 ^ 12 else speed in
  if Req_EM_T throw 0 then Ok (repeat 0 chunk)
  else
    match p with
    | Triangle =>
        let period := 2 * throw / speed in
        Ok (map (fun i => asin (sin (INR i * (2 * PI / period / fsamp))) * (throw / PI)) (seq 0 p_len))
    | Sawtooth =>
        Ok (map (fun x => x - throw / 2) (sawtooth_wave p_len (speed / fsamp) throw))
    | OtherPrf => Err UnboundLocalError
    end.

(** 2242-2328: azimuth and elevation of a chunk before elevation steps.
    [check_len] is [int(check_interval * fsamp)], not negative. *)
Definition az_el (fuel : nat) (hor : R -> R -> R -> R * R) (fsamp ctime0 : R) (ras decs : list R)
  (throw speed : R) (p : prf) (check_len : nat) (el_min : R) (cut : bool) (start : Z) (chunk : nat)
  : option (res (list R * list R)) :=
  if (check_len =? 0)%nat then Some (Err ZeroDivisionError)
  else
    let nchecks := ceil_div chunk check_len in
    let p_len := (check_len * nchecks)%nat in
    match patches fuel hor ras decs (every check_len (ctimes fsamp ctime0 start chunk)) el_min cut with
    | None => None
    | Some (Err e) => Some (Err e)
    | Some (Ok (azel, _)) =>
        Some (do az <- az_profile fsamp throw speed p p_len chunk;
              do az <- reshape nchecks check_len az;
              let az := firstn chunk (add_rows az (map fst azel)) in
              do el <- reshape nchecks check_len (repeat 0 p_len);
              let el := firstn chunk (add_rows el (map snd azel)) in
              Ok (az, el))
    end.

(** 2677-2726 [strictly_az]: azimuth and elevation. *)
Definition strictly_az (fsamp el0 az0 speed : R) (chunk : nat) : list R * list R :=
  let speed := if Req_EM_T speed 0 then / 10 ^ 12 else speed in
  (map (fun i => INR i * speed / fsamp + az0) (seq 0 chunk), repeat (0 + el0) chunk).

(** ** [satellite_scan] *)

(** [self.lon], [self.lat]; [None] when not set. *)
Record place := mkplace { p_lon : option R; p_lat : option R }.

Definition or_zero (x : option R) : R :=
  match x with Some v => if truthy x then v else 0 | None => 0 end.

(** 2597-2634.  [jitter]: the random numbers (none: 0 everywhere).  [arcsin]
    outside [-1, 1] gives NaN in the code; [asin] here is extended by constants. *)
Definition satellite (fsamp alpha beta alpha_period beta_period : R) (jitter : nat -> R) (n : nat) (p : place)
  : res ((list R * list R * list R * list R) * place) :=
  let dt := 1 / fsamp in
  let ndays := INR n / fsamp / (24 * 3600) in
  let deg_per_day := 360.9863 in
  let az := map (fun i => rmod (INR i * dt * 360 / beta_period) 360) (seq 0 n) in
  let el := map (fun i => beta + jitter i) (seq 0 n) in
  let lon0 := or_zero (p_lon p) in
  let lat0 := or_zero (p_lat p) in
  let lon := map (fun x => rmod (- x) 360) (linspace_to lon0 (ndays * deg_per_day + lon0) n) in
  if Req_EM_T alpha 0 then Err ZeroDivisionError
  else
    let t_start := asin (lat0 / alpha) in
    let lat := map (fun x => sin x * alpha)
                 (linspace t_start (2 * PI * dt * INR n / alpha_period + t_start) n) in
    do lon1 <- last_item lon;
    do lat1 <- last_item lat;
    Ok ((az, el, lon, lat), mkplace (Some lon1) (Some lat1)).

(** ** [schedule_scan] *)

(** 2980-3022: azimuth of a chunk of [n] samples that begins [dt] seconds after
    the start of the constant-elevation scan between [az0] and [az1]. *)
Definition schedule_az (fsamp speed : R) (p : prf) (az0 az1 dt : R) (n : nat) : res (list R) :=
  let throw := if Rlt_dec az1 az0 then (360 - az0) + az1 else az1 - az0 in
  if Rle_dec throw 0 then Err AssertionError
  else
    match p with
    | Triangle =>
        let nscan := trunc (throw / speed * fsamp) in
        if (nscan <=? 0)%Z then Err AssertionError
        else
          let nscan := Z.to_nat nscan in
          let nper := (2 * nscan - 1)%nat in
          let phase := rmod (dt / fsamp) (INR nper) in
          let phase_idx := (- Int_part (- (phase * INR nper)))%Z in
          let nmult := ceil_div n nper in
          let single := linspace az0 az1 (nscan - 1) ++ linspace_to az1 az0 nscan in
          Ok (firstn n (roll phase_idx (concat (repeat single nmult))))
    | _ => Err ValueError
    end.
