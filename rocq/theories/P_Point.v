(** * Theorems: boresight motion *)
From Coq Require Import Reals Lra Lia.
From Verif Require Import Common M_Chunks M_Steps M_Hwp M_Point S_Point L_Point L_Point2 L_Point3 L_Point4.
Open Scope R_scope.

(** ** C40: patch selection respects the elevation limit *)

(** The search ends, however high the limit, and gives each check time its
    patch; no elevation is below the limit. *)
Theorem C40_selection : forall hor ras decs el_min cut fuel ts,
  length ras = length decs -> decs <> [] -> (length decs <= fuel)%nat ->
  exists out flags, patches fuel hor ras decs ts el_min cut = Some (Ok (out, flags))
    /\ length out = length ts /\ length flags = length ts
    /\ forall i t, nth_error ts i = Some t -> exists az el f,
         nth_error out i = Some (az, el) /\ nth_error flags i = Some f /\ el_min <= el
         /\ chosen hor ras decs el_min cut t az el f.
Proof. exact selection. Qed.
Print Assumptions C40_selection.

(** The number of passes allowed plays no role once the search has ended. *)
Theorem C40_terminates : forall hor ras decs ts el_min cut fuel n cur flags r fuel',
  patch_loop fuel hor ras decs ts el_min cut n cur flags = Some r -> (fuel <= fuel')%nat ->
  patch_loop fuel' hor ras decs ts el_min cut n cur flags = Some r.
Proof. exact patch_loop_more. Qed.
Print Assumptions C40_terminates.

(** Elevation steps are added after the limit was applied, so the limit does
    not hold for the elevations scanned: here it is 45 and the scan is at 44. *)
Theorem C40_steps_refuted : exists az el e d el',
  az_el 1 still_sky 1 0 [100] [40] 2 1 Triangle 1 45 true 0 1 = Some (Ok (az, el))
  /\ set_el_steps 1 1 (Some [-1]) = Ok e
  /\ step_array Rplus el (el_st e) = Ok (el', d)
  /\ nth_error el' 0 = Some 44.
Proof. exact el_steps_below. Qed.
Print Assumptions C40_steps_refuted.

(** Two patches, of which the first sets during the run: the first is used at
    time 0, the second at time 10, and the limit at time 20. *)
Example C40_case : patches 2 sky [100; 200] [50; 60] [0; 10; 20] 45 true
  = Some (Ok ([(100 + 0, 50 - 0); (200 + 10, 60 - 10); (200 + 20, 45)], [false; false; true])).
Proof.
  unfold patches, patch_loop, index, map2, below, sky. cbn.
  repeat (match goal with |- context [Rlt_dec ?a ?b] => (destruct (Rlt_dec a b); [exfalso; lra|]) || (destruct (Rlt_dec a b); [|exfalso; lra]) end; cbn).
  reflexivity.
Qed.

(** ** C41: azimuth patterns stay within the throw *)

Theorem C41_triangle : forall fuel hor fsamp ctime0 ras decs throw speed check_len el_min cut start chunk,
  length ras = length decs -> decs <> [] -> (length decs <= fuel)%nat -> (0 < check_len)%nat ->
  0 < throw -> 0 < speed -> 0 < fsamp ->
  exists az el, az_el fuel hor fsamp ctime0 ras decs throw speed Triangle check_len el_min cut start chunk = Some (Ok (az, el))
    /\ length az = chunk /\ length el = chunk
    /\ forall i, (i < chunk)%nat -> exists a e f x,
         chosen hor ras decs el_min cut (check_time fsamp ctime0 start check_len i) a e f /\ el_min <= e
         /\ nth_error el i = Some e /\ nth_error az i = Some (a + x)
         /\ Rabs x <= throw / 2 /\ triangle throw speed (INR i / fsamp) x.
Proof.
  exact (fun fuel hor fsamp ctime0 ras decs throw speed check_len el_min cut start chunk H1 H2 H3 H4 H5 H6 H7 =>
    scan_chunk fuel hor fsamp ctime0 ras decs throw speed Triangle check_len el_min cut start chunk
      H1 H2 H3 H4 H5 H6 H7 ltac:(discriminate)).
Qed.
Print Assumptions C41_triangle.

Theorem C41_sawtooth : forall fuel hor fsamp ctime0 ras decs throw speed check_len el_min cut start chunk,
  length ras = length decs -> decs <> [] -> (length decs <= fuel)%nat -> (0 < check_len)%nat ->
  0 < throw -> 0 < speed -> 0 < fsamp ->
  exists az el, az_el fuel hor fsamp ctime0 ras decs throw speed Sawtooth check_len el_min cut start chunk = Some (Ok (az, el))
    /\ length az = chunk /\ length el = chunk
    /\ forall i, (i < chunk)%nat -> exists a e f x,
         chosen hor ras decs el_min cut (check_time fsamp ctime0 start check_len i) a e f /\ el_min <= e
         /\ nth_error el i = Some e /\ nth_error az i = Some (a + x)
         /\ sawtooth throw speed (INR i / fsamp) x.
Proof.
  exact (fun fuel hor fsamp ctime0 ras decs throw speed check_len el_min cut start chunk H1 H2 H3 H4 H5 H6 H7 =>
    scan_chunk fuel hor fsamp ctime0 ras decs throw speed Sawtooth check_len el_min cut start chunk
      H1 H2 H3 H4 H5 H6 H7 ltac:(discriminate)).
Qed.
Print Assumptions C41_sawtooth.

(** Without throw the scan stays on the patch, provided the chunk is a whole
    number of check intervals; *)
Theorem C41_still_partial : forall fuel hor fsamp ctime0 ras decs throw speed p check_len el_min cut start chunk,
  length ras = length decs -> decs <> [] -> (length decs <= fuel)%nat -> (0 < check_len)%nat ->
  throw = 0 -> (chunk = ceil_div chunk check_len * check_len)%nat ->
  exists az el, az_el fuel hor fsamp ctime0 ras decs throw speed p check_len el_min cut start chunk = Some (Ok (az, el))
    /\ length az = chunk /\ length el = chunk
    /\ forall i, (i < chunk)%nat -> exists a e f,
         chosen hor ras decs el_min cut (check_time fsamp ctime0 start check_len i) a e f /\ el_min <= e
         /\ nth_error el i = Some e /\ nth_error az i = Some a.
Proof. exact no_throw. Qed.
Print Assumptions C41_still_partial.

(** any other chunk fails, whatever the sky. *)
Theorem C41_still_refuted : forall fuel hor fsamp ctime0 ras decs throw speed p check_len el_min cut start chunk,
  length ras = length decs -> decs <> [] -> (length decs <= fuel)%nat -> (0 < check_len)%nat ->
  throw = 0 -> (chunk <> ceil_div chunk check_len * check_len)%nat ->
  az_el fuel hor fsamp ctime0 ras decs throw speed p check_len el_min cut start chunk = Some (Err ValueError).
Proof. exact no_throw_fails. Qed.
Print Assumptions C41_still_refuted.

Example C41_case : (5 <> ceil_div 5 3 * 3)%nat /\ (6 = ceil_div 6 3 * 3)%nat
  /\ exists az el, az_el 2 sky 10 0 [100; 200] [50; 60] 2 1 Triangle 5 45 true 0 11 = Some (Ok (az, el))
       /\ length az = 11%nat /\ length el = 11%nat.
Proof. split; [cbn; lia|]. split; [reflexivity|]. exact (sky_triangle 0). Qed.

(** Schedule-driven scans stay between the limits when the first is smaller; *)
Theorem C41_schedule_partial : forall fsamp speed az0 az1 dt n,
  az0 < az1 -> 1 <= (az1 - az0) / speed * fsamp ->
  exists az, schedule_az fsamp speed Triangle az0 az1 dt n = Ok az /\ length az = n
    /\ forall a, In a az -> on_arc az0 az1 a.
Proof. exact schedule_arc. Qed.
Print Assumptions C41_schedule_partial.

(** a scan through north (350 to 10 degrees) goes the other way round. *)
Theorem C41_schedule_refuted :
  (exists az, schedule_az 1 5 Triangle 350 10 0 5 = Ok az /\ nth_error az 1 = Some (350 - 340 / 3))
  /\ ~ on_arc 350 10 (350 - 340 / 3).
Proof. exact (conj schedule_wraps arc_out). Qed.
Print Assumptions C41_schedule_refuted.

Example C41_schedule_case : 0 < 3 /\ 1 <= (3 - 0) / 1 * 1 /\ schedule_az 1 1 Triangle 0 3 0 3 = Ok [0; 1.5; 3].
Proof. split; [lra|]. split; [lra|]. exact (proj1 schedule_jump). Qed.

(** A constant azimuth speed at one elevation. *)
Theorem C41_constant_speed : forall fsamp el0 az0 speed n, speed <> 0 ->
  length (fst (strictly_az fsamp el0 az0 speed n)) = n /\ length (snd (strictly_az fsamp el0 az0 speed n)) = n
  /\ forall i, (i < n)%nat -> nth_error (fst (strictly_az fsamp el0 az0 speed n)) i = Some (az0 + speed * (INR i / fsamp))
       /\ nth_error (snd (strictly_az fsamp el0 az0 speed n)) i = Some el0.
Proof. exact strictly_law. Qed.
Print Assumptions C41_constant_speed.

(** ** C42: satellite scans continue where the previous chunk stopped *)

(** Within a chunk: the motion from the position set before. *)
Theorem C42_motion_partial : forall fsamp alpha beta pa pb jitter n p az el lon lat q, fsamp <> 0 -> pa <> 0 ->
  satellite fsamp alpha beta pa pb jitter n p = Ok ((az, el, lon, lat), q) ->
  (0 < n)%nat /\ alpha <> 0
  /\ length az = n /\ length el = n /\ length lon = n /\ length lat = n
  /\ (forall i, (i < n)%nat -> exists a x y,
        nth_error az i = Some a /\ 0 <= a < 360 /\ same_angle a (360 * (INR i / fsamp) / pb)
        /\ nth_error el i = Some (beta + jitter i)
        /\ nth_error lon i = Some x /\ 0 <= x < 360
        /\ same_angle x (- (or_zero (p_lon p) + INR i * (INR n / fsamp / (24 * 3600) * 360.9863 / INR (n - 1))))
        /\ nth_error lat i = Some y
        /\ y = alpha * sin (asin (or_zero (p_lat p) / alpha) + 2 * PI * (INR i / fsamp) / pa))
  /\ (exists x y, nth_error lon (n - 1) = Some x /\ nth_error lat (n - 1) = Some y /\ q = mkplace (Some x) (Some y)).
Proof. exact satellite_motion. Qed.
Print Assumptions C42_motion_partial.

(** From chunk to chunk: the latitude is kept, the longitude changes sign. *)
Theorem C42_next_partial : forall fsamp alpha beta pa pb jitter jitter' n n' p az el lon lat q az' el' lon' lat' q',
  fsamp <> 0 -> pa <> 0 ->
  satellite fsamp alpha beta pa pb jitter n p = Ok ((az, el, lon, lat), q) ->
  satellite fsamp alpha beta pa pb jitter' n' q = Ok ((az', el', lon', lat'), q') ->
  exists x y x' y', nth_error lon (n - 1) = Some x /\ nth_error lat (n - 1) = Some y
    /\ nth_error lon' 0 = Some x' /\ nth_error lat' 0 = Some y' /\ y' = y /\ same_angle x' (- x).
Proof. exact satellite_next. Qed.
Print Assumptions C42_next_partial.

(** The longitude moves by -10 degrees a sample, but from 350 to 10 between the chunks. *)
Theorem C42_longitude_refuted : let fsamp := 360.9863 / (86400 * 5) in
  exists az el lat q az' el' lat' q',
    satellite fsamp 50 50 5400 600 (fun _ => 0) 2 (mkplace None None) = Ok ((az, el, [0; 350], lat), q)
    /\ satellite fsamp 50 50 5400 600 (fun _ => 0) 2 q = Ok ((az', el', [10; 0], lat'), q').
Proof. exact longitude_witness. Qed.
Print Assumptions C42_longitude_refuted.

(** The latitude falls at the end of one chunk and rises at the start of the next. *)
Theorem C42_latitude_refuted : exists az el lon lat q az' el' lon' lat' q',
  satellite 1 1 50 8 600 (fun _ => 0) 4 (mkplace None None) = Ok ((az, el, lon, lat), q)
  /\ satellite 1 1 50 8 600 (fun _ => 0) 4 q = Ok ((az', el', lon', lat'), q')
  /\ (exists y2 y3, nth_error lat 2 = Some y2 /\ nth_error lat 3 = Some y3 /\ y3 < y2)
  /\ (exists y0 y1, nth_error lat' 0 = Some y0 /\ nth_error lat' 1 = Some y1 /\ y0 < y1).
Proof. exact latitude_witness. Qed.
Print Assumptions C42_latitude_refuted.

(** Every chunk with samples runs, so the hypotheses above are met. *)
Example C42_runs : forall fsamp alpha beta pa pb jitter n p, (0 < n)%nat -> alpha <> 0 ->
  exists az el lon lat q, satellite fsamp alpha beta pa pb jitter n p = Ok ((az, el, lon, lat), q).
Proof. exact satellite_runs. Qed.

(** ** C61: the azimuth has no jumps *)

(** Within a chunk of a schedule-driven scan no step is larger than the throw
    over the number of steps in one sweep; *)
Theorem C61_schedule_partial : forall fsamp speed az0 az1 dt n (k : nat),
  az0 < az1 -> (0 < k)%nat -> INR k + 1 <= (az1 - az0) / speed * fsamp < INR k + 2 ->
  exists az, schedule_az fsamp speed Triangle az0 az1 dt n = Ok az /\ length az = n
    /\ forall i x y, nth_error az i = Some x -> nth_error az (S i) = Some y -> Rabs (y - x) <= (az1 - az0) / INR k.
Proof. exact schedule_steps. Qed.
Print Assumptions C61_schedule_partial.

(** but the chunk that begins three seconds (three samples) into the scan jumps
    back from 3 degrees to 0. *)
Theorem C61_schedule_refuted : schedule_az 1 1 Triangle 0 3 0 3 = Ok [0; 1.5; 3]
  /\ schedule_az 1 1 Triangle 0 3 3 3 = Ok [0; 1.5; 3].
Proof. exact schedule_jump. Qed.
Print Assumptions C61_schedule_refuted.

(** Triangle scans, with the patch at rest: sample 10 is at 101 degrees, sample
    11, the first of the next chunk, at 100, at a speed of 0.1 degree a sample. *)
Theorem C61_triangle_refuted : exists az el az' el',
  az_el 1 still_sky 10 0 [100] [50] 2 1 Triangle 5 45 true 0 11 = Some (Ok (az, el))
  /\ az_el 1 still_sky 10 0 [100] [50] 2 1 Triangle 5 45 true 11 11 = Some (Ok (az', el'))
  /\ nth_error az 10 = Some 101 /\ nth_error az' 0 = Some 100.
Proof. exact triangle_jump. Qed.
Print Assumptions C61_triangle_refuted.

(** Scans at constant azimuth speed return to the start azimuth in every chunk. *)
Theorem C61_constant_speed_refuted : exists az az',
  fst (strictly_az 10 50 0 1 11) = az /\ fst (strictly_az 10 50 0 1 11) = az'
  /\ nth_error az 10 = Some 1 /\ nth_error az' 0 = Some 0.
Proof. exact strictly_restarts. Qed.
Print Assumptions C61_constant_speed_refuted.

Example C61_case : 0 < 3 /\ (0 < 2)%nat /\ INR 2 + 1 <= (3 - 0) / 1 * 1 < INR 2 + 2.
Proof. cbn. split; [lra|]. split; [lia|lra]. Qed.
