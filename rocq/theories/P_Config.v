(** * Properties C16, C17, C47: sample times, mission arguments, explicit zeros *)
From Verif Require Import Common M_Chunks S_Chunks M_Steps M_Hwp M_Config L_Hwp L_Config.
From Coq Require Import Lra.
Open Scope R_scope.

(** C16.  Whatever chunks the mission is divided into, the times of all chunks
    in order are one time per mission sample, sample k at ctime0 + k / fsamp,
    strictly increasing (also across chunk borders). *)
Theorem C16_sample_times : forall fs ctime0 n chunks,
  0 < fs -> tiles 0 n (map span chunks) ->
  let times := concat (map (chunk_ctime fs ctime0) chunks) in
  length times = Z.to_nat n
  /\ (forall k, (0 <= k < n)%Z -> nth_error times (Z.to_nat k) = Some (ctime0 + IZR k / fs))
  /\ (forall i j s t, (i < j)%nat -> nth_error times i = Some s -> nth_error times j = Some t ->
        s < t).
Proof.
  exact (fun fs c0 n chunks Hf HT =>
    conj (ctimes_length fs c0 n chunks HT)
      (conj (fun k Hk => ctimes_law fs c0 n chunks k HT Hk)
            (fun i j s t Hij => ctimes_increasing fs c0 n chunks i j s t Hf HT Hij))).
Qed.
Print Assumptions C16_sample_times.

Example C16_nonvacuous :
  0 < 20 /\ tiles 0 10 (map span [mkchunk 0 4 None false; mkchunk 4 10 None false]).
Proof. split; [lra|cbn; lia]. Qed.

(** C17, consistency of every successfully created strategy. *)
Theorem C17_mission_consistent : forall duration rate num m,
  init_mission duration rate num = Ok m ->
  nsamp m = trunc (mlen m * fsamp m)
  /\ (forall k, num = Some k -> nsamp m = k)
  /\ (forall x, duration = Some x -> mlen m = x)
  /\ (forall x, rate = Some x -> duration <> Some 0 -> fsamp m = x).
Proof. exact init_mission_consistent. Qed.
Print Assumptions C17_mission_consistent.

Example C17_consistent_nonvacuous :
  exists m, init_mission None (Some 10) (Some 55%Z) = Ok m /\ mlen m = 5.5.
Proof.
  unfold init_mission. destruct (Rle_dec 10 0); [lra|].
  eexists. split; [reflexivity|]. cbn. lra.
Qed.

(** C17, any two of the three are enough. *)
Theorem C17_two_are_enough : forall duration rate num,
  (forall x, rate = Some x -> 0 < x) -> duration <> Some 0 ->
  ((exists x y, duration = Some x /\ rate = Some y /\ num = None)
   \/ (exists x k, duration = Some x /\ rate = None /\ num = Some k)
   \/ (exists y k, duration = None /\ rate = Some y /\ num = Some k)) ->
  is_ok (init_mission duration rate num).
Proof. exact init_mission_two. Qed.
Print Assumptions C17_two_are_enough.

Example C17_two_nonvacuous :
  (forall x, Some 10 = Some x -> 0 < x) /\ Some 3 <> Some 0
  /\ exists x y, Some 3 = Some x /\ Some 10 = Some y /\ @None Z = None.
Proof.
  split; [intros x E; injection E as <-; lra|]. split; [intros E; injection E; lra|].
  do 2 eexists. repeat split.
Qed.

(** C17, all three: accepted exactly when they agree. *)
Theorem C17_three_must_agree : forall d r n,
  0 < r -> d <> 0 ->
  init_mission (Some d) (Some r) (Some n)
  = if (trunc (d * r) =? n)%Z then Ok (mkmission r d n) else Err ValueError.
Proof. exact init_mission_three. Qed.
Print Assumptions C17_three_must_agree.

Example C17_three_nonvacuous : 0 < 10 /\ 3 <> 0.
Proof. lra. Qed.

(** C17, a non-positive rate is rejected whatever the other arguments. *)
Theorem C17_bad_rate_rejected : forall duration r num,
  r <= 0 -> init_mission duration (Some r) num = Err ValueError.
Proof. exact init_mission_bad_rate. Qed.
Print Assumptions C17_bad_rate_rejected.

Example C17_bad_rate_nonvacuous : -1 <= 0.
Proof. lra. Qed.

(** C17, fewer than two arguments are rejected.  Full statement: without the
    first hypothesis.  Missing: a duration of exactly 0 (next theorem). *)
Theorem C17_too_few_rejected_partial : forall duration rate num,
  duration <> Some 0 ->
  (duration = None /\ rate = None) \/ (duration = None /\ num = None)
  \/ (rate = None /\ num = None) ->
  init_mission duration rate num = Err ValueError.
Proof. exact init_mission_too_few. Qed.
Print Assumptions C17_too_few_rejected_partial.

Example C17_too_few_nonvacuous : Some 5 <> Some 0 /\ @None R = None /\ @None Z = None.
Proof. split; [intros E; injection E; lra|]. auto. Qed.

(** A duration of 0 alone is accepted and gives an empty mission. *)
Theorem C17_zero_duration_alone_refuted :
  exists duration, init_mission (Some duration) None None = Ok (mkmission 0 0 0).
Proof. exact (ex_intro _ 0 zero_duration_alone). Qed.
Print Assumptions C17_zero_duration_alone_refuted.

(** C47, partial.  Full statement: given values are used as given.  Missing:
    the value zero. *)
Theorem C47_nonzero_honoured_partial :
  (forall loc lat lon, lat <> 0 -> lon <> 0 ->
     init_location loc (Some lat) (Some lon) = Ok (Some lat, Some lon))
  /\ (forall now v, v <> 0 -> set_ctime0 now (Some v) = v)
  /\ (forall fs h n a, h_mode h = NoMode -> a <> 0 ->
        rotate_hwp fs (Some a) n h = Ok (HScalar (radians a), h)).
Proof. exact (conj location_nonzero (conj ctime0_nonzero hwpang_nonzero)). Qed.
Print Assumptions C47_nonzero_honoured_partial.

Example C47_nonvacuous :
  5 <> 0 /\ exists h, set_hwp_mod 10 NoMode None 0 None = Ok h /\ h_mode h = NoMode.
Proof. split; [lra|]. eexists. split; reflexivity. Qed.

(** C47 is false: a latitude of 0 is replaced by that of the named site, a
    start time of 0 by the current time, an HWP angle of 0 by the stored one. *)
Theorem C47_explicit_zero_refuted :
  (exists loc lat p, init_location loc (Some lat) None = Ok p /\ fst p <> Some lat)
  /\ (forall now, now <> 0 -> exists v, set_ctime0 now (Some v) <> v).
Proof. exact zero_witnesses. Qed.
Print Assumptions C47_explicit_zero_refuted.

Theorem C47_zero_hwp_angle_refuted :
  exists fs h n o h', set_hwp_mod fs NoMode None 45 None = Ok h
    /\ rotate_hwp fs (Some 0) n h = Ok (HScalar o, h') /\ o <> radians 0.
Proof. exact hwpang_zero_witness. Qed.
Print Assumptions C47_zero_hwp_angle_refuted.
