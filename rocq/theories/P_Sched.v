(** * Properties C10, C11: schedule files *)
From Verif Require Import Common M_Chunks M_Sched S_Sched L_Sched.
Open Scope Q_scope.

(** C10.  For scans of positive duration: the chunks cut from a schedule are
    contiguous from sample 0, in order, no longer than the chunk size and never
    run past [nsamp].  Together they cover [min(nsamp, scheduled)] samples
    provided no scan ends less than a chunk size before the end of the
    mission.  Missing from the full property: that last proviso (see the
    refutation) and scans of zero duration (see C11). *)
Theorem C10_schedule_covers_partial : forall l chunksize nsamp fs,
  0 < fs -> (0 <= nsamp)%Z ->
  match chunksize with Some c => (0 <= c)%Z | None => True end ->
  (forall c, In c l -> t0 c < t1 c) ->
  exists es hi,
    partition_schedule l chunksize nsamp fs = Ok es
    /\ chain 0 hi (map espan es) /\ (hi <= nsamp)%Z
    /\ (forall x c, In x es -> chunksize = Some c -> (0 < c)%Z ->
               (c_end (e_chunk x) - c_start (e_chunk x) <= c)%Z)
    /\ (clear_of_end fs (slack chunksize) nsamp 0 l ->
         hi = Z.min nsamp (Qfloor (scheduled fs l))).
Proof. exact partition_schedule_spec. Qed.
Print Assumptions C10_schedule_covers_partial.

Example C10_nonvacuous :
  clear_of_end 1 30 100 0 two_scans
  /\ (forall c, In c two_scans -> t0 c < t1 c)
  /\ exists es, partition_schedule two_scans (Some 30%Z) 100 1 = Ok es
       /\ map espan es = [(0, 30); (30, 60); (60, 90); (90, 100)]%Z.
Proof.
  split; [split; [intros _; vm_compute; discriminate|split; [intros H; vm_compute in H; discriminate|exact I]]|].
  split; [intros c [<-|[<-|[]]]; reflexivity|].
  eexists. split; [vm_compute; reflexivity|]. reflexivity.
Qed.

(** Without a chunk size (or with 0), the whole scheduled time is covered. *)
Theorem C10_whole_scans_cover : forall l nsamp fs,
  0 < fs -> (0 <= nsamp)%Z -> (forall c, In c l -> t0 c < t1 c) ->
  exists es,
    partition_schedule l None nsamp fs = Ok es
    /\ chain 0 (Z.min nsamp (Qfloor (scheduled fs l))) (map espan es).
Proof. exact partition_schedule_whole. Qed.
Print Assumptions C10_whole_scans_cover.

Example C10_whole_nonvacuous :
  exists es, partition_schedule two_scans None 100 1 = Ok es
       /\ map espan es = [(0, 60); (60, 100)]%Z.
Proof. eexists. split; [vm_compute; reflexivity|]. reflexivity. Qed.

(** 100 samples requested and 160 scheduled (60 + 100), chunk size 50: only the
    first 60 samples are ever scanned. *)
Theorem C10_schedule_covers_refuted :
  scheduled 1 two_scans == 160
  /\ exists es, partition_schedule two_scans (Some 50%Z) 100 1 = Ok es
       /\ map espan es = [(0, 50); (50, 60)]%Z.
Proof. exact schedule_stops_early. Qed.
Print Assumptions C10_schedule_covers_refuted.

(** A schedule file with two rows or more is read row by row (modified Julian
    dates become seconds since 1970). *)
Theorem C10_parse_rows : forall rows, (2 <= length rows)%nat ->
  exists l, parse_schedule rows = Ok l /\ length l = length rows
    /\ forall i a b c d e, nth_error rows i = Some (a, b, c, d, e) ->
         nth_error l i = Some (mkces ((a - 40587) * 86400) ((b - 40587) * 86400) c d e).
Proof. exact parse_rows. Qed.
Print Assumptions C10_parse_rows.

(** A file with one scan cannot be read. *)
Theorem C10_single_row_refuted : forall r, parse_schedule [r] = Err IndexError.
Proof. exact one_row_fails. Qed.
Print Assumptions C10_single_row_refuted.

(** C11.  For scans of positive duration, looking the tables up with the index
    of a chunk gives that chunk's own entry; its scan contains the samples of
    the chunk and its start time is the time of its first sample. *)
Theorem C11_index_addresses_own_chunk_partial : forall l chunksize nsamp fs,
  0 < fs -> (0 <= nsamp)%Z ->
  match chunksize with Some c => (0 <= c)%Z | None => True end ->
  (forall c, In c l -> t0 c < t1 c) ->
  exists es,
    partition_schedule l chunksize nsamp fs = Ok es
    /\ forall x, In x es -> lookup_entry es (e_chunk x) = Ok x /\ in_own_scan fs 0 l x.
Proof. exact partition_schedule_lookup. Qed.
Print Assumptions C11_index_addresses_own_chunk_partial.

Example C11_nonvacuous :
  exists es x, partition_schedule two_scans (Some 40%Z) 200 1 = Ok es
    /\ nth_error es 2 = Some x /\ lookup_entry es (e_chunk x) = Ok x
    /\ e_tstart x == 100 /\ espan x = (60, 100)%Z.
Proof.
  eexists. eexists. split; [vm_compute; reflexivity|]. split; [reflexivity|].
  repeat split; reflexivity.
Qed.

(** A scan of zero duration in front shifts the index of the next chunk past
    the end of the tables. *)
Theorem C11_index_refuted :
  exists x, partition_schedule empty_first None 100 1 = Ok [x]
    /\ espan x = (0, 10)%Z
    /\ lookup_entry [x] (e_chunk x) = Err IndexError.
Proof. exact schedule_index_drift. Qed.
Print Assumptions C11_index_refuted.
