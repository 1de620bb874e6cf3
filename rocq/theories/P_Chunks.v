(** * Properties C06-C09: chunks, sub-chunks, rotations and storage slices *)
From Verif Require Import Common M_Chunks S_Chunks L_Chunks.
Open Scope Z_scope.

(** C06.  Chunks of a mission cover samples [0, n) exactly once, in order; the
    i-th chunk carries index i; all have the requested size but the last,
    which is not longer. *)
Theorem C06_mission_chunks_tile : forall n chunksize,
  1 <= n -> admissible chunksize ->
  exists chunks,
    partition_mission n chunksize = Ok chunks
    /\ tiles 0 n (map span chunks)
    /\ forall i c, nth_error chunks i = Some c ->
         c_cidx c = Some i /\ c_norot c = false
         /\ c_end c - c_start c <= used_size n chunksize
         /\ ((S i < length chunks)%nat -> c_end c - c_start c = used_size n chunksize).
Proof. exact partition_mission_ok. Qed.
Print Assumptions C06_mission_chunks_tile.

Example C06_nonvacuous :
  1 <= 10 /\ admissible (Some 4)
  /\ partition_mission 10 (Some 4)
     = Ok [mkchunk 0 4 (Some 0%nat) false; mkchunk 4 8 (Some 1%nat) false;
           mkchunk 8 10 (Some 2%nat) false].
Proof. split; [lia|]. split; [cbn; lia|reflexivity]. Qed.

(** An empty mission is rejected, whatever the chunk size. *)
Theorem C06_empty_mission_rejected : forall chunksize,
  admissible chunksize -> partition_mission 0 chunksize = Err ZeroDivisionError.
Proof. exact partition_mission_empty. Qed.
Print Assumptions C06_empty_mission_rejected.

Example C06_empty_nonvacuous : admissible (Some 3).
Proof. cbn. lia. Qed.

(** A negative chunk size is accepted and silently yields no chunks at all. *)
Theorem C06_negative_size_drops_mission_refuted : forall n c,
  1 <= n -> c < 0 -> partition_mission n (Some c) = Ok [].
Proof. exact partition_mission_negative. Qed.
Print Assumptions C06_negative_size_drops_mission_refuted.

Example C06_negative_nonvacuous : 1 <= 7 /\ -2 < 0.
Proof. lia. Qed.

(** C07.  Splitting the chunks of a mission at rotation boundaries succeeds;
    the sub-chunks of each chunk tile it, carry its index, and none of them
    straddles a multiple of the rotation period. *)
Theorem C07_subchunks_tile : forall p n chunks,
  0 < p -> tiles 0 n (map span chunks) ->
  exists subss r',
    subpart_all (fresh_rot p) chunks = Ok (subss, r')
    /\ length subss = length chunks
    /\ tiles 0 n (map span (concat subss))
    /\ (forall j c subs, nth_error chunks j = Some c -> nth_error subss j = Some subs ->
          tiles (c_start c) (c_end c) (map span subs)
          /\ forall s, In s subs -> c_cidx s = c_cidx c)
    /\ (forall s, In s (concat subss) -> in_one_period p (span s)).
Proof. exact subpart_all_fresh. Qed.
Print Assumptions C07_subchunks_tile.

Example C07_nonvacuous :
  tiles 0 10 (map span [mkchunk 0 4 None false; mkchunk 4 10 (Some 1%nat) false])
  /\ subpart_all (fresh_rot 3) [mkchunk 0 4 None false; mkchunk 4 10 (Some 1%nat) false]
     = Ok ([[mkchunk 0 3 None false; mkchunk 3 4 None false];
            [mkchunk 4 6 (Some 1%nat) true; mkchunk 6 9 (Some 1%nat) false;
             mkchunk 9 10 (Some 1%nat) false]], mkrot true 3 2).
Proof. split; [cbn; lia|reflexivity]. Qed.

(** C08, exact law.  During sample k the instrument has been rotated once per
    period begun so far, plus once for every chunk begun so far that lies
    strictly inside a period started by an earlier chunk. *)
Theorem C08_rotation_count_exact : forall p n chunks subss r' s m k,
  0 < p -> tiles 0 n (map span chunks) ->
  subpart_all (fresh_rot p) chunks = Ok (subss, r') ->
  In (s, m) (rotation_trace 0 (concat subss)) ->
  c_start s <= k < c_end s ->
  m - 1 = k / p + count (inside_period p) (filter (fun ab => fst ab <=? k) (map span chunks)).
Proof. exact rotation_exact. Qed.
Print Assumptions C08_rotation_count_exact.

Example C08_exact_nonvacuous :
  exists chunks subss r',
    partition_mission 20 (Some 4) = Ok chunks
    /\ tiles 0 20 (map span chunks)
    /\ subpart_all (fresh_rot 10) chunks = Ok (subss, r')
    /\ In (mkchunk 4 8 (Some 1%nat) false, 2) (rotation_trace 0 (concat subss)).
Proof.
  do 3 eexists. split; [vm_compute; reflexivity|]. split; [vm_compute; intuition congruence|].
  split; [vm_compute; reflexivity|]. vm_compute. tauto.
Qed.

(** C08, partial.  Full statement: for every chunking, the rotation in force at
    sample k is number k / p.  Missing: chunkings with a chunk that lies
    strictly inside a period (see the refutation below). *)
Theorem C08_rotation_once_per_period_partial : forall p n chunks subss r' s m k,
  0 < p -> tiles 0 n (map span chunks) ->
  (forall c, In c chunks -> inside_period p (span c) = false) ->
  subpart_all (fresh_rot p) chunks = Ok (subss, r') ->
  In (s, m) (rotation_trace 0 (concat subss)) ->
  c_start s <= k < c_end s ->
  m - 1 = k / p.
Proof. exact rotation_when_periods_not_cut. Qed.
Print Assumptions C08_rotation_once_per_period_partial.

Example C08_partial_nonvacuous :
  exists chunks subss r',
    partition_mission 30 (Some 12) = Ok chunks
    /\ tiles 0 30 (map span chunks)
    /\ (forall c, In c chunks -> inside_period 5 (span c) = false)
    /\ subpart_all (fresh_rot 5) chunks = Ok (subss, r')
    /\ In (mkchunk 12 15 (Some 1%nat) true, 3) (rotation_trace 0 (concat subss)).
Proof.
  do 3 eexists. split; [vm_compute; reflexivity|]. split; [vm_compute; intuition congruence|].
  split; [intros c Hc; vm_compute in Hc; intuition (subst; reflexivity)|].
  split; [vm_compute; reflexivity|]. vm_compute. tauto.
Qed.

(** C08 is false in general: with chunks shorter than the period the
    instrument rotates at the start of a chunk, in the middle of a period. *)
Theorem C08_rotation_once_per_period_refuted :
  exists p n size chunks subss r' s m k,
    0 < p /\ partition_mission n (Some size) = Ok chunks
    /\ subpart_all (fresh_rot p) chunks = Ok (subss, r')
    /\ In (s, m) (rotation_trace 0 (concat subss))
    /\ c_start s <= k < c_end s
    /\ m - 1 <> k / p.
Proof. exact early_rotation_witness. Qed.
Print Assumptions C08_rotation_once_per_period_refuted.

(** C09.  The storage slices used for the sub-chunks of a chunk tile the
    chunk-sized buffer, and each is where its samples belong. *)
Theorem C09_slices_tile_chunk : forall p n chunks subss r' j c subs,
  0 < p -> tiles 0 n (map span chunks) ->
  (forall i c, nth_error chunks i = Some c -> c_cidx c = Some i) ->
  subpart_all (fresh_rot p) chunks = Ok (subss, r') ->
  nth_error chunks j = Some c -> nth_error subss j = Some subs ->
  exists slices,
    map (chunk2idx chunks) subs = map Ok slices
    /\ tiles 0 (c_end c - c_start c) slices
    /\ Forall2 (fun s sl => snd sl - fst sl = c_end s - c_start s
                          /\ fst sl + c_start c = c_start s) subs slices.
Proof. exact slices_tile_chunk. Qed.
Print Assumptions C09_slices_tile_chunk.

Example C09_nonvacuous :
  exists chunks subss r' c subs,
    partition_mission 20 (Some 8) = Ok chunks
    /\ tiles 0 20 (map span chunks)
    /\ (forall i c, nth_error chunks i = Some c -> c_cidx c = Some i)
    /\ subpart_all (fresh_rot 3) chunks = Ok (subss, r')
    /\ nth_error chunks 1 = Some c /\ nth_error subss 1 = Some subs
    /\ map (chunk2idx chunks) subs = [Ok (0, 1); Ok (1, 4); Ok (4, 7); Ok (7, 8)].
Proof.
  do 5 eexists. split; [vm_compute; reflexivity|]. split; [vm_compute; intuition congruence|].
  split; [intros [|[|[|i]]] c H; cbn in H; try (injection H as <-; reflexivity);
          destruct i; discriminate|].
  split; [vm_compute; reflexivity|]. split; [vm_compute; reflexivity|].
  split; [vm_compute; reflexivity|]. vm_compute. reflexivity.
Qed.

(** C09 without boresight rotation: one slice, the whole buffer. *)
Theorem C09_slices_without_rotation : forall chunks i c,
  nth_error chunks i = Some c -> c_cidx c = Some i ->
  subpart_chunk (mkrot false 0 0) c = Ok ([c], mkrot false 0 0)
  /\ chunk2idx chunks c = Ok (0, c_end c - c_start c).
Proof. exact slices_without_rotation. Qed.
Print Assumptions C09_slices_without_rotation.

Example C09_without_rotation_nonvacuous :
  nth_error [mkchunk 0 5 (Some 0%nat) false; mkchunk 5 9 (Some 1%nat) false] 1
  = Some (mkchunk 5 9 (Some 1%nat) false).
Proof. reflexivity. Qed.
