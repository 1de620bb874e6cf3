(** * Theorems C56 and C83: binning and solving maps *)
From Coq Require Import Reals Lra Lia.
From Verif Require Import Common M_Mpi M_Solve S_Solve L_Solve.
Open Scope R_scope.

(** After any calls of [bin_tod] every pixel of the data vector and of the
    projection matrix is the sum over all samples used in that pixel. *)
Theorem C56_additive : forall nside s0 calls s, bin_calls (allocate_maps nside s0) calls = Ok s ->
  exists g, global s = Some g /\ length g = (12 * nside ^ 2)%nat
    /\ forall p, (p < 12 * nside ^ 2)%nat -> let l := in_pixel p (all_used (own_flag s0) calls) in
         nth_error g p = Some (data_sums l, angle_sums l).
Proof. exact binned_sums. Qed.
Print Assumptions C56_additive.

(** Without flags binning always succeeds. *)
Theorem C56_bins : forall nside s0 calls, own_flag s0 = None -> (forall c, In c calls -> c_flag c = FNone) ->
  exists s, bin_calls (allocate_maps nside s0) calls = Ok s.
Proof. exact bin_succeeds. Qed.
Print Assumptions C56_bins.

(** Any number of ranks, each with any calls; a timestream made from the sky
    [sky]; a pixel seen, by whichever ranks, under three polarisation angles and
    whose matrix qpoint accepts.  The root obtains the sky in that pixel. *)
Theorem C56_solve : forall well cond fill nside ranks gs sky p,
  Forall2 (rank_maps nside) ranks gs -> ranks <> [] ->
  (forall o, In o (ranks_used ranks) -> seen_from sky o /\ on_circle o) ->
  (p < 12 * nside ^ 2)%nat -> three_angles p (ranks_used ranks) ->
  well (angle_sums (in_pixel p (ranks_used ranks))) = true ->
  exists m c P, solve_for_map well cond true 0 gs fill = (Some m, c, Some P)
    /\ nth_error m p = Some (sky p) /\ nth_error P p = Some (angle_sums (in_pixel p (ranks_used ranks))).
Proof. exact solve_root. Qed.
Print Assumptions C56_solve.

(** Three angles make the matrix regular. *)
Theorem C56_regular : forall p l, (forall o, In o l -> on_circle o) -> three_angles p l ->
  det3 (angle_sums (in_pixel p l)) <> 0.
Proof. exact regular. Qed.
Print Assumptions C56_regular.

(** Pixels no rank has seen hold the fill value. *)
Theorem C56_unseen : forall well cond fill nside ranks gs p,
  Forall2 (rank_maps nside) ranks gs -> ranks <> [] ->
  (p < 12 * nside ^ 2)%nat -> (forall o, In o (ranks_used ranks) -> o_pix o <> p) ->
  exists m c P, solve_for_map well cond true 0 gs fill = (Some m, c, P) /\ nth_error m p = Some (fill, fill, fill).
Proof. exact solve_unseen. Qed.
Print Assumptions C56_unseen.

(** The other ranks obtain nothing; without MPI one process solves its own maps. *)
Theorem C56_ranks : forall well cond fill gs,
  (forall r, (0 < r)%nat -> solve_for_map well cond true r gs fill = (None, None, None))
  /\ forall g, solve_for_map well cond false 0 [g] fill = solve_for_map well cond true 0 [g] fill.
Proof. exact (fun well cond fill gs => conj (fun r H => solve_other_ranks well cond fill r gs H) (solve_serial well cond fill)). Qed.
Print Assumptions C56_ranks.

(** An array of flags, although documented, is refused. *)
Theorem C83_flag_array_refuted : forall s samples l init add a b, (2 <= length l)%nat ->
  bin_tod s samples (FArray l) init add a b = Err ValueError.
Proof. exact flag_array_fails. Qed.
Print Assumptions C83_flag_array_refuted.

(** Binning on without a new destination counts the earlier samples twice. *)
Theorem C83_keep_destination_refuted : forall nside s0 first second a b, own_flag s0 = None ->
  exists s1 s2 g2, bin_tod (allocate_maps nside s0) first FNone true true a b = Ok s1
    /\ bin_tod s1 second FNone false true a b = Ok s2 /\ global s2 = Some g2
    /\ forall p, (p < 12 * nside ^ 2)%nat -> let l := in_pixel p (first ++ first ++ second) in
         nth_error g2 p = Some (data_sums l, angle_sums l).
Proof. exact double_counted. Qed.
Print Assumptions C83_keep_destination_refuted.

(** Two ranks, the second with a flagged sample; pixel 5 holds (2, 1, -1). *)
Definition demo_obs (d c s : R) : obs := {| o_pix := 5; o_val := d; o_cos := c; o_sin := s |}.
Definition demo_call (l : list obs) : call := {| c_samples := l; c_flag := FNone; c_start := 0; c_end := length l |}.
Definition demo_rank (f : option (list bool)) (l : list obs) : maps * list call :=
  ({| global := None; depo := []; own_flag := f; npix := 0 |}, [demo_call l]).
Definition demo_ranks : list (maps * list call) :=
  [demo_rank None [demo_obs 3 1 0; demo_obs 1 0 1]; demo_rank (Some [true; false]) [demo_obs 99 1 0; demo_obs 1 (-1) 0]].
Example C56_case :
  (exists gs, Forall2 (rank_maps 1) demo_ranks gs) /\ (5 < 12 * 1 ^ 2)%nat
  /\ ranks_used demo_ranks = [demo_obs 3 1 0; demo_obs 1 0 1; demo_obs 1 (-1) 0]
  /\ (forall o, In o (ranks_used demo_ranks) -> seen_from (fun _ => (2, 1, -1)) o /\ on_circle o)
  /\ three_angles 5 (ranks_used demo_ranks).
Proof.
  assert (U : ranks_used demo_ranks = [demo_obs 3 1 0; demo_obs 1 0 1; demo_obs 1 (-1) 0]) by reflexivity.
  split; [|split; [vm_compute; lia|split; [exact U|split]]].
  - eexists. constructor; [eexists; split; reflexivity|]. constructor; [eexists; split; reflexivity|]. constructor.
  - rewrite U. intros o [<-|[<-|[<-|[]]]]; unfold seen_from, on_circle; cbn; lra.
  - rewrite U. exists (demo_obs 3 1 0), (demo_obs 1 0 1), (demo_obs 1 (-1) 0). unfold same_direction. cbn.
    repeat (split; [tauto || reflexivity || (intros [X _]; lra)|]). intros [X _]; lra.
Qed.
