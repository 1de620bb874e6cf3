(** * What is in the maps: C102 *)
From Coq Require Import Reals Lra Lia.
From Verif Require Import Common M_Solve S_Solve M_MapHist S_MapHist L_MapHist.
Open Scope R_scope.

(** C102: in any session of allocating maps, binning (with maps or without,
    with flags, with calls that fail and are caught), changing flags and
    solving, the maps hold in every pixel the sums over exactly the samples
    added since the maps were last allocated. *)
Theorem C102_since_allocation : forall h n l, in_maps h = Some (n, l) ->
  exists g, holds_maps h g /\ length g = (12 * n ^ 2)%nat
    /\ forall p, (p < 12 * n ^ 2)%nat -> nth_error g p = Some (data_sums (in_pixel p l), angle_sums (in_pixel p l)).
Proof. exact session_sums. Qed.
Print Assumptions C102_since_allocation.

(** Before the first allocation there are none. *)
Theorem C102_no_maps : forall h, in_maps h = None -> global (session new_instance h) = None.
Proof. exact session_none. Qed.
Print Assumptions C102_no_maps.

(** New maps: nothing done before is left in them (an interrupted scan, say). *)
Theorem C102_new_maps : forall h n h', (forall f, ~ In (SetFlag f) h) ->
  global (session new_instance (h ++ Allocate n :: h')) = global (session new_instance (Allocate n :: h')).
Proof. exact alloc_fresh. Qed.
Print Assumptions C102_new_maps.

(** Solving at any time, with any number of processes each with its own
    session, gives the sky wherever the samples since the allocation allow it. *)
Theorem C102_solved : forall well cond fill mpi n hs ls gs sky p,
  (mpi = true \/ length hs = 1%nat) ->
  Forall2 (fun h l => in_maps h = Some (n, l)) hs ls -> Forall2 holds_maps hs gs ->
  hs <> [] -> (forall o, In o (concat ls) -> seen_from sky o /\ on_circle o) ->
  (p < 12 * n ^ 2)%nat -> three_angles p (concat ls) -> well (angle_sums (in_pixel p (concat ls))) = true ->
  exists m c P, solve_for_map well cond mpi 0 gs fill = (Some m, c, P) /\ nth_error m p = Some (sky p).
Proof. exact sessions_solved_any. Qed.
Print Assumptions C102_solved.

(** Maps at one resolution are filled and solved, new ones allocated; of the
    calls that follow one has misfitting flags, one does not add to the maps;
    the maps are solved in between. *)
Definition demo_sample (d c s : R) : obs := {| o_pix := 5; o_val := d; o_cos := c; o_sin := s |}.
Definition demo_bin (l : list obs) (f : flag_arg) : call := {| c_samples := l; c_flag := f; c_start := 0; c_end := length l |}.
Definition demo_session : list act :=
  [Bin (demo_bin [demo_sample 7 1 0] FNone) true; Allocate 2; Bin (demo_bin [demo_sample 99 1 0] FNone) true; Solve;
   Allocate 1; Bin (demo_bin [demo_sample 3 1 0; demo_sample 1 0 1] FNone) true; Solve;
   Bin (demo_bin [demo_sample 99 1 0; demo_sample 99 1 0] (FArray [false; false])) true;
   Bin (demo_bin [demo_sample 99 1 0] FNone) false;
   SetFlag (Some [true; false]); Bin (demo_bin [demo_sample 99 1 0; demo_sample 1 (-1) 0] FNone) true].
Example C102_case :
  in_maps demo_session = Some (1%nat, [demo_sample 3 1 0; demo_sample 1 0 1; demo_sample 1 (-1) 0])
  /\ (exists g, Forall2 holds_maps [demo_session] [g])
  /\ (5 < 12 * 1 ^ 2)%nat
  /\ (forall o, In o (concat [[demo_sample 3 1 0; demo_sample 1 0 1; demo_sample 1 (-1) 0]]) ->
        seen_from (fun _ => (2, 1, -1)) o /\ on_circle o)
  /\ three_angles 5 (concat [[demo_sample 3 1 0; demo_sample 1 0 1; demo_sample 1 (-1) 0]]).
Proof.
  split; [reflexivity|]. split.
  { destruct (C102_since_allocation demo_session _ _ eq_refl) as (g & Hg & _). exists g. constructor; [exact Hg|constructor]. }
  split; [vm_compute; lia|]. cbn [concat app]. split.
  - intros o [<-|[<-|[<-|[]]]]; unfold seen_from, on_circle; cbn; lra.
  - exists (demo_sample 3 1 0), (demo_sample 1 0 1), (demo_sample 1 (-1) 0). unfold same_direction. cbn.
    repeat (split; [tauto || reflexivity || (intros [X _]; lra)|]). intros [X _]; lra.
Qed.
