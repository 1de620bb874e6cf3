(** * Properties C12-C15: stepped angles, HWP phase, reset, generators *)
From Verif Require Import Common M_Chunks M_Steps M_Hwp S_Hwp L_Steps L_Hwp.
From Coq Require Import Lra.
Open Scope R_scope.

(** C15.  The k-th value drawn from a generator is element k mod n of its
    list; an empty list fails on the first draw. *)
Theorem C15_generator_cycles : forall (A : Type) (angles : list A) k,
  angles <> [] ->
  exists l g, draw k (angle_gen angles) = Ok (l, g)
    /\ length l = k
    /\ forall i, (i < k)%nat -> nth_error l i = nth_error angles (i mod length angles).
Proof. exact @draw_from_start. Qed.
Print Assumptions C15_generator_cycles.

Example C15_nonvacuous :
  exists g, draw 5 (angle_gen [7; 8]%nat) = Ok ([7; 8; 7; 8; 7]%nat, g).
Proof. eexists. reflexivity. Qed.

Theorem C15_empty_list_fails : forall (A : Type) k,
  k <> O -> draw k (angle_gen (@nil A)) = Err IndexError.
Proof. exact @draw_empty. Qed.
Print Assumptions C15_empty_list_fails.

Example C15_empty_nonvacuous : 3%nat <> O.
Proof. discriminate. Qed.

(** C12, elevation steps and any stepped array.  Starting from a configured or
    reset stepper, stepping the arrays of any sequence of chunks (any lengths)
    adds to mission sample k the angle number (k / size) mod n, and keeps all
    lengths. *)
Theorem C12_stepping_independent_of_chunks :
  forall (A : Type) (add : A -> A -> A) (angles : list A) size ang arrs,
  angles <> [] -> (0 < size)%nat ->
  exists outs d',
    step_arrays add arrs (mksteps size ang 0 (angle_gen angles)) = Ok (outs, d')
    /\ map (@length A) outs = map (@length A) arrs
    /\ forall k x, nth_error (concat arrs) k = Some x ->
         exists a, nth_error angles ((k / size) mod length angles) = Some a
                   /\ nth_error (concat outs) k = Some (add x a).
Proof. exact @step_arrays_fresh. Qed.
Print Assumptions C12_stepping_independent_of_chunks.

Example C12_nonvacuous :
  [1; 2; 3]%Z <> [] /\ (0 < 3)%nat
  /\ exists d, step_arrays Z.add [[0; 0]%Z; [0]%Z; [0; 0; 0; 0; 0]%Z]
                 (mksteps 3 9%Z 0 (angle_gen [1; 2; 3]%Z))
               = Ok ([[1; 1]; [1]; [2; 2; 2; 3; 3]]%Z, d).
Proof. split; [discriminate|]. split; [lia|]. eexists. vm_compute. reflexivity. Qed.

(** A step shorter than one sample is rejected. *)
Theorem C12_zero_step_rejected : forall (A : Type) (add : A -> A -> A) arr d,
  st_size d = O -> step_array add arr d = Err ZeroDivisionError.
Proof. exact @step_zero_size. Qed.
Print Assumptions C12_zero_step_rejected.

Example C12_zero_nonvacuous : st_size (mksteps 0 1%Z 0 (angle_gen [1%Z])) = O.
Proof. reflexivity. Qed.

(** C12, stepped HWP.  Mission sample k has the phase of angle number
    (k / step size) mod n for every division into non-empty chunks; the stored
    value is exactly that angle in radians when the angles are in [0, 360). *)
Theorem C12_stepped_hwp_independent_of_chunks : forall fsamp f start angles ns h,
  set_hwp_mod fsamp Stepped (Some f) start (Some angles) = Ok h ->
  (1 <= trunc (fsamp / f))%Z -> angles <> [] -> Forall (fun n => 0 < n)%nat ns ->
  exists outs h',
    rotate_hwps fsamp ns h = Ok (map HArray outs, h')
    /\ map (@length R) outs = ns
    /\ forall k, (k < length (concat outs))%nat -> exists a v,
         nth_error angles ((k / Z.to_nat (trunc (fsamp / f))) mod length angles) = Some a
         /\ nth_error (concat outs) k = Some v
         /\ same_phase v (radians a)
         /\ ((forall b, In b angles -> 0 <= b < 360) -> v = radians a).
Proof. exact stepped_hwp_law. Qed.
Print Assumptions C12_stepped_hwp_independent_of_chunks.

Example C12_hwp_nonvacuous :
  (exists h, set_hwp_mod 10 Stepped (Some 2) 0 (Some [0; 45; 90]) = Ok h)
  /\ (1 <= trunc (10 / 2))%Z /\ [0; 45; 90] <> [] /\ Forall (fun n => 0 < n)%nat [3; 1; 7]%nat.
Proof.
  split; [unfold set_hwp_mod; destruct (Req_EM_T 2 0); [lra|eexists; reflexivity]|].
  split; [replace (10 / 2) with (IZR 5) by lra; rewrite trunc_Z; lia|].
  split; [discriminate|]. repeat constructor.
Qed.

(** C13, exact law.  Sample i of chunk j of a continuously rotating HWP lags
    the ideal phase by j samples: every chunk border repeats one sample. *)
Theorem C13_continuous_hwp_exact : forall fsamp f start angles ns h,
  set_hwp_mod fsamp Continuous (Some f) start angles = Ok h ->
  f <> 0 -> 0 < fsamp -> Forall (fun n => 0 < n)%nat ns ->
  exists outs h',
    rotate_hwps fsamp ns h = Ok (map HArray outs, h')
    /\ map (@length R) outs = ns
    /\ forall j i out n, nth_error outs j = Some out -> nth_error ns j = Some n ->
         (i < n)%nat ->
         exists v, nth_error out i = Some v
           /\ same_phase v (radians start
                            + 2 * PI * f / fsamp * (INR (before ns j + i) - INR j)).
Proof. exact continuous_hwp_law. Qed.
Print Assumptions C13_continuous_hwp_exact.

Example C13_nonvacuous :
  (exists h, set_hwp_mod 10 Continuous (Some 2) 15 None = Ok h)
  /\ 2 <> 0 /\ 0 < 10 /\ Forall (fun n => 0 < n)%nat [3; 1; 7]%nat.
Proof. split; [eexists; reflexivity|]. split; [lra|]. split; [lra|]. repeat constructor. Qed.

(** C13, partial.  Full statement: for every division into chunks, mission
    sample k has angle start + 2 pi k f / fsamp (mod 2 pi).  Proved: missions
    scanned as one chunk.  Missing: it is false for more chunks (below). *)
Theorem C13_continuous_hwp_one_chunk_partial : forall fsamp f start angles n h,
  set_hwp_mod fsamp Continuous (Some f) start angles = Ok h ->
  f <> 0 -> 0 < fsamp -> (0 < n)%nat ->
  exists out h',
    rotate_hwps fsamp [n] h = Ok ([HArray out], h')
    /\ length out = n
    /\ forall k, (k < n)%nat ->
         nth_error out k = Some (radians start + INR k * (2 * PI * f / fsamp)).
Proof. exact continuous_single_chunk. Qed.
Print Assumptions C13_continuous_hwp_one_chunk_partial.

Example C13_partial_nonvacuous :
  (exists h, set_hwp_mod 10 Continuous (Some 2) 15 None = Ok h) /\ 2 <> 0 /\ 0 < 10 /\ (0 < 4)%nat.
Proof. split; [eexists; reflexivity|]. split; [lra|]. split; [lra|]. lia. Qed.

(** C13 is false in general: with two one-sample chunks the second sample has
    the wrong phase. *)
Theorem C13_continuous_hwp_refuted :
  exists fsamp f start ns h outs h' out v,
    0 < fsamp /\ set_hwp_mod fsamp Continuous (Some f) start None = Ok h
    /\ rotate_hwps fsamp ns h = Ok (map HArray outs, h')
    /\ nth_error outs 1 = Some out /\ nth_error out 0 = Some v
    /\ ~ same_phase v (radians start + 2 * PI * f / fsamp * INR (before ns 1 + 0)).
Proof. exact continuous_drift_witness. Qed.
Print Assumptions C13_continuous_hwp_refuted.

(** C14.  After any history of calls on a configured strategy, resetting makes
    every later sequence of calls return what it would have returned right
    after configuration. *)
Theorem C14_reset_replays : forall c s0 history later,
  configure c = Ok s0 ->
  fst (run_ops later (reset (snd (run_ops history s0)))) = fst (run_ops later s0).
Proof. exact reset_replays. Qed.
Print Assumptions C14_reset_replays.

(** A configuration that uses all three mechanisms. *)
Example C14_nonvacuous :
  exists s, configure (mkconfig 10 0 (Some 3) 0 None Stepped (Some 2) 0 None (Some (2, None)))
            = Ok s /\ el_on (match sg_el s with Some e => e | None => mkel false [] (mksteps 0 0 0 (angle_gen [])) end) = true
            /\ rot_period (ir_rot (sg_rot s)) = true.
Proof.
  unfold configure; cbn [cf_fsamp cf_mode cf_freq cf_hwp_start cf_hwp_angles cf_el cf_old_size
    cf_period cf_rot_start cf_rot_angles].
  unfold set_hwp_mod. destruct (Req_EM_T 2 0); [lra|]. cbn [bind].
  unfold set_el_steps. cbn [map index nth_error bind].
  eexists. split; [reflexivity|]. cbn. 
  destruct (Req_EM_T 2 0); [lra|]. destruct (Req_EM_T 3 0); [lra|]. auto.
Qed.
