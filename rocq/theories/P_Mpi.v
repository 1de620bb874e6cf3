(** * Property theorems: distribution of work over MPI ranks (C01-C05) *)
From Verif Require Import Common M_Mpi S_Mpi L_Mpi.

(** C01: what the ranks receive, in rank order, is exactly the list; parts are
    balanced; without MPI the list is returned as it is. *)
Theorem C01_scatter_partition : forall (A : Type) (size : nat) (l : list A),
  0 < size ->
  covers (on_ranks size (fun r => scatter_list true size r l)) l
  /\ balanced (on_ranks size (fun r => scatter_list true size r l)).
Proof. intros A size l H. exact (conj (scatter_covers size l H) (scatter_balanced size l H)). Qed.
Print Assumptions C01_scatter_partition.

Example C01_nonvacuous :
  on_ranks 4 (fun r => scatter_list true 4 r [10; 11; 12; 13; 14; 15])
  = [[10; 11]; [12; 13]; [14]; [15]].
Proof. reflexivity. Qed.

Theorem C01_scatter_without_mpi : forall (A : Type) (size r : nat) (l : list A),
  scatter_list false size r l = l.
Proof. exact (fun A size r l => scatter_no_mpi size r l). Qed.
Print Assumptions C01_scatter_without_mpi.

(** C02: views handed out by [distribute_array]. *)
Theorem C02_distribute_partition : forall (A : Type) (size : nat) (l : list A),
  0 < size ->
  on_ranks size (fun r => distribute_array true size r l)
  = on_ranks size (fun r => scatter_list true size r l)
  /\ covers (on_ranks size (fun r => distribute_array true size r l)) l
  /\ balanced (on_ranks size (fun r => distribute_array true size r l))
  /\ forall r, contiguous (distribute_array true size r l) l.
Proof.
  exact (fun A size l H =>
    conj (distribute_ranks size l H)
   (conj (eq_ind_r (fun x => covers x l) (scatter_covers size l H) (distribute_ranks size l H))
   (conj (eq_ind_r (fun x => balanced x) (scatter_balanced size l H) (distribute_ranks size l H))
         (fun r => distribute_contiguous true size r l)))).
Qed.
Print Assumptions C02_distribute_partition.

Example C02_nonvacuous :
  on_ranks 3 (fun r => distribute_array true 3 r [1; 2; 3; 4; 5; 6; 7])
  = [[1; 2; 3]; [4; 5]; [6; 7]].
Proof. reflexivity. Qed.

(** C03: pointing gathered from all ranks equals the serial pointing, for any
    per-sample pointing function and any initial buffer content. *)
Theorem C03_parallel_pointing_is_serial :
  forall (S1 S2 S3 F : Type) (azel2bore : S1 -> S2 -> S3 -> quat F)
         (az : list S1) (el : list S2) (ct : list S3) (size : nat) (junk : list F),
  0 < size -> length el = length az -> length ct = length az ->
  length junk = 4 * length az ->
  parallel_bore azel2bore az el ct size junk
  = Ok (serial_bore azel2bore az el ct).
Proof. exact (@parallel_is_serial). Qed.
Print Assumptions C03_parallel_pointing_is_serial.

Example C03_nonvacuous :
  let f := fun (a e t : nat) => (a, e, t, a + e + t) in
  parallel_bore f [1; 2; 3] [4; 5; 6] [7; 8; 9] 5 (repeat 77 12)
  = Ok [(1, 4, 7, 12); (2, 5, 8, 15); (3, 6, 9, 18)].
Proof. reflexivity. Qed.

(** C04: with pairs scattered over the ranks (the default) every pair is worked
    on by exactly one rank exactly once and all ranks do the same number of
    iterations. *)
Theorem C04_every_pair_scanned_once : forall (A : Type) (size : nat) (beams : list A),
  0 < size ->
  covers (on_ranks size (fun r => rank_pairs true true size r beams beams)) beams
  /\ forall r1 r2,
     length (rank_iterations true true size r1 beams beams)
     = length (rank_iterations true true size r2 beams beams).
Proof.
  exact (fun A size beams H => conj (scan_covers size beams H)
    (fun r1 r2 => eq_trans (rank_iterations_length true true size r1 beams beams)
                (eq_sym (rank_iterations_length true true size r2 beams beams)))).
Qed.
Print Assumptions C04_every_pair_scanned_once.

Example C04_nonvacuous :
  on_ranks 3 (fun r => rank_iterations true true 3 r [10; 20; 30; 40] [10; 20; 30; 40])
  = [[Some 10; Some 20]; [Some 30; None]; [Some 40; None]].
Proof. reflexivity. Qed.

Theorem C04_without_mpi : forall (A : Type) (beams : list A) (scatter : bool),
  rank_pairs false scatter 1 0 beams beams = beams.
Proof. exact (fun A beams scatter => scan_no_mpi beams scatter). Qed.
Print Assumptions C04_without_mpi.

(** C04 fails when scattering is switched off while running on several ranks:
    pair 20 is scanned by no rank, pair 10 by both. *)
Theorem C04_no_scatter_refuted : exists (size : nat) (beams : list nat) (b : nat),
  0 < size /\ In b beams
  /\ ~ In b (concat (on_ranks size (fun r => rank_pairs true false size r beams beams))).
Proof. exact no_scatter_witness. Qed.
Print Assumptions C04_no_scatter_refuted.

(** C04 also fails when pairs were already distributed at creation
    ([create_focal_plane(scatter=True)]) and are scanned with scatter off: the
    ranks run different numbers of (collective) iterations, and pairs are lost. *)
Theorem C04_predistributed_refuted : exists (size : nat) (all : list nat) (b r1 r2 : nat),
  let local r := distribute_array true size r all in
  0 < size /\ r1 < size /\ r2 < size
  /\ length (rank_iterations true false size r1 (local 0) (local r1))
     <> length (rank_iterations true false size r2 (local 0) (local r2))
  /\ In b all
  /\ ~ In b (concat (on_ranks size (fun r => rank_pairs true false size r (local 0) (local r)))).
Proof. exact predistributed_witness. Qed.
Print Assumptions C04_predistributed_refuted.

(** C05: the map of a given number of pixels that the root obtains by reducing
    the maps the ranks have accumulated is the map one process accumulates over
    all pairs, whatever the number of ranks (pixel values are added exactly). *)
Theorem C05_map_independent_of_ranks :
  forall (M : Type) (add : M -> M -> M) (zero : M),
  (forall a b, add a b = add b a) ->
  (forall a b c, add a (add b c) = add (add a b) c) ->
  (forall a, add zero a = a) ->
  forall (A : Type) (contrib : A -> list M) (size npix : nat) (beams : list A),
  0 < size ->
  (forall a, length (contrib a) = npix) ->
  let empty_map := repeat zero npix in
  reduce_array add (on_ranks size (fun r =>
     accumulate add empty_map (map contrib (rank_pairs true true size r beams beams))))
  = accumulate add empty_map (map contrib beams).
Proof. exact (fun M add zero HC HA H0 A contrib size npix beams =>
         ranks_map add zero HC HA H0 contrib size npix beams). Qed.
Print Assumptions C05_map_independent_of_ranks.

(** Each pixel of the accumulated map is the sum of that pixel over all pairs. *)
Theorem C05_pixel_is_sum :
  forall (M : Type) (add : M -> M -> M) (zero : M),
  (forall a b, add a b = add b a) ->
  (forall a b c, add a (add b c) = add (add a b) c) ->
  (forall a, add zero a = a) ->
  forall (A : Type) (contrib : A -> list M) (npix p : nat) (beams : list A),
  (forall a, length (contrib a) = npix) -> p < npix ->
  nth p (accumulate add (repeat zero npix) (map contrib beams)) zero
  = fold_right add zero (map (fun a => nth p (contrib a) zero) beams).
Proof. exact (fun M add zero HC HA H0 A contrib npix p beams =>
         accumulate_pixel add zero HC HA H0 contrib npix p beams). Qed.
Print Assumptions C05_pixel_is_sum.

Example C05_nonvacuous :
  let contrib x := [x; (x * x)%Z] in
  reduce_array Z.add (on_ranks 3 (fun r => accumulate Z.add [0; 0]%Z
     (map contrib (rank_pairs true true 3 r [1; 2; 3; 4]%Z [1; 2; 3; 4]%Z))))
  = [10; 30]%Z.
Proof. reflexivity. Qed.
