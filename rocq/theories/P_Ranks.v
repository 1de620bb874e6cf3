(** * Property theorems: the focal plane on several processes (C96)

    All processes make the same calls ([call], M_Ranks.v), each with its own
    random numbers and files.  [script]: the same calls in a program of one
    process (S_Ranks.v). *)
From Coq Require Import Reals String.
From Verif Require Import Common M_Beam M_Focal S_Focal M_Mpi S_Mpi M_Ranks S_Ranks L_FocalRef L_Ranks.
Open Scope string_scope.

(** As long as processes that draw random numbers for ghosts or properties draw
    the same ones, all have the focal plane that one process would have, or fail
    as it would.  Killing channels and loading files need no such condition:
    only the numbers and files of process 0 count. *)
Theorem C96_same_focal_plane : forall size cs, (0 < size)%nat -> Forall agreed cs ->
  calls_all (repeat empty_inst size) cs = (do st <- script empty_inst cs; Ok (repeat st size)).
Proof. exact same_focal_planes. Qed.
Print Assumptions C96_same_focal_plane.

(** Arrays broadcast from process 0 arrive unchanged. *)
Theorem C96_broadcast_array : forall (A : Type) rank (arrs : nat -> option (list A)) junk root,
  arrs 0%nat = Some root -> (forall n, List.length (junk n) = n) ->
  broadcast_array true rank arrs junk = Ok (Some root).
Proof. exact @broadcast_array_ok. Qed.
Print Assumptions C96_broadcast_array.

(** Ghosts with random amplitudes: every process draws its own. *)
Theorem C96_random_ghosts_refuted : forall x y x' y', exists st0 st1,
  calls_all (repeat empty_inst 2)
    [Alike (NewBeam []); Alike (NewBeam []); Alike (Add (Pairs [(Some 0%nat, Some 1%nat)]) true);
     ReflectCall "g" true (fun r => match r with O => [x; y] | _ => [x'; y'] end) []]
  = Ok [st0; st1]
  /\ ghosts_of (objs st0) 0 = [2%nat] /\ ghosts_of (objs st1) 0 = [2%nat]
  /\ getattr (objs st0) 2 "amplitude" = Some (VNum (1 + x))
  /\ getattr (objs st1) 2 "amplitude" = Some (VNum (1 + x')).
Proof. exact reflect_ranks. Qed.
Print Assumptions C96_random_ghosts_refuted.

(** Random deviations of properties likewise. *)
Theorem C96_random_properties_refuted : forall (z : nat -> nat -> R) s, exists st0 st1,
  calls_all (repeat empty_inst 2)
    [Alike (NewBeam []); Alike (NewBeam []); Alike (Add (Pairs [(Some 0%nat, Some 1%nat)]) true);
     RandomCall z [("polang", s)] false] = Ok [st0; st1]
  /\ getattr (objs st0) 0 "polang" = Some (VNum (0 + (1 + z 0%nat 0%nat) * s))
  /\ getattr (objs st1) 0 "polang" = Some (VNum (0 + (1 + z 1%nat 0%nat) * s)).
Proof. exact random_ranks. Qed.
Print Assumptions C96_random_properties_refuted.

(** C04: scanning scatters the pairs of process 0.  Pairs that were given to
    other processes when the focal plane was made are scanned by nobody. *)
Theorem C04_predistributed_lost_refuted : forall (A : Type) size (all : list A) b,
  let local r := distribute_array true size r all in
  ~ In b (local 0%nat) ->
  ~ In b (concat (on_ranks size (fun r => rank_pairs true true size r (local 0%nat) (local r)))).
Proof. exact (fun A size all b N H => N (only_root_pairs size _ _ b H)). Qed.
Print Assumptions C04_predistributed_lost_refuted.

Example C96_nonvacuous :
  let cs := [Alike (Create 1 2 10 false 90 true []);
             LoadCall (fun r => match r with O => [("a", Single [])] | _ => [] end) "" [] false true 0 90 [];
             KillCall (1 / 2) true (fun r n m => [r; S r])] in
  Forall agreed cs
  /\ exists st, calls_all (repeat empty_inst 3) cs = Ok [st; st; st] /\ List.length (fp st) = 3%nat
     /\ getattr (objs st) 0 "dead" = Some (VBool true) /\ getattr (objs st) 5 "dead" = Some (VBool false).
Proof.
  split; [repeat constructor|]. rewrite C96_same_focal_plane by (auto; repeat constructor).
  eexists. split; [vm_compute; reflexivity|]. repeat split; vm_compute; reflexivity.
Qed.

Example C04_predistributed_nonvacuous :
  ~ In 4%nat (distribute_array true 2 0 [1; 2; 3; 4]%nat) /\ In 4%nat (distribute_array true 2 1 [1; 2; 3; 4]%nat).
Proof. vm_compute. intuition discriminate. Qed.
