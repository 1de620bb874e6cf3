(** * Specification vocabulary: random deviations (C66) *)
From Coq Require Import Reals String.
From Verif Require Import Common M_Beam M_Focal S_Focal.
Open Scope R_scope.

(** The beams in order, each followed by its ghosts when these take part. *)
Definition with_ghosts (st : inst) (incl_ghosts : bool) (rs : list nat) : list nat :=
  flat_map (fun r => r :: (if incl_ghosts then ghosts_of (objs st) r else [])) rs.

(** Attributes to which a number can be added: stored as given, and a number on
    each of the objects. *)
Definition numeric (st : inst) (rs : list nat) (key : string) : Prop :=
  plain key = true /\ key <> "dead"%string
  /\ forall r, In r rs -> exists v, getattr (objs st) r key = Some (VNum v).

(** Member 0 (A) or 1 (B) of a pair. *)
Definition member (p : pair) (b : nat) : slot := match b with O => fst p | _ => snd p end.
Definition takes_part (no_B no_A : bool) (b : nat) : bool := match b with O => negb no_A | _ => negb no_B end.

(** The number of the random draw for member [b] of pair [i]. *)
Definition draw_no (per_pair no_B no_A : bool) (i b : nat) : nat :=
  if (per_pair || no_A || no_B)%bool then i else (2 * i + b)%nat.
