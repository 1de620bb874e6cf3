(** * Specification vocabulary for focal planes of several processes *)
From Coq Require Import Reals String.
From Verif Require Import Common M_Beam M_Focal M_Random S_Focal M_Ranks.

(** The same call in a program of one process, with the random numbers and the
    files of process 0. *)
Definition alone (st : inst) (c : call) : res inst :=
  match c with
  | Alike o => step st o
  | LoadCall d tag names np comb pA pB kw => load_focal_plane st (d 0%nat) tag names np comb pA pB kw
  | KillCall f pairs choice => kill_channels st f pairs (choice 0%nat)
  | ReflectCall tag rand rnd kw => create_reflected_ghosts st tag rand (rnd 0%nat) kw
  | CrosstalkCall offs tag rand rnd kw => create_crosstalk_ghosts st offs tag rand (rnd 0%nat) kw
  | RandomCall z prop ig => set_global_prop_random (z 0%nat) st prop ig
  | AddCall z prop ig stdev pp nb na => add_to_prop_random (z 0%nat) st prop ig stdev pp nb na
  end.

Fixpoint script (st : inst) (cs : list call) : res inst :=
  match cs with [] => Ok st | c :: cs => do st <- alone st c; script st cs end.

(** Calls that use no random numbers of their own, or for which all processes
    draw the same numbers.  Loading and killing need neither. *)
Definition agreed (c : call) : Prop :=
  match c with
  | Alike _ | LoadCall _ _ _ _ _ _ _ _ | KillCall _ _ _ => True
  | ReflectCall _ rand rnd _ | CrosstalkCall _ _ rand rnd _ => rand = false \/ forall r, rnd r = rnd 0%nat
  | RandomCall z _ _ => forall r n, z r n = z 0%nat n
  | AddCall z _ _ stdev _ _ _ => stdev = 0%R \/ forall r n, z r n = z 0%nat n
  end.
