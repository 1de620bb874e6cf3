(** * Specification vocabulary for ghosts and their beams *)
From Verif Require Import Common M_Detpair.

Section S.
  Context {B : Type}.

  (** The coefficients of a ghost: those assigned to it, else those its own
      settings give. *)
  Definition ghost_beam (g : gh B) (b : B) : Prop :=
    gh_blm g = Some b \/ (gh_blm g = None /\ gh_gen g = Ok b).
  Definition main_beam (d : det B) (b : B) : Prop :=
    d_blm d = Some b \/ (d_blm d = None /\ d_gen d = Ok b).

  (** Everything that can be loaded or created, can. *)
  Definition beams_available (a : det B) (b : option (det B)) : Prop :=
    (exists x, main_beam a x)
    /\ (forall g, In g (d_ghosts a) -> exists x, ghost_beam g x)
    /\ (forall d g, b = Some d -> In g (d_ghosts d) -> exists x, ghost_beam g x).

  (** [owner] is the first in the list with the index of [g]. *)
  Definition first_of_index (gs : list (gh B)) (i : nat) (owner : gh B) : Prop :=
    exists pre post, gs = pre ++ owner :: post /\ gh_idx owner = i
      /\ forall x, In x pre -> gh_idx x <> i.

  (** The indices in use are 0, 1, ..., without a gap. *)
  Definition no_gap (gs : list (gh B)) : Prop :=
    forall g j, In g gs -> j <= gh_idx g -> exists g', In g' gs /\ gh_idx g' = j.

  (** Ghosts as [create_ghost] numbers them. *)
  Definition numbered (gs : list (gh B)) : Prop :=
    forall k g, nth_error gs k = Some g -> gh_idx g = k.

  (** Ghosts that use the same index are meant to have the same beam. *)
  Definition consistent (gs : list (gh B)) : Prop :=
    forall g g' x, In g gs -> In g' gs -> gh_idx g = gh_idx g' -> ghost_beam g x -> ghost_beam g' x.

  (** What a user can do to a list of ghosts: tell the [i]-th to use the beam
      of the [j]-th.  [None]: no such ghosts, or the beam cannot be made. *)
  Definition reuse (gs : list (gh B)) (i j : nat) : option (list (gh B)) :=
    match nth_error gs i, nth_error gs j with
    | Some g, Some p =>
        match share g p with
        | Ok g' => Some (firstn i gs ++ g' :: skipn (S i) gs)
        | Err _ => None
        end
    | _, _ => None
    end.

  Fixpoint reuses (gs : list (gh B)) (l : list (nat * nat)) : option (list (gh B)) :=
    match l with
    | [] => Some gs
    | (i, j) :: r => match reuse gs i j with Some gs => reuses gs r | None => None end
    end.

  (** Same detector, apart from coefficients kept in memory. *)
  Definition same_ghost (g g' : gh B) : Prop := gh_dead g' = gh_dead g /\ gh_gen g' = gh_gen g.
  Definition same_det (d d' : det B) : Prop :=
    d_id d' = d_id d /\ d_dead d' = d_dead d /\ d_ghost d' = d_ghost d /\ d_gen d' = d_gen d
    /\ Forall2 same_ghost (d_ghosts d) (d_ghosts d').
  Definition same_odet (d d' : option (det B)) : Prop :=
    match d, d' with
    | Some d, Some d' => same_det d d'
    | None, None => True
    | _, _ => False
    end.
End S.
