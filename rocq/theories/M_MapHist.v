(** * Model of a session with maps

    /repo/beamconv/instrument.py: calls of [allocate_maps] (1632-1644),
    [bin_tod] (4339-4432, after the filters; [init=True] as in every call the
    package makes), [solve_for_map] (4434-4485) and assignments of [flag], in
    any order.  A call that raises is caught by the caller, who carries on. *)
From Coq Require Import Reals.
From Verif Require Import Common M_Mpi M_Solve.
Open Scope R_scope.

Inductive act : Type :=
| Allocate (nside : nat)
| SetFlag (f : option (list bool))
| Bin (c : call) (add_to_global : bool)
| Solve.

(** Simplification: a [bin_tod] that fails leaves the destination inside qpoint
    as it was; the next one begins with a new destination anyway (4391-4392).
    [solve_for_map] works on copies ([copy=True] at 4473-4474, [reduce_array] makes a
    new array). *)
Definition act_step (s : maps) (a : act) : maps :=
  match a with
  | Allocate nside => allocate_maps nside s
  | SetFlag f => {| global := global s; depo := depo s; own_flag := f; npix := npix s |}
  | Bin c add =>
      match bin_tod s (c_samples c) (c_flag c) true add (c_start c) (c_end c) with
      | Ok s' => s'
      | Err _ => s
      end
  | Solve => s
  end.
Definition session (s : maps) (h : list act) : maps := fold_left act_step h s.
(** A new instance (1290-1298): no maps, no [flag]. *)
Definition new_instance : maps := {| global := None; depo := []; own_flag := None; npix := 0 |}.
