(** * Specification vocabulary: what is binned *)
From Coq Require Import Reals.
From Verif Require Import Common M_Chunks M_Hwp M_Detpair M_Scan S_Chunks S_Scan S_Saved.
Open Scope R_scope.

(** What was binned for a detector: pointing and timestream, in order. *)
Fixpoint bins (d : Z) (log : list event) : list (view * list R) :=
  match log with
  | [] => []
  | EBin d' v t :: r => if (d' =? d)%Z then (v, t) :: bins d r else bins d r
  | _ :: r => bins d r
  end.

(** Everything that was binned, with the detector it was binned for. *)
Fixpoint all_bins (log : list event) : list (Z * (view * list R)) :=
  match log with
  | [] => []
  | EBin d v t :: r => (d, (v, t)) :: all_bins r
  | _ :: r => all_bins r
  end.

Section S.
  Context {B : Type}.

  (** Arguments of a scan: binning, without ground template, filters, or spin
      maps kept from an earlier pair. *)
  Definition sky_only (O : opts) : Prop :=
    o_binning O = true /\ o_ground O = false /\ o_reuse O = false /\ no_filters O.

  (** Two processes that observe the same sky in the same way: same mission,
      scan strategy, settings, chunks and signal.  They may differ in the other
      pairs on the focal plane, their place in a communicator, a memory map of
      the boresight and what they save. *)
  Record same_observation (E E2 : env B) (O O2 : opts) (s s2 : state B) : Prop := mkobs {
    ob_nsamp : e_nsamp E2 = e_nsamp E;
    ob_ext : e_ext E2 = e_ext E;
    ob_elev : e_elev E2 = e_elev E;
    ob_signal : e_signal E2 = e_signal E;
    ob_strat : s_strat s2 = s_strat s;
    ob_chunks : chunks_used E2 s2 = chunks_used E s;
    ob_ctalk : o_ctalk O2 = o_ctalk O }.

  (** The process works on this pair. *)
  Definition works_on (E : env B) (O : opts) (s : state B) (p : bpair B) : Prop :=
    exists i, nth_error (s_beams s) i = Some p /\ In (Some i) (my_pairs E O s).

  (** Every pair with a live detector has an A detector and beams that can be
      made (C49). *)
  Definition all_ready (s : state B) : Prop :=
    forall p d, In p (s_beams s) -> In d (pair_dets p) -> d_dead d = false ->
      exists a ob, p = (Some a, ob) /\ pair_ready a ob.
End S.
