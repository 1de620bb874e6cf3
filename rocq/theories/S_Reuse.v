(** * Specification vocabulary for reused spin maps (C97) *)
From Coq Require Import Reals List.
Import ListNotations.
From Verif Require Import Common M_Detpair M_Scan S_Scan.

Section S.
  Context {B : Type}.

  (** The same options with [reuse_spinmaps=True]. *)
  Definition reusing (O : opts) : opts :=
    mkopts (o_alm O) (o_ground O) (o_binning O) (o_memmap O) (o_scatter O) true (o_save_tod O)
      (o_save_point O) (o_ctalk O) (o_preview O) (o_filter O).

  (** Two pairs whose A detectors have the same beam and the same ghost beams. *)
  Definition same_beam (p q : bpair B) : Prop :=
    match fst p, fst q with
    | Some a, Some b =>
        d_gen a = d_gen b
        /\ map (fun g => (gh_idx g, gh_gen g)) (d_ghosts a) = map (fun g => (gh_idx g, gh_gen g)) (d_ghosts b)
    | _, _ => False
    end.

  (** All pairs this process scans are such, with coefficients from the settings. *)
  Definition one_beam (E : env B) (O : opts) (s : state B) : Prop :=
    (forall p, In p (s_beams s) -> from_settings p)
    /\ forall i j p q, In (Some i) (my_pairs E O s) -> In (Some j) (my_pairs E O s) ->
       nth_error (s_beams s) i = Some p -> nth_error (s_beams s) j = Some q ->
       p <> (None, None) -> q <> (None, None) -> same_beam p q.
End S.
