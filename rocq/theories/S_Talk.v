(** * Specification vocabulary: maps from pairs with cross-talk (C104) *)
From Coq Require Import Reals List String.
Import ListNotations.
From Verif Require Import Common M_Quat M_Hwp M_Detpair M_Scan M_Bin S_Detpair S_Scan S_Saved S_Contrib.
From Verif Require Import M_Tod S_Bin Cplx.
Open Scope R_scope.

(** Two detectors in one place, at right angles. *)
Definition orthogonal (P : optics) (a b : det spindict) : Prop :=
  d_dead a = false /\ d_dead b = false
  /\ x_off P (d_id b) = x_off P (d_id a) /\ x_polang P (d_id b) = x_polang P (d_id a) + 90.

(** A scan, by one process, of a sky that all detectors see as [m0], [m2], as in
    [observed] of [S_Bin], except that there may be cross-talk: every pair is
    orthogonal (or dead). *)
Record observed_pairs (P : optics) (m0 m2 : list C) (err : R) (E : env spindict) (O : opts) (s s' : state spindict)
  (new : list event) : Prop := mkpairs {
  op_set : well_set E O s;
  op_rate : 0 < sg_fsamp (s_strat s);
  op_sky : sky_only O;
  op_ready : all_ready s;
  op_pairs : forall a ob, In (Some a, ob) (s_beams s) ->
    (exists b, ob = Some b /\ orthogonal P a b) \/ forall d, In d (pair_dets (Some a, ob)) -> d_dead d = true;
  op_dets : forall d, In d (dets (s_beams s)) -> d_dead d = false -> d_ghosts d = [] /\ x_error P (d_id d) = err;
  op_maps : forall a ob maps, In (Some a, ob) (s_beams s) -> main_beam a maps -> seen_as m0 m2 maps;
  op_signal : forall d maps v tod j, v_ground v = false -> view_tod P d maps v = Ok tod ->
    e_signal E (Main d) maps v j = Re (nth j tod (RtoC 0));
  op_run : scan_instrument E O s = Ok s';
  op_log : s_log s' = s_log s ++ new }.

(** Intensity times [1 + c], polarisation times [1 - c]. *)
Definition talked (c : R) (x : R * R * R) : R * R * R := let '(i, q, u) := x in ((1 + c) * i, (1 - c) * q, (1 - c) * u).
