(** * Specification: what saving may change *)
From Coq Require Import Reals.
From Verif Require Import Common M_Chunks M_Hwp M_Scan.
Open Scope R_scope.

(** Two calls of [scan_instrument_mpi] that differ at most in [save_tod] and
    [save_point]. *)
Record same_but_saving (O O' : opts) : Prop := mksbs {
  sb_alm : o_alm O' = o_alm O;
  sb_ground : o_ground O' = o_ground O;
  sb_binning : o_binning O' = o_binning O;
  sb_memmap : o_memmap O' = o_memmap O;
  sb_scatter : o_scatter O' = o_scatter O;
  sb_reuse : o_reuse O' = o_reuse O;
  sb_ctalk : o_ctalk O' = o_ctalk O;
  sb_preview : o_preview O' = o_preview O;
  sb_filter : o_filter O' = o_filter O }.

(** The same outcome except for the saved arrays: the same calls with the same
    timestreams and pointing in the same order (so the same maps), and the same
    scan strategy afterwards. *)
Record same_outcome {B} (s s' : state B) : Prop := mksame {
  so_log : s_log s' = s_log s;
  so_strat : s_strat s' = s_strat s;
  so_beams : s_beams s' = s_beams s;
  so_chunks : s_chunks s' = s_chunks s;
  so_maps : s_maps s' = s_maps s;
  so_mmap : s_mmap s' = s_mmap s;
  so_bore : s_bore s' = s_bore s;
  so_gbore : s_gbore s' = s_gbore s;
  so_hwp : s_hwp s' = s_hwp s;
  so_tod : s_tod s' = s_tod s;
  so_qoff : s_qoff s' = s_qoff s }.
