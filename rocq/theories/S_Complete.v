(** * Specification vocabulary: scans that run to their end (C93) *)
From Coq Require Import Reals.
From Verif Require Import Common M_Chunks M_Hwp M_Detpair M_Scan S_Chunks S_Detpair S_Scan.
Open Scope R_scope.

(** Arguments of [set_instr_rot], [set_hwp_mod] and [set_el_steps] that make
    sense: a period, or the time between steps, is at least one sample; lists
    of angles are not empty; the modulation is one of the documented ones. *)
Record sound_settings (f : config) : Prop := mksound_settings {
  st_period : forall p, cf_period f = Some p -> p <> 0 -> 1 <= p * cf_fsamp f;
  st_rot_angles : cf_rot_angles f <> Some [];
  st_mode : cf_mode f <> OtherMode;
  st_hwp_step : cf_mode f = Stepped -> exists q, cf_freq f = Some q /\ q <> 0 /\ 1 <= cf_fsamp f / q;
  st_hwp_angles : cf_hwp_angles f <> Some [];
  st_el_step : forall p l, cf_el f = Some (p, l) -> l <> Some [] /\ (p <> 0 -> 1 <= cf_fsamp f * p) }.

Section S.
  Context {B : Type}.

  (** Options that go together: a sky unless it is a preview, which cannot
      save or use a ground template; with a ground template no external
      pointing, no memory map and no saved pointing. *)
  Record sound_options (E : env B) (O : opts) (s : state B) : Prop := mksound_options {
    so_sky : o_alm O = true \/ o_preview O = true;
    so_preview : o_preview O = true -> o_save_tod O = false /\ o_save_point O = false /\ o_ground O = false;
    so_ground : o_ground O = true ->
      e_ext E = false /\ o_memmap O = false /\ s_mmap s = None /\ o_save_point O = false;
    so_reuse : o_reuse O = false;
    so_filter : o_binning O = true ->
      forall t, exists t', o_filter O (h_mode (sg_hwp (s_strat s))) t = Ok t' }.

  (** A focal plane whose beams can all be made (C49), without ghosts in the
      place of detectors. *)
  Definition sound_pairs (beams : list (bpair B)) : Prop :=
    forall p, In p beams ->
      (forall d, In d (pair_dets p) -> d_ghost d = false)
      /\ (p = (None, None) \/ exists a ob, p = (Some a, ob) /\ pair_ready a ob).

  Record scannable (E : env B) (O : opts) (s : state B) : Prop := mkscannable {
    sc_settings : exists f, sound_settings f /\ configure f = Ok (s_strat s);
    sc_options : sound_options E O s;
    sc_pairs : sound_pairs (s_beams s);
    sc_mission : covers_mission E s;
    sc_marks : chunks_unmarked O s;
    sc_mmap : forall m, s_mmap s = Some m -> Z.of_nat (length m) = e_nsamp E;
    sc_elev : forall c, Z.of_nat (length (e_elev E c)) = Z.max 0 (c_end c - c_start c) }.

  (** Scans one after another, each with its own options and followed, or not,
      by the documented resets. *)
  Fixpoint history (E : env B) (h : list (opts * bool)) (s : state B) : res (state B) :=
    match h with
    | [] => Ok s
    | (o, r) :: h =>
        do s <- scan_instrument E o s;
        history E h (if r : bool then set_strat s (reset (s_strat s)) else s)
    end.
End S.
