(** * C93: scans with settings that make sense run to their end *)
From Coq Require Import Reals.
From Verif Require Import Common M_Chunks M_Hwp M_Detpair M_Scan S_Chunks S_Detpair S_Scan S_Complete
  L_Complete L_Complete4 L_ScanEx L_ScanEx2 L_ScanEx3 L_CompleteEx.
Open Scope R_scope.

(** Settings that make sense are accepted. *)
Theorem C93_settings : forall f, sound_settings f -> exists u, configure f = Ok u.
Proof. exact sound_accepted. Qed.
Print Assumptions C93_settings.

(** A scan whose settings, options, focal plane and chunks make sense ends
    without an exception, on any process of the communicator, for any number of
    samples, chunks and detectors. *)
Theorem C93_completes : forall B (E : env B) O s, scannable E O s -> exists s', scan_instrument E O s = Ok s'.
Proof. exact @completes. Qed.
Print Assumptions C93_completes.

(** So does any number of scans one after another, with or without the
    documented resets in between, provided all of them use a ground template or
    none does, and beams come from settings. *)
Theorem C93_history : forall B (E : env B) h s, s_mmap s = None ->
  (forall O r, In (O, r) h -> scannable E O s) ->
  (forall O r O' r', In (O, r) h -> In (O', r') h -> o_ground O = o_ground O') ->
  (forall p, In p (s_beams s) -> from_settings p) ->
  exists s', history E h s = Ok s'.
Proof. exact @histories. Qed.
Print Assumptions C93_history.

(** The hypotheses are met: rotation every 3 samples, elevation steps every 2,
    ghosts and dead detectors; saved timestreams with a memory map, a ground
    template, a preview. *)
Example C93_case : let s := rep_state mv_strat ex_beams in
  sound_settings mv_cfg
  /\ scannable ex_env mv_opts s /\ scannable ex_env (ex_opts true false) s /\ scannable ex_env pv_opts s
  /\ s_mmap s = None /\ (forall p, In p (s_beams s) -> from_settings p).
Proof.
  exact (conj mv_sound (conj (mv_scannable _ mv_opts_sound) (conj (mv_scannable _ gr_opts_sound)
    (conj (mv_scannable _ pv_opts_sound) (conj eq_refl ex_all_settings))))).
Qed.

(** Options that each make sense but not together raise in the middle of a
    scan: a ground template with external pointing ... *)
Theorem C93_ground_external_refuted : exists (E : env nat) O s, e_ext E = true /\ o_ground O = true
  /\ (exists f, sound_settings f /\ configure f = Ok (s_strat s))
  /\ scan_instrument E O s = Err AttributeError.
Proof.
  exact (ex_intro _ ext_env (ex_intro _ (ex_opts true false) (ex_intro _ (rep_state mv_strat ex_beams_g)
    (conj eq_refl (conj eq_refl (conj (ex_intro _ mv_cfg (conj mv_sound mv_configured)) ground_external_fails)))))).
Qed.
Print Assumptions C93_ground_external_refuted.

(** ... and a preview with a ground template. *)
Theorem C93_preview_ground_refuted : exists (E : env nat) O s, o_preview O = true /\ o_ground O = true
  /\ o_save_tod O = false /\ o_save_point O = false
  /\ (exists f, sound_settings f /\ configure f = Ok (s_strat s))
  /\ scan_instrument E O s = Err AttributeError.
Proof.
  exact (ex_intro _ ex_env (ex_intro _ pg_opts (ex_intro _ (rep_state mv_strat ex_beams_g)
    (conj eq_refl (conj eq_refl (conj eq_refl (conj eq_refl
      (conj (ex_intro _ mv_cfg (conj mv_sound mv_configured)) preview_ground_fails)))))))).
Qed.
Print Assumptions C93_preview_ground_refuted.

(** A rotation period below one sample is accepted by [set_instr_rot], and the
    scan fails later. *)
Theorem C93_fast_rotation_refuted : exists (E : env nat) O s f, configure f = Ok (s_strat s)
  /\ cf_period f = Some (1 / 3) /\ cf_fsamp f = 1
  /\ exists e, scan_instrument E O s = Err e.
Proof.
  exact (ex_intro _ ex_env (ex_intro _ (ex_opts false false) (ex_intro _ (rep_state fast_strat ex_beams_g)
    (ex_intro _ fast_cfg (conj fast_configured (conj eq_refl (conj eq_refl fast_fails))))))).
Qed.
Print Assumptions C93_fast_rotation_refuted.
