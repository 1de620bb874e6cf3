(** * C106: the ground and the sky are seen where the telescope points *)
From Coq Require Import Reals.
From Verif Require Import Common M_Chunks M_Detpair M_Hwp M_Scan S_Chunks S_Scan S_Ground
  L_ScanEx L_Ground L_GroundEx.
Open Scope R_scope.

(** The sky, with or without a memory map and ground template. *)
Theorem C106_sky : forall B (E : env B) O s s',
  (o_ground O = true -> o_preview O = false) ->
  covers_mission E s -> rotation_ok s -> chunks_unmarked O s ->
  scan_instrument E O s = Ok s' ->
  exists new, s_log s' = s_log s ++ new /\ looks_where_pointed false None new.
Proof. exact (@instrument_looks_sky). Qed.
Print Assumptions C106_sky.

(** The ground, when no pointing is kept in a memory map. *)
Theorem C106_ground_partial : forall B (E : env B) O s s',
  (o_ground O = true -> o_preview O = false) ->
  covers_mission E s -> rotation_ok s -> chunks_unmarked O s ->
  (o_ground O = true -> e_ext E = false /\ o_memmap O = false /\ s_mmap s = None) ->
  scan_instrument E O s = Ok s' ->
  exists new, s_log s' = s_log s ++ new /\ looks_where_pointed true None new.
Proof. exact (@instrument_looks_ground). Qed.
Print Assumptions C106_ground_partial.

Example C106_case :
  let E := gr_env in let O := gr_opts false in let s := gr_state in
  o_ground O = true /\ o_preview O = false
  /\ covers_mission E s /\ rotation_ok s /\ chunks_unmarked O s
  /\ e_ext E = false /\ o_memmap O = false /\ s_mmap s = None
  /\ exists s', scan_instrument E O s = Ok s'.
Proof.
  exact (conj eq_refl (conj eq_refl (conj gr_covers (conj gr_rotation (conj (gr_unmarked _)
    (conj eq_refl (conj eq_refl (conj eq_refl gr_runs)))))))).
Qed.

(** With a memory map, the pairs after the first see the ground where the
    telescope pointed in the last chunk of the first pair: here a detector sees
    the sky at elevation 0 and, for the same samples, the ground at elevation 2. *)
Theorem C106_memmap_refuted : exists (E : env nat) O s s' new,
  o_memmap O = true /\ o_ground O = true /\ o_preview O = false /\ e_ext E = false /\ s_mmap s = None
  /\ covers_mission E s /\ rotation_ok s /\ chunks_unmarked O s
  /\ scan_instrument E O s = Ok s' /\ s_log s' = s_log s ++ new
  /\ ~ looks_where_pointed true None new
  /\ exists d v vg t tg, In (EScan (Main d) v t) new /\ In (EScan (Main d) vg tg) new
       /\ v_ground v = false /\ v_ground vg = true /\ v_start v = v_start vg
       /\ v_bore v = [0; 0] /\ v_bore vg = [2; 2].
Proof. exact gr_refuted. Qed.
Print Assumptions C106_memmap_refuted.
