(** * Reusing spin maps: C97 *)
From Coq Require Import Reals.
From Verif Require Import Common M_Chunks M_Hwp M_Detpair M_Scan S_Chunks S_Scan S_Reuse
  L_ScanEx L_Reuse L_ReuseEx.
Open Scope R_scope.

(** Where the pairs a process scans all have the same beams, [reuse_spinmaps]
    changes nothing: a scan that succeeds without it succeeds with it, and
    leaves the same instrument: timestreams, map contributions, saved data,
    pointing and plate. *)
Theorem C97_same_beams : forall B (E : env B) O s s',
  o_preview O = false -> o_reuse O = false ->
  covers_mission E s -> rotation_ok s -> chunks_unmarked O s -> one_beam E O s -> s_maps s = None ->
  scan_instrument E O s = Ok s' ->
  scan_instrument E (reusing O) s = Ok s'.
Proof. exact @reuse_first. Qed.
Print Assumptions C97_same_beams.

Example C97_same_beams_case :
  one_beam ex_env (ex_opts false false) (re_state 1)
  /\ exists s', scan_instrument ex_env (ex_opts false false) (re_state 1) = Ok s'.
Proof. split; [apply re_one|apply re_runs]. Qed.

(** The same for a later scan of the same sky: after a first scan anything but
    the beams and the stored spin maps may be changed, such as the chunks, the
    rotation settings, the plate and the options, and the maps of the first
    scan still serve. *)
Theorem C97_again : forall B (E : env B) O O2 s s1 t t',
  o_preview O = false -> o_preview O2 = false -> o_reuse O2 = false ->
  o_ground O2 = o_ground O -> o_scatter O2 = o_scatter O ->
  covers_mission E s -> rotation_ok s -> chunks_unmarked O s -> one_beam E O s -> s_maps s = None ->
  scan_instrument E O s = Ok s1 ->
  s_beams t = s_beams s1 -> s_maps t = s_maps s1 ->
  covers_mission E t -> rotation_ok t -> chunks_unmarked O2 t ->
  scan_instrument E O2 t = Ok t' ->
  scan_instrument E (reusing O2) t = Ok t'.
Proof. exact @reuse_again. Qed.
Print Assumptions C97_again.

Example C97_again_case : exists s1 t',
  scan_instrument ex_env (ex_opts false false) (re_state 1) = Ok s1
  /\ s_beams s1 = s_beams (re_state 1) /\ covers_mission ex_env s1 /\ rotation_ok s1
  /\ chunks_unmarked (ex_opts false true) s1
  /\ scan_instrument ex_env (ex_opts false true) s1 = Ok t'.
Proof. exact re_twice. Qed.

(** The condition is needed: with different beams the second pair is scanned with the
    beam of the first. *)
Theorem C97_needs_one_beam : exists (E : env nat) O s s1 s2,
  o_preview O = false /\ o_reuse O = false /\ covers_mission E s /\ rotation_ok s /\ chunks_unmarked O s
  /\ (forall p, In p (s_beams s) -> from_settings p) /\ s_maps s = None
  /\ scan_instrument E O s = Ok s1 /\ scan_instrument E (reusing O) s = Ok s2 /\ s_log s1 <> s_log s2.
Proof. exact re_other. Qed.
Print Assumptions C97_needs_one_beam.
