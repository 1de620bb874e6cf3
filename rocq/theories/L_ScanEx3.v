(** * Concrete scans with moving parts *)
From Coq Require Import Reals Lra.
From Verif Require Import Common LibList M_Chunks M_Steps M_Hwp M_Mpi M_Detpair M_Scan
  S_Chunks S_Detpair S_Scan S_Saved L_Hwp L_ScanEx L_ScanEx2.
Open Scope R_scope.

(** 1 Hz; boresight rotation every 3 samples, elevation steps every 2. *)
Definition mv_cfg : config := mkconfig 1 0 (Some 3) 0 (Some [0; 45]) NoMode None 0 (Some [0]) (Some (2, Some [0; 1])).
Definition mv_strat : strat :=
  mkstrat 1 (mkirot (fresh_rot 3) 0 [0; 45] 0 (angle_gen [0; 45]))
    (mkhwp NoMode None 0 [0] (mksteps 0 0 0 (angle_gen [0])))
    (Some (mkel true [0; 1] (mksteps 2 0 0 (angle_gen [0; 1])))).
Lemma mv_configured : configure mv_cfg = Ok mv_strat.
Proof.
  unfold configure, mv_cfg, set_hwp_mod, set_el_steps, set_instr_rot. cbn -[trunc].
  destruct (Req_EM_T 2 0) as [H|_]; [lra|]. destruct (Req_EM_T 3 0) as [H|_]; [lra|]. cbn -[trunc].
  replace (3 * 1) with (IZR 3) by ring. replace (1 * 2) with (IZR 2) by ring.
  rewrite !trunc_Z. reflexivity.
Qed.
(** With a memory map of the boresight ([create_memmap]). *)
Definition mv_opts : opts := mkopts true false true true true false true false 1 false (fun _ t => Ok t).
Lemma mv_runs : exists s', scan_instrument ex_env mv_opts (rep_state mv_strat ex_beams) = Ok s'.
Proof. eexists. run. reflexivity. Qed.
Lemma mv_runs_rank r : (r < 2)%nat -> exists s', scan_instrument (ex_rank r) mv_opts (rep_state mv_strat ex_beams) = Ok s'.
Proof. intros Hr. destruct r as [|[|r]]; [eexists; run; reflexivity|eexists; run; reflexivity|lia]. Qed.

(** A HWP, one detector, no chunks set. *)
Definition hwp_cfg (m : hmode) : config := mkconfig 1 0 None 0 (Some [0]) m (Some (/ 2)) 0 (Some [0; 30]) None.
Definition hwp_strat (m : hmode) : strat :=
  mkstrat 1 (mkirot (mkrot false 0 0) 0 [0] 0 (angle_gen [0]))
    (mkhwp m (Some (/ 2)) 0 [0; 30] (mksteps (match m with Stepped => 2 | _ => 0 end) 0 0 (angle_gen [0; 30]))) None.
Lemma hwp_configured m : configure (hwp_cfg m) = Ok (hwp_strat m).
Proof.
  unfold configure, hwp_cfg, set_hwp_mod, set_instr_rot. destruct m; cbn -[trunc]; try reflexivity.
  destruct (Req_EM_T (/ 2) 0) as [H|_]; [lra|]. cbn -[trunc].
  replace (1 / / 2) with (IZR 2) by field. rewrite !trunc_Z. reflexivity.
Qed.
Definition hwp_state (m : hmode) : state nat :=
  mkstate (hwp_strat m) one_b None None None [] None None None (fun _ => None) (fun _ _ => None) (fun _ _ => []) (fun _ => []) [].
Ltac runs := cbv -[Rplus Rmult IZR INR Req_EM_T Rminus Rdiv Ropp PI radians degrees rmod Rinv].
Lemma stepped_runs : exists s', scan_instrument ex_env mv_opts (hwp_state Stepped) = Ok s'.
Proof. eexists. runs. destruct (Req_EM_T (/ 2) 0) as [H|_]; [lra|]. reflexivity. Qed.
Lemma spinning_runs : exists s', scan_instrument ex_env mv_opts (hwp_state Continuous) = Ok s'.
Proof. eexists. runs. destruct (Req_EM_T (/ 2) 0) as [H|_]; [lra|]. reflexivity. Qed.

Lemma ex_elev (E : env nat) : e_elev E = e_elev ex_env ->
  forall c, Z.of_nat (length (e_elev E c)) = Z.max 0 (c_end c - c_start c).
Proof. intros -> c. cbn [e_elev ex_env]. rewrite repeat_length. unfold csize. lia. Qed.

Lemma mv_well (E : env nat) : e_elev E = e_elev ex_env -> e_nsamp E = 5%Z -> well_set E mv_opts (rep_state mv_strat ex_beams).
Proof.
  intros H1 H2. constructor.
  - apply (ex_covers ex_beams). auto.
  - apply (ex_rotation ex_beams).
  - apply (ex_unmarked ex_beams).
  - apply ex_nodup.
  - exists mv_cfg. apply mv_configured.
  - discriminate.
  - reflexivity.
  - right; left; reflexivity.
  - apply ex_elev. auto.
Qed.
Lemma hwp_well m : m <> OtherMode -> well_set ex_env mv_opts (hwp_state m).
Proof.
  intros Hm. constructor.
  - split; [cbn; lia|]. discriminate.
  - discriminate.
  - discriminate.
  - cbn. repeat constructor; cbn; intuition discriminate.
  - exists (hwp_cfg m). apply hwp_configured.
  - auto.
  - reflexivity.
  - right; left; reflexivity.
  - apply ex_elev. auto.
Qed.
Lemma mv_observes : observes ex_env mv_opts (rep_state mv_strat ex_beams) ex_b
  /\ observes (ex_rank 0) mv_opts (rep_state mv_strat ex_beams) ex_a
  /\ observes (ex_rank 1) mv_opts (rep_state mv_strat ex_beams) ex_b.
Proof.
  split; [|split]; (split; [reflexivity|]).
  - exists 2%nat, (Some ex_b, Some ex_dead2). split; [reflexivity|]. split; [now left|]. cbn. auto.
  - exists 0%nat, (Some ex_a, None). split; [reflexivity|]. split; [now left|]. cbn. auto.
  - exists 2%nat, (Some ex_b, Some ex_dead2). split; [reflexivity|]. split; [now left|]. cbn. auto.
Qed.
Lemma hwp_observes m : observes ex_env mv_opts (hwp_state m) ex_b.
Proof.
  split; [reflexivity|]. exists 0%nat, (Some ex_b, None). split; [reflexivity|]. split; [now left|]. cbn. auto.
Qed.

(** A second scan without a reset: the first pair goes on where the first scan
    ended, the others start afresh. *)
Definition ex_c : det nat := mkdet 4 false false [] None (Ok 2%nat).
Definition two_b : list (bpair nat) := [(Some ex_b, None); (Some ex_c, None)].
Lemma second_scan_differs : exists (E : env nat) O s s1 s2 new d d2,
  well_set E O s /\ scan_instrument E O s = Ok s1 /\ scan_instrument E O s1 = Ok s2
  /\ s_log s2 = s_log s1 ++ new /\ observes E O s1 d /\ observes E O s1 d2
  /\ map v_rot (sky_views (d_id d) new) <> map v_rot (sky_views (d_id d2) new).
Proof.
  exists ex_env, (ex_opts false false), (rep_state rot_strat two_b). do 3 eexists. exists ex_b, ex_c.
  split.
  { constructor.
    - apply (ex_covers two_b). reflexivity.
    - apply (ex_rotation two_b).
    - apply (ex_unmarked two_b).
    - cbn. repeat constructor; cbn; intuition discriminate.
    - exact rot_fresh.
    - discriminate.
    - reflexivity.
    - right; right; reflexivity.
    - apply ex_elev. reflexivity. }
  split; [run; reflexivity|]. split; [run; reflexivity|].
  split.
  { cbn [s_log]. match goal with |- ?a :: ?l = _ => idtac end.
    match goal with |- ?L = ?A ++ _ => let n := eval cbv in (length A) in
      change L with (firstn n L ++ skipn n L) end. cbn [firstn skipn app]. reflexivity. }
  split; [split; [reflexivity|]; exists 0%nat, (Some ex_b, None); split; [reflexivity|]; split; [now left|]; cbn; auto|].
  split; [split; [reflexivity|]; exists 1%nat, (Some ex_c, None); split; [reflexivity|]; split; [now left|]; cbn; auto|].
  cbv. intros H. injection H as H. lra.
Qed.
