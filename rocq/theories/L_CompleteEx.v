(** * Concrete scannable states, and options that do not go together *)
From Coq Require Import Reals Lra.
From Verif Require Import Common LibList M_Chunks M_Steps M_Hwp M_Mpi M_Detpair M_Scan
  S_Chunks S_Detpair S_Scan S_Complete L_Hwp L_ScanEx L_ScanEx2 L_ScanEx3.
Open Scope R_scope.

Lemma ready_alone d x : d_ghosts d = [] -> d_gen d = Ok x -> d_blm d = None ->
  forall (ob : option (det nat)), (forall b, ob = Some b -> d_ghosts b = []) -> pair_ready d ob.
Proof.
  intros G H N ob Hb. unfold pair_ready, beams_available, no_gap, consistent. rewrite G. split; [|split; [|split]].
  - split; [exists x; right; auto|]. split; [intros g []|]. intros b g Eb I0. rewrite (Hb b Eb) in I0. destruct I0.
  - intros g j [].
  - intros g g' y [].
  - intros b g Eb I0. rewrite (Hb b Eb) in I0. destruct I0.
Qed.

Lemma ex_sound_pairs : sound_pairs ex_beams.
Proof.
  intros p [<-|[<-|[<-|[]]]].
  - split; [intros d [<-|[]]; reflexivity|]. right. exists ex_a, None. split; auto. apply ex_ready.
  - split; [intros d [<-|[]]; reflexivity|]. right. exists ex_dead, None. split; auto.
    eapply ready_alone; try reflexivity. discriminate.
  - split; [intros d [<-|[<-|[]]]; reflexivity|]. right. exists ex_b, (Some ex_dead2). split; auto.
    eapply ready_alone; try reflexivity. intros b Eb. injection Eb as <-. reflexivity.
Qed.

Lemma mv_sound : sound_settings mv_cfg.
Proof.
  constructor; cbn; try discriminate.
  - intros p H _. injection H as <-. lra.
  - intros p l H. injection H as <- <-. split; [discriminate|]. intros _. lra.
Qed.

Lemma mv_scannable (O : opts) : sound_options ex_env O (rep_state mv_strat ex_beams) ->
  scannable ex_env O (rep_state mv_strat ex_beams).
Proof.
  intros So. constructor; auto.
  - exists mv_cfg. split; [exact mv_sound|exact mv_configured].
  - exact ex_sound_pairs.
  - apply (ex_covers ex_beams). reflexivity.
  - apply (ex_unmarked ex_beams).
  - discriminate.
  - intros c. cbn. rewrite repeat_length. unfold csize. lia.
Qed.

(** Cross-talk, saved timestreams, memory map; a ground template; a preview. *)
Definition pv_opts : opts := mkopts false false true false true false false false 1 true (fun _ t => Ok t).
Lemma mv_opts_sound : sound_options ex_env mv_opts (rep_state mv_strat ex_beams).
Proof. constructor; cbn; auto; try discriminate. eauto. Qed.
Lemma gr_opts_sound : sound_options ex_env (ex_opts true false) (rep_state mv_strat ex_beams).
Proof. constructor; cbn; auto; try discriminate. eauto. Qed.
Lemma pv_opts_sound : sound_options ex_env pv_opts (rep_state mv_strat ex_beams).
Proof. constructor; cbn; auto; try discriminate. eauto. Qed.

Lemma ex_all_settings : forall p, In p ex_beams -> from_settings p.
Proof.
  intros p [<-|[<-|[<-|[]]]] d Id; cbn in Id; repeat (destruct Id as [<-|Id]); try destruct Id; cbn;
    (split; [reflexivity|]); intros g Ig; repeat (destruct Ig as [<-|Ig]); try destruct Ig; cbn; split; congruence.
Qed.

(** Options that do not go together. *)
Definition ext_env : env nat :=
  mkenv (fun _ b _ i => INR (b + i)) (fun c => repeat 0 (csize c)) true 5 false 1 0 (fun d v j => (d + v_start v + Z.of_nat j, v_rot v)%Z).
Lemma ground_external_fails : scan_instrument ext_env (ex_opts true false) (rep_state mv_strat ex_beams_g) = Err AttributeError.
Proof. run. reflexivity. Qed.
Definition pg_opts : opts := mkopts true true true false true false false false 1 true (fun _ t => Ok t).
Lemma preview_ground_fails : scan_instrument ex_env pg_opts (rep_state mv_strat ex_beams_g) = Err AttributeError.
Proof. run. reflexivity. Qed.

(** A boresight rotation every third of a sample. *)
Definition fast_cfg : config := mkconfig 1 0 (Some (1 / 3)) 0 (Some [0; 45]) NoMode None 0 (Some [0]) None.
Definition fast_strat : strat :=
  mkstrat 1 (mkirot (mkrot true 0 0) 0 [0; 45] 0 (angle_gen [0; 45]))
    (mkhwp NoMode None 0 [0] (mksteps 0 0 0 (angle_gen [0]))) None.
Lemma fast_configured : configure fast_cfg = Ok fast_strat.
Proof.
  unfold configure, fast_cfg, set_hwp_mod, set_instr_rot. cbn -[trunc Rdiv].
  destruct (Req_EM_T (1 / 3) 0) as [H|_]; [lra|]. cbn -[trunc Rdiv].
  assert (T : trunc (1 / 3 * 1) = 0%Z).
  { unfold trunc. destruct (Rle_dec 0 (1 / 3 * 1)) as [_|C]; [|exfalso; apply C; lra].
    unfold Int_part. enough (H : up (1 / 3 * 1) = 1%Z) by (rewrite H; reflexivity).
    symmetry. apply tech_up; cbn; lra. }
  rewrite T. reflexivity.
Qed.
Lemma fast_fails : exists e, scan_instrument ex_env (ex_opts false false) (rep_state fast_strat ex_beams_g) = Err e.
Proof. eexists. run. reflexivity. Qed.
