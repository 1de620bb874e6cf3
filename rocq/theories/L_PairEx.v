(** * A pair of live detectors without ghosts, scanned with a ground template *)
From Coq Require Import Reals Lra.
From Verif Require Import Common LibList M_Chunks M_Steps M_Hwp M_Mpi M_Detpair M_Scan
  S_Chunks S_Detpair S_Scan S_Complete L_Hwp L_ScanEx L_ScanEx2 L_ScanEx3 L_CompleteEx L_Complete4.
Open Scope R_scope.

Definition ex_beams_p : list (bpair nat) := [(Some ex_b, Some ex_c); (Some ex_dead, None)].
Definition gp_state : state nat := rep_state mv_strat ex_beams_p.

Lemma ex_nodup_p : NoDup (map d_id (dets ex_beams_p)).
Proof. repeat constructor; cbn; intuition discriminate. Qed.
Lemma ex_bare_p d : In d (pair_dets (Some ex_b, Some ex_c)) -> d_ghosts d = [].
Proof. intros [<-|[<-|[]]]; reflexivity. Qed.
Lemma gp_rotation : rotation_ok gp_state.
Proof. intros _. cbn. lia. Qed.

Lemma gp_runs : exists s', scan_instrument ex_env (ex_opts true false) gp_state = Ok s'.
Proof.
  apply completes. constructor.
  - exists mv_cfg. split; [exact mv_sound|exact mv_configured].
  - constructor; cbn; auto; try discriminate. eauto.
  - intros p [<-|[<-|[]]].
    + split; [intros d [<-|[<-|[]]]; reflexivity|]. right. exists ex_b, (Some ex_c). split; auto.
      eapply ready_alone; try reflexivity. intros b Eb. injection Eb as <-. reflexivity.
    + split; [intros d [<-|[]]; reflexivity|]. right. exists ex_dead, None. split; auto.
      eapply ready_alone; try reflexivity. discriminate.
  - apply (ex_covers ex_beams_p). reflexivity.
  - apply (ex_unmarked ex_beams_p).
  - discriminate.
  - intros c. cbn. rewrite repeat_length. unfold csize. lia.
Qed.
