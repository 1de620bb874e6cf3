(** * A concrete instrument and scans of it *)
From Coq Require Import Reals Lra.
From Verif Require Import Common LibList M_Chunks M_Steps M_Hwp M_Mpi M_Detpair M_Scan
  S_Chunks S_Detpair S_Scan.
Open Scope R_scope.

Definition ex_env : env nat :=
  mkenv (fun _ b _ i => INR (b + i)) (fun c => repeat 0 (csize c)) false 5 false 1 0 (fun d v j => (d + v_start v + Z.of_nat j, v_rot v)%Z).
Definition ex_rank (r : nat) : env nat :=
  mkenv (fun _ b _ i => INR (b + i)) (fun c => repeat 0 (csize c)) false 5 true 2 r (fun d v j => (d + v_start v + Z.of_nat j, v_rot v)%Z).
Definition ex_opts (ground save_point : bool) : opts :=
  mkopts true ground true false true false true save_point 1 false (fun _ t => Ok t).
Definition ex_a : det nat :=
  mkdet 0 false false [mkgh false 0%nat None (Ok 3%nat); mkgh true 1%nat None (Ok 4%nat)] None (Ok 1%nat).
Definition ex_b : det nat := mkdet 1 false false [] None (Ok 2%nat).
Definition ex_dead : det nat := mkdet 2 true false [] None (Ok 2%nat).
Definition ex_dead2 : det nat := mkdet 3 true false [] None (Ok 2%nat).
Definition ex_beams : list (bpair nat) :=
  [(Some ex_a, None); (Some ex_dead, None); (Some ex_b, Some ex_dead2)].
(** The same without ghosts and partners. *)
Definition ex_beams_g : list (bpair nat) := [(Some ex_b, None); (Some ex_dead, None)].
Definition ex_strat : strat :=
  mkstrat 1 (mkirot (fresh_rot 3) 0 [0; 45] 0 (angle_gen [0; 45]))
    (mkhwp Stepped None 0 [0;1] (mksteps 2 0 0 (angle_gen [0; 1]))) None.
Definition ex_chunks : list (chunk * bool) :=
  [(mkchunk 0 2 (Some 0%nat) false, false); (mkchunk 2 5 (Some 1%nat) false, false)].
Definition ex_state (beams : list (bpair nat)) : state nat :=
  mkstate ex_strat beams (Some ex_chunks) None None [] None None None (fun _ => None) (fun _ _ => None) (fun _ _ => []) (fun _ => []) [].

Ltac run := cbv -[Rplus Rmult IZR INR Req_EM_T Rminus Rdiv Ropp PI].

Lemma ex_runs : exists s', scan_instrument ex_env (ex_opts false false) (ex_state ex_beams) = Ok s'.
Proof. eexists. run. reflexivity. Qed.
Lemma ex_runs_rank r : (r < 2)%nat ->
  exists s', scan_instrument (ex_rank r) (ex_opts false false) (ex_state ex_beams) = Ok s'.
Proof. intros Hr. destruct r as [|[|r]]; [eexists; run; reflexivity|eexists; run; reflexivity|lia]. Qed.
Lemma ex_runs_ground : exists s', scan_instrument ex_env (ex_opts true false) (ex_state ex_beams_g) = Ok s'.
Proof. eexists. run. reflexivity. Qed.
Lemma ex_runs_ground_ghost : exists s', scan_instrument ex_env (ex_opts true false) (ex_state ex_beams) = Ok s'.
Proof. eexists. run. reflexivity. Qed.

Lemma ex_covers beams (E : env nat) : e_nsamp E = 5%Z -> covers_mission E (ex_state beams).
Proof.
  intros En. unfold covers_mission. rewrite En. split; [lia|]. intros l H. injection H as <-. split.
  - cbn. repeat (split; [reflexivity || lia|]); lia.
  - intros [|[|k]] cg H; cbn in H; try (injection H as <-; reflexivity). destruct k; discriminate.
Qed.
Lemma ex_rotation beams : rotation_ok (ex_state beams).
Proof. intros _. cbn. lia. Qed.
Lemma ex_unmarked beams O : chunks_unmarked O (ex_state beams).
Proof. intros l H _ cg Hc. injection H as <-. destruct Hc as [<-|[<-|[]]]; reflexivity. Qed.
Lemma ex_filters g p : filters_keep_length (ex_opts g p) /\ no_filters (ex_opts g p).
Proof. split; [intros m t t' H; injection H as <-; reflexivity|intros m t; reflexivity]. Qed.
Lemma ex_nodup : NoDup (map d_id (dets ex_beams)).
Proof. cbn. repeat constructor; cbn; intuition discriminate. Qed.
Lemma ex_nodup_g : NoDup (map d_id (dets ex_beams_g)).
Proof. cbn. repeat constructor; cbn; intuition discriminate. Qed.
Lemma ex_ready : pair_ready ex_a None.
Proof.
  split; [|split; [|split]].
  - split; [exists 1%nat; right; auto|]. split; [|intros d g H; discriminate].
    intros g [<-|[<-|[]]]; eexists; right; cbn; auto.
  - intros g j Hg Hj. assert (j = 0 \/ j = 1)%nat as [->| ->].
    { destruct Hg as [<-|[<-|[]]]; cbn in Hj; lia. }
    + eexists. split; [left; reflexivity|reflexivity].
    + eexists. split; [right; left; reflexivity|reflexivity].
  - intros g g' x Hg Hg' He. destruct Hg as [<-|[<-|[]]], Hg' as [<-|[<-|[]]]; cbn in He; try discriminate; auto.
  - intros b g H. discriminate.
Qed.

(** A pair without an A detector. *)
Lemma absent_fails : scan_instrument ex_env (ex_opts false false) (ex_state [(None, Some ex_b)]) = Err AttributeError.
Proof. run. reflexivity. Qed.
(** Ground template and [save_point]. *)
Lemma ground_point_fails : scan_instrument ex_env (ex_opts true true) (ex_state ex_beams_g) = Err UnboundLocalError.
Proof. run. reflexivity. Qed.
