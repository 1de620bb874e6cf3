(** * Maps from all processes; examples *)
From Coq Require Import Reals Lra Permutation.
From Verif Require Import Common LibList M_Chunks M_Steps M_Hwp M_Mpi M_Detpair M_Scan
  S_Chunks S_Detpair S_Scan S_Saved S_Contrib L_Mpi L_Contrib2 L_ScanEx L_ScanEx2 L_ScanEx3.
Open Scope R_scope.

Lemma perm_map_sum {M X R'} (add : M -> M -> M) (zero : M) (f : X -> M) (g : R' -> list X) l l1 :
  (forall a b, add a b = add b a) -> (forall a b c, add a (add b c) = add (add a b) c) -> (forall a, add zero a = a) ->
  Permutation (flat_map g l) l1 ->
  fold_right add zero (map (fun r => fold_right add zero (map f (g r))) l) = fold_right add zero (map f l1).
Proof.
  intros C A Z P.
  assert (PS : forall a b, Permutation a b -> fold_right add zero a = fold_right add zero b).
  { intros a b H. induction H; cbn; [reflexivity|congruence| |congruence]. rewrite !A. now rewrite (C y x). }
  rewrite <- (PS _ _ (Permutation_map f P)). clear P PS. induction l as [|r l IH]; [reflexivity|].
  cbn [map fold_right flat_map]. rewrite map_app, fold_right_app, IH. generalize (map f (g r)), (fold_right add zero (map f (flat_map g l))).
  induction l0 as [|x l0 IH0]; intros m; cbn; [apply Z|]. now rewrite <- A, IH0.
Qed.

Lemma mv_sky : sky_only mv_opts.
Proof. repeat split. Qed.

Lemma ex_ready_b : pair_ready ex_b (Some ex_dead2).
Proof.
  split; [|split; [|split]].
  - split; [exists 2%nat; right; auto|]. split; [intros g []|intros d g H; injection H as <-; intros []].
  - intros g j [].
  - intros g g' x [].
  - intros b g H. injection H as <-. intros [].
Qed.
Lemma ex_all_ready u : all_ready (rep_state u ex_beams).
Proof.
  intros p d [<-|[<-|[<-|[]]]] Hd Hl; cbn in Hd.
  - eexists _, _. split; [reflexivity|apply ex_ready].
  - destruct Hd as [<-|[]]. discriminate.
  - eexists _, _. split; [reflexivity|apply ex_ready_b].
Qed.

(** The same pairs in another order, without memory map and saving. *)
Definition swapped : list (bpair nat) := [(Some ex_b, Some ex_dead2); (Some ex_a, None)].
Definition sw_opts : opts := mkopts true false true false true false false false 1 false (fun _ t => Ok t).
Lemma sw_sky : sky_only sw_opts.
Proof. repeat split. Qed.
Lemma sw_runs : exists s', scan_instrument ex_env sw_opts (rep_state mv_strat swapped) = Ok s'.
Proof. eexists. run. reflexivity. Qed.
Lemma sw_well : well_set ex_env sw_opts (rep_state mv_strat swapped).
Proof.
  constructor.
  - apply (ex_covers swapped). reflexivity.
  - apply (ex_rotation swapped).
  - apply (ex_unmarked swapped).
  - cbn. repeat constructor; cbn; intuition discriminate.
  - exists mv_cfg. apply mv_configured.
  - discriminate.
  - reflexivity.
  - right; right; reflexivity.
  - now apply ex_elev.
Qed.
Lemma sw_same r : same_observation ex_env (ex_rank r) mv_opts mv_opts (rep_state mv_strat ex_beams) (rep_state mv_strat ex_beams)
  /\ same_observation (ex_rank r) ex_env mv_opts sw_opts (rep_state mv_strat ex_beams) (rep_state mv_strat swapped).
Proof. split; constructor; reflexivity. Qed.
Lemma sw_works : works_on (ex_rank 1) mv_opts (rep_state mv_strat ex_beams) (Some ex_b, Some ex_dead2)
  /\ works_on ex_env sw_opts (rep_state mv_strat swapped) (Some ex_b, Some ex_dead2).
Proof. split; [exists 2%nat|exists 0%nat]; (split; [reflexivity|]); cbn; auto. Qed.
