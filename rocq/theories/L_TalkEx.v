(** * A concrete observation: an orthogonal pair with cross-talk *)
From Coq Require Import Reals String Lra Lia Permutation.
From Verif Require Import Common LibList M_Chunks M_Quat M_Steps M_Hwp M_Mpi M_Detpair M_Scan M_Bin S_Chunks S_Quat S_Hwp S_Detpair S_Scan S_Saved S_Contrib
  L_Quat L_Scan L_ScanEx L_ScanEx2.
From Verif Require Import M_Tod S_Tod S_Bin S_Talk L_Bin L_Bin2 L_BinEx Cplx.
From Verif Require M_Solve S_Solve L_Solve.
Local Notation length := List.length.
Open Scope R_scope.

Definition talk_optics : optics :=
  mkoptics ex_look (fun _ j => q_z (INR j * (PI / 4))) (fun _ => q_z 0)
    (fun d => if (d =? 0)%Z then 0 else 90) (fun _ => 0) 0 1.
Lemma talk_sound : sound talk_optics 12.
Proof.
  constructor.
  - exact ex_turns.
  - intros q. cbn. lia.
  - intros v j. apply sumsq_z.
  - intros d. apply sumsq_z.
  - now left.
Qed.
Definition talk_signal (w : who) (maps : spindict) (v : view) (j : nat) : R :=
  match w with
  | Main d => match view_tod talk_optics d maps v with Ok tod => Re (nth j tod (RtoC 0)) | Err _ => 0 end
  | Ghost _ _ => 0
  end.
Definition talk_env : env spindict :=
  mkenv talk_signal (fun c => repeat 0 (csize c)) false 3 true 1 0 (fun _ _ _ => (0%Z, 0)).
Definition talk_opts : opts := mkopts true false true false true false false false (1 / 10) false (fun _ t => Ok t).
Definition talk_state : state spindict :=
  mkstate still_strat [(Some (sky_det 0), Some (sky_det 1))] None None None [] None None None
    (fun _ => None) (fun _ _ => None) (fun _ _ => []) (fun _ => []) [].

Ltac runs := lazy -[Rplus Rmult IZR INR Req_EM_T Rminus Rdiv Ropp PI M_Hwp.radians talk_signal ex_maps].
Definition talk_tod (d : Z) : list R := map (talk_signal (Main d) ex_maps sky_view) (seq 0 3).
Definition talk_mixed (d : Z) : list R :=
  match cross_talk (talk_tod 0) (talk_tod 1) (1 / 10) with Ok (a, b) => if (d =? 0)%Z then a else b | Err _ => [] end.
Definition talk_log : list event :=
  [EPoint (mkchunk 0 3 (Some 0%nat) false) [0; 0; 0];
   EScan (Main 0) sky_view (talk_tod 0); EScan (Main 1) sky_view (talk_tod 1);
   EBin 0 sky_view (talk_mixed 0); EBin 1 sky_view (talk_mixed 1)].
Lemma talk_runs : exists s', scan_instrument talk_env talk_opts talk_state = Ok s' /\ s_log s' = s_log talk_state ++ talk_log.
Proof.
  assert (N : exists H, Req_EM_T (1 / 10) 0 = right H).
  { destruct (Req_EM_T (1 / 10) 0) as [X|X]; [exfalso; clear -X; lra|eauto]. }
  destruct N as [N HN]. eexists. split.
  - runs. unfold Rdiv in *. runs. rewrite HN. runs. reflexivity.
  - reflexivity.
Qed.
Lemma talk_well : well_set talk_env talk_opts talk_state.
Proof.
  constructor.
  - split; [cbn; lia|]. discriminate.
  - discriminate.
  - discriminate.
  - cbn. repeat constructor; cbn; intuition discriminate.
  - apply still_fresh.
  - discriminate.
  - reflexivity.
  - right; right; reflexivity.
  - intros c. cbn [e_elev talk_env]. rewrite repeat_length. unfold csize. lia.
Qed.
Lemma talk_ready : pair_ready (sky_det 0) (Some (sky_det 1)).
Proof.
  split; [|split; [|split]].
  - split; [exists ex_maps; right; split; reflexivity|]. split; [intros g []|]. intros b g X. injection X as <-. intros [].
  - intros g j [].
  - intros g g' x [].
  - intros b g X. injection X as <-. intros [].
Qed.
Lemma talk_observed : exists s', observed_pairs talk_optics ex_m0 ex_m2 0 talk_env talk_opts talk_state s' talk_log.
Proof.
  destruct talk_runs as (s' & H & L). exists s'. constructor; auto.
  - apply talk_well.
  - cbn. lra.
  - repeat split.
  - intros p d [<-|[]] Hd _. do 2 eexists. split; [reflexivity|apply talk_ready].
  - intros a ob [X|[]]. injection X as <- <-. left. eexists. split; [reflexivity|]. repeat split. cbn. lra.
  - intros d [<-|[<-|[]]] _; split; reflexivity.
  - intros a ob maps [X|[]] HM. injection X as <- <-.
    assert (maps = ex_maps) as -> by (destruct HM as [X|[_ X]]; cbn in X; congruence). apply plain_seen, perm_swap.
  - intros d maps v tod j _ Ht. cbn [e_signal talk_env talk_signal]. now rewrite Ht.
Qed.

Definition talk_sample (j : nat) : M_Solve.obs := bin_sample talk_optics 0 sky_view j (nth j (talk_mixed 0) 0).
Lemma talk_angle j : (j < 3)%nat -> M_Solve.o_pix (talk_sample j) = 5%nat
  /\ M_Solve.o_cos (talk_sample j) = cos (INR j * (PI / 2)) /\ M_Solve.o_sin (talk_sample j) = - sin (INR j * (PI / 2)).
Proof.
  intros Hj. destruct (bin_angle talk_optics 12 talk_sound 0 sky_view j (nth j (talk_mixed 0) 0)) as (psi & Op & _ & Oc & Os & SA).
  fold (talk_sample j) in *. split; [exact Op|].
  assert (A : same_angle psi (- (INR j * (PI / 4)))).
  { apply (same_angle_trans _ _ _ SA). destruct (sky_pointing 0 0 j Hj) as [k Hk].
    change (x_look talk_optics (scan_q_det talk_optics 0 sky_view j))
      with (x_look (ex_optics 0) (scan_q_det (ex_optics 0) 0 sky_view j)). rewrite Hk. exists k.
    cbn [x_polang x_varphi talk_optics Z.eqb]. unfold bin_hwp. cbn [view_hwp sky_view v_hwp]. unfold M_Hwp.radians. field. }
  apply cis_angle in A. unfold cis in A. injection A as Ac As. rewrite Oc, Os, Ac, As.
  replace (2 * - (INR j * (PI / 4))) with (- (INR j * (PI / 2))) by field. rewrite cos_neg, sin_neg.
  cbn [x_sign talk_optics]. split; ring.
Qed.
Definition talk_ranks : list (M_Solve.maps * list M_Solve.call) :=
  map (fun _ : nat => (no_maps, bin_calls_of talk_optics talk_log)) [0]%nat.
Lemma talk_three : S_Solve.three_angles 5 (S_Solve.ranks_used talk_ranks).
Proof.
  assert (I3 : forall j, (j < 3)%nat -> In (talk_sample j) (S_Solve.ranks_used talk_ranks)).
  { intros j Hj. destruct j as [|[|[|j]]]; [| | |lia].
    - left. reflexivity.
    - right. left. reflexivity.
    - right. right. left. reflexivity. }
  exists (talk_sample 0), (talk_sample 1), (talk_sample 2).
  destruct (talk_angle 0) as (P0 & C0 & S0); [lia|]. destruct (talk_angle 1) as (P1 & C1 & S1); [lia|].
  destruct (talk_angle 2) as (P2 & C2 & S2); [lia|].
  replace (INR 0 * (PI / 2)) with 0 in * by (cbn; ring). replace (INR 1 * (PI / 2)) with (PI / 2) in * by (cbn; ring).
  replace (INR 2 * (PI / 2)) with PI in * by (cbn; field).
  rewrite cos_0 in C0. rewrite cos_PI2 in C1. rewrite cos_PI in C2.
  do 3 (split; [apply I3; lia|]). do 3 (split; [assumption|]).
  unfold S_Solve.same_direction. rewrite C0, C1, C2. repeat split; intros [X _]; lra.
Qed.
Lemma talk_binned : exists gs, Forall2 (S_Solve.rank_maps 1) talk_ranks gs.
Proof.
  destruct (L_Solve.bin_succeeds 1 no_maps (bin_calls_of talk_optics talk_log) eq_refl) as (s & Hs).
  - intros c Hc. now destruct (in_bin_calls _ _ _ Hc) as (? & ? & ? & _ & _ & F).
  - destruct (L_Solve.binned_sums 1 no_maps _ s Hs) as (g & Hg & _). exists [g]. constructor; [exists s; auto|constructor].
Qed.
