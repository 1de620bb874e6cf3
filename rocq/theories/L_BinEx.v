(** * A concrete observation: two ranks with a detector each *)
From Coq Require Import Reals String Lra Lia Permutation.
From Verif Require Import M_L2 L_L2.
From Verif Require Import Common LibList M_Chunks M_Quat M_Steps M_Hwp M_Mpi M_Detpair M_Scan M_Bin S_Chunks S_Quat S_Hwp S_Detpair S_Scan S_Saved S_Contrib
  L_Quat L_Scan L_ScanEx L_ScanEx2.
From Verif Require Import M_Tod S_Tod S_Bin L_Bin L_Bin2 Cplx.
From Verif Require M_Solve S_Solve L_Solve.
Local Notation length := List.length.
Open Scope R_scope.

(** ** A position angle *)
Definition roll (q : M_Quat.quat) : R :=
  if Req_EM_T (q0 q * q0 q + q3 q * q3 q) 0 then 2 * arctan2 (q2 q) (q1 q) else -2 * arctan2 (q3 q) (q0 q).
Definition ex_look (q : M_Quat.quat) : nat * R := (5%nat, roll q * 180 / PI).

Lemma polar_unique r a b : 0 < r -> r * cos a = r * cos b -> r * sin a = r * sin b -> same_angle a b.
Proof.
  intros Hr Hc Hs. apply Rmult_eq_reg_l in Hc, Hs; try lra.
  assert (C1 : cos (a - b) = 1).
  { rewrite cos_minus, Hc, Hs. pose proof (sin2_cos2 b) as H. unfold Rsqr in H. lra. }
  assert (S2 : sin ((a - b) / 2) = 0).
  { replace (a - b) with (2 * ((a - b) / 2)) in C1 by field. rewrite cos_2a_sin in C1.
    assert (H : sin ((a - b) / 2) * sin ((a - b) / 2) = 0) by lra.
    apply Rmult_integral in H. tauto. }
  destruct (sin_eq_0_0 _ S2) as [k Hk]. exists k. lra.
Qed.
Lemma arctan2_turn x y t : x * x + y * y <> 0 ->
  same_angle (arctan2 (x * sin t + y * cos t) (x * cos t - y * sin t)) (arctan2 y x + t).
Proof.
  intros N. pose proof (sin2_cos2 t) as T. unfold Rsqr in T.
  set (x' := x * cos t - y * sin t). set (y' := x * sin t + y * cos t).
  assert (Q : x' * x' + y' * y' = x * x + y * y).
  { unfold x', y'. transitivity ((x * x + y * y) * (sin t * sin t + cos t * cos t)); [ring|rewrite T; ring]. }
  destruct (arctan2_spec y x N) as [A1 A2]. assert (N' : x' * x' + y' * y' <> 0) by (rewrite Q; exact N).
  destruct (arctan2_spec y' x' N') as [B1 B2]. rewrite Q in B1, B2.
  assert (Pr : 0 < sqrt (x * x + y * y)).
  { apply sqrt_lt_R0. pose proof (Rle_0_sqr x). pose proof (Rle_0_sqr y). unfold Rsqr in *. lra. }
  apply (polar_unique (sqrt (x * x + y * y))); auto.
  - rewrite B1, cos_plus. set (w := sqrt _) in *. unfold x'.
    transitivity ((w * cos (arctan2 y x)) * cos t - (w * sin (arctan2 y x)) * sin t); [now rewrite A1, A2|ring].
  - rewrite B2, sin_plus. set (w := sqrt _) in *. unfold y'.
    transitivity ((w * cos (arctan2 y x)) * sin t + (w * sin (arctan2 y x)) * cos t); [now rewrite A1, A2|ring].
Qed.
Lemma same_angle_scale n a b : same_angle a b -> same_angle (IZR n * a) (IZR n * b).
Proof. intros [k ->]. exists (n * k)%Z. rewrite mult_IZR. ring. Qed.

Lemma roll_turn q a : sumsq q = 1 -> same_angle (roll (quat_left_mult q (q_z a))) (roll q - a).
Proof.
  intros U. destruct q as [a0 a1 a2 a3]. unfold sumsq in U. cbn [q0 q1 q2 q3] in U.
  unfold roll. unfold quat_left_mult, q_z. cbn [q0 q1 q2 q3].
  pose proof (sin2_cos2 (a / 2)) as T. unfold Rsqr in T.
  set (c := cos (a / 2)) in *. set (s := sin (a / 2)) in *.
  match goal with |- context [Req_EM_T ?z 0] => replace z with (a0 * a0 + a3 * a3) end.
  2: { transitivity ((a0 * a0 + a3 * a3) * (s * s + c * c)); [rewrite T; ring|ring]. }
  destruct (Req_EM_T (a0 * a0 + a3 * a3) 0) as [Z|Z].
  - apply (same_angle_trans _ (IZR 2 * (arctan2 a2 a1 + - (a / 2)))).
    + apply same_angle_scale. replace (a2 * c + a3 * 0 + a0 * 0 - a1 * s) with (a1 * sin (- (a / 2)) + a2 * cos (- (a / 2))).
      * replace (a1 * c + a0 * 0 - a3 * 0 + a2 * s) with (a1 * cos (- (a / 2)) - a2 * sin (- (a / 2))).
        -- apply arctan2_turn. lra.
        -- rewrite cos_neg, sin_neg. fold c s. ring.
      * rewrite cos_neg, sin_neg. fold c s. ring.
    + apply same_angle_eq. field.
  - apply (same_angle_trans _ (IZR (-2) * (arctan2 a3 a0 + a / 2))).
    + apply same_angle_scale. replace (a3 * c - a2 * 0 + a1 * 0 + a0 * s) with (a0 * sin (a / 2) + a3 * cos (a / 2)) by (fold c s; ring).
      replace (a0 * c - a1 * 0 - a2 * 0 - a3 * s) with (a0 * cos (a / 2) - a3 * sin (a / 2)) by (fold c s; ring).
      apply arctan2_turn. exact Z.
    + apply same_angle_eq. field.
Qed.
Lemma ex_turns : turns_about_line_of_sight ex_look.
Proof.
  intros q a U. split; [reflexivity|]. cbn [ex_look snd].
  apply (same_angle_trans _ (roll (quat_left_mult q (q_z a)))).
  - apply same_angle_eq. pose proof PI_neq0. field. auto.
  - apply (same_angle_trans _ _ _ (roll_turn q a U)). apply same_angle_eq. pose proof PI_neq0. field. auto.
Qed.

(** ** The instrument: detectors 0 and 1 thought to be at 0 and 45 degrees, [err]
    less than they are; the boresight rolls by 45 degrees between
    samples. *)
Section Err.
Context (err : R).
Definition ex_optics : optics :=
  mkoptics ex_look (fun _ j => q_z (INR j * (PI / 4))) (fun _ => q_z 0)
    (fun d => if (d =? 0)%Z then 0 else 45) (fun _ => err) 0 1.
Lemma ex_sound : sound ex_optics 12.
Proof.
  constructor.
  - exact ex_turns.
  - intros q. cbn. lia.
  - intros v j. apply sumsq_z.
  - intros d. apply sumsq_z.
  - now left.
Qed.

Definition ex_m0 : list C := repeat (RtoC 5) 12.
Definition ex_m2 : list C := repeat (1, 2) 12.
Definition ex_maps : spindict :=
  [("s2a4", {| ss_maps := [ex_m2]; ss_svals := [2%Z] |}); ("s0a0", {| ss_maps := [ex_m0]; ss_svals := [0%Z] |})]%string.
Definition ex_signal (w : who) (maps : spindict) (v : view) (j : nat) : R :=
  match w with
  | Main d => match view_tod ex_optics d maps v with Ok tod => Re (nth j tod (RtoC 0)) | Err _ => 0 end
  | Ghost _ _ => 0
  end.
Definition sky_env (r : nat) : env spindict :=
  mkenv ex_signal (fun c => repeat 0 (csize c)) false 3 true 2 r (fun _ _ _ => (0%Z, 0)).
Definition sky_det (i : Z) : det spindict := mkdet i false false [] None (Ok ex_maps).
Definition sky_opts : opts := mkopts true false true false true false false false 0 false (fun _ t => Ok t).
Definition sky_state : state spindict :=
  mkstate still_strat [(Some (sky_det 0), None); (Some (sky_det 1), None)] None None None [] None None None
    (fun _ => None) (fun _ _ => None) (fun _ _ => []) (fun _ => []) [].
Definition sky_view : view := mkview false 0 (Some (HScalar (M_Hwp.radians 0))) [0; 0; 0] 0.

Ltac runs := lazy -[Rplus Rmult IZR INR Req_EM_T Rminus Rdiv Ropp PI M_Hwp.radians ex_signal ex_maps].
Definition sky_tod (r : nat) : list R := map (ex_signal (Main (Z.of_nat r)) ex_maps sky_view) (seq 0 3).
Definition sky_log (r : nat) : list event :=
  [EPoint (mkchunk 0 3 (Some 0%nat) false) [0; 0; 0]; EScan (Main (Z.of_nat r)) sky_view (sky_tod r); EBin (Z.of_nat r) sky_view (sky_tod r)].
Lemma sky_runs r : (r < 2)%nat ->
  exists s', scan_instrument (sky_env r) sky_opts sky_state = Ok s' /\ s_log s' = s_log sky_state ++ sky_log r.
Proof.
  intros Hr. destruct r as [|[|r]]; [| |lia]; (eexists; split; [runs; reflexivity|reflexivity]).
Qed.
Lemma sky_well r : well_set (sky_env r) sky_opts sky_state.
Proof.
  constructor.
  - split; [cbn; lia|]. discriminate.
  - discriminate.
  - discriminate.
  - cbn. repeat constructor; cbn; intuition discriminate.
  - apply still_fresh.
  - discriminate.
  - reflexivity.
  - right; right; reflexivity.
  - intros c. cbn [e_elev sky_env]. rewrite repeat_length. unfold csize. lia.
Qed.
Lemma sky_ready i : pair_ready (sky_det i) None.
Proof.
  split; [|split; [|split]].
  - split; [exists ex_maps; right; split; reflexivity|]. split; [intros g []|discriminate].
  - intros g j [].
  - intros g g' x [].
  - discriminate.
Qed.
Lemma sky_observed r : (r < 2)%nat -> exists s', observed ex_optics ex_m0 ex_m2 err (sky_env r) sky_opts sky_state s' (sky_log r).
Proof.
  intros Hr. destruct (sky_runs r Hr) as (s' & H & L). exists s'. constructor; auto.
  - apply sky_well.
  - cbn. lra.
  - repeat split.
  - intros p d Hp Hd _. destruct Hp as [<-|[<-|[]]]; destruct Hd as [<-|[]]; eexists; exists None; (split; [reflexivity|apply sky_ready]).
  - intros d Hd _. cbn in Hd. destruct Hd as [<-|[<-|[]]]; split; reflexivity.
  - intros a ob maps Hp HM. assert (G : get_blm (d_blm a) (d_gen a) = Ok ex_maps).
    { destruct Hp as [Hp|[Hp|[]]]; inversion Hp; reflexivity. }
    assert (maps = ex_maps) as ->.
    { destruct Hp as [Hp|[Hp|[]]]; inversion Hp; subst a; destruct HM as [X|[_ X]]; cbn in X; congruence. }
    apply plain_seen, perm_swap.
  - intros d maps v tod j _ Ht. cbn [e_signal sky_env ex_signal]. now rewrite Ht.
Qed.

Lemma sky_pointing d j : (j < 3)%nat -> same_angle (snd (x_look ex_optics (scan_q_det ex_optics d sky_view j)) * PI / 180) (- (INR j * (PI / 4))).
Proof.
  intros _. unfold scan_q_det, scan_q_off. cbv zeta. cbn [x_bore x_off ex_optics sky_view v_rot].
  change (Q4 _ _ _ _) with (q_z (0 * PI / 180)). rewrite !q_z_add.
  assert (A := proj2 (ex_turns (q_z 0) (INR j * (PI / 4)) (sumsq_z 0))). rewrite q_z_add in A.
  cbn [x_look]. replace (INR j * (PI / 4) + (0 * PI / 180 + 0)) with (0 + INR j * (PI / 4)) by field.
  eapply same_angle_trans; [exact A|]. apply same_angle_eq.
  assert (R0 : roll (q_z 0) = 0).
  { unfold roll, q_z. cbn [q0 q3]. replace (0 / 2) with 0 by field. rewrite cos_0, sin_0.
    destruct (Req_EM_T (1 * 1 + 0 * 0) 0) as [X|_]; [lra|]. unfold arctan2.
    destruct (Rlt_dec 0 1); [|lra]. replace (0 / 1) with 0 by field. rewrite atan_0. ring. }
  cbn [ex_look snd]. rewrite R0. field. apply PI_neq0.
Qed.

Definition sky_sample (j : nat) : M_Solve.obs := bin_sample ex_optics 0 sky_view j (nth j (sky_tod 0) 0).
Lemma sky_angle j : (j < 3)%nat -> M_Solve.o_pix (sky_sample j) = 5%nat
  /\ M_Solve.o_cos (sky_sample j) = cos (INR j * (PI / 2)) /\ M_Solve.o_sin (sky_sample j) = - sin (INR j * (PI / 2)).
Proof.
  intros Hj. destruct (bin_angle ex_optics 12 ex_sound 0 sky_view j (nth j (sky_tod 0) 0)) as (psi & Op & _ & Oc & Os & SA).
  fold (sky_sample j) in *. split; [exact Op|].
  assert (A : same_angle psi (- (INR j * (PI / 4)))).
  { apply (same_angle_trans _ _ _ SA). destruct (sky_pointing 0 j Hj) as [k Hk]. rewrite Hk. exists k.
    cbn [x_polang x_varphi ex_optics Z.eqb]. unfold bin_hwp. cbn [view_hwp sky_view v_hwp]. unfold M_Hwp.radians. field. }
  apply cis_angle in A. unfold cis in A. injection A as Ac As. rewrite Oc, Os, Ac, As.
  replace (2 * - (INR j * (PI / 4))) with (- (INR j * (PI / 2))) by field. rewrite cos_neg, sin_neg.
  cbn [x_sign ex_optics]. split; ring.
Qed.

Definition no_maps : M_Solve.maps := {| M_Solve.global := None; M_Solve.depo := []; M_Solve.own_flag := None; M_Solve.npix := 0 |}.
Definition sky_ranks : list (M_Solve.maps * list M_Solve.call) :=
  map (fun r => (no_maps, bin_calls_of ex_optics (sky_log r))) [0; 1]%nat.
Lemma sky_three : S_Solve.three_angles 5 (S_Solve.ranks_used sky_ranks).
Proof.
  assert (I3 : forall j, (j < 3)%nat -> In (sky_sample j) (S_Solve.ranks_used sky_ranks)).
  { intros j Hj. destruct j as [|[|[|j]]]; [| | |lia].
    - left. reflexivity.
    - right. left. reflexivity.
    - right. right. left. reflexivity. }
  exists (sky_sample 0), (sky_sample 1), (sky_sample 2).
  destruct (sky_angle 0) as (P0 & C0 & S0); [lia|]. destruct (sky_angle 1) as (P1 & C1 & S1); [lia|].
  destruct (sky_angle 2) as (P2 & C2 & S2); [lia|].
  replace (INR 0 * (PI / 2)) with 0 in * by (cbn; ring). replace (INR 1 * (PI / 2)) with (PI / 2) in * by (cbn; ring).
  replace (INR 2 * (PI / 2)) with PI in * by (cbn; field).
  rewrite cos_0 in C0. rewrite cos_PI2 in C1. rewrite cos_PI in C2.
  do 3 (split; [apply I3; lia|]). do 3 (split; [assumption|]).
  unfold S_Solve.same_direction. rewrite C0, C1, C2. repeat split; intros [X _]; lra.
Qed.
Lemma sky_binned : exists gs, Forall2 (S_Solve.rank_maps 1) sky_ranks gs.
Proof.
  assert (G : forall r, exists g, S_Solve.rank_maps 1 (no_maps, bin_calls_of ex_optics (sky_log r)) g).
  { intros r. destruct (L_Solve.bin_succeeds 1 no_maps (bin_calls_of ex_optics (sky_log r)) eq_refl) as (s & Hs).
    - intros c Hc. now destruct (in_bin_calls _ _ _ Hc) as (? & ? & ? & _ & _ & F).
    - destruct (L_Solve.binned_sums 1 no_maps _ s Hs) as (g & Hg & _). exists g, s. auto. }
  destruct (G 0%nat) as (g0 & H0), (G 1%nat) as (g1 & H1). exists [g0; g1]. repeat constructor; assumption.
Qed.
End Err.
Lemma small_rank r : In r [0; 1]%nat -> (r < 2)%nat.
Proof. intros [<-|[<-|[]]]; lia. Qed.
