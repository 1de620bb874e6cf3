(** * Lemmas about the high-pass filter *)
From Coq Require Import Reals Lra Lia.
From Verif Require Import Common LibList M_Hwp L_Hwp M_Filter L_L2.
Open Scope R_scope.

Lemma some_eq {A} (a b : A) : Some a = Some b -> a = b.
Proof. congruence. Qed.

Section H.
  Context (n : nat) (fsamp w_c : R) (m : nat).
  Hypothesis Hn : (0 < n)%nat.
  Hypothesis Hf : 0 < fsamp.
  Hypothesis Hw : 0 < w_c.
  Hypothesis Hm : (0 < m)%nat.

  Definition mode_freq (k : nat) : R := INR k * fsamp / INR n.

  Lemma mode_pos k : (0 < k)%nat -> 0 < mode_freq k.
  Proof.
    intros H. unfold mode_freq. apply lt_INR in H, Hn. cbn in H, Hn.
    apply Rmult_lt_0_compat; [apply Rmult_lt_0_compat; auto|]. apply Rinv_0_lt_compat. auto.
  Qed.

  Lemma factor_eq k : (0 < k)%nat ->
    highpass_factor n fsamp w_c m k = Some (sqrt (1 / (1 + (w_c / mode_freq k) ^ (2 * m)))).
  Proof.
    intros H. destruct k as [|k]; [lia|]. unfold highpass_factor, mode_freq.
    assert (0 < INR n) by (apply lt_0_INR; auto). assert (0 < INR (S k)) by (apply lt_0_INR; auto).
    do 4 f_equal. f_equal. f_equal. field. lra.
  Qed.

  Lemma ratio_pos k : (0 < k)%nat -> 0 < (w_c / mode_freq k) ^ (2 * m).
  Proof.
    intros H. apply pow_lt. apply Rmult_lt_0_compat; auto. apply Rinv_0_lt_compat, mode_pos, H.
  Qed.

  Lemma factor_zero : highpass_factor n fsamp w_c m 0 = Some 0.
  Proof. unfold highpass_factor. destruct m; [lia|]. destruct (Req_EM_T w_c 0); [lra|]. auto. Qed.

  Lemma factor_bounds k : exists g, highpass_factor n fsamp w_c m k = Some g /\ 0 <= g < 1.
  Proof.
    destruct (Nat.eq_dec k 0) as [->|Hk].
    - exists 0. unfold highpass_factor. destruct m; [lia|]. destruct (Req_EM_T w_c 0); [lra|]. split; [auto|lra].
    - rewrite factor_eq by lia. eexists. split; [reflexivity|]. split; [apply sqrt_pos|].
      assert (P := ratio_pos k ltac:(lia)). apply Rlt_le_trans with (sqrt 1); [|rewrite sqrt_1; lra]. apply sqrt_lt_1; try lra.
      + apply Rlt_le, Rmult_lt_0_compat; [lra|]. apply Rinv_0_lt_compat. lra.
      + apply Rmult_lt_reg_r with (1 + (w_c / mode_freq k) ^ (2 * m)); [lra|]. set (q := (w_c / mode_freq k) ^ (2 * m)) in *. clearbody q. replace (1 / (1 + q) * (1 + q)) with 1 by (field; lra). lra.
  Qed.

  Lemma factor_mono k k' g g' : (k < k')%nat -> highpass_factor n fsamp w_c m k = Some g ->
    highpass_factor n fsamp w_c m k' = Some g' -> g < g'.
  Proof.
    intros Hk E E'. rewrite factor_eq in E' by lia. apply some_eq in E'. subst g'.
    assert (P' := ratio_pos k' ltac:(lia)).
    destruct (Nat.eq_dec k 0) as [->|H0].
    - rewrite factor_zero in E. injection E as <-.
      apply sqrt_lt_R0. apply Rmult_lt_0_compat; [lra|]. apply Rinv_0_lt_compat. lra.
    - rewrite factor_eq in E by lia. apply some_eq in E. subst g. assert (P := ratio_pos k ltac:(lia)).
      assert (X : mode_freq k < mode_freq k').
      { unfold mode_freq, Rdiv. apply lt_INR in Hk. assert (0 < / INR n) by (apply Rinv_0_lt_compat, lt_0_INR; auto).
        repeat (apply Rmult_lt_compat_r; auto). }
      assert (M := mode_pos k ltac:(lia)). assert (M' := mode_pos k' ltac:(lia)).
      assert (Y : w_c / mode_freq k' < w_c / mode_freq k).
      { unfold Rdiv. apply Rmult_lt_compat_l; auto. apply Rinv_lt_contravar; auto. apply Rmult_lt_0_compat; auto. }
      assert (Z : (w_c / mode_freq k') ^ (2 * m) < (w_c / mode_freq k) ^ (2 * m)).
      { assert (0 < w_c / mode_freq k') by (apply Rmult_lt_0_compat; auto; apply Rinv_0_lt_compat; auto).
        assert (Q : forall p, (0 < p)%nat -> forall a b, 0 < a < b -> a ^ p < b ^ p).
        { intros p Hp a b Hab. induction p as [|p IH]; [lia|]. cbn. destruct p as [|p]; [cbn; lra|].
          apply Rmult_gt_0_lt_compat; try lra; [apply pow_lt; lra|apply IH; lia]. }
        apply Q; [lia|lra]. }
      apply sqrt_lt_1; try (apply Rlt_le, Rmult_lt_0_compat; [lra|]; apply Rinv_0_lt_compat; lra).
      unfold Rdiv. apply Rmult_lt_compat_l; [lra|]. apply Rinv_lt_contravar; [|lra]. apply Rmult_lt_0_compat; lra.
  Qed.

  (** Power at and on either side of the cut-off. *)
  Lemma factor_power k g : (0 < k)%nat -> highpass_factor n fsamp w_c m k = Some g ->
    g * g = mode_freq k ^ (2 * m) / (mode_freq k ^ (2 * m) + w_c ^ (2 * m)).
  Proof.
    intros Hk E. rewrite factor_eq in E by auto. apply some_eq in E. subst g. assert (P := ratio_pos k Hk). assert (M := mode_pos k Hk).
    rewrite sqrt_sqrt by (apply Rlt_le, Rmult_lt_0_compat; [lra|]; apply Rinv_0_lt_compat; lra).
    assert (A : 0 < mode_freq k ^ (2 * m)) by now apply pow_lt. assert (B : 0 < w_c ^ (2 * m)) by now apply pow_lt.
    replace ((w_c / mode_freq k) ^ (2 * m)) with (w_c ^ (2 * m) / mode_freq k ^ (2 * m)).
    - field. repeat split; lra.
    - unfold Rdiv. rewrite Rpow_mult_distr. f_equal. now rewrite pow_inv.
  Qed.
End H.

Lemma filter_highpass_nth {A} (scale : R -> A -> A) rfft tod fsamp w_c m k y :
  nth_error (rfft tod) k = Some y ->
  nth_error (filter_tod_highpass scale rfft tod fsamp w_c m) k
  = Some (option_map (fun g => scale g y) (highpass_factor (length tod) fsamp w_c m k)).
Proof.
  intros H. unfold filter_tod_highpass. rewrite nth_error_map.
  assert (Hk : (k < length (rfft tod))%nat) by (apply nth_error_Some; congruence).
  assert (X : nth_error (combine (seq 0 (length (rfft tod))) (rfft tod)) k = Some (k, y)).
  { assert (G : forall (l : list A) s k y, nth_error l k = Some y -> nth_error (combine (seq s (length l)) l) k = Some ((s + k)%nat, y)).
    { clear. induction l as [|a l IH]; intros s [|k] y Hy; cbn in *; try discriminate.
      - rewrite Nat.add_0_r. congruence.
      - rewrite (IH (S s) k y Hy). do 2 f_equal. lia. }
    apply (G _ 0%nat _ _ H). }
  rewrite X. reflexivity.
Qed.

Lemma highpass_spec {A} (scale : R -> A -> A) rfft tod fsamp w_c m :
  tod <> [] -> 0 < fsamp -> 0 < w_c -> (0 < m)%nat ->
  exists gain : nat -> R,
    (forall k y, nth_error (rfft tod) k = Some y ->
       nth_error (filter_tod_highpass scale rfft tod fsamp w_c m) k = Some (Some (scale (gain k) y)))
    /\ gain 0%nat = 0
    /\ (forall k k', (k < k')%nat -> gain k < gain k')
    /\ (forall k, 0 <= gain k < 1)
    /\ (forall k, (0 < k)%nat -> let f := INR k * fsamp / INR (length tod) in
          gain k * gain k = f ^ (2 * m) / (f ^ (2 * m) + w_c ^ (2 * m))).
Proof.
  intros Ht Hf Hw Hm. assert (Hn : (0 < length tod)%nat) by (destruct tod; [tauto|cbn; lia]).
  set (n := length tod) in *.
  exists (fun k => match highpass_factor n fsamp w_c m k with Some g => g | None => 0 end).
  assert (B := factor_bounds n fsamp w_c m Hn Hf Hw Hm).
  split; [|split; [|split; [|split]]].
  - intros k y Hy. rewrite (filter_highpass_nth scale rfft tod fsamp w_c m k y Hy). fold n.
    destruct (B k) as (g & E & _). now rewrite E.
  - rewrite factor_zero; auto.
  - intros k k' Hk. destruct (B k) as (g & E & _), (B k') as (g' & E' & _). rewrite E, E'.
    exact (factor_mono n fsamp w_c m Hn Hf Hw Hm k k' g g' Hk E E').
  - intros k. destruct (B k) as (g & E & Hg). now rewrite E.
  - intros k Hk. destruct (B k) as (g & E & Hg). rewrite E.
    exact (factor_power n fsamp w_c m Hn Hf Hw Hm k g Hk E).
Qed.

Lemma highpass_zero_cut {A} (scale : R -> A -> A) rfft tod fsamp m y :
  nth_error (rfft tod) 0 = Some y -> (0 < m)%nat ->
  nth_error (filter_tod_highpass scale rfft tod fsamp 0 m) 0 = Some None.
Proof.
  intros Hy Hm. rewrite (filter_highpass_nth scale rfft tod fsamp 0 m 0 y Hy). unfold highpass_factor.
  destruct m; [lia|]. destruct (Req_EM_T 0 0); [auto|lra].
Qed.

Lemma fold_sub (l : list R) a : fold_right Rplus 0 (map (fun x => x - a) l) = fold_right Rplus 0 l - INR (length l) * a.
Proof.
  induction l as [|b l IH]; cbn [map fold_right length]; [cbn; lra|]. rewrite IH, S_INR. lra.
Qed.
Lemma sub_average_spec tod : tod <> [] ->
  exists a, sub_average tod = map (fun x => x - a) tod /\ fold_right Rplus 0 (sub_average tod) = 0.
Proof.
  intros H. exists (fold_right Rplus 0 tod / INR (length tod)). split; [reflexivity|].
  unfold sub_average. rewrite fold_sub. assert (INR (length tod) <> 0) by (destruct tod; [tauto|]; apply not_0_INR; cbn; lia).
  field. auto.
Qed.
