(** * Rounding to significant digits *)
From Coq Require Import Reals Lra Lia.
From Verif Require Import Common M_Beam M_Plot S_Plot.
Open Scope R_scope.

Lemma int_part_bounds x : IZR (Int_part x) <= x < IZR (Int_part x) + 1.
Proof. destruct (base_Int_part x). lra. Qed.

Lemma rint_near x : Rabs (IZR (rint x) - x) <= 1 / 2.
Proof.
  unfold rint. pose proof (int_part_bounds x).
  destruct (Rlt_dec _ _); [apply Rabs_le; lra|].
  destruct (Rlt_dec _ _); [rewrite plus_IZR; apply Rabs_le; lra|].
  destruct (Z.even _); [|rewrite plus_IZR]; apply Rabs_le; lra.
Qed.

Lemma rint_ge x a : IZR a <= x -> (a <= rint x)%Z.
Proof.
  intros H. assert (F : (a <= Int_part x)%Z).
  { pose proof (int_part_bounds x). assert (IZR a < IZR (Int_part x + 1)) by (rewrite plus_IZR; lra).
    apply lt_IZR in H1. lia. }
  unfold rint. repeat destruct (Rlt_dec _ _); try lia. destruct (Z.even _); lia.
Qed.

Lemma rint_le x b : x <= IZR b -> (rint x <= b)%Z.
Proof.
  intros H. pose proof (int_part_bounds x) as B.
  assert (F : (Int_part x <= b)%Z) by (apply le_IZR; lra).
  destruct (Z.eq_dec (Int_part x) b) as [E|E].
  - unfold rint. destruct (Rlt_dec _ _) as [|N]; [lia|]. rewrite E in N. rewrite E in B. lra.
  - unfold rint. repeat destruct (Rlt_dec _ _); try lia. destruct (Z.even _); lia.
Qed.

Lemma p10 e : 0 < powerRZ 10 e.
Proof. apply powerRZ_lt. lra. Qed.

Lemma p10_add a b : powerRZ 10 (a + b) = powerRZ 10 a * powerRZ 10 b.
Proof. apply powerRZ_add. lra. Qed.

Lemma p10_exp e : powerRZ 10 e = exp (IZR e * ln 10).
Proof. rewrite powerRZ_Rpower by lra. reflexivity. Qed.

Lemma p10_Z k : (0 <= k)%Z -> powerRZ 10 k = IZR (10 ^ k).
Proof.
  intros H. rewrite <- (Z2Nat.id k H) at 1. rewrite <- pow_powerRZ.
  rewrite <- (Z2Nat.id k H) at 2. rewrite <- pow_IZR. reflexivity.
Qed.

Lemma ln10 : 0 < ln 10.
Proof. rewrite <- ln_1. apply ln_increasing; lra. Qed.

Lemma first_digit x : 0 < x -> let e := Int_part (ln x / ln 10) in
  powerRZ 10 e <= x < powerRZ 10 (e + 1).
Proof.
  intros Hx e. pose proof (int_part_bounds (ln x / ln 10)) as [A B]. fold e in A, B. pose proof ln10 as L.
  assert (Q : ln x / ln 10 * ln 10 = ln x) by (field; lra).
  rewrite !p10_exp, plus_IZR. clearbody e. rewrite <- (exp_ln x Hx). split.
  - assert (IZR e * ln 10 <= ln x) by (rewrite <- Q; apply Rmult_le_compat_r; lra).
    destruct (Req_dec (IZR e * ln 10) (ln x)) as [->|]; [lra|]. left. apply exp_increasing. lra.
  - apply exp_increasing. rewrite <- Q. apply Rmult_lt_compat_r; lra.
Qed.

Lemma round_sig_ok x sig : x <> 0 -> (1 <= sig)%Z -> exists y, round_sig x sig = Ok y /\ rounded sig x y.
Proof.
  intros Hx Hs. unfold round_sig. destruct (Req_EM_T x 0) as [|_]; [tauto|].
  set (e0 := Int_part (ln (Rabs x) / ln 10)).
  pose proof (first_digit (Rabs x) (Rabs_pos_lt x Hx)) as F. cbv zeta in F. fold e0 in F.
  set (d := (sig - e0 - 1)%Z). eexists. split; [reflexivity|]. unfold np_round.
  exists (rint (x * powerRZ 10 d)), (- d)%Z.
  pose proof (p10 d) as Pd.
  assert (I : powerRZ 10 (- d) = / powerRZ 10 d).
  { apply (Rmult_eq_reg_l (powerRZ 10 d)); [|lra]. rewrite <- p10_add, Z.add_opp_diag_r. cbn. field. lra. }
  split; [|split; [|split]].
  - replace (- d + sig - 1)%Z with e0 by (unfold d; lia). replace (- d + sig)%Z with (e0 + 1)%Z by (unfold d; lia). exact F.
  - rewrite I. reflexivity.
  - assert (L : IZR (10 ^ (sig - 1)) <= Rabs x * powerRZ 10 d).
    { rewrite <- p10_Z by lia. replace (sig - 1)%Z with (e0 + d)%Z by (unfold d; lia). rewrite p10_add.
      apply Rmult_le_compat_r; lra. }
    assert (U : Rabs x * powerRZ 10 d <= IZR (10 ^ sig)).
    { rewrite <- p10_Z by lia. replace (powerRZ 10 sig) with (powerRZ 10 (e0 + 1 + d)) by (f_equal; unfold d; lia). rewrite p10_add.
      apply Rmult_le_compat_r; lra. }
    assert (P : (0 < 10 ^ (sig - 1))%Z) by (apply Z.pow_pos_nonneg; lia).
    destruct (Rle_dec 0 x) as [Px|Nx].
    + rewrite Rabs_pos_eq in L, U by lra. apply rint_ge in L. apply rint_le in U. lia.
    + rewrite Rabs_left in L, U by lra.
      assert (L' : x * powerRZ 10 d <= IZR (- 10 ^ (sig - 1))) by (rewrite opp_IZR; lra).
      assert (U' : IZR (- 10 ^ sig) <= x * powerRZ 10 d) by (rewrite opp_IZR; lra).
      apply rint_le in L'. apply rint_ge in U'. lia.
  - rewrite I. replace (IZR (rint (x * powerRZ 10 d)) / powerRZ 10 d - x)
      with ((IZR (rint (x * powerRZ 10 d)) - x * powerRZ 10 d) * / powerRZ 10 d) by (field; lra).
    rewrite Rabs_mult, (Rabs_pos_eq (/ powerRZ 10 d)) by (left; now apply Rinv_0_lt_compat).
    pose proof (rint_near (x * powerRZ 10 d)). assert (0 < / powerRZ 10 d) by now apply Rinv_0_lt_compat.
    unfold Rdiv. rewrite (Rmult_comm (/ powerRZ 10 d)). apply Rmult_le_compat_r; lra.
Qed.

Lemma round_sig_err x sig : x <> 0 -> (1 <= sig)%Z -> exists y, round_sig x sig = Ok y
  /\ Rabs (y - x) <= 5 * powerRZ 10 (- sig) * Rabs x.
Proof.
  intros Hx Hs. destruct (round_sig_ok x sig Hx Hs) as (y & E & n & e & D & _ & _ & A). exists y. split; [exact E|].
  apply (Rle_trans _ _ _ A). apply (Rle_trans _ (5 * powerRZ 10 (- sig) * powerRZ 10 (e + sig - 1))).
  - rewrite Rmult_assoc, <- p10_add. replace (- sig + (e + sig - 1))%Z with (e + -1)%Z by lia.
    rewrite p10_add. pose proof (p10 e). change (powerRZ 10 (-1)) with (/ (10 ^ 1)). lra.
  - pose proof (p10 (- sig)). apply Rmult_le_compat_l; lra.
Qed.

Lemma round_sig_same sig x y : (1 <= sig)%Z -> round_sig x sig = Ok y -> x <> 0 /\ rounded sig x y.
Proof.
  intros Hs H. assert (Hx : x <> 0) by (intros ->; unfold round_sig in H; destruct (Req_EM_T 0 0); [discriminate|tauto]).
  split; [exact Hx|]. destruct (round_sig_ok x sig Hx Hs) as (y' & E & R). congruence.
Qed.

Lemma round_sig_zero sig : round_sig 0 sig = Err OverflowError.
Proof. unfold round_sig. destruct (Req_EM_T 0 0); [reflexivity|tauto]. Qed.
