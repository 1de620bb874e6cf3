(** * Proofs about band averages *)
From Coq Require Import Reals Lra Psatz.
From Verif Require Import Common Cplx Mat M_Mueller S_Mueller M_Transfer S_Transfer.
Open Scope R_scope.

Definition sum_from (k n : nat) (f : nat -> R) : R := fold_right Rplus 0 (map f (seq k n)).

Lemma sum_from_S k n f : sum_from k (S n) f = f k + sum_from (S k) n f.
Proof. reflexivity. Qed.

Lemma trapz_uniform x d y n : (forall i, x (S i) - x i = d) -> forall k,
  trapz (map y (seq k (S n))) (map x (seq k (S n)))
  = d * (sum_from k (S n) y - (y k + y (k + n)%nat) / 2).
Proof.
  intros H. induction n as [|n IH]; intros k.
  - cbn. rewrite Nat.add_0_r. field.
  - specialize (IH (S k)). rewrite sum_from_S. rewrite <- Nat.add_succ_comm.
    change (trapz (map y (seq k (S (S n)))) (map x (seq k (S (S n)))))
      with ((x (S k) - x k) * (y (S k) + y k) / 2
            + trapz (map y (seq (S k) (S n))) (map x (seq (S k) (S n)))).
    rewrite IH, H. field.
Qed.

Lemma sum_from_split k n f : sum_from k (S n) f = sum_from k n f + f (k + n)%nat.
Proof.
  revert k. induction n as [|n IH]; intros k.
  - cbn. rewrite Nat.add_0_r. ring.
  - rewrite sum_from_S, IH, (sum_from_S k n). rewrite Nat.add_succ_comm. ring.
Qed.

Lemma sum_from_ext k n f g : (forall i, (k <= i < k + n)%nat -> f i = g i) ->
  sum_from k n f = sum_from k n g.
Proof.
  revert k. induction n as [|n IH]; intros k H; [reflexivity|].
  rewrite !sum_from_S, H by lia. rewrite (IH (S k)); [reflexivity|]. intros; apply H; lia.
Qed.

Lemma total_trapezium n y : (2 <= n)%nat ->
  total n (fun i => trapezium n i * y i) = sum_from 0 n y - (y 0%nat + y (n - 1)%nat) / 2.
Proof.
  intros Hn. destruct n as [|[|n]]; try lia. unfold total.
  change (fold_right Rplus 0 (map ?f (seq 0 ?n))) with (sum_from 0 n f).
  rewrite sum_from_split, sum_from_S. rewrite (sum_from_split 0 (S n) y), (sum_from_S 0 n y).
  replace (S (S n) - 1)%nat with (S n) by lia. cbn [Nat.add].
  rewrite (sum_from_ext 1 n (fun i => trapezium (S (S n)) i * y i) y).
  - unfold trapezium. replace (S (S n) - 1)%nat with (S n) by lia. cbn [Nat.eqb orb].
    rewrite Nat.eqb_refl. cbn [orb]. lra.
  - intros i Hi. unfold trapezium. replace (S (S n) - 1)%nat with (S n) by lia.
    destruct (Nat.eqb_spec i 0); [lia|]. destruct (Nat.eqb_spec i (S n)); [lia|]. cbn. ring.
Qed.

Lemma mul_arr_map f g (l : list nat) : mul_arr (map f l) (map g l) = map (fun i => f i * g i) l.
Proof. induction l as [|x l IH]; cbn; [reflexivity|now rewrite IH]. Qed.

Lemma mapM_map {A B} (f : A -> res B) (x : nat -> A) (g : nat -> B) l :
  (forall i, In i l -> f (x i) = Ok (g i)) -> mapM f (map x l) = Ok (map g l).
Proof.
  induction l as [|i l IH]; intros H; cbn; [reflexivity|].
  rewrite H by now left. cbn. rewrite IH; [reflexivity|]. intros j Hj. apply H. now right.
Qed.

Definition grid (lo hi : R) (n i : nat) : R := lo + INR i * (hi - lo) / INR n.

Lemma frequencies_grid lo hi n : frequencies lo hi n = map (grid lo hi n) (seq 0 n).
Proof. reflexivity. Qed.

Lemma grid_step lo hi n i : grid lo hi n (S i) - grid lo hi n i = (hi - lo) / INR n.
Proof. unfold grid. rewrite S_INR. unfold Rdiv. ring. Qed.

Lemma ones_map n : repeat 1 n = map (fun _ : nat => 1) (seq 0 n).
Proof.
  generalize 0%nat. induction n as [|n IH]; intros k; cbn; [reflexivity|]. now rewrite (IH (S k)).
Qed.

Definition elem (el : rmat4 -> R) := el.

Section Law.
Variables (s : stack) (spectrum : R -> res R) (lo hi : R) (rfl : bool) (pass : option (R -> res R))
  (th : R) (n : nat) (rot n1 n3 : R) (M : nat -> rmat4) (sp pb : nat -> R).
Hypothesis Hn : (2 <= n)%nat.
Hypothesis Hhi : lo <> hi.
Hypothesis HM : forall i, (i < n)%nat -> Mueller s (grid lo hi n i) th rot n1 n3 rfl = Ok (M i).
Hypothesis Hs : forall i, (i < n)%nat -> spectrum (grid lo hi n i) = Ok (sp i).
Hypothesis Hp : forall i, (i < n)%nat ->
  match pass with None => pb i = 1 | Some p => p (grid lo hi n i) = Ok (pb i) end.

Let W := fun i => trapezium n i * (sp i * pb i).

Lemma band_law :
  BandAveragedMueller s spectrum lo hi rfl pass th n rot n1 n3
  = Ok (if Req_EM_T (total n W) 0 then None else
      Some (let av el := total n (fun i => trapezium n i * (sp i * pb i) * el (M i)) / total n W in
      V4 (V4 (av (fun m => e0 (e0 m))) (av (fun m => e1 (e0 m))) (av (fun m => e2 (e0 m))) (av (fun m => e3 (e0 m))))
         (V4 (av (fun m => e0 (e1 m))) (av (fun m => e1 (e1 m))) (av (fun m => e2 (e1 m))) (av (fun m => e3 (e1 m))))
         (V4 (av (fun m => e0 (e2 m))) (av (fun m => e1 (e2 m))) (av (fun m => e2 (e2 m))) (av (fun m => e3 (e2 m))))
         (V4 (av (fun m => e0 (e3 m))) (av (fun m => e1 (e3 m))) (av (fun m => e2 (e3 m))) (av (fun m => e3 (e3 m)))))).
Proof.
  unfold BandAveragedMueller. cbv zeta. rewrite frequencies_grid.
  rewrite (mapM_map _ (grid lo hi n) M).
  2:{ intros i Hi. apply in_seq in Hi. apply HM. lia. }
  cbn [bind]. rewrite (mapM_map spectrum (grid lo hi n) sp).
  2:{ intros i Hi. apply in_seq in Hi. apply Hs. lia. }
  cbn [bind].
  assert (EB : match pass with None => Ok (repeat 1 n) | Some p => mapM p (map (grid lo hi n) (seq 0 n)) end
    = Ok (map pb (seq 0 n))).
  { destruct pass as [p|].
    - apply mapM_map. intros i Hi. apply in_seq in Hi. apply (Hp i). lia.
    - rewrite ones_map. f_equal. apply map_ext_in. intros i Hi. apply in_seq in Hi.
      symmetry. apply (Hp i). lia. }
  rewrite EB. cbn [bind].
  pose (D := (hi - lo) / INR n).
  assert (DN : D <> 0).
  { unfold D, Rdiv. apply Rmult_integral_contrapositive_currified; [lra|]. apply Rinv_neq_0_compat.
    apply not_0_INR. lia. }
  assert (TZ : forall y, trapz (map y (seq 0 n)) (map (grid lo hi n) (seq 0 n))
    = D * total n (fun i => trapezium n i * y i)).
  { intros y. destruct n as [|k] eqn:E; [lia|]. rewrite (trapz_uniform (grid lo hi (S k)) D).
    - rewrite total_trapezium by lia. cbn [Nat.add]. now replace (S k - 1)%nat with k by lia.
    - intros i. unfold D. apply grid_step. }
  rewrite mul_arr_map, TZ.
  assert (AV : forall el, trapz (mul_arr (mul_arr (map el (map M (seq 0 n))) (map sp (seq 0 n))) (map pb (seq 0 n)))
      (map (grid lo hi n) (seq 0 n))
    = D * total n (fun i => trapezium n i * (sp i * pb i) * el (M i))).
  { intros el. rewrite map_map, !mul_arr_map, TZ. f_equal. unfold total. f_equal.
    apply map_ext. intros i. ring. }
  fold W. change (total n (fun i => trapezium n i * (sp i * pb i))) with (total n W).
  destruct (Req_EM_T (D * total n W) 0) as [Z|Z]; destruct (Req_EM_T (total n W) 0) as [Y|Y].
  - reflexivity.
  - apply Rmult_integral in Z. tauto.
  - rewrite Y, Rmult_0_r in Z. tauto.
  - rewrite !AV. f_equal. f_equal.
    assert (Q : forall x, D * x / (D * total n W) = x / total n W) by (intros; field; auto).
    now rewrite !Q.
Qed.
End Law.

Lemma band_single s spectrum lo hi rfl pass th rot n1 n3 m x p :
  Mueller s lo th rot n1 n3 rfl = Ok m -> spectrum lo = Ok x ->
  match pass with None => p = 1 | Some f => f lo = Ok p end ->
  BandAveragedMueller s spectrum lo hi rfl pass th 1 rot n1 n3 = Ok None.
Proof.
  intros HM Hs Hp. unfold BandAveragedMueller. cbv zeta.
  assert (E : frequencies lo hi 1 = [lo]).
  { unfold frequencies. cbn. f_equal. field. }
  rewrite E. cbn [mapM]. unfold Mueller in HM. rewrite HM. cbn [bind]. rewrite Hs. cbn [bind].
  assert (EB : match pass with None => Ok (repeat 1 1) | Some f => do b <- f lo; Ok [b] end = Ok [p]).
  { destruct pass; [rewrite Hp|subst]; reflexivity. }
  rewrite EB. cbn [bind mul_arr trapz]. destruct (Req_EM_T 0 0); [reflexivity|lra].
Qed.

(** ** Consequences for the weighted mean *)
Lemma total_le n f g : (forall i, (i < n)%nat -> f i <= g i) -> total n f <= total n g.
Proof.
  unfold total. change (fold_right Rplus 0 (map ?f (seq 0 n))) with (sum_from 0 n f).
  enough (H : forall k, (forall i, (k <= i < k + n)%nat -> f i <= g i) -> sum_from k n f <= sum_from k n g).
  { intros K. apply H. intros; apply K; lia. }
  induction n as [|m IH]; intros k H; [cbn; lra|]. rewrite !sum_from_S.
  apply Rplus_le_compat; [apply H; lia|]. apply IH. intros; apply H; lia.
Qed.

Lemma total_scale n k f : total n (fun i => k * f i) = k * total n f.
Proof.
  unfold total. generalize 0%nat. induction n as [|n IH]; intros j; cbn; [ring|]. rewrite IH. ring.
Qed.

Lemma total_ext n f g : (forall i, (i < n)%nat -> f i = g i) -> total n f = total n g.
Proof. intros H. apply sum_from_ext. intros. apply H. lia. Qed.

Lemma trapezium_pos n i : 0 < trapezium n i.
Proof. unfold trapezium. destruct (_ || _)%bool; lra. Qed.

Lemma mean_between n (w y : nat -> R) lo hi : (forall i, (i < n)%nat -> 0 <= w i) -> 0 < total n w ->
  (forall i, (i < n)%nat -> lo <= y i <= hi) ->
  lo <= total n (fun i => w i * y i) / total n w <= hi.
Proof.
  intros Hw Ht Hy.
  assert (A : total n (fun i => lo * w i) <= total n (fun i => w i * y i)).
  { apply total_le. intros i Hi. specialize (Hw i Hi). specialize (Hy i Hi). nra. }
  assert (B : total n (fun i => w i * y i) <= total n (fun i => hi * w i)).
  { apply total_le. intros i Hi. specialize (Hw i Hi). specialize (Hy i Hi). nra. }
  rewrite total_scale in A, B.
  split; apply (Rmult_le_reg_r (total n w)); try assumption; unfold Rdiv; rewrite Rmult_assoc, Rinv_l by lra; lra.
Qed.

Lemma mean_const n (w y : nat -> R) k : total n w <> 0 -> (forall i, (i < n)%nat -> y i = k) ->
  total n (fun i => w i * y i) / total n w = k.
Proof.
  intros Ht Hy. rewrite (total_ext n _ (fun i => k * w i)).
  - rewrite total_scale. field. assumption.
  - intros i Hi. rewrite Hy by assumption. ring.
Qed.

Lemma total_pos n f : (forall i, (i < n)%nat -> 0 <= f i) -> (exists i, (i < n)%nat /\ 0 < f i) -> 0 < total n f.
Proof.
  intros H (j & Hj & P). unfold total. change (fold_right Rplus 0 (map f (seq 0 n))) with (sum_from 0 n f).
  revert H Hj. enough (Q : forall k, (forall i, (k <= i < k + n)%nat -> 0 <= f i) -> (k <= j < k + n)%nat -> 0 < sum_from k n f).
  { intros H Hj. apply Q; [|lia]. intros; apply H; lia. }
  induction n as [|m IH]; intros k H Hk; [lia|]. rewrite sum_from_S.
  assert (N : 0 <= sum_from (S k) m f).
  { clear IH Hk. revert H. revert k. induction m as [|m IH]; intros k H; [cbn; lra|]. rewrite sum_from_S.
    assert (0 <= f (S k)) by (apply H; lia).
    specialize (IH (S k)). assert (0 <= sum_from (S (S k)) m f).
    { apply IH. intros i Hi. apply H. lia. }
    lra. }
  destruct (Nat.eq_dec j k) as [->|Hne]; [lra|].
  assert (0 < sum_from (S k) m f) by (apply IH; [intros; apply H; lia|lia]).
  specialize (H k). assert (0 <= f k) by (apply H; lia). lra.
Qed.
