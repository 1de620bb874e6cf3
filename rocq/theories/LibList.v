(** * List lemmas missing from the standard library *)
From Coq Require Import List Arith Lia.
Import ListNotations.

Lemma skipn_skipn {A} (i j : nat) (l : list A) : skipn i (skipn j l) = skipn (i + j) l.
Proof.
  revert l; induction j as [|j IH]; intros l.
  - now rewrite Nat.add_0_r.
  - rewrite Nat.add_succ_r. destruct l; simpl; [now rewrite skipn_nil|]. apply IH.
Qed.

Lemma nth_skipn {A} (l : list A) k i d : nth i (skipn k l) d = nth (k + i) l d.
Proof.
  revert l; induction k as [|k IH]; intros l; simpl; auto.
  destruct l; simpl; [now destruct i|]. apply IH.
Qed.

Lemma nth_firstn {A} (l : list A) k i d : i < k -> nth i (firstn k l) d = nth i l d.
Proof.
  revert l i; induction k as [|k IH]; intros l i H; [lia|].
  destruct l; simpl; auto. destruct i; auto. apply IH. lia.
Qed.

Lemma nth_error_skipn {A} (l : list A) k i : nth_error (skipn k l) i = nth_error l (k + i).
Proof.
  revert l; induction k as [|k IH]; intros l; simpl; auto.
  destruct l; simpl; [now destruct i|]. apply IH.
Qed.

Lemma nth_error_firstn {A} (l : list A) k i : i < k -> nth_error (firstn k l) i = nth_error l i.
Proof.
  revert l i; induction k as [|k IH]; intros l i H; [lia|].
  destruct l; simpl; auto. destruct i; simpl; auto. apply IH. lia.
Qed.

Lemma nth_error_nth_iff {A} (l : list A) i d : i < length l -> nth_error l i = Some (nth i l d).
Proof. intros H. now apply nth_error_nth'. Qed.

Lemma nth_ext_iff {A} (l l' : list A) (d : A) :
  length l = length l' -> (forall i, i < length l -> nth i l d = nth i l' d) -> l = l'.
Proof. intros. apply (nth_ext l l' d d); auto. Qed.

Lemma map_repeat {A B} (f : A -> B) x k : map f (repeat x k) = repeat (f x) k.
Proof. induction k; simpl; congruence. Qed.

Lemma firstn_repeat {A} (x : A) k m : k <= m -> firstn k (repeat x m) = repeat x k.
Proof.
  revert m; induction k; intros [|m] H; simpl; try lia; auto.
  rewrite IHk by lia. auto.
Qed.

Lemma skipn_repeat {A} (x : A) k m : skipn k (repeat x m) = repeat x (m - k).
Proof. revert m; induction k; intros [|m]; simpl; auto. Qed.

Lemma map_nth_seq {A} (l : list A) d :
  map (fun i => nth i l d) (seq 0 (length l)) = l.
Proof.
  induction l as [|x l IH]; simpl; auto. f_equal.
  rewrite <- seq_shift, map_map. exact IH.
Qed.

Lemma nth_map_seq {A} (f : nat -> A) s n i d : i < n -> nth i (map f (seq s n)) d = f (s + i).
Proof.
  intros H. rewrite nth_indep with (d' := f 0) by (rewrite map_length, seq_length; auto).
  rewrite map_nth, seq_nth by auto. reflexivity.
Qed.

Lemma nth_error_map_seq {A} (f : nat -> A) s n i : i < n -> nth_error (map f (seq s n)) i = Some (f (s + i)).
Proof.
  intros H. rewrite nth_error_map.
  rewrite (nth_error_nth' _ 0) by (rewrite seq_length; auto).
  rewrite seq_nth by auto. reflexivity.
Qed.

Lemma seq_app_split s a b : seq s (a + b) = seq s a ++ seq (s + a) b.
Proof. apply seq_app. Qed.

Lemma concat_singleton {A} (l : list A) : concat (map (fun x => [x]) l) = l.
Proof. induction l; simpl; congruence. Qed.

Lemma nth_error_ext {A} (l l' : list A) : (forall n, nth_error l n = nth_error l' n) -> l = l'.
Proof.
  revert l'; induction l as [|x l IH]; intros [|y l'] H; auto.
  - specialize (H 0); discriminate.
  - specialize (H 0); discriminate.
  - pose proof (H 0) as H0. cbn in H0. inversion H0. f_equal. apply IH. intros n. exact (H (S n)).
Qed.
