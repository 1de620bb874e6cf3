(** * Proofs about work distribution *)
From Verif Require Import Common LibList M_Mpi S_Mpi.
From Coq Require Import Permutation.

Lemma sum_app l1 l2 : sum (l1 ++ l2) = sum l1 + sum l2.
Proof. induction l1 as [|x l1 IH]; simpl; lia. Qed.

Lemma sum_repeat x k : sum (repeat x k) = k * x.
Proof. induction k; simpl; lia. Qed.

Lemma sum_split_sizes n p : 0 < p -> sum (split_sizes n p) = n.
Proof.
  intros Hp. unfold split_sizes. rewrite sum_app, !sum_repeat.
  pose proof (Nat.div_mod n p ltac:(lia)) as H.
  pose proof (Nat.mod_upper_bound n p ltac:(lia)) as H2.
  nia.
Qed.

Lemma length_split_sizes n p : 0 < p -> length (split_sizes n p) = p.
Proof.
  intros Hp. unfold split_sizes. rewrite app_length, !repeat_length.
  pose proof (Nat.mod_upper_bound n p ltac:(lia)). lia.
Qed.

Lemma sub_sizes_split n p : 0 < p -> sub_sizes n p = split_sizes n p.
Proof.
  intros Hp. unfold sub_sizes, split_sizes.
  pose proof (Nat.mod_upper_bound n p ltac:(lia)) as Hm.
  rewrite map_repeat; simpl (0 + _).
  destruct (Nat.eqb_spec (n mod p) 0) as [E|E].
  - rewrite E; simpl. now rewrite Nat.sub_0_r.
  - rewrite firstn_repeat by lia. rewrite skipn_repeat, map_repeat. reflexivity.
Qed.

Lemma length_sub_sizes n p : 0 < p -> length (sub_sizes n p) = p.
Proof. intros; rewrite sub_sizes_split, length_split_sizes; auto. Qed.

Fixpoint pieces {A} (sizes : list nat) (l : list A) : list (list A) :=
  match sizes with
  | [] => []
  | s :: ss => firstn s l :: pieces ss (skipn s l)
  end.

Lemma concat_pieces {A} sizes (l : list A) :
  concat (pieces sizes l) = firstn (sum sizes) l.
Proof.
  revert l; induction sizes as [|s ss IH]; intros l; simpl; auto.
  rewrite IH. rewrite <- (firstn_skipn s l) at 3.
  rewrite firstn_app.
  destruct (Nat.le_gt_cases s (length l)).
  - rewrite firstn_length, Nat.min_l by lia.
    rewrite firstn_all2 with (n := s + sum ss) by (rewrite firstn_length; lia).
    replace (s + sum ss - s) with (sum ss) by lia. reflexivity.
  - rewrite !skipn_all2 by lia. rewrite !firstn_nil.
    rewrite (firstn_all2 (n := s + sum ss)); auto. rewrite firstn_length; lia.
Qed.

Lemma skipn_slice {A} (l : list A) s i j :
  slice (skipn s l) i j = slice l (s + i) (s + j).
Proof.
  unfold slice. rewrite skipn_skipn.
  replace (s + j - (s + i)) with (j - i) by lia.
  replace (i + s) with (s + i) by lia. reflexivity.
Qed.

Lemma pieces_slices {A} sizes (l : list A) :
  pieces sizes l
  = map (fun i => slice l (sum (firstn i sizes)) (sum (firstn (S i) sizes)))
        (seq 0 (length sizes)).
Proof.
  revert l; induction sizes as [|s ss IH]; intros l; simpl; auto.
  f_equal.
  - unfold slice. simpl. now rewrite Nat.add_0_r, Nat.sub_0_r.
  - rewrite IH, <- seq_shift, map_map. apply map_ext_in; intros i Hi.
    rewrite skipn_slice. reflexivity.
Qed.

Lemma length_cumsum_from acc l : length (cumsum_from acc l) = length l.
Proof. revert acc; induction l; intros; simpl; auto. Qed.

Lemma nth_cumsum_from acc l i : i < length l ->
  nth i (cumsum_from acc l) 0 = acc + sum (firstn (S i) l).
Proof.
  revert acc i; induction l as [|x l IH]; intros acc i Hi; simpl in *; try lia.
  destruct i; [simpl; lia|]. rewrite IH by lia. simpl. lia.
Qed.

Lemma array_split_pieces {A} (l : list A) p : 0 < p ->
  array_split l p = pieces (split_sizes (length l) p) l.
Proof.
  intros Hp. unfold array_split. rewrite pieces_slices, length_split_sizes by auto.
  apply map_ext_in; intros i Hi. apply in_seq in Hi.
  pose proof (length_split_sizes (length l) p Hp) as HL.
  unfold cumsum. rewrite !nth_cumsum_from by (simpl; lia).
  reflexivity.
Qed.

Lemma length_pieces {A} sizes (l : list A) : length (pieces sizes l) = length sizes.
Proof. revert l; induction sizes; intros; simpl; auto. Qed.

Lemma scatter_ranks {A} size (l : list A) : 0 < size ->
  on_ranks size (fun r => scatter_list true size r l) = array_split l size.
Proof.
  intros Hp. unfold on_ranks, scatter_list. simpl.
  assert (E : length (array_split l size) = size)
    by (rewrite array_split_pieces, length_pieces, length_split_sizes; auto).
  pose proof (map_nth_seq (array_split l size) []) as H. rewrite E in H. exact H.
Qed.

Lemma scatter_covers {A} size (l : list A) : 0 < size ->
  covers (on_ranks size (fun r => scatter_list true size r l)) l.
Proof.
  intros Hp. unfold covers. rewrite scatter_ranks, array_split_pieces by auto.
  rewrite concat_pieces, sum_split_sizes by auto. apply firstn_all.
Qed.

Lemma nth_split_sizes n p i : 0 < p -> i < p ->
  nth i (split_sizes n p) 0 = n / p + (if i <? n mod p then 1 else 0).
Proof.
  intros Hp Hi. unfold split_sizes.
  destruct (Nat.ltb_spec i (n mod p)).
  - rewrite app_nth1 by (rewrite repeat_length; lia).
    rewrite nth_indep with (d' := n / p + 1) by (rewrite repeat_length; lia).
    rewrite nth_repeat. reflexivity.
  - rewrite app_nth2 by (rewrite repeat_length; lia).
    rewrite repeat_length.
    rewrite nth_indep with (d' := n / p) by (rewrite repeat_length; lia).
    rewrite nth_repeat. lia.
Qed.

Lemma nth_error_pieces_length {A} sizes (l : list A) i a :
  sum sizes <= length l ->
  nth_error (pieces sizes l) i = Some a -> length a = nth i sizes 0.
Proof.
  revert l i; induction sizes as [|s ss IH]; intros l i Hs H; destruct i; simpl in *;
    try discriminate.
  - injection H as <-. rewrite firstn_length. lia.
  - apply IH in H; auto. rewrite skipn_length. lia.
Qed.

Lemma scatter_part_length {A} size r (l : list A) : 0 < size -> r < size ->
  length (scatter_list true size r l)
  = length l / size + (if r <? length l mod size then 1 else 0).
Proof.
  intros Hp Hr. unfold scatter_list; simpl.
  rewrite array_split_pieces by auto.
  destruct (nth_error (pieces (split_sizes (length l) size) l) r) as [a|] eqn:E.
  - rewrite (nth_error_nth _ _ _ E).
    rewrite (nth_error_pieces_length (split_sizes (length l) size) l r a);
      [|rewrite sum_split_sizes; auto| exact E].
    apply nth_split_sizes; auto.
  - apply nth_error_None in E. rewrite length_pieces, length_split_sizes in E by auto. lia.
Qed.


Lemma nth_error_on_ranks {B} size (f : nat -> B) i b :
  nth_error (on_ranks size f) i = Some b -> i < size /\ b = f i.
Proof.
  unfold on_ranks. intros H.
  assert (Hi : i < length (map f (seq 0 size))) by (apply nth_error_Some; congruence).
  rewrite map_length, seq_length in Hi. split; auto.
  rewrite nth_error_map in H.
  destruct (nth_error (seq 0 size) i) as [k|] eqn:E; simpl in H; [|discriminate].
  apply nth_error_nth with (d := 0) in E. rewrite seq_nth in E by auto.
  simpl in E. subst k. congruence.
Qed.

Lemma scatter_balanced {A} size (l : list A) : 0 < size ->
  balanced (on_ranks size (fun r => scatter_list true size r l)).
Proof.
  intros Hp i j a b Hij Ha Hb.
  apply nth_error_on_ranks in Ha as [Hi ->].
  apply nth_error_on_ranks in Hb as [Hj ->].
  rewrite !scatter_part_length by auto.
  destruct (Nat.ltb_spec i (length l mod size)), (Nat.ltb_spec j (length l mod size)); lia.
Qed.

Lemma scatter_no_mpi {A} size r (l : list A) : scatter_list false size r l = l.
Proof. reflexivity. Qed.

(** ** distribute_array *)

Lemma sum_firstn_S l i : i < length l ->
  sum (firstn (S i) l) = sum (firstn i l) + nth i l 0.
Proof.
  revert i; induction l as [|x l IH]; intros i Hi; simpl in Hi; [lia|].
  destruct i; [simpl; lia|].
  change (firstn (S (S i)) (x :: l)) with (x :: firstn (S i) l).
  change (firstn (S i) (x :: l)) with (x :: firstn i l).
  cbn [sum nth]. rewrite IH by lia. lia.
Qed.

Lemma distribute_slice {A} size r (l : list A) : 0 < size -> r < size ->
  distribute_array true size r l = scatter_list true size r l.
Proof.
  intros Hp Hr. unfold distribute_array, scatter_list; simpl.
  rewrite array_split_pieces, pieces_slices by auto.
  rewrite length_split_sizes by auto.
  rewrite nth_map_seq by auto. simpl plus.
  unfold sub_end, sub_start. rewrite sub_sizes_split by auto.
  rewrite sum_firstn_S by (rewrite length_split_sizes; auto). reflexivity.
Qed.

Lemma distribute_ranks {A} size (l : list A) : 0 < size ->
  on_ranks size (fun r => distribute_array true size r l)
  = on_ranks size (fun r => scatter_list true size r l).
Proof.
  intros Hp. unfold on_ranks. apply map_ext_in; intros r Hr.
  apply in_seq in Hr. apply distribute_slice; lia.
Qed.

Lemma slice_contiguous {A} (l : list A) i j : contiguous (slice l i j) l.
Proof.
  exists (firstn i l), (skipn (j - i) (skipn i l)).
  unfold slice. now rewrite firstn_skipn, firstn_skipn.
Qed.

Lemma distribute_contiguous {A} mpi size r (l : list A) :
  contiguous (distribute_array mpi size r l) l.
Proof.
  unfold distribute_array. destruct mpi.
  - apply slice_contiguous.
  - exists [], []. now rewrite app_nil_r.
Qed.

(** ** Parallel pointing *)

Lemma map3_firstn {A B C D} (f : A -> B -> C -> D) k a b c :
  map3 f (firstn k a) (firstn k b) (firstn k c) = firstn k (map3 f a b c).
Proof.
  revert a b c; induction k as [|k IH]; intros [|x a] [|y b] [|z c]; simpl; auto.
  now rewrite IH.
Qed.

Lemma map3_nil_2 {A B C D} (f : A -> B -> C -> D) a c : map3 f a [] c = [].
Proof. destruct a; reflexivity. Qed.

Lemma map3_nil_3 {A B C D} (f : A -> B -> C -> D) a b : map3 f a b [] = [].
Proof. destruct a, b; reflexivity. Qed.

Lemma map3_skipn {A B C D} (f : A -> B -> C -> D) k a b c :
  map3 f (skipn k a) (skipn k b) (skipn k c) = skipn k (map3 f a b c).
Proof.
  revert a b c; induction k as [|k IH]; intros [|x a] [|y b] [|z c]; simpl;
    rewrite ?map3_nil_2, ?map3_nil_3; auto.
Qed.

Lemma map3_slice {A B C D} (f : A -> B -> C -> D) i j a b c :
  map3 f (slice a i j) (slice b i j) (slice c i j) = slice (map3 f a b c) i j.
Proof. unfold slice. now rewrite map3_firstn, map3_skipn. Qed.

Lemma length_map3 {A B C D} (f : A -> B -> C -> D) a b c :
  length b = length a -> length c = length a -> length (map3 f a b c) = length a.
Proof.
  revert b c; induction a as [|x a IH]; intros [|y b] [|z c] Hb Hc; simpl in *;
    try discriminate; auto.
Qed.

Lemma ravel_app {F} (a b : list (quat F)) : ravel (a ++ b) = ravel a ++ ravel b.
Proof. apply flat_map_app. Qed.

Lemma length_ravel {F} (a : list (quat F)) : length (ravel a) = 4 * length a.
Proof.
  unfold ravel. induction a as [|[[[w x] y] z] a IH]; simpl in *; [auto|].
  unfold ravel in IH. lia.
Qed.

Lemma reshape4_ravel {F} (a : list (quat F)) : reshape4 (ravel a) = a.
Proof.
  unfold ravel. induction a as [|[[[w x] y] z] a IH]; simpl; auto.
  now rewrite IH.
Qed.

(** Gathering consecutive pieces at their prefix-sum offsets. *)
Fixpoint offsets_from (acc : nat) (counts : list nat) : list nat :=
  match counts with
  | [] => []
  | c :: cs => acc :: offsets_from (acc + c) cs
  end.

Lemma allgatherv_prefix {F} (ps : list (list F)) (counts : list nat) (done rest : list F) :
  map (@length F) ps = counts ->
  length rest = sum counts ->
  allgatherv (done ++ rest) ps counts (offsets_from (length done) counts)
  = Ok (done ++ concat ps).
Proof.
  revert counts done rest; induction ps as [|p ps IH]; intros counts done rest Hl Hr;
    simpl in *; subst counts.
  - simpl in Hr. destruct rest; [|discriminate]. reflexivity.
  - simpl. simpl in Hr.
    unfold put. rewrite Nat.eqb_refl. rewrite app_length, Hr. simpl.
    destruct (Nat.leb_spec (length done + length p)
      (length done + (length p + sum (map (@length F) ps)))); [|lia]. simpl.
    unfold splice.
    rewrite firstn_app, Nat.sub_diag, firstn_all. simpl. rewrite app_nil_r.
    rewrite skipn_app, skipn_all2 by lia. simpl.
    replace (length done + length p - length done) with (length p) by lia.
    rewrite app_assoc.
    replace (length done + length p) with (length (done ++ p)) by (rewrite app_length; lia).
    rewrite IH; auto.
    + now rewrite <- app_assoc.
    + rewrite skipn_length. lia.
Qed.

Lemma offsets_cumsum acc counts : counts <> [] ->
  offsets_from acc counts = acc :: removelast (cumsum_from acc counts).
Proof.
  revert acc; induction counts as [|c cs IH]; intros acc H; [congruence|].
  destruct cs as [|c' cs]; [reflexivity|].
  change (offsets_from acc (c :: c' :: cs)) with (acc :: offsets_from (acc + c) (c' :: cs)).
  rewrite IH by congruence. reflexivity.
Qed.

Lemma ravel_concat {F} (ls : list (list (quat F))) :
  concat (map ravel ls) = ravel (concat ls).
Proof.
  induction ls as [|l ls IH]; simpl; auto. rewrite IH. unfold ravel.
  now rewrite flat_map_app.
Qed.

Lemma map_length_pieces {A} sizes (l : list A) : sum sizes <= length l ->
  map (@length A) (pieces sizes l) = sizes.
Proof.
  revert l; induction sizes as [|s ss IH]; intros l H; simpl in *; auto.
  rewrite firstn_length, IH by (rewrite skipn_length; lia).
  f_equal. lia.
Qed.

Lemma sum_map_mul l k : sum (map (fun z => z * k) l) = sum l * k.
Proof. induction l; simpl; lia. Qed.

Lemma parallel_is_serial {S1 S2 S3 F} (f : S1 -> S2 -> S3 -> quat F) az el ct size junk :
  0 < size -> length el = length az -> length ct = length az ->
  length junk = 4 * length az ->
  parallel_bore f az el ct size junk = Ok (serial_bore f az el ct).
Proof.
  intros Hp He Hc Hj. unfold parallel_bore, serial_bore.
  set (q := map3 f az el ct).
  assert (Hq : length q = length az) by (apply length_map3; auto).
  assert (HP : map (bore_sub f az el ct size) (seq 0 size)
               = map ravel (pieces (split_sizes (length az) size) q)).
  { rewrite pieces_slices, length_split_sizes, map_map by auto.
    apply map_ext_in; intros r Hr. apply in_seq in Hr.
    unfold bore_sub. f_equal. rewrite map3_slice. fold q.
    unfold sub_end, sub_start. rewrite sub_sizes_split by auto.
    rewrite <- sum_firstn_S by (rewrite length_split_sizes; lia). reflexivity. }
  rewrite HP. rewrite sub_sizes_split by auto.
  set (sizes := split_sizes (length az) size) in *.
  assert (Hs : sum sizes = length q) by (unfold sizes; rewrite sum_split_sizes; auto).
  assert (Hne : map (fun z => z * 4) sizes <> []).
  { intros E. apply (f_equal (@length nat)) in E. rewrite map_length in E.
    unfold sizes in E. rewrite length_split_sizes in E by auto. simpl in E. lia. }
  unfold gather_offsets. rewrite sub_sizes_split by auto. fold sizes.
  change (0 :: removelast (cumsum (map (fun z => z * 4) sizes)))
    with (0 :: removelast (cumsum_from 0 (map (fun z => z * 4) sizes))).
  rewrite <- offsets_cumsum by auto.
  pose proof (allgatherv_prefix (map ravel (pieces sizes q)) (map (fun z => z * 4) sizes) [] junk) as HG.
  simpl app in HG. cbn [length] in HG. rewrite HG; clear HG.
  - unfold bind. rewrite ravel_concat, concat_pieces, Hs, firstn_all.
    now rewrite reshape4_ravel.
  - rewrite map_map. rewrite <- (map_length_pieces sizes q) at 2 by lia.
    rewrite map_map. apply map_ext; intros a. rewrite length_ravel. lia.
  - rewrite sum_map_mul. lia.
Qed.

(** ** The outer loop over pairs *)

Lemma somes_app {A} (a b : list (option A)) : somes (a ++ b) = somes a ++ somes b.
Proof. apply flat_map_app. Qed.

Lemma somes_nth_error {A} (l : list A) k : length l <= k ->
  somes (map (fun i => nth_error l i) (seq 0 k)) = l.
Proof.
  revert k; induction l as [|x l IH]; intros k Hk; simpl in Hk.
  - assert (forall s, somes (map (fun i => nth_error (@nil A) i) (seq s k)) = []) as H.
    { clear Hk. induction k; intros s; simpl; auto. rewrite IHk. destruct s; reflexivity. }
    apply H.
  - destruct k; [lia|]. cbn [seq map nth_error]. rewrite <- seq_shift, map_map.
    cbn [nth_error]. change (x :: somes (map (fun i => nth_error l i) (seq 0 k)) = x :: l).
    rewrite IH by lia. reflexivity.
Qed.

Lemma ceil_div_bound n p r : 0 < p -> r < p ->
  n / p + (if r <? n mod p then 1 else 0) <= ceil_div n p.
Proof.
  intros Hp Hr. unfold ceil_div.
  pose proof (Nat.div_mod n p ltac:(lia)) as H.
  set (q := n / p) in *. set (m := n mod p) in *.
  destruct (Nat.ltb_spec r m).
  - apply Nat.div_le_lower_bound; nia.
  - apply Nat.div_le_lower_bound; nia.
Qed.

Lemma rank_pairs_scatter {A} size r (beams : list A) : 0 < size -> r < size ->
  rank_pairs true true size r beams beams = scatter_list true size r beams.
Proof.
  intros Hp Hr. unfold rank_pairs, rank_iterations.
  apply somes_nth_error. rewrite scatter_part_length by auto.
  unfold nmax. apply ceil_div_bound; auto.
Qed.

Lemma scan_covers {A} size (beams : list A) : 0 < size ->
  covers (on_ranks size (fun r => rank_pairs true true size r beams beams)) beams.
Proof.
  intros Hp. unfold covers, on_ranks.
  rewrite (map_ext_in _ (fun r => scatter_list true size r beams)).
  - apply (scatter_covers size beams Hp).
  - intros r Hr. apply in_seq in Hr. apply rank_pairs_scatter; lia.
Qed.

Lemma scan_no_mpi {A} (beams : list A) scatter :
  rank_pairs false scatter 1 0 beams beams = beams.
Proof.
  unfold rank_pairs, rank_iterations, nmax, ceil_div.
  replace (length beams + 1 - 1) with (length beams) by lia. rewrite Nat.div_1_r.
  destruct scatter; simpl; apply somes_nth_error; lia.
Qed.

Lemma rank_iterations_length {A} mpi scatter size r (root self : list A) :
  length (rank_iterations mpi scatter size r root self) = nmax (length self) size.
Proof. unfold rank_iterations. now rewrite map_length, seq_length. Qed.

(** Sum of contributions over ranks. *)
Section Sums.
  Context {M : Type} (add : M -> M -> M) (zero : M).
  Hypothesis add_comm : forall a b, add a b = add b a.
  Hypothesis add_assoc : forall a b c, add a (add b c) = add (add a b) c.
  Hypothesis add_0 : forall a, add zero a = a.

  Definition msum (l : list M) : M := fold_right add zero l.

  Lemma msum_app a b : msum (a ++ b) = add (msum a) (msum b).
  Proof. unfold msum. induction a; simpl; [now rewrite add_0|]. rewrite IHa. now rewrite add_assoc. Qed.

  Lemma msum_concat ls : msum (concat ls) = msum (map msum ls).
  Proof. induction ls; simpl; auto. rewrite msum_app, IHls. reflexivity. Qed.

  Lemma msum_perm a b : Permutation a b -> msum a = msum b.
  Proof.
    unfold msum. induction 1; simpl; auto; try congruence.
  Qed.

  Lemma ranks_sum {A} (contrib : A -> M) size (beams : list A) : 0 < size ->
    msum (on_ranks size (fun r => msum (map contrib (rank_pairs true true size r beams beams))))
    = msum (map contrib beams).
  Proof.
    intros Hp. pose proof (scan_covers size beams Hp) as H. unfold covers, on_ranks in *.
    transitivity (msum (map contrib (concat (map (fun r => rank_pairs true true size r beams beams) (seq 0 size)))));
      [|now rewrite H].
    rewrite concat_map, msum_concat, !map_map. reflexivity.
  Qed.

  Lemma zipadd_length a b n : length a = n -> length b = n -> length (zipadd add a b) = n.
  Proof.
    revert b n; induction a as [|x a IH]; intros [|y b] n Ha Hb; cbn in *; subst; auto; try lia.
  Qed.

  Lemma zipadd_assoc a b c :
    zipadd add a (zipadd add b c) = zipadd add (zipadd add a b) c.
  Proof.
    revert b c; induction a as [|x a IH]; intros [|y b] [|z c]; cbn; auto.
    now rewrite add_assoc, IH.
  Qed.

  Lemma zipadd_0 a : zipadd add a (repeat zero (length a)) = a.
  Proof.
    induction a as [|x a IH]; cbn; auto. rewrite IH. f_equal. now rewrite add_comm, add_0.
  Qed.

  Lemma accumulate_length l n m0 : length m0 = n -> (forall x, In x l -> length x = n) ->
    length (accumulate add m0 l) = n.
  Proof.
    unfold accumulate. revert m0; induction l as [|a l IH]; intros m0 H0 Hl; cbn; auto.
    apply IH; [|intros; apply Hl; now right]. apply zipadd_length; auto. apply Hl; now left.
  Qed.

  Lemma accumulate_shift l n x : length x = n -> (forall y, In y l -> length y = n) ->
    zipadd add x (accumulate add (repeat zero n) l) = accumulate add x l.
  Proof.
    intros Hx Hl.
    assert (G : forall m0, length m0 = n ->
      zipadd add x (accumulate add m0 l) = accumulate add (zipadd add x m0) l).
    { unfold accumulate. clear Hx. revert Hl x. induction l as [|a l IH]; intros Hl x m0 H0; cbn; auto.
      rewrite IH.
      - now rewrite zipadd_assoc.
      - intros; apply Hl; now right.
      - apply zipadd_length; auto. apply Hl; now left. }
    rewrite G by apply repeat_length. rewrite <- Hx. now rewrite zipadd_0.
  Qed.

  Lemma accumulate_concat lls n x : length x = n ->
    (forall l y, In l lls -> In y l -> length y = n) ->
    fold_left (zipadd add) (map (accumulate add (repeat zero n)) lls) x
    = accumulate add x (concat lls).
  Proof.
    revert x; induction lls as [|l lls IH]; intros x Hx Hl; cbn [map fold_left concat]; auto.
    rewrite (accumulate_shift l n) by (auto; intros; apply (Hl l); cbn; auto).
    unfold accumulate at 3. rewrite fold_left_app. fold (accumulate add x l).
    change (fold_left (zipadd add) (concat lls) (accumulate add x l))
      with (accumulate add (accumulate add x l) (concat lls)).
    apply IH.
    - apply accumulate_length; auto. intros; apply (Hl l); cbn; auto.
    - intros l' y H1 H2. apply (Hl l' y); cbn; auto.
  Qed.

  Lemma nth_zipadd a b p n : length a = n -> length b = n -> p < n ->
    nth p (zipadd add a b) zero = add (nth p a zero) (nth p b zero).
  Proof.
    revert b p n; induction a as [|x a IH]; intros [|y b] p n Ha Hb Hp; cbn in *; subst; try lia.
    destruct p; cbn; auto. apply (IH b p (length a)); auto; lia.
  Qed.

  Lemma accumulate_pixel {A} (contrib : A -> list M) npix p (beams : list A) :
    (forall a, length (contrib a) = npix) -> p < npix ->
    nth p (accumulate add (repeat zero npix) (map contrib beams)) zero
    = fold_right add zero (map (fun a => nth p (contrib a) zero) beams).
  Proof.
    intros Hc Hp.
    assert (G : forall m0, length m0 = npix ->
      nth p (accumulate add m0 (map contrib beams)) zero
      = add (nth p m0 zero) (fold_right add zero (map (fun a => nth p (contrib a) zero) beams))).
    { unfold accumulate. induction beams as [|b l IH]; intros m0 H0; cbn [map fold_left fold_right].
      - now rewrite add_comm, add_0.
      - rewrite IH by (apply zipadd_length; auto).
        rewrite (nth_zipadd _ _ _ npix) by auto. now rewrite add_assoc. }
    rewrite G by apply repeat_length. rewrite nth_repeat. now rewrite add_0.
  Qed.

  Lemma ranks_map {A} (contrib : A -> list M) size npix (beams : list A) : 0 < size ->
    (forall a, length (contrib a) = npix) ->
    reduce_array add (on_ranks size (fun r =>
       accumulate add (repeat zero npix) (map contrib (rank_pairs true true size r beams beams))))
    = accumulate add (repeat zero npix) (map contrib beams).
  Proof.
    intros Hp Hc. pose proof (scan_covers size beams Hp) as H. unfold covers, on_ranks in *.
    destruct size as [|k]; [lia|]. cbn [seq map] in *. unfold reduce_array.
    set (f := fun r => rank_pairs true true (S k) r beams beams) in *.
    rewrite <- (map_map (fun r => map contrib (f r)) (accumulate add (repeat zero npix))).
    rewrite (accumulate_concat _ npix).
    - unfold accumulate. rewrite <- fold_left_app. f_equal.
      apply (f_equal (map contrib)) in H. cbn [concat] in H.
      rewrite map_app, concat_map, map_map in H. exact H.
    - apply accumulate_length; [apply repeat_length|]. intros x Hx. apply in_map_iff in Hx as (a & <- & _). auto.
    - intros l y Hl Hy. apply in_map_iff in Hl as (r & <- & _). apply in_map_iff in Hy as (a & <- & _). auto.
  Qed.
End Sums.

(** Refutation witnesses for C04. *)
Lemma no_scatter_witness : exists (size : nat) (beams : list nat) (b : nat),
  0 < size /\ In b beams
  /\ ~ In b (concat (on_ranks size (fun r => rank_pairs true false size r beams beams))).
Proof.
  exists 2, [10; 20], 20. vm_compute. repeat split; try lia; intuition discriminate.
Qed.

Lemma predistributed_witness : exists (size : nat) (all : list nat) (b r1 r2 : nat),
  let local r := distribute_array true size r all in
  0 < size /\ r1 < size /\ r2 < size
  /\ length (rank_iterations true false size r1 (local 0) (local r1))
     <> length (rank_iterations true false size r2 (local 0) (local r2))
  /\ In b all
  /\ ~ In b (concat (on_ranks size (fun r => rank_pairs true false size r (local 0) (local r)))).
Proof.
  exists 2, [1; 2; 3; 4; 5], 3, 0, 1. vm_compute.
  repeat split; try lia; try (intuition discriminate).
Qed.
