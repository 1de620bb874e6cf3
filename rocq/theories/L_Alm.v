(** * Proofs about coefficient arrays *)
From Verif Require Import Common LibList M_Alm S_Alm.
From Coq Require Import ZifyBool.
Open Scope nat_scope.

(** ** Index arithmetic *)

(** Position of the first mode with azimuthal number [m]. *)
Fixpoint off (L m : nat) : nat :=
  match m with O => 0 | S k => off L k + (L + 1 - k) end.

Lemma off_closed L m : m <= L + 1 -> 2 * off L m = m * (2 * L + 3 - m).
Proof.
  induction m as [|m IH]; intros H; [reflexivity|].
  cbn [off]. specialize (IH ltac:(lia)). nia.
Qed.

Lemma off_mono L m n : m <= n -> off L m <= off L n.
Proof. induction 1; cbn [off]; lia. Qed.

Lemma getidx_off L m l : m <= L + 1 -> m <= l -> getidx L l m = off L m + (l - m).
Proof.
  intros H Hl. unfold getidx. pose proof (off_closed L m H) as E.
  assert (m <= off L m).
  { destruct (Nat.eq_dec m 0) as [->|]; [lia|]. nia. }
  replace (m * (2 * L + 1 - m)) with ((off L m - m) * 2).
  - rewrite Nat.div_mul by lia. lia.
  - assert (m * (2 * L + 3 - m) = m * (2 * L + 1 - m) + 2 * m \/ m = L + 1) as [E2|E2] by nia.
    + lia.
    + subst m. nia.
Qed.

Lemma getidx_start L m : m <= L + 1 -> getidx L m m = off L m.
Proof. intros. rewrite getidx_off by lia. lia. Qed.

Lemma getsize_off L M : M <= L -> getsize L M = off L (M + 1).
Proof.
  intros H. unfold getsize. pose proof (off_closed L (M + 1) ltac:(lia)) as E.
  assert (L + 1 <= off L (M + 1)) by nia.
  replace (M * (2 * L + 1 - M)) with ((off L (M + 1) - (L + 1)) * 2) by nia.
  rewrite Nat.div_mul by lia. lia.
Qed.

Lemma getlmax_full L : getlmax (off L (L + 1)) None = Some L.
Proof.
  unfold getlmax. pose proof (off_closed L (L + 1) ltac:(lia)) as E.
  assert (E2 : 1 + 8 * off L (L + 1) = (2 * L + 3) * (2 * L + 3)) by nia.
  rewrite E2, Nat.sqrt_square, Nat.eqb_refl.
  replace (2 * L + 3 - 3) with (L * 2) by lia.
  rewrite Nat.div_mul by lia. rewrite Nat.even_mul, orb_true_r.
  destruct (Nat.leb_spec 3 (2 * L + 3)); [reflexivity|lia].
Qed.

Lemma getlmax_part L M : M <= L -> getlmax (off L (M + 1)) (Some M) = Some L.
Proof.
  intros H. unfold getlmax. pose proof (off_closed L (M + 1) ltac:(lia)) as E.
  assert (E2 : 2 * off L (M + 1) + M * M = M + 2 + L * (2 * M + 2)) by nia.
  rewrite E2. replace (M + 2 + L * (2 * M + 2) - (M + 2)) with (L * (2 * M + 2)) by lia.
  rewrite Nat.mod_mul, Nat.div_mul by lia.
  destruct (Nat.leb_spec (M + 2) (M + 2 + L * (2 * M + 2))); [reflexivity|lia].
Qed.

(** ** Arrays as rows *)

Lemma map_const_seq {A} (z : A) s n : map (fun _ => z) (seq s n) = repeat z n.
Proof. revert s; induction n; intros s; cbn; auto. f_equal; auto. Qed.

Lemma length_row {A} L (f : nat -> nat -> A) m : length (row L f m) = L + 1 - m.
Proof. unfold row. now rewrite map_length, seq_length. Qed.

Lemma length_rows {A} L (v : nat -> list A) m n :
  (forall i, i < m + n -> length (v i) = L + 1 - i) ->
  length (concat (map v (seq m n))) = off L (m + n) - off L m.
Proof.
  revert m; induction n as [|n IH]; intros m H; cbn [seq map concat].
  - rewrite Nat.add_0_r. cbn. lia.
  - rewrite app_length, (H m) by lia. rewrite (IH (S m)) by (intros; apply H; lia).
    replace (S m + n) with (m + S n) by lia. cbn [off].
    pose proof (off_mono L (S m) (m + S n) ltac:(lia)). cbn [off] in H0. lia.
Qed.

Lemma length_of_modes {A} L M (f : nat -> nat -> A) : length (of_modes L M f) = off L (M + 1).
Proof.
  unfold of_modes. rewrite (length_rows L); [cbn; lia|]. intros; apply length_row.
Qed.

Lemma of_modes_split {A} L M (f : nat -> nat -> A) m : m <= M ->
  exists pre post, of_modes L M f = pre ++ row L f m ++ post /\ length pre = off L m.
Proof.
  intros H. unfold of_modes. replace (M + 1) with (m + S (M - m)) by lia.
  rewrite seq_app, map_app, concat_app. cbn [seq map concat].
  eexists _, _. split; [reflexivity|]. rewrite (length_rows L); [cbn; lia|].
  intros; apply length_row.
Qed.

Lemma slice_app_mid {A} (pre x post : list A) a k :
  a + k <= length x -> slice (pre ++ x ++ post) (length pre + a) (length pre + a + k)
  = slice x a (a + k).
Proof.
  intros H. unfold slice.
  replace (skipn (length pre + a) (pre ++ x ++ post)) with (skipn a (x ++ post)).
  2:{ rewrite (Nat.add_comm (length pre) a), <- skipn_skipn.
      rewrite (skipn_app (length pre) pre), skipn_all, Nat.sub_diag. reflexivity. }
  replace (length pre + a + k - (length pre + a)) with k by lia.
  replace (a + k - a) with k by lia.
  rewrite skipn_app. rewrite firstn_app.
  replace (k - length (skipn a x)) with 0 by (rewrite skipn_length; lia).
  cbn [firstn]. now rewrite app_nil_r.
Qed.

Lemma skipn_seq a s n : skipn a (seq s n) = seq (s + a) (n - a).
Proof.
  revert s n; induction a as [|a IH]; intros s n; cbn [skipn].
  - now rewrite Nat.add_0_r, Nat.sub_0_r.
  - destruct n; cbn [seq]; auto. rewrite IH. f_equal; lia.
Qed.

Lemma firstn_seq k s n : k <= n -> firstn k (seq s n) = seq s k.
Proof.
  revert s n; induction k as [|k IH]; intros s n H; cbn [firstn seq]; auto.
  destruct n; [lia|]. cbn [seq]. now rewrite IH by lia.
Qed.

Lemma slice_row {A} L (f : nat -> nat -> A) m a k : a + k <= L + 1 - m ->
  slice (row L f m) a (a + k) = map (fun l => f l m) (seq (m + a) k).
Proof.
  intros H. unfold slice, row.
  replace (a + k - a) with k by lia.
  rewrite skipn_map, skipn_seq, firstn_map, firstn_seq by lia. reflexivity.
Qed.

Lemma slice_modes {A} L M (f : nat -> nat -> A) m a k : m <= M -> a + k <= L + 1 - m ->
  slice (of_modes L M f) (off L m + a) (off L m + a + k)
  = map (fun l => f l m) (seq (m + a) k).
Proof.
  intros Hm H. destruct (of_modes_split L M f m Hm) as (pre & post & E & Hp).
  rewrite E, <- Hp, slice_app_mid by (now rewrite length_row).
  now apply slice_row.
Qed.

Lemma nth_modes {A} L M (f : nat -> nat -> A) l m : m <= M -> m <= l <= L ->
  nth_error (of_modes L M f) (off L m + (l - m)) = Some (f l m).
Proof.
  intros Hm Hl. destruct (of_modes_split L M f m Hm) as (pre & post & E & Hp).
  rewrite E, <- Hp, nth_error_app2 by lia.
  replace (length pre + (l - m) - length pre) with (l - m) by lia.
  rewrite nth_error_app1 by (rewrite length_row; lia).
  unfold row. rewrite nth_error_map_seq by lia. do 2 f_equal. lia.
Qed.

Lemma of_modes_ext {A} L M (f g : nat -> nat -> A) :
  (forall l m, m <= M -> m <= l <= L -> f l m = g l m) -> of_modes L M f = of_modes L M g.
Proof.
  intros H. unfold of_modes. f_equal. apply map_ext_in. intros m Hm. apply in_seq in Hm.
  unfold row. apply map_ext_in. intros l Hl. apply in_seq in Hl. apply H; lia.
Qed.

(** Every array of the right length is one of these. *)
Lemma array_of_modes {A} (d : A) L M (arr : list A) : M <= L -> length arr = off L (M + 1) ->
  arr = of_modes L M (fun l m => nth (off L m + (l - m)) arr d).
Proof.
  intros HM Hlen. apply (nth_ext _ _ d d); [now rewrite length_of_modes|].
  intros n Hn. rewrite Hlen in Hn.
  assert (exists m i, m <= M /\ i < L + 1 - m /\ n = off L m + i) as (m & i & Hm & Hi & ->).
  { clear - Hn HM. assert (G : forall k, k <= M + 1 -> n < off L k ->
      exists m i, m < k /\ i < L + 1 - m /\ n = off L m + i).
    { induction k as [|k IH]; intros Hk Hlt; cbn [off] in Hlt; [lia|].
      destruct (Nat.lt_ge_cases n (off L k)) as [H|H].
      - destruct (IH ltac:(lia) H) as (m & i & ? & ? & ?). exists m, i. lia.
      - exists k, (n - off L k). lia. }
    destruct (G (M + 1) ltac:(lia) Hn) as (m & i & ? & ? & ?). exists m, i. lia. }
  symmetry. apply nth_error_nth.
  replace i with (m + i - m) at 1 by lia.
  rewrite nth_modes by lia. do 2 f_equal. lia.
Qed.

(** ** Loops that fill an array row by row *)

Lemma for_each_seq {S} (body : nat -> S -> res S) (I : nat -> S) n :
  (forall m, m < n -> body m (I m) = Ok (I (Datatypes.S m))) ->
  for_each (seq 0 n) body (I 0) = Ok (I n).
Proof.
  intros H.
  assert (G : forall k s, s + k = n -> for_each (seq s k) body (I s) = Ok (I n)).
  { induction k as [|k IH]; intros s Hs; cbn [seq for_each].
    - f_equal. f_equal. lia.
    - rewrite H by lia. cbn [bind]. apply IH. lia. }
  apply G. lia.
Qed.

Lemma assign_mid {A} (pre mid post v : list A) i j :
  length pre = i -> j = i + length mid -> length v = length mid ->
  assign (pre ++ mid ++ post) i j v = Ok (pre ++ v ++ post).
Proof.
  intros <- -> Hv. unfold assign. rewrite !app_length.
  replace (Nat.min (length pre) (length pre + (length mid + length post))) with (length pre) by lia.
  replace (Nat.min (length pre + length mid) (length pre + (length mid + length post)))
    with (length pre + length mid) by lia.
  replace (length pre + length mid - length pre) with (length mid) by lia.
  rewrite Hv, Nat.eqb_refl.
  replace (Nat.max (length pre) (length pre + length mid)) with (length (pre ++ mid))
    by (rewrite app_length; lia).
  rewrite firstn_app, firstn_all, Nat.sub_diag. cbn [firstn]. rewrite app_nil_r.
  rewrite (app_assoc pre mid post), (skipn_app (length (pre ++ mid)) (pre ++ mid) post).
  rewrite skipn_all, Nat.sub_diag. reflexivity.
Qed.

Lemma assign_tail {A} (z : A) (pre post v : list A) s a n :
  length pre = s -> length v = n - a ->
  assign (pre ++ repeat z n ++ post) (s + a) (s + n) v
  = Ok (pre ++ (repeat z (Nat.min a n) ++ v) ++ post).
Proof.
  intros Hp Hv. destruct (Nat.le_gt_cases a n) as [H|H].
  - replace n with (a + (n - a)) at 1 by lia. rewrite repeat_app.
    rewrite <- (app_assoc (repeat z a)), (app_assoc pre).
    rewrite assign_mid.
    + rewrite Nat.min_l by lia. now rewrite <- !app_assoc.
    + rewrite app_length, repeat_length. lia.
    + rewrite repeat_length. lia.
    + rewrite repeat_length. lia.
  - rewrite Nat.min_r by lia. destruct v; [|cbn in Hv; lia]. rewrite app_nil_r.
    unfold assign. set (arr := pre ++ repeat z n ++ post).
    assert (length arr >= s + n) by (unfold arr; rewrite !app_length, repeat_length; lia).
    replace (Nat.min (s + n) (length arr) - Nat.min (s + a) (length arr)) with 0 by lia.
    cbn [length Nat.eqb]. rewrite Nat.max_l by lia. cbn [app]. now rewrite firstn_skipn.
Qed.

(** An array whose first [m] rows have been filled. *)
Definition filled {A} (z : A) (L n : nat) (v : nat -> list A) (m : nat) : list A :=
  concat (map v (seq 0 m)) ++ repeat z (off L n - off L m).

Lemma filled_0 {A} (z : A) L n v : filled z L n v 0 = repeat z (off L n).
Proof. unfold filled. cbn. now rewrite Nat.sub_0_r. Qed.

Lemma filled_n {A} (z : A) L n v : filled z L n v n = concat (map v (seq 0 n)).
Proof. unfold filled. rewrite Nat.sub_diag. cbn. now rewrite app_nil_r. Qed.

Lemma filled_split {A} (z : A) L n v m : m < n ->
  (forall i, i < m -> length (v i) = L + 1 - i) ->
  exists pre post, length pre = off L m
    /\ filled z L n v m = pre ++ repeat z (L + 1 - m) ++ post
    /\ filled z L n v (S m) = pre ++ v m ++ post.
Proof.
  intros Hm Hv. exists (concat (map v (seq 0 m))), (repeat z (off L n - off L (S m))).
  split; [rewrite (length_rows L); [cbn; lia|intros; apply Hv; lia]|].
  split.
  - unfold filled. f_equal. rewrite <- repeat_app. f_equal.
    pose proof (off_mono L (S m) n ltac:(lia)) as H. cbn [off] in *. lia.
  - unfold filled. rewrite seq_S, map_app, concat_app. cbn [map concat Nat.add].
    now rewrite app_nil_r, <- app_assoc.
Qed.

Lemma length_filled {A} (z : A) L n v m : m <= n ->
  (forall i, i < n -> length (v i) = L + 1 - i) -> length (filled z L n v m) = off L n.
Proof.
  intros Hm Hv. unfold filled. rewrite app_length, repeat_length, (length_rows L).
  - pose proof (off_mono L m n Hm). cbn. lia.
  - intros; apply Hv; lia.
Qed.

(** Writing a whole row. *)
Lemma assign_row {A} (z : A) L n v m : m < n -> m <= L ->
  (forall i, i < n -> length (v i) = L + 1 - i) ->
  assign (filled z L n v m) (off L m) (off L m + L + 1 - m) (v m) = Ok (filled z L n v (S m)).
Proof.
  intros Hm HL Hv.
  destruct (filled_split z L n v m Hm) as (pre & post & Hp & E1 & E2); [intros; apply Hv; lia|].
  rewrite E1, E2, assign_mid; auto; rewrite ?repeat_length, ?Hv by lia; lia.
Qed.

(** Leaving a row as it is. *)
Lemma skip_row {A} (z : A) L n v m : m < n ->
  (forall i, i < n -> length (v i) = L + 1 - i) ->
  v m = repeat z (L + 1 - m) -> filled z L n v m = filled z L n v (S m).
Proof.
  intros Hm Hv E.
  destruct (filled_split z L n v m Hm) as (pre & post & Hp & E1 & E2); [intros; apply Hv; lia|].
  now rewrite E1, E2, E.
Qed.

(** Writing a row from its [a]-th element on. *)
Lemma assign_row_tail {A} (z : A) L n v m a w : m < n -> m <= L + 1 ->
  (forall i, i < n -> length (v i) = L + 1 - i) ->
  length w = L + 1 - m - a ->
  v m = repeat z (Nat.min a (L + 1 - m)) ++ w ->
  assign (filled z L n v m) (off L m + a) (off L m + (L + 1 - m)) w = Ok (filled z L n v (S m)).
Proof.
  intros Hm HL Hv Hw E.
  destruct (filled_split z L n v m Hm) as (pre & post & Hp & E1 & E2); [intros; apply Hv; lia|].
  rewrite E1, E2, E, (assign_tail z pre post w (off L m) a (L + 1 - m)); auto.
Qed.

(** ** [trunc_alm] *)

Lemma trunc_indices_spec L Ln mt : mt <= Ln -> Ln <= L ->
  trunc_indices L Ln mt
  = Ok (concat (map (fun m => seq (off L m) (Ln + 1 - m)) (seq 0 (mt + 1)))).
Proof.
  intros Hm HL. unfold trunc_indices.
  set (v := fun m => seq (off L m) (Ln + 1 - m)).
  set (I := fun m => (filled 0 Ln (mt + 1) v m, off L m, off Ln m)).
  assert (E0 : (repeat 0 (getsize Ln mt), 0, 0) = I 0).
  { unfold I. rewrite filled_0, getsize_off by lia. reflexivity. }
  rewrite E0, (for_each_seq _ I).
  - unfold I. cbn [bind]. now rewrite filled_n.
  - intros m Hlt. unfold I.
    replace (seq (off L m) (Ln + 1 - m)) with (v m) by reflexivity.
    rewrite assign_row; try lia.
    + cbn [bind]. cbn [off].
      replace (off L m + L + 1 - m) with (off L m + (L + 1 - m)) by lia.
      replace (off Ln m + Ln + 1 - m) with (off Ln m + (Ln + 1 - m)) by lia. reflexivity.
    + intros i Hi. unfold v. apply seq_length.
Qed.

Lemma take_app {A} (arr : list A) i j a b :
  take arr i = Ok a -> take arr j = Ok b -> take arr (i ++ j) = Ok (a ++ b).
Proof.
  revert a; induction i as [|x i IH]; intros a H1 H2; cbn [take app] in *.
  - injection H1 as <-. exact H2.
  - destruct (index arr x) as [y|]; cbn [bind] in *; [|discriminate].
    destruct (take arr i) as [r|]; cbn [bind] in *; [|discriminate].
    injection H1 as <-. now rewrite (IH r) by auto.
Qed.

Lemma take_row {A} L M (f : nat -> nat -> A) m k s : m <= M -> m <= s -> s + k <= L + 1 ->
  take (of_modes L M f) (seq (off L m + (s - m)) k) = Ok (map (fun l => f l m) (seq s k)).
Proof.
  intros Hm. revert s; induction k as [|k IH]; intros s Hs Hk; cbn [seq take map]; auto.
  unfold index. rewrite nth_modes by lia. cbn [bind].
  replace (S (off L m + (s - m))) with (off L m + (S s - m)) by lia.
  rewrite IH by lia. reflexivity.
Qed.

Lemma take_rows {A} L M (f : nat -> nat -> A) Ln s n : s + n <= M + 1 -> s + n <= Ln + 1 -> Ln <= L ->
  take (of_modes L M f) (concat (map (fun m => seq (off L m) (Ln + 1 - m)) (seq s n)))
  = Ok (concat (map (row Ln f) (seq s n))).
Proof.
  revert s; induction n as [|n IH]; intros s H1 H2 HL; cbn [seq map concat take]; auto.
  apply take_app; [|apply IH; lia].
  replace (off L s) with (off L s + (s - s)) by lia.
  rewrite take_row by lia. reflexivity.
Qed.

Lemma trunc_alm_spec {A} L M (f : nat -> nat -> A) Ln mo : M <= L -> Ln <= L ->
  (mo = Some M \/ (mo = None /\ M = L)) ->
  trunc_alm (of_modes L M f) Ln mo = Ok (of_modes Ln (Nat.min Ln M) f).
Proof.
  intros HM HL Hmo. unfold trunc_alm. rewrite length_of_modes.
  assert (E : getlmax (off L (M + 1)) mo = Some L
              /\ match mo with None => L | Some m => m end = M).
  { destruct Hmo as [->|[-> ->]]; split; auto using getlmax_part, getlmax_full. }
  destruct E as [-> ->].
  destruct (Nat.ltb_spec L Ln); [lia|].
  rewrite trunc_indices_spec by lia. cbn [bind]. apply take_rows; lia.
Qed.

Lemma trunc_alm_larger {A} L M (f : nat -> nat -> A) Ln mo : M <= L -> L < Ln ->
  (mo = Some M \/ (mo = None /\ M = L)) ->
  trunc_alm (of_modes L M f) Ln mo = Err ValueError.
Proof.
  intros HM HL Hmo. unfold trunc_alm. rewrite length_of_modes.
  assert (E : getlmax (off L (M + 1)) mo = Some L).
  { destruct Hmo as [->|[-> ->]]; auto using getlmax_part, getlmax_full. }
  rewrite E. destruct (Nat.ltb_spec L Ln); [reflexivity|lia].
Qed.

Lemma trunc_alms_spec {A} L M (fs : list (nat -> nat -> A)) Ln mo : fs <> [] -> M <= L -> Ln <= L ->
  (mo = Some M \/ (mo = None /\ M = L)) ->
  trunc_alms (map (of_modes L M) fs) Ln mo = Ok (map (of_modes Ln (Nat.min Ln M)) fs).
Proof.
  intros Hne HM HL Hmo. unfold trunc_alms. destruct fs as [|f0 fs]; [congruence|].
  set (all := map (of_modes L M) (f0 :: fs)). cbn [map] in all. unfold all at 1.
  rewrite length_of_modes.
  assert (E : getlmax (off L (M + 1)) mo = Some L
              /\ match mo with None => L | Some m => m end = M).
  { destruct Hmo as [->|[-> ->]]; split; auto using getlmax_part, getlmax_full. }
  destruct E as [-> ->].
  destruct (Nat.ltb_spec L Ln); [lia|].
  rewrite trunc_indices_spec by lia. cbn [bind].
  change all with (map (of_modes L M) (f0 :: fs)).
  generalize (f0 :: fs) as gs. induction gs as [|g gs IH]; cbn [map]; auto.
  unfold of_modes at 1. fold (of_modes L M g).
  rewrite take_rows by lia. cbn [bind]. rewrite IH. reflexivity.
Qed.

(** ** [blm2bl] *)

Lemma zgetidx_off L m : m <= L -> zgetidx (Z.of_nat L) (Z.of_nat m) (Z.of_nat m) = Z.of_nat (off L m).
Proof.
  intros H. unfold zgetidx. pose proof (off_closed L m ltac:(lia)) as E.
  assert (E2 : (Z.of_nat m * (2 * Z.of_nat L + 1 - Z.of_nat m))%Z
               = ((Z.of_nat (off L m) - Z.of_nat m) * 2)%Z).
  { apply (f_equal Z.of_nat) in E. rewrite !Nat2Z.inj_mul, Nat2Z.inj_sub in E by lia.
    rewrite Nat2Z.inj_add, Nat2Z.inj_mul in E. change (Z.of_nat 2) with 2%Z in E.
    change (Z.of_nat 3) with 3%Z in E. ring_simplify in E. ring_simplify. lia. }
  rewrite E2, Z.div_mul by lia. lia.
Qed.

Section Blm.
  Context {A : Type} (zero : A) (conj opp : A -> A).

  Lemma blm2bl_spec L f m full : m <= L ->
    blm2bl zero (of_modes L L f) (Z.of_nat m) full
    = Ok ((if full then repeat zero m else []) ++ map (fun l => f l m) (seq m (L + 1 - m))).
  Proof.
    intros Hm. unfold blm2bl. destruct (Z.ltb_spec (Z.of_nat m) 0); [lia|].
    rewrite length_of_modes, getlmax_full. rewrite zgetidx_off by lia.
    unfold pyslice, pynorm. rewrite length_of_modes.
    pose proof (off_mono L (S m) (L + 1) ltac:(lia)) as Ho. cbn [off] in Ho.
    destruct (Z.ltb_spec (Z.of_nat (off L m)) 0); [lia|].
    destruct (Z.ltb_spec (Z.of_nat (off L m) + Z.of_nat L + 1 - Z.of_nat m) 0); [lia|].
    replace (Nat.min (Z.to_nat (Z.of_nat (off L m))) (off L (L + 1))) with (off L m + 0) by lia.
    replace (Nat.min (Z.to_nat (Z.of_nat (off L m) + Z.of_nat L + 1 - Z.of_nat m)) (off L (L + 1)))
      with (off L m + 0 + (L + 1 - m)) by lia.
    rewrite slice_modes by lia. rewrite Nat.add_0_r.
    destruct full; [|reflexivity].
    rewrite Nat2Z.id.
    rewrite <- (app_nil_l (repeat zero (L + 1))), <- (app_nil_r (repeat zero (L + 1))).
    pose proof (assign_tail zero [] [] (map (fun l => f l m) (seq m (L + 1 - m))) 0 m (L + 1)) as T.
    cbn [Nat.add] in T. rewrite T; auto.
    - rewrite Nat.min_l by lia. cbn [app]. now rewrite app_nil_r.
    - now rewrite map_length, seq_length.
  Qed.

  Lemma blm2bl_negative blm m full : (m < 0)%Z -> blm2bl zero blm m full = Err ValueError.
  Proof. intros H. unfold blm2bl. destruct (Z.ltb_spec m 0); [reflexivity|lia]. Qed.

  (** ** [shift_blm] *)

  Hypothesis Hconj : conj zero = zero.
  Hypothesis Hopp : opp zero = zero.

  Lemma skipn_row_full L (g : nat -> A) k m : k <= L -> m <= L ->
    skipn m (repeat zero k ++ map g (seq k (L + 1 - k)))
    = map (fun l => if l <? k then zero else g l) (seq m (L + 1 - m)).
  Proof.
    intros Hk Hm.
    replace (repeat zero k ++ map g (seq k (L + 1 - k)))
      with (map (fun l => if l <? k then zero else g l) (seq 0 (L + 1))).
    - rewrite skipn_map, skipn_seq. reflexivity.
    - replace (L + 1) with (k + (L + 1 - k)) at 1 by lia. rewrite seq_app, map_app. f_equal.
      + clear Hm. rewrite <- (map_nth_seq (repeat zero k) zero) at 1. rewrite repeat_length.
        apply map_ext_in. intros l Hl. apply in_seq in Hl. rewrite nth_repeat.
        destruct (Nat.ltb_spec l k); [reflexivity|lia].
      + apply map_ext_in. intros l Hl. apply in_seq in Hl.
        destruct (Nat.ltb_spec l k); [lia|reflexivity].
  Qed.

  Lemma shift_loop_spec L shift p q :
    shift_loop zero conj opp L shift (of_modes L L p) (of_modes L L q)
    = Ok (of_modes L L (fun l m => coef zero conj opp p q l (Z.of_nat m - shift))).
  Proof.
    unfold shift_loop.
    set (g := fun l m => coef zero conj opp p q l (Z.of_nat m - shift)).
    set (v := row L g).
    assert (Hv : forall i, i < L + 1 -> length (v i) = L + 1 - i) by (intros; apply length_row).
    rewrite length_of_modes, <- (filled_0 zero L (L + 1) v).
    rewrite (for_each_seq _ (filled zero L (L + 1) v)).
    - now rewrite filled_n.
    - intros m Hm. rewrite getidx_start by lia.
      destruct (Z.ltb_spec (Z.of_nat L) (Z.abs (Z.of_nat m - shift))) as [Hbig|Hok].
      + f_equal. apply skip_row; auto. unfold v, row.
        rewrite <- (map_nth_seq (repeat zero (L + 1 - m)) zero) at 1. rewrite repeat_length.
        replace (seq m (L + 1 - m)) with (map (fun i => i + m) (seq 0 (L + 1 - m))).
        2:{ clear. generalize (L + 1 - m). intros n.
            assert (G : forall s, map (fun i => i + m) (seq s n) = seq (s + m) n).
            { induction n; intros s; cbn; auto. f_equal. apply IHn. }
            apply (G 0). }
        rewrite map_map. apply map_ext_in. intros i Hi. apply in_seq in Hi.
        rewrite nth_repeat. unfold g, coef.
        destruct (Z.ltb_spec (Z.of_nat (i + m)) (Z.abs (Z.of_nat m - shift))); [reflexivity|lia].
      + assert (E : (if (0 <=? Z.of_nat m - shift)%Z
           then blm2bl zero (of_modes L L p) (Z.of_nat m - shift) true
           else do b <- blm2bl zero (of_modes L L q) (Z.abs (Z.of_nat m - shift)) true;
             Ok (map (fun x => signed opp (Z.of_nat m - shift) (conj x)) b))
           = Ok (if (0 <=? Z.of_nat m - shift)%Z
                 then repeat zero (Z.to_nat (Z.of_nat m - shift)) ++
                      map (fun l => p l (Z.to_nat (Z.of_nat m - shift)))
                        (seq (Z.to_nat (Z.of_nat m - shift)) (L + 1 - Z.to_nat (Z.of_nat m - shift)))
                 else map (fun x => signed opp (Z.of_nat m - shift) (conj x))
                      (repeat zero (Z.to_nat (- (Z.of_nat m - shift))) ++
                      map (fun l => q l (Z.to_nat (- (Z.of_nat m - shift))))
                        (seq (Z.to_nat (- (Z.of_nat m - shift))) (L + 1 - Z.to_nat (- (Z.of_nat m - shift))))))).
        { destruct (Z.leb_spec 0 (Z.of_nat m - shift)).
          - pose proof (blm2bl_spec L p (Z.to_nat (Z.of_nat m - shift)) true ltac:(lia)) as B.
            rewrite Z2Nat.id in B by lia. exact B.
          - pose proof (blm2bl_spec L q (Z.to_nat (- (Z.of_nat m - shift))) true ltac:(lia)) as B.
            rewrite Z2Nat.id in B by lia.
            replace (Z.abs (Z.of_nat m - shift)) with (- (Z.of_nat m - shift))%Z by lia.
            rewrite B. reflexivity. }
        rewrite E. cbn [bind]. clear E.
        match goal with |- assign _ _ _ (skipn m ?b) = _ => assert (E : skipn m b = v m) end.
        2:{ rewrite E. apply assign_row; auto; lia. }
        unfold v, row. destruct (Z.leb_spec 0 (Z.of_nat m - shift)) as [Hp|Hn].
        * rewrite skipn_row_full by lia. apply map_ext_in. intros l Hl. apply in_seq in Hl.
          unfold g, coef.
          destruct (Nat.ltb_spec l (Z.to_nat (Z.of_nat m - shift))),
            (Z.ltb_spec (Z.of_nat l) (Z.abs (Z.of_nat m - shift))); try lia; auto.
          destruct (Z.leb_spec 0 (Z.of_nat m - shift)); [reflexivity|lia].
        * rewrite map_app, map_repeat, map_map.
          replace (signed opp (Z.of_nat m - shift) (conj zero)) with zero
            by (unfold signed; rewrite Hconj; destruct Z.even; auto).
          rewrite skipn_row_full by lia. apply map_ext_in. intros l Hl. apply in_seq in Hl.
          unfold g, coef, signed.
          destruct (Nat.ltb_spec l (Z.to_nat (- (Z.of_nat m - shift)))),
            (Z.ltb_spec (Z.of_nat l) (Z.abs (Z.of_nat m - shift))); try lia; auto.
          destruct (Z.leb_spec 0 (Z.of_nat m - shift)); [lia|reflexivity].
  Qed.

  Lemma shift_blm_spec L shift p q : (shift <= Z.of_nat L)%Z ->
    shift_blm zero conj opp (of_modes L L q) (of_modes L L p) shift
    = Ok (of_modes L L (fun l m => coef zero conj opp q p l (Z.of_nat m + shift)),
          of_modes L L (fun l m => coef zero conj opp p q l (Z.of_nat m - shift))).
  Proof.
    intros H. unfold shift_blm. rewrite !length_of_modes, Nat.eqb_refl, getlmax_full. cbn [negb].
    destruct (Z.gtb_spec shift (Z.of_nat L)); [lia|].
    rewrite !shift_loop_spec. cbn [bind]. do 2 f_equal. apply of_modes_ext. intros l m _ _.
    now replace (Z.of_nat m - - shift)%Z with (Z.of_nat m + shift)%Z by lia.
  Qed.

  Lemma shift_blm_too_large L shift p q : (Z.of_nat L < shift)%Z ->
    shift_blm zero conj opp (of_modes L L q) (of_modes L L p) shift = Err ValueError.
  Proof.
    intros H. unfold shift_blm. rewrite !length_of_modes, Nat.eqb_refl, getlmax_full. cbn [negb].
    destruct (Z.gtb_spec shift (Z.of_nat L)); [reflexivity|lia].
  Qed.

  Lemma coef_own p q l m : m <= l -> coef zero conj opp p q l (Z.of_nat m) = p l m.
  Proof.
    intros H. unfold coef. destruct (Z.ltb_spec (Z.of_nat l) (Z.abs (Z.of_nat m))); [lia|].
    destruct (Z.leb_spec 0 (Z.of_nat m)); [|lia]. now rewrite Nat2Z.id.
  Qed.

  Lemma shift_blm_0 L p q :
    shift_blm zero conj opp (of_modes L L q) (of_modes L L p) 0
    = Ok (of_modes L L q, of_modes L L p).
  Proof.
    rewrite shift_blm_spec by lia. do 2 f_equal; apply of_modes_ext; intros l m _ Hl.
    - rewrite Z.add_0_r. now apply coef_own.
    - rewrite Z.sub_0_r. now apply coef_own.
  Qed.

  (** ** [unpol2pol] *)

  Definition pol_m2 (b : nat -> nat -> A) (l m : nat) : A :=
    if l <? 2 then zero else coef zero conj opp b b l (Z.of_nat m - 2).
  Definition pol_p2 (b : nat -> nat -> A) (l m : nat) : A :=
    if l <? 2 then zero else coef zero conj opp b b l (Z.of_nat m + 2).

  Lemma row_zeros L (g : nat -> A) m a :
    (forall l, m <= l < m + Nat.min a (L + 1 - m) -> g l = zero) ->
    map g (seq m (L + 1 - m))
    = repeat zero (Nat.min a (L + 1 - m)) ++ map g (seq (m + a) (L + 1 - m - a)).
  Proof.
    intros H. destruct (Nat.le_gt_cases a (L + 1 - m)) as [Ha|Ha].
    - rewrite Nat.min_l in * by lia.
      replace (L + 1 - m) with (a + (L + 1 - m - a)) at 1 by lia. rewrite seq_app, map_app. f_equal.
      rewrite <- (map_nth_seq (repeat zero a) zero). rewrite repeat_length.
      replace (seq m a) with (map (fun i => m + i) (seq 0 a)).
      2:{ clear. assert (G : forall s, map (fun i => m + i) (seq s a) = seq (m + s) a).
          { induction a; intros s; cbn; auto. f_equal. rewrite IHa. f_equal. lia. }
          rewrite G. f_equal. lia. }
      rewrite map_map. apply map_ext_in. intros i Hi. apply in_seq in Hi.
      rewrite nth_repeat. apply H. lia.
    - rewrite Nat.min_r in * by lia. replace (L + 1 - m - a) with 0 by lia. cbn [seq map].
      rewrite app_nil_r. remember (L + 1 - m) as n eqn:En. clear En Ha.
      revert m H; induction n as [|n IH]; intros m H; cbn [seq map repeat]; auto.
      rewrite (H m) by lia. f_equal. apply IH. intros; apply H; lia.
  Qed.

  Lemma unpol2pol_spec L b : 1 <= L ->
    unpol2pol zero conj opp (of_modes L L b)
    = Ok (of_modes L L (pol_m2 b), of_modes L L (pol_p2 b)).
  Proof.
    intros HL. unfold unpol2pol. rewrite length_of_modes, getlmax_full.
    set (vm := row L (pol_m2 b)). set (vp := row L (pol_p2 b)).
    assert (Hvm : forall i, i < L + 1 -> length (vm i) = L + 1 - i) by (intros; apply length_row).
    assert (Hvp : forall i, i < L + 1 -> length (vp i) = L + 1 - i) by (intros; apply length_row).
    set (I := fun m => (filled zero L (L + 1) vm m, filled zero L (L + 1) vp m,
                        match m with O => None | S _ => Some (off L m) end)).
    assert (E0 : (repeat zero (off L (L + 1)), repeat zero (off L (L + 1)), @None nat) = I 0).
    { unfold I. now rewrite !filled_0. }
    rewrite E0, (for_each_seq _ I).
    { unfold I. cbn [bind]. now rewrite !filled_n. }
    intros m Hm. unfold I, unpol2pol_body. cbv beta iota.
    rewrite (getidx_start L m) by lia.
    assert (Eb : (if m <? L then Ok (off L m, getidx L (m + 1) (m + 1))
       else match match m with O => None | S _ => Some (off L m) end with
            | None => Err UnboundLocalError
            | Some e => if (e + 1) =? getsize L L then Ok (e, e + 1) else Err AssertionError
            end) = Ok (off L m, off L m + (L + 1 - m))).
    { destruct (Nat.ltb_spec m L) as [H|H].
      - rewrite getidx_start by lia. replace (m + 1) with (S m) by lia. reflexivity.
      - assert (m = L) by lia. subst m. destruct L as [|L']; [lia|].
        rewrite getsize_off by lia. replace (S L' + 1) with (S (S L')) by lia.
        cbn [off]. replace (S (S L') - S L') with 1 by lia.
        replace (S L' + 1 - S L') with 1 by lia.
        rewrite Nat.eqb_refl. reflexivity. }
    rewrite Eb. clear Eb. cbn [bind].
    assert (O1 : off L 1 = L + 1) by (cbn; lia).
    assert (O2 : off L 2 = 2 * L + 1) by (cbn; lia).
    assert (O3 : 2 <= L -> off L 3 = 3 * L) by (cbn; lia).
    destruct (Nat.eqb_spec m 0) as [->|Hm0].
    - assert (Es : slice (of_modes L L b) (2 * L + 1) (3 * L)
                   = map (fun l => b l 2) (seq 2 (L - 1))).
      { destruct (Nat.eq_dec L 1) as [->|]; [reflexivity|].
        replace (2 * L + 1) with (off L 2 + 0) by lia.
        replace (3 * L) with (off L 2 + 0 + (L - 1)) by lia.
        rewrite slice_modes by lia. reflexivity. }
      rewrite Es.
      rewrite (assign_row_tail zero L (L + 1) vm 0 2); [|lia|lia|auto| | ].
      2:{ rewrite !map_length, seq_length. lia. }
      2:{ unfold vm, row. rewrite (row_zeros L _ 0 2).
          - f_equal. rewrite map_map. replace (L + 1 - 0 - 2) with (L - 1) by lia.
            apply map_ext_in. intros l Hl. apply in_seq in Hl.
            unfold pol_m2. destruct (Nat.ltb_spec l 2); [lia|].
            unfold coef. destruct (Z.ltb_spec (Z.of_nat l) (Z.abs (Z.of_nat 0 - 2))); [lia|].
            cbn [Z.of_nat Z.sub Z.add Z.opp Z.leb Z.compare Z.even]. reflexivity.
          - intros l Hl. unfold pol_m2. destruct (Nat.ltb_spec l 2); [reflexivity|lia]. }
      cbn [bind].
      rewrite (assign_row_tail zero L (L + 1) vp 0 2); [|lia|lia|auto| | ].
      2:{ rewrite !map_length, seq_length. lia. }
      2:{ unfold vp, row. rewrite (row_zeros L _ 0 2).
          - f_equal. replace (L + 1 - 0 - 2) with (L - 1) by lia.
            apply map_ext_in. intros l Hl. apply in_seq in Hl.
            unfold pol_p2. destruct (Nat.ltb_spec l 2); [lia|].
            change (Z.of_nat 0 + 2)%Z with (Z.of_nat 2). now rewrite coef_own by lia.
          - intros l Hl. unfold pol_p2. destruct (Nat.ltb_spec l 2); [reflexivity|lia]. }
      cbn [bind]. do 2 f_equal.
    - destruct (Nat.eqb_spec m 1) as [->|Hm1].
      + assert (Es : slice (of_modes L L b) (off L 1 + 1) (off L 1 + (L + 1 - 1))
                   = map (fun l => b l 1) (seq 2 (L - 1))).
        { replace (off L 1 + (L + 1 - 1)) with (off L 1 + 1 + (L - 1)) by lia.
          rewrite slice_modes by lia. reflexivity. }
        assert (Es2 : slice (of_modes L L b) (3 * L) (4 * L - 2)
                   = map (fun l => b l 3) (seq 3 (L - 2))).
        { destruct (Nat.le_gt_cases L 2) as [Hs|Hs].
          - replace (L - 2) with 0 by lia. cbn [seq map]. unfold slice.
            now replace (4 * L - 2 - 3 * L) with 0 by lia.
          - replace (3 * L) with (off L 3 + 0) by lia.
            replace (4 * L - 2) with (off L 3 + 0 + (L - 2)) by lia.
            rewrite slice_modes by lia. reflexivity. }
        rewrite Es, Es2.
        rewrite (assign_row_tail zero L (L + 1) vm 1 1); [|lia|lia|auto| | ].
        2:{ rewrite !map_length, seq_length. lia. }
        2:{ unfold vm, row. rewrite (row_zeros L _ 1 1).
            - f_equal. rewrite map_map. replace (L + 1 - 1 - 1) with (L - 1) by lia.
              apply map_ext_in. intros l Hl. apply in_seq in Hl.
              unfold pol_m2. destruct (Nat.ltb_spec l 2); [lia|].
              unfold coef. destruct (Z.ltb_spec (Z.of_nat l) (Z.abs (Z.of_nat 1 - 2))); [lia|].
              reflexivity.
            - intros l Hl. unfold pol_m2. destruct (Nat.ltb_spec l 2); [reflexivity|lia]. }
        cbn [bind].
        rewrite (assign_row_tail zero L (L + 1) vp 1 2); [|lia|lia|auto| | ].
        2:{ rewrite !map_length, seq_length. lia. }
        2:{ unfold vp, row. rewrite (row_zeros L _ 1 2).
            - f_equal. replace (L + 1 - 1 - 2) with (L - 2) by lia.
              apply map_ext_in. intros l Hl. apply in_seq in Hl.
              unfold pol_p2. destruct (Nat.ltb_spec l 2); [lia|].
              change (Z.of_nat 1 + 2)%Z with (Z.of_nat 3). now rewrite coef_own by lia.
            - intros l Hl. unfold pol_p2. destruct (Nat.ltb_spec l 2); [reflexivity|].
              unfold coef. destruct (Z.ltb_spec (Z.of_nat l) (Z.abs (Z.of_nat 1 + 2))); [reflexivity|lia]. }
        cbn [bind]. do 2 f_equal.
      + assert (Hend : match S m with O => None | S _ => Some (off L (S m)) end
                       = Some (off L m + (L + 1 - m))) by reflexivity.
        rewrite Hend. clear Hend.
        rewrite !getidx_start by lia.
        assert (Es : slice (of_modes L L b) (off L (m - 2) + 2) (off L (m - 1))
                   = map (fun l => b l (m - 2)) (seq m (L + 1 - m))).
        { replace (off L (m - 1)) with (off L (m - 2) + 2 + (L + 1 - m)).
          - rewrite slice_modes by lia. do 2 f_equal. lia.
          - replace (m - 1) with (S (m - 2)) by lia. cbn [off]. lia. }
        rewrite Es.
        replace (off L m + (L + 1 - m)) with (off L m + L + 1 - m) at 1 by lia.
        replace (map (fun l => b l (m - 2)) (seq m (L + 1 - m))) with (vm m).
        2:{ unfold vm, row. apply map_ext_in. intros l Hl. apply in_seq in Hl.
            unfold pol_m2. destruct (Nat.ltb_spec l 2); [lia|].
            replace (Z.of_nat m - 2)%Z with (Z.of_nat (m - 2)) by lia. now rewrite coef_own by lia. }
        rewrite assign_row by (auto; lia). cbn [bind].
        destruct (Nat.ltb_spec L (m + 2)) as [Hstop|Hgo].
        * do 3 f_equal. apply skip_row; auto.
          unfold vp, row. rewrite (row_zeros L _ m (L + 1 - m)).
          -- rewrite Nat.min_id, Nat.sub_diag. cbn [seq map]. now rewrite app_nil_r.
          -- intros l Hl. unfold pol_p2. destruct (Nat.ltb_spec l 2); [reflexivity|].
             unfold coef. destruct (Z.ltb_spec (Z.of_nat l) (Z.abs (Z.of_nat m + 2))); [reflexivity|lia].
        * rewrite (getidx_start L (m + 2)), (getidx_start L (m + 3)) by lia.
          assert (Es2 : slice (of_modes L L b) (off L (m + 2)) (off L (m + 3))
                   = map (fun l => b l (m + 2)) (seq (m + 2) (L + 1 - m - 2))).
          { replace (off L (m + 3)) with (off L (m + 2) + 0 + (L + 1 - m - 2)).
            - replace (off L (m + 2)) with (off L (m + 2) + 0) at 1 by lia.
              rewrite slice_modes by lia. do 2 f_equal. lia.
            - replace (m + 3) with (S (m + 2)) by lia. cbn [off]. lia. }
          rewrite Es2.
          rewrite (assign_row_tail zero L (L + 1) vp m 2); [|lia|lia|auto| | ].
          -- reflexivity.
          -- rewrite map_length, seq_length. lia.
          -- unfold vp, row. rewrite (row_zeros L _ m 2).
             ++ f_equal. apply map_ext_in. intros l Hl. apply in_seq in Hl.
                unfold pol_p2. destruct (Nat.ltb_spec l 2); [lia|].
                replace (Z.of_nat m + 2)%Z with (Z.of_nat (m + 2)) by lia. now rewrite coef_own by lia.
             ++ intros l Hl. unfold pol_p2. destruct (Nat.ltb_spec l 2); [reflexivity|].
                unfold coef. destruct (Z.ltb_spec (Z.of_nat l) (Z.abs (Z.of_nat m + 2))); [reflexivity|lia].
  Qed.
End Blm.

(** ** Consequences and corner cases *)

Lemma trunc_twice {A} L M (f : nat -> nat -> A) L1 L2 : M <= L -> L1 <= L -> L2 <= L1 ->
  (do a <- trunc_alm (of_modes L M f) L1 (Some M); trunc_alm a L2 (Some (Nat.min L1 M)))
  = trunc_alm (of_modes L M f) L2 (Some M).
Proof.
  intros. rewrite !(trunc_alm_spec L M) by (auto; lia). cbn [bind].
  rewrite trunc_alm_spec by (auto; lia). do 2 f_equal. lia.
Qed.

Lemma unpol2pol_monopole_only {A} (zero : A) conj opp b :
  unpol2pol zero conj opp (of_modes 0 0 b) = Err UnboundLocalError.
Proof. reflexivity. Qed.

Lemma blm2bl_beyond {A} (zero : A) (f : nat -> nat -> A) :
  blm2bl zero (of_modes 2 2 f) 7 false = Ok [f 0 0; f 1 0].
Proof. reflexivity. Qed.

Lemma expand_blm_spec {A} (zero : A) L M f : M <= L ->
  expand_blm zero (of_modes L M f) M
  = Ok (of_modes L L (fun l m => if m <=? M then f l m else zero)).
Proof.
  intros H. unfold expand_blm. rewrite length_of_modes, getlmax_part, getsize_off by lia.
  assert (Hsz : off L (M + 1) <= off L (L + 1)) by (apply off_mono; lia).
  replace (repeat zero (off L (L + 1)))
    with ([] ++ repeat zero (off L (M + 1)) ++ repeat zero (off L (L + 1) - off L (M + 1))).
  2:{ cbn [app]. rewrite <- repeat_app. f_equal. lia. }
  rewrite assign_mid; auto.
  2:{ now rewrite repeat_length. }
  2:{ now rewrite repeat_length, length_of_modes. }
  cbn [app]. f_equal. unfold of_modes.
  assert (Es : seq 0 (L + 1) = seq 0 (M + 1) ++ seq (M + 1) (L - M)).
  { replace (L + 1) with ((M + 1) + (L - M)) by lia. exact (seq_app (M + 1) (L - M) 0). }
  rewrite Es.
  rewrite (map_app (row L (fun l m => if m <=? M then f l m else zero))), concat_app. f_equal.
  - f_equal. apply map_ext_in. intros m Hm. apply in_seq in Hm. unfold row.
    apply map_ext. intros l. destruct (Nat.leb_spec m M); [reflexivity|lia].
  - cbn [Nat.add].
    assert (G : forall n s, M < s -> s + n = L + 1 ->
      repeat zero (off L (L + 1) - off L s)
      = concat (map (row L (fun l m => if m <=? M then f l m else zero)) (seq s n))).
    { induction n as [|n IH]; intros s Hs Hn; cbn [seq map concat].
      - replace s with (L + 1) by lia. now rewrite Nat.sub_diag.
      - rewrite <- IH by lia.
        assert (E : row L (fun l m => if m <=? M then f l m else zero) s = repeat zero (L + 1 - s)).
        { unfold row. destruct (Nat.leb_spec s M); [lia|]. apply map_const_seq. }
        rewrite E, <- repeat_app. f_equal.
        pose proof (off_mono L (S s) (L + 1) ltac:(lia)) as Ho. cbn [off] in *. lia. }
    apply (G (L - M)); lia.
Qed.

(** Gaussian beams: [bell] in the m = 0 row; for polarisation in the m = 2 row. *)
Lemma gauss_blm_spec {A} (zero : A) L bell : length bell = L + 1 ->
  gauss_blm zero L bell
  = Ok (of_modes L L (fun l m => if m =? 0 then nth l bell zero else zero),
        of_modes L L (fun l m => if m =? 2 then nth l bell zero else zero)).
Proof.
  intros Hb. unfold gauss_blm. rewrite getsize_off by lia.
  set (v0 := row L (fun l m => if m =? 0 then nth l bell zero else zero)).
  set (v2 := row L (fun l m => if m =? 2 then nth l bell zero else zero)).
  assert (H0 : forall i, i < L + 1 -> length (v0 i) = L + 1 - i) by (intros; apply length_row).
  assert (H2 : forall i, i < L + 1 -> length (v2 i) = L + 1 - i) by (intros; apply length_row).
  assert (Z0 : forall i, i <> 0 -> v0 i = repeat zero (L + 1 - i)).
  { intros i Hi. unfold v0, row. destruct (Nat.eqb_spec i 0); [contradiction|].
    apply map_const_seq. }
  assert (Z2 : forall i, i <> 2 -> v2 i = repeat zero (L + 1 - i)).
  { intros i Hi. unfold v2, row. destruct (Nat.eqb_spec i 2); [contradiction|].
    apply map_const_seq. }
  (* rows after the last written one stay zero *)
  assert (Tail : forall v k, k <= L + 1 ->
            (forall i, k <= i -> i < L + 1 -> v i = repeat zero (L + 1 - i)) ->
            (forall i, i < L + 1 -> length (v i) = L + 1 - i) ->
            filled zero L (L + 1) v k = concat (map v (seq 0 (L + 1)))).
  { intros v k Hk Hz Hl. rewrite <- (filled_n zero L (L + 1) v).
    assert (G : forall n, k + n = L + 1 -> filled zero L (L + 1) v k = filled zero L (L + 1) v (k + n)).
    { intros n Hn. assert (G2 : forall j, j <= n -> filled zero L (L + 1) v k = filled zero L (L + 1) v (k + j)).
      { induction j as [|j IH]; intros Hj; [now rewrite Nat.add_0_r|].
        rewrite IH by lia. replace (k + S j) with (S (k + j)) by lia.
        apply skip_row; auto; try lia. apply Hz; lia. }
      apply G2; lia. }
    rewrite (G (L + 1 - k)) by lia. f_equal. lia. }
  assert (E0 : assign (repeat zero (off L (L + 1))) 0 (L + 1) bell
               = Ok (of_modes L L (fun l m => if m =? 0 then nth l bell zero else zero))).
  { rewrite <- (filled_0 zero L (L + 1) v0).
    assert (Eb : bell = v0 0).
    { unfold v0, row. cbn [Nat.eqb]. rewrite Nat.sub_0_r, <- Hb. symmetry. apply map_nth_seq. }
    rewrite Eb at 1. pose proof (assign_row zero L (L + 1) v0 0 ltac:(lia) ltac:(lia) H0) as T.
    cbn [off Nat.add] in T. rewrite Nat.sub_0_r in T. rewrite T. f_equal.
    apply Tail; auto; try lia. intros; apply Z0; lia. }
  rewrite E0. cbn [bind].
  destruct (Nat.le_gt_cases 2 L) as [HL|HL].
  - assert (E2 : assign (repeat zero (off L (L + 1))) (2 * L + 1) (3 * L) (skipn 2 bell)
               = Ok (of_modes L L (fun l m => if m =? 2 then nth l bell zero else zero))).
    { rewrite <- (filled_0 zero L (L + 1) v2).
      rewrite (skip_row zero L (L + 1) v2 0), (skip_row zero L (L + 1) v2 1) by (auto; try lia; apply Z2; lia).
      assert (Eb : skipn 2 bell = v2 2).
      { unfold v2, row. cbn [Nat.eqb]. replace (L + 1 - 2) with (L + 1 - 2) by lia.
        rewrite <- (map_nth_seq bell zero) at 1. rewrite Hb, skipn_map, skipn_seq. reflexivity. }
      rewrite Eb. pose proof (assign_row zero L (L + 1) v2 2 ltac:(lia) ltac:(lia) H2) as T.
      replace (off L 2) with (2 * L + 1) in T by (cbn; lia).
      replace (2 * L + 1 + L + 1 - 2) with (3 * L) in T by lia. rewrite T. f_equal.
      apply Tail; auto; try lia. intros; apply Z2; lia. }
    now rewrite E2.
  - assert (Eb : skipn 2 bell = []) by (apply skipn_all2; lia). rewrite Eb.
    assert (E2 : assign (repeat zero (off L (L + 1))) (2 * L + 1) (3 * L) []
                 = Ok (repeat zero (off L (L + 1)))).
    { unfold assign. rewrite repeat_length. cbn [length].
      assert (3 * L <= 2 * L + 1) by lia.
      replace (Nat.min (3 * L) (off L (L + 1)) - Nat.min (2 * L + 1) (off L (L + 1))) with 0 by lia.
      cbn [Nat.eqb app]. rewrite Nat.max_l by lia. now rewrite firstn_skipn. }
    rewrite E2. cbn [bind]. do 2 f_equal. rewrite <- (filled_0 zero L (L + 1) v2).
    apply Tail; auto; try lia. intros i _ Hi. apply Z2. lia.
Qed.
