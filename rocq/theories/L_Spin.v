(** * Spin maps are convolutions of sky and beam *)
From Coq Require Import Reals String Lra Lia.
From Verif Require Import Common Cplx LibList Mat M_Alm M_Blm M_Mueller M_Tod M_Spin
  S_Alm S_Tod S_Spin L_Alm L_Blm L_Tod L_Tod2.
Open Scope R_scope.

Definition sg (k : Z) (x : C) : C := if Z.even k then x else Copp x.

Lemma sg_sg k x : sg k (sg k x) = x.
Proof. unfold sg. destruct (Z.even k); [reflexivity|ceq; ring]. Qed.
Lemma sg_add j k x : sg (j + k) x = sg j (sg k x).
Proof. unfold sg. rewrite Z.even_add. destruct (Z.even j), (Z.even k); cbn; try reflexivity. ceq; ring. Qed.
Lemma sg_mul_l k x y : sg k (x * y)%C = (sg k x * y)%C.
Proof. unfold sg. destruct (Z.even k); [reflexivity|ceq; ring]. Qed.
Lemma sg_conj k x : Cconj (sg k x) = sg k (Cconj x).
Proof. unfold sg. destruct (Z.even k); [reflexivity|apply Cconj_opp]. Qed.
Lemma sg_opp k x : sg (- k) x = sg k x.
Proof. unfold sg. rewrite Z.even_opp. reflexivity. Qed.
Lemma sg_parity k x : sg k x = (parity k * x)%C.
Proof. unfold sg, parity. destruct (Z.even k); destruct x; ceq; ring. Qed.
Lemma parity_sq k : (parity k * parity k)%C = RtoC 1.
Proof. unfold parity. destruct (Z.even k); ceq; ring. Qed.

(** ** Fields *)
Lemma orders_in l m : In m (orders l) <-> (Z.abs m <= Z.of_nat l)%Z.
Proof.
  unfold orders. rewrite in_map_iff. split.
  - intros (k & <- & Hk). apply in_seq in Hk. lia.
  - intros H. exists (Z.to_nat (m + Z.of_nat l)). rewrite in_seq. lia.
Qed.

Lemma orders_opp l : map Z.opp (orders l) = rev (orders l).
Proof.
  unfold orders. rewrite <- map_rev, map_map.
  apply nth_ext with (d := 0%Z) (d' := 0%Z).
  - rewrite !map_length, rev_length. reflexivity.
  - intros i Hi. rewrite map_length, seq_length in Hi.
    rewrite (nth_indep _ 0%Z ((fun k => (- (Z.of_nat k - Z.of_nat l))%Z) 0%nat))
      by (rewrite map_length, seq_length; exact Hi).
    rewrite (map_nth (fun k => (- (Z.of_nat k - Z.of_nat l))%Z)).
    rewrite (nth_indep _ 0%Z ((fun k => (Z.of_nat k - Z.of_nat l)%Z) 0%nat))
      by (rewrite map_length, rev_length, seq_length; exact Hi).
    rewrite (map_nth (fun k => (Z.of_nat k - Z.of_nat l)%Z)).
    rewrite rev_nth by (rewrite seq_length; exact Hi). rewrite seq_length, !seq_nth by lia. lia.
Qed.

Lemma csum_orders_opp (g : Z -> C) l : csum (map (fun m => g (- m)%Z) (orders l)) = csum (map g (orders l)).
Proof.
  rewrite <- (map_map Z.opp g), orders_opp, map_rev, csum_rev. reflexivity.
Qed.

Lemma field_ext Y L s f g p :
  (forall l m, (l <= L)%nat -> (Z.abs m <= Z.of_nat l)%Z -> f l m = g l m) ->
  field Y L s f p = field Y L s g p.
Proof.
  intros H. unfold field. apply csum_map_eq. intros l Hl. apply in_seq in Hl.
  apply csum_map_eq. intros m Hm. apply orders_in in Hm. rewrite H by lia. reflexivity.
Qed.

Lemma field_conj Y L s f p : conj_symmetric Y ->
  Cconj (field Y L s f p) = field Y L (- s) (fun l m => sg (s + m) (Cconj (f l (- m)%Z))) p.
Proof.
  intros HY. unfold field. rewrite <- csum_conj. apply csum_map_eq. intros l _.
  rewrite <- csum_conj. rewrite <- csum_orders_opp. apply csum_map_eq. intros m _.
  rewrite Cconj_mul, HY, <- sg_mul_l. unfold sg.
  replace (Z.even (s + - m)) with (Z.even (s + m)) by (rewrite !Z.even_add, Z.even_opp; reflexivity).
  rewrite Z.opp_involutive. destruct (Z.even (s + m)); [reflexivity|ring].
Qed.

Lemma field_add Y L s f g p :
  field Y L s (fun l m => f l m + g l m)%C p = (field Y L s f p + field Y L s g p)%C.
Proof.
  unfold field. rewrite <- csum_plus. apply csum_map_eq. intros l _.
  rewrite <- csum_plus. apply csum_map_eq. intros. ring.
Qed.
Lemma field_scal Y L s k f p : field Y L s (fun l m => k * f l m)%C p = (k * field Y L s f p)%C.
Proof.
  unfold field. rewrite <- csum_scal. apply csum_map_eq. intros l _.
  rewrite <- csum_scal. apply csum_map_eq. intros. ring.
Qed.

(** ** Modes *)
Lemma mode_pos own other l m : (0 <= m <= Z.of_nat l)%Z -> mode own other l m = own l (Z.to_nat m).
Proof.
  intros H. unfold mode, coef. destruct (Z.ltb_spec (Z.of_nat l) (Z.abs m)); [lia|].
  destruct (Z.leb_spec 0 m); [reflexivity|lia].
Qed.
Lemma mode_neg own other l m : (m < 0)%Z -> (- m <= Z.of_nat l)%Z ->
  mode own other l m = sg m (Cconj (other l (Z.to_nat (- m)))).
Proof.
  intros H H'. unfold mode, coef. destruct (Z.ltb_spec (Z.of_nat l) (Z.abs m)); [lia|].
  destruct (Z.leb_spec 0 m); [lia|reflexivity].
Qed.
Lemma mode_out own other l m : (Z.of_nat l < Z.abs m)%Z -> mode own other l m = RtoC 0.
Proof. intros H. unfold mode, coef. destruct (Z.ltb_spec (Z.of_nat l) (Z.abs m)); [reflexivity|lia]. Qed.

Lemma mode_opp f g l m : f l 0%nat = Cconj (g l 0%nat) -> (Z.abs m <= Z.of_nat l)%Z ->
  mode f g l (- m) = sg m (Cconj (mode g f l m)).
Proof.
  intros E H. destruct (Z.lt_trichotomy m 0) as [N|[->|P]].
  - rewrite mode_pos by lia. rewrite (mode_neg g f l m) by lia.
    rewrite sg_conj, sg_sg, Cconj_conj. reflexivity.
  - cbn [Z.opp]. rewrite !mode_pos by lia. cbn. exact E.
  - rewrite mode_neg by lia. rewrite mode_pos by lia. rewrite sg_opp, Z.opp_involutive. reflexivity.
Qed.

Lemma mode_mul A B (beta : nat -> C) l m : (Z.abs m <= Z.of_nat l)%Z ->
  mode (fun l m => A l m * beta l)%C (fun l m => B l m * Cconj (beta l))%C l m = (mode A B l m * beta l)%C.
Proof.
  intros H. destruct (Z_le_gt_dec 0 m).
  - rewrite !mode_pos by lia. reflexivity.
  - rewrite !mode_neg by lia. rewrite Cconj_mul, Cconj_conj, sg_mul_l. reflexivity.
Qed.

Lemma mode_lin u v l m : (Z.abs m <= Z.of_nat l)%Z ->
  (mode u u l m + Ci * mode v v l m)%C = mode (fun l m => u l m + Ci * v l m)%C (fun l m => u l m - Ci * v l m)%C l m.
Proof.
  intros H. destruct (Z_le_gt_dec 0 m).
  - rewrite !mode_pos by lia. reflexivity.
  - rewrite !mode_neg by lia. rewrite !sg_parity. destruct (u l (Z.to_nat (- m))), (v l (Z.to_nat (- m))). destruct (parity m). ceq; ring.
Qed.

Lemma mode_ext f f' g g' l m : (forall m, (m <= l)%nat -> f l m = f' l m) -> (forall m, (m <= l)%nat -> g l m = g' l m) ->
  mode f g l m = mode f' g' l m.
Proof.
  intros Hf Hg. destruct (Z_lt_ge_dec (Z.of_nat l) (Z.abs m)); [rewrite !mode_out by lia; reflexivity|].
  destruct (Z_le_gt_dec 0 m).
  - rewrite !mode_pos by lia. apply Hf. lia.
  - rewrite !mode_neg by lia. rewrite Hg by lia. reflexivity.
Qed.

Lemma real_conj (f : nat -> nat -> C) l : real_m0 f -> f l 0%nat = Cconj (f l 0%nat).
Proof. intros H. specialize (H l). destruct (f l 0%nat) as [x y]. cbn in H. subst. unfold Cconj. cbn. rewrite Ropp_0. reflexivity. Qed.

Lemma field_real Y L u p : conj_symmetric Y -> real_m0 u ->
  RtoC (Re (field Y L 0 (mode u u) p)) = field Y L 0 (mode u u) p.
Proof.
  intros HY Hu.
  assert (E : Cconj (field Y L 0 (mode u u) p) = field Y L 0 (mode u u) p).
  { rewrite field_conj by exact HY. cbn [Z.opp]. apply field_ext. intros l m Hl Hm.
    rewrite mode_opp by (auto using real_conj). rewrite sg_conj, Cconj_conj. cbn [Z.add]. apply sg_sg. }
  destruct (field Y L 0 (mode u u) p) as [x y]. injection E as E. apply C_eq; cbn; lra.
Qed.

(** ** Arrays *)
Section Arrays.
Variables (Y : Z -> nat -> Z -> nat -> C) (npix L : nat).
Variables (alm2map : list C -> list R) (alm2map_spin : list C -> list C -> Z -> list R * list R).
Hypothesis HY : conj_symmetric Y.
Hypothesis HP : healpix Y npix L alm2map alm2map_spin.

Lemma bell_nth b k l : (k <= L)%nat -> (l <= L)%nat ->
  nth l (repeat (RtoC 0) k ++ map (fun l => b l k) (seq k (L + 1 - k))) (RtoC 0)
  = if (k <=? l)%nat then b l k else RtoC 0.
Proof.
  intros Hk Hl. destruct (Nat.leb_spec k l) as [H|H].
  - rewrite app_nth2; rewrite repeat_length; [|lia].
    rewrite nth_map_seq by lia. f_equal. lia.
  - rewrite app_nth1 by (rewrite repeat_length; lia). apply nth_repeat.
Qed.

Lemma hp_almxfl_modes a fl :
  hp_almxfl (of_modes L L a) fl = Ok (of_modes L L (fun l m => a l m * nth l fl (RtoC 0))%C).
Proof.
  unfold hp_almxfl. rewrite length_of_modes, getlmax_full. rewrite almxfl_modes. reflexivity.
Qed.

Lemma spin2eb_modes m2 p2 s :
  spin2eb (of_modes L L m2) (of_modes L L p2) s
  = (of_modes L L (fun l m => fst (spin2eb1 s (m2 l m) (p2 l m))),
     of_modes L L (fun l m => snd (spin2eb1 s (m2 l m) (p2 l m)))).
Proof.
  unfold spin2eb. f_equal; exact (zipwith_modes _ L L m2 p2).
Qed.

(** beta_l = b_lk, zero below k. *)
Definition bet (b : nat -> nat -> C) (k l : nat) : C := if (k <=? l)%nat then b l k else RtoC 0.

Lemma alm_bell a b k :
  (k <= L)%nat ->
  hp_almxfl (of_modes L L a) (repeat (RtoC 0) k ++ map (fun l => b l k) (seq k (L + 1 - k)))%list
  = Ok (of_modes L L (fun l m => a l m * bet b k l)%C).
Proof.
  intros Hk. rewrite hp_almxfl_modes. f_equal. apply of_modes_ext. intros l m _ Hl.
  rewrite bell_nth by lia. reflexivity.
Qed.

Lemma alm_bell_map a b k (h : C -> C) : h (RtoC 0) = RtoC 0 ->
  (k <= L)%nat ->
  hp_almxfl (of_modes L L a) (map h (repeat (RtoC 0) k ++ map (fun l => b l k) (seq k (L + 1 - k))))%list
  = Ok (of_modes L L (fun l m => a l m * h (bet b k l))%C).
Proof.
  intros H0 Hk. rewrite hp_almxfl_modes. f_equal. apply of_modes_ext. intros l m _ Hl.
  rewrite nth_map0 by exact H0. rewrite bell_nth by lia. reflexivity.
Qed.

Lemma to_complex_maps (f : nat -> C) :
  to_complex (map (fun p => Re (f p)) (seq 0 npix), map (fun p => Im (f p)) (seq 0 npix))
  = map f (seq 0 npix).
Proof.
  unfold to_complex. cbn [fst snd]. induction (seq 0 npix) as [|x l IH]; cbn; [reflexivity|].
  rewrite IH. destruct (f x). reflexivity.
Qed.
Lemma to_complex_minus_maps (f : nat -> C) :
  to_complex_minus (map (fun p => Re (f p)) (seq 0 npix), map (fun p => Im (f p)) (seq 0 npix))
  = map (fun p => Cconj (f p)) (seq 0 npix).
Proof.
  unfold to_complex_minus. cbn [fst snd]. induction (seq 0 npix) as [|x l IH]; cbn; [reflexivity|].
  rewrite IH. reflexivity.
Qed.

(** The spin transform of (spin2eb m2 p2). *)
Lemma transform_spin m2 p2 k : (0 < k)%Z ->
  (forall l, p2 l 0%nat = Cconj (parity k * m2 l 0%nat)%C) ->
  (let '(p, m) := spin2eb (of_modes L L m2) (of_modes L L p2) k in alm2map_spin p m k)
  = (map (fun q => Re (field Y L k (mode p2 (fun l m => parity k * m2 l m)%C) q)) (seq 0 npix),
     map (fun q => Im (field Y L k (mode p2 (fun l m => parity k * m2 l m)%C) q)) (seq 0 npix)).
Proof.
  intros Hk H0. rewrite spin2eb_modes. cbv beta iota.
  destruct HP as [_ H2]. rewrite H2.
  - assert (E : forall q, field Y L k
       (mode (fun l m => - (fst (spin2eb1 k (m2 l m) (p2 l m)) + Ci * snd (spin2eb1 k (m2 l m) (p2 l m))))%C
             (fun l m => - (fst (spin2eb1 k (m2 l m) (p2 l m)) - Ci * snd (spin2eb1 k (m2 l m) (p2 l m))))%C) q
       = field Y L k (mode p2 (fun l m => parity k * m2 l m)%C) q).
    { intros q. apply field_ext. intros l m Hl Hm. apply mode_ext; intros m' Hm'; unfold spin2eb1; cbn [fst snd].
      - destruct (p2 l m') as [a b], (m2 l m') as [c d], (parity k) as [x y].
        apply C_eq; cbn; unfold Cdiv, Cinv, Cnorm2; cbn; field.
      - destruct (p2 l m') as [a b], (m2 l m') as [c d], (parity k) as [x y].
        apply C_eq; cbn; unfold Cdiv, Cinv, Cnorm2; cbn; field. }
    f_equal; apply map_ext; intros q; rewrite E; reflexivity.
  - intros l. unfold spin2eb1. cbn [fst]. rewrite H0.
    destruct (m2 l 0%nat) as [c d], (parity k) as [x y].
    cbn; unfold Cdiv, Cinv, Cnorm2; cbn; field.
  - intros l. unfold spin2eb1. cbn [snd]. rewrite H0.
    destruct (m2 l 0%nat) as [c d], (parity k) as [x y].
    cbn; unfold Cdiv, Cinv, Cnorm2; cbn; field.
  - exact Hk.
Qed.

Lemma real_map1 a b s : real_m0 a -> real_m0 b -> (0 <= s <= Z.of_nat L)%Z ->
  spinmap_real1 alm2map alm2map_spin (of_modes L L a) (of_modes L L b) s
  = Ok (map (field Y L s (fun l m => mode a a l m * mode b b l s)%C) (seq 0 npix)).
Proof.
  intros Ra Rb Hs. unfold spinmap_real1.
  set (k := Z.to_nat s). assert (Es : s = Z.of_nat k) by (unfold k; lia).
  assert (Hk : (k <= L)%nat) by lia. rewrite Es. clearbody k. subst s.
  rewrite blm2bl_spec by exact Hk. cbn [bind].
  assert (Eb : forall l, (l <= L)%nat -> bet b k l = mode b b l (Z.of_nat k)).
  { intros l Hl. unfold bet. destruct (Nat.leb_spec k l).
    - rewrite mode_pos by lia. rewrite Nat2Z.id. reflexivity.
    - rewrite mode_out by lia. reflexivity. }
  destruct (Z.eqb_spec (Z.of_nat k) 0) as [K0|K0].
  - assert (k = 0%nat) by lia. subst k.
    rewrite alm_bell by lia. cbn [bind]. f_equal. destruct HP as [H1 _].
    assert (R0 : real_m0 (fun l m => (a l m * bet b 0 l)%C)).
    { intros l. unfold bet. cbn [Nat.leb]. rewrite (real_conj a l Ra), (real_conj b l Rb).
      specialize (Ra l). specialize (Rb l). destruct (a l 0%nat), (b l 0%nat). cbn in *. subst. ring. }
    rewrite H1 by exact R0. rewrite map_map. apply map_ext. intros p.
    rewrite field_real by assumption. cbn [Z.of_nat]. apply field_ext. intros l m Hl Hm.
    rewrite <- Eb by exact Hl. rewrite <- (mode_mul a a (bet b 0)) by exact Hm.
    apply mode_ext; intros m' _; [reflexivity|].
    f_equal. unfold bet. cbn [Nat.leb]. apply real_conj. exact Rb.
  - rewrite alm_bell by lia. cbn [bind]. unfold conjs. rewrite map_map.
    rewrite (alm_bell_map a b k (fun x => parity (Z.of_nat k) * Cconj x)%C) by (lia || (rewrite Cconj_R; ring)).
    cbn [bind].
    pose proof (transform_spin (fun l m => a l m * (parity (Z.of_nat k) * Cconj (bet b k l)))%C
      (fun l m => a l m * bet b k l)%C (Z.of_nat k) ltac:(lia)) as T.
    destruct (spin2eb _ _ _) as [pp mm]. rewrite T; clear T.
    + rewrite to_complex_maps. f_equal. apply map_ext. intros p. apply field_ext. intros l m Hl Hm.
      rewrite <- Eb by exact Hl. rewrite <- (mode_mul a a (bet b k)) by exact Hm.
      apply mode_ext; intros m' _; [reflexivity|].
      transitivity (parity (Z.of_nat k) * parity (Z.of_nat k) * (a l m' * Cconj (bet b k l)))%C; [ring|].
      rewrite parity_sq. ring.
    + intros l.
      transitivity (Cconj ((parity (Z.of_nat k) * parity (Z.of_nat k)) * (a l 0%nat * Cconj (bet b k l))))%C.
      * rewrite parity_sq, !Cconj_mul, Cconj_R, Cconj_conj, <- (real_conj a l Ra). ring.
      * f_equal. ring.
Qed.

Lemma real_maps a b spins : real_m0 a -> real_m0 b -> spins <> [] ->
  Forall (fun s => 0 <= s <= Z.of_nat L)%Z spins ->
  spinmaps_real alm2map alm2map_spin (of_modes L L a) (of_modes L L b) spins
  = Ok (map (fun s => map (field Y L s (fun l m => mode a a l m * mode b b l s)%C) (seq 0 npix)) spins).
Proof.
  intros Ra Rb NE HS. unfold spinmaps_real. destruct spins as [|s0 spins]; [congruence|].
  set (ss := s0 :: spins) in *.
  assert (existsb (fun s => s <? 0)%Z ss = false) as ->.
  { apply not_true_is_false. intros X. apply existsb_exists in X. destruct X as (s & Hs & Ls).
    rewrite Forall_forall in HS. specialize (HS s Hs). apply Z.ltb_lt in Ls. lia. }
  apply mapr_ok. eapply Forall_impl; [|exact HS]. intros s Hs. cbv beta. apply real_map1; assumption.
Qed.

Lemma complex_map1 Sm Sp Bm Bp s :
  (forall l, Sm l 0%nat = Cconj (Sp l 0%nat)) -> (forall l, Bm l 0%nat = Cconj (Bp l 0%nat)) ->
  (Z.abs s <= Z.of_nat L)%Z ->
  spinmap_complex1 alm2map alm2map_spin (of_modes L L Sm) (of_modes L L Sp)
     (of_modes L L Bm) (of_modes L L Bp) s
  = Ok (map (field Y L s (fun l m => mode Sp Sm l m * mode Bm Bp l s)%C) (seq 0 npix)).
Proof.
  intros HS HB Hs. unfold spinmap_complex1.
  set (k := Z.to_nat (Z.abs s)). assert (Ek : Z.abs s = Z.of_nat k) by (unfold k; lia).
  assert (Hk : (k <= L)%nat) by lia. rewrite Ek. clearbody k.
  rewrite !blm2bl_spec by exact Hk. cbn [bind].
  set (par := parity (Z.of_nat k)).
  assert (ZH : (Cconj (RtoC 0) * par)%C = RtoC 0) by (rewrite Cconj_R; ring).
  rewrite (alm_bell_map Sm Bm k (fun x => Cconj x * par)%C ZH Hk), (alm_bell Sp Bm k Hk),
    (alm_bell_map Sp Bp k (fun x => Cconj x * par)%C ZH Hk), (alm_bell Sm Bp k Hk). cbn [bind].
  assert (PP : (par * par)%C = RtoC 1) by apply parity_sq.
  assert (PX : forall x y, (par * (x * (y * par)))%C = (x * y)%C).
  { intros. transitivity (par * par * (x * y))%C; [ring|]. rewrite PP. ring. }
  f_equal.
  destruct (Z.eqb_spec s 0) as [S0|S0]; [|destruct (Z.ltb_spec 0 s) as [SP|SP]].
  - (* s = 0 *)
    assert (k = 0%nat) by lia. subst k s.
    assert (P1 : par = RtoC 1) by reflexivity.
    rewrite !spin2eb_modes. cbn [fst snd]. unfold negs. rewrite map_modes.
    set (u := fun l m => (- fst (spin2eb1 (Z.of_nat 0) (Sm l m * (Cconj (bet Bm 0 l) * par)) (Sp l m * bet Bm 0 l)))%C).
    set (v := fun l m => snd (spin2eb1 (Z.of_nat 0) (Sp l m * (Cconj (bet Bp 0 l) * par)) (Sm l m * bet Bp 0 l))%C).
    assert (B0 : forall l, bet Bp 0 l = Cconj (bet Bm 0 l)).
    { intros l. unfold bet. cbn [Nat.leb]. rewrite HB, Cconj_conj. reflexivity. }
    assert (Ru : real_m0 u).
    { intros l. unfold u, spin2eb1. cbn [fst]. rewrite HS, P1. change (parity (Z.of_nat 0)) with (RtoC 1).
      destruct (Sp l 0%nat) as [x y], (bet Bm 0 l) as [z w]. cbn. unfold Cdiv, Cinv, Cnorm2. cbn. field. }
    assert (Rv : real_m0 v).
    { intros l. unfold v, spin2eb1. cbn [snd]. rewrite HS, P1, B0, Cconj_conj. change (parity (Z.of_nat 0)) with (RtoC 1).
      destruct (Sp l 0%nat) as [x y], (bet Bm 0 l) as [z w]. cbn. unfold Cdiv, Cinv, Cnorm2. cbn. field. }
    destruct HP as [H1 _]. rewrite (H1 u Ru), (H1 v Rv).
    transitivity (map (fun p => field Y L 0 (mode u u) p + Ci * field Y L 0 (mode v v) p)%C (seq 0 npix)).
    { clear H1. unfold to_complex. cbn [fst snd]. induction (seq 0 npix) as [|p l IH]; cbn; [reflexivity|].
      rewrite IH. apply (f_equal2 (@cons C)); [|reflexivity].
      rewrite <- (field_real Y L u p HY Ru), <- (field_real Y L v p HY Rv).
      apply C_eq; cbn; ring. }
    apply map_ext. intros p. rewrite <- field_scal, <- field_add. apply field_ext. intros l m Hl Hm.
    rewrite mode_lin by exact Hm.
    assert (Eb : mode Bm Bp l 0 = bet Bm 0 l).
    { rewrite mode_pos by lia. reflexivity. }
    rewrite Eb, <- (mode_mul Sp Sm (bet Bm 0)) by exact Hm.
    apply mode_ext; intros m' _; unfold u, v, spin2eb1; cbn [fst snd]; rewrite B0, P1, Cconj_conj;
      change (parity (Z.of_nat 0)) with (RtoC 1).
    + destruct (Sp l m') as [x y], (Sm l m') as [x' y'], (bet Bm 0 l) as [z w].
      apply C_eq; cbn; unfold Cdiv, Cinv, Cnorm2; cbn; field.
    + destruct (Sp l m') as [x y], (Sm l m') as [x' y'], (bet Bm 0 l) as [z w].
      apply C_eq; cbn; unfold Cdiv, Cinv, Cnorm2; cbn; field.
  - (* s > 0 *)
    assert (s = Z.of_nat k) by lia. subst s.
    pose proof (transform_spin (fun l m => Sm l m * (Cconj (bet Bm k l) * par))%C
      (fun l m => Sp l m * bet Bm k l)%C (Z.of_nat k) ltac:(lia)) as T.
    destruct (spin2eb _ _ _) as [pp mm]. cbn [fst snd]. rewrite T; clear T.
    + rewrite to_complex_maps. apply map_ext. intros p. apply field_ext. intros l m Hl Hm.
      assert (Eb : mode Bm Bp l (Z.of_nat k) = bet Bm k l).
      { unfold bet. destruct (Nat.leb_spec k l).
        - rewrite mode_pos by lia. rewrite Nat2Z.id. reflexivity.
        - rewrite mode_out by lia. reflexivity. }
      rewrite Eb, <- (mode_mul Sp Sm (bet Bm k)) by exact Hm.
      apply mode_ext; intros m' _; [reflexivity|]. apply PX.
    + intros l. fold par. rewrite PX, HS. rewrite Cconj_mul, !Cconj_conj. reflexivity.
  - (* s < 0 *)
    assert (s = - Z.of_nat k)%Z by lia. subst s.
    pose proof (transform_spin (fun l m => Sp l m * (Cconj (bet Bp k l) * par))%C
      (fun l m => Sm l m * bet Bp k l)%C (Z.of_nat k) ltac:(lia)) as T.
    rewrite Z.abs_opp, (Z.abs_eq (Z.of_nat k)) in * by lia.
    revert T. destruct (spin2eb _ _ _) as [pp mm] eqn:ES. intros T.
    cbn [fst snd]. rewrite T; clear T.
    + rewrite to_complex_minus_maps. apply map_ext. intros p.
      rewrite field_conj by exact HY. apply field_ext. intros l m Hl Hm.
      assert (Eb : mode Bm Bp l (- Z.of_nat k) = sg (Z.of_nat k) (Cconj (bet Bp k l))).
      { unfold bet. destruct (Nat.leb_spec k l).
        - rewrite mode_neg by lia. rewrite sg_opp, Z.opp_involutive, Nat2Z.id. reflexivity.
        - rewrite mode_out by lia. unfold sg. rewrite Cconj_R. destruct (Z.even _); [reflexivity|ceq; ring]. }
      rewrite Eb.
      assert (EM : mode (fun l m => Sm l m * bet Bp k l)%C
                     (fun l m => par * (Sp l m * (Cconj (bet Bp k l) * par)))%C l (- m)
                   = (mode Sm Sp l (- m) * bet Bp k l)%C).
      { rewrite <- (mode_mul Sm Sp (bet Bp k)) by (rewrite Z.abs_opp; exact Hm).
        apply mode_ext; intros m' _; [reflexivity|]. apply PX. }
      fold par. rewrite EM, mode_opp by (auto; exact Hm).
      rewrite sg_add, Cconj_mul, sg_conj, Cconj_conj.
      rewrite !sg_parity. pose proof (parity_sq m) as Q.
      transitivity (parity (Z.of_nat k) * (parity m * parity m * mode Sp Sm l m * Cconj (bet Bp k l)))%C; [ring|].
      rewrite Q. ring.
    + intros l. fold par. rewrite PX, HS. rewrite Cconj_mul, !Cconj_conj. reflexivity.
Qed.
End Arrays.
