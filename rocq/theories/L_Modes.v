(** * Lemmas: azimuthal orders the beam does not have (C105) *)
From Coq Require Import Reals String Lra Lia Permutation.
From Verif Require Import Common Cplx LibList Mat M_Alm M_Blm M_Mueller S_Mueller M_Tod M_Spin M_Modes
  S_Alm S_Tod S_Spin S_Modes L_Alm L_Blm L_Mueller L_Blmxhwp L_Tod L_Tod2 L_Tod3 L_Spin L_Spin2 L_Spin3 L_Spin4.
Open Scope R_scope.

Lemma zero_or_not (z : C) : z = RtoC 0 \/ z <> RtoC 0.
Proof.
  destruct z as [x y]. destruct (Req_EM_T x 0) as [->|N]; [destruct (Req_EM_T y 0) as [->|N]|].
  - left. reflexivity.
  - right. intros E. injection E. exact N.
  - right. intros E. injection E. intros _ E'. exact (N E').
Qed.

Lemma csum_perm a b : Permutation a b -> csum a = csum b.
Proof.
  induction 1 as [|x a b _ IH|x y a|a b d _ IH1 _ IH2]; rewrite ?csum_cons; [reflexivity|rewrite IH; reflexivity|ring|congruence].
Qed.

Lemma csum_keep {A} (f : A -> C) (p : A -> bool) l :
  (forall x, In x l -> p x = false -> f x = RtoC 0) -> csum (map f l) = csum (map f (filter p l)).
Proof.
  induction l as [|x l IH]; intros H; cbn [map filter]; [reflexivity|].
  assert (E : csum (map f l) = csum (map f (filter p l))) by (apply IH; intros; apply H; cbn; auto).
  rewrite csum_cons, E. destruct (p x) eqn:Px.
  - cbn [map]. rewrite csum_cons. reflexivity.
  - rewrite (H x) by (cbn; auto). ring.
Qed.

Lemma csum_support (f : Z -> C) (l1 l2 : list Z) : NoDup l1 -> NoDup l2 ->
  (forall s, ~ In s l1 -> f s = RtoC 0) -> (forall s, ~ In s l2 -> f s = RtoC 0) ->
  csum (map f l1) = csum (map f l2).
Proof.
  intros N1 N2 H1 H2.
  set (inb := fun (l : list Z) s => if in_dec Z.eq_dec s l then true else false).
  rewrite (csum_keep f (inb l2) l1), (csum_keep f (inb l1) l2).
  - apply csum_perm, Permutation_map, NoDup_Permutation; try (apply NoDup_filter; assumption).
    intros x. rewrite !filter_In. unfold inb.
    destruct (in_dec Z.eq_dec x l1), (in_dec Z.eq_dec x l2); intuition congruence.
  - intros x _. unfold inb. destruct (in_dec Z.eq_dec x l1); [discriminate|]. auto.
  - intros x _. unfold inb. destruct (in_dec Z.eq_dec x l2); [discriminate|]. auto.
Qed.

Lemma both_in S s : In s (spins_both S) <-> (Z.abs s <= Z.of_nat S)%Z.
Proof.
  unfold spins_both. rewrite in_map_iff. split.
  - intros (k & <- & Hk). apply in_seq in Hk. lia.
  - intros H. exists (Z.to_nat (s + Z.of_nat S)). split; [lia|]. apply in_seq. lia.
Qed.
Lemma both_nodup S : NoDup (spins_both S).
Proof.
  unfold spins_both. apply FinFun.Injective_map_NoDup; [|apply seq_NoDup]. intros a b H. lia.
Qed.

Section Y.
Variables (Y : Z -> nat -> Z -> nat -> C) (npix L : nat).

Lemma field_beam0 s f g q : (forall l, (l <= L)%nat -> g l s = RtoC 0) ->
  field Y L s (fun l m => f l m * g l s)%C q = RtoC 0.
Proof.
  intros H. rewrite (field_ext Y L s _ (fun _ _ => RtoC 0)).
  - apply field_zero.
  - intros l k Hl _. rewrite H by exact Hl. ring.
Qed.

Lemma convolved_support f g l1 l2 q psi : NoDup l1 -> NoDup l2 ->
  (forall l s, (l <= L)%nat -> g l s <> RtoC 0 -> In s l1) ->
  (forall l s, (l <= L)%nat -> g l s <> RtoC 0 -> In s l2) ->
  convolved Y L f g l1 q psi = convolved Y L f g l2 q psi.
Proof.
  intros N1 N2 H1 H2. unfold convolved.
  assert (G : forall l0 : list Z, (forall l s, (l <= L)%nat -> g l s <> RtoC 0 -> In s l0) ->
     forall s, ~ In s l0 -> (field Y L s (fun l m => f l m * g l s)%C q * cis (- (IZR s * psi)))%C = RtoC 0).
  { intros l0 H s Ns. rewrite field_beam0; [ring|]. intros l Hl.
    destruct (zero_or_not (g l s)) as [E|E]; [exact E|]. exfalso. eauto. }
  exact (csum_support _ l1 l2 N1 N2 (G l1 H1) (G l2 H2)).
Qed.

(** The phase of order s in [coded_sum]. *)
Definition wt (polang : R) (s : Z) : C :=
  let t := 2 * (polang * (PI / 180)) in
  if (s =? 0)%Z then RtoC (cos t) else if (0 <? s)%Z then cis t else cis (- t).

Lemma nth_both {B} (F : Z -> list B) S k : (k < 2 * S + 1)%nat ->
  nth k (map F (spins_both S)) [] = F (Z.of_nat k - Z.of_nat S)%Z.
Proof.
  intros H. unfold spins_both. rewrite map_map.
  rewrite (nth_indep _ _ (F (Z.of_nat 0 - Z.of_nat S)%Z)) by (rewrite map_length, seq_length; exact H).
  rewrite (map_nth (fun k => F (Z.of_nat k - Z.of_nat S)%Z)), seq_nth by exact H. reflexivity.
Qed.

Lemma coded_weights polang a b S q psi : (q < npix)%nat ->
  coded_sum polang (map (Bmap Y npix L a b) (spins_both S)) S (Pix q) psi
  = csum (map (fun s => wt polang s * (field Y L s (fun l k => a l k * b l s) q * cis (- (IZR s * psi))))%C
              (spins_both S)).
Proof.
  intros Hq.
  set (F := fun s => map (Cmul (wt polang s)) (Bmap Y npix L a b s)).
  transitivity (spin_sum (map F (spins_both S)) (spins_both S) (Pix q) psi).
  - rewrite spin_sum_both by (unfold spins_both; rewrite !map_length, seq_length; reflexivity).
    unfold coded_sum. rewrite !nth_both by lia. rewrite Z.sub_diag. unfold F at 1. rewrite value_scal.
    f_equal. apply csum_map_eq. intros k Hk. apply in_seq in Hk. rewrite !nth_both by lia.
    unfold F. rewrite !value_scal.
    replace (Z.of_nat (S + k) - Z.of_nat S)%Z with (Z.of_nat k) by lia.
    replace (Z.of_nat (S - k) - Z.of_nat S)%Z with (- Z.of_nat k)%Z by lia.
    unfold wt. destruct (Z.eqb_spec (Z.of_nat k) 0); [lia|]. destruct (Z.eqb_spec (- Z.of_nat k) 0); [lia|].
    destruct (Z.ltb_spec 0 (Z.of_nat k)); [|lia]. destruct (Z.ltb_spec 0 (- Z.of_nat k)); [lia|].
    ring.
  - unfold spin_sum. rewrite combine_map_self, map_map. apply csum_map_eq. intros s _. cbn [fst snd].
    unfold F. rewrite value_scal. unfold Bmap. rewrite value_map by exact Hq. ring.
Qed.

Lemma coded_support polang a b S1 S2 q psi : (q < npix)%nat ->
  (forall l s, (l <= L)%nat -> b l s <> RtoC 0 -> (Z.abs s <= Z.of_nat S1)%Z) ->
  (forall l s, (l <= L)%nat -> b l s <> RtoC 0 -> (Z.abs s <= Z.of_nat S2)%Z) ->
  coded_sum polang (map (Bmap Y npix L a b) (spins_both S1)) S1 (Pix q) psi
  = coded_sum polang (map (Bmap Y npix L a b) (spins_both S2)) S2 (Pix q) psi.
Proof.
  intros Hq H1 H2. rewrite !coded_weights by exact Hq.
  assert (G : forall S0, (forall l s, (l <= L)%nat -> b l s <> RtoC 0 -> (Z.abs s <= Z.of_nat S0)%Z) ->
     forall s, ~ In s (spins_both S0) ->
     (wt polang s * (field Y L s (fun l k => a l k * b l s) q * cis (- (IZR s * psi))))%C = RtoC 0).
  { intros S0 H s Ns. rewrite field_beam0; [ring|]. intros l Hl.
    destruct (zero_or_not (b l s)) as [E|E]; [exact E|]. exfalso. apply Ns, both_in. eauto. }
  exact (csum_support _ _ _ (both_nodup S1) (both_nodup S2) (G S1 H1) (G S2 H2)).
Qed.
End Y.

(** ** The supports of the displaced beams *)
Lemma mode_conj_nz p q l s : (forall l, p l 0%nat = Cconj (q l 0%nat)) ->
  mode p q l s <> RtoC 0 -> mode q p l (- s) <> RtoC 0.
Proof.
  intros H N E. apply N. rewrite <- (Z.opp_involutive s), (mode_conj q p H), E.
  unfold sg. destruct (Z.even _); cbn; [|]; apply C_eq; cbn; ring.
Qed.
Lemma displaced_nz g k c l s : displaced g k c l s <> RtoC 0 -> g l (s + k)%Z <> RtoC 0.
Proof.
  unfold displaced. destruct (_ <=? _)%Z; [|congruence]. intros N E. apply N. rewrite E. ring.
Qed.

Definition eff (o : orders_of) : nat := Nat.min (mmax o) (max_spin o).
Definition sI (o : orders_of) : list Z := if declared o then [0%Z] else spins_both (eff o).
Definition sP (o : orders_of) : list Z := if declared o then [2%Z] else spins_both (eff o).

Lemma sI_in o s : computed o 0 s -> In s (sI o).
Proof. unfold computed, sI. destruct (declared o); [intros ->; cbn; auto|]. intros H. apply both_in, H. Qed.
Lemma sP_in o s : computed o 2 s -> In s (sP o).
Proof. unfold computed, sP. destruct (declared o); [intros ->; cbn; auto|]. intros H. apply both_in, H. Qed.
Lemma sI_nodup o : NoDup (sI o).
Proof. unfold sI. destruct (declared o); [repeat constructor; cbn; tauto|apply both_nodup]. Qed.
Lemma sP_nodup o : NoDup (sP o).
Proof. unfold sP. destruct (declared o); [repeat constructor; cbn; tauto|apply both_nodup]. Qed.

(** Two settings that both have the beam's orders give one timestream. *)
Lemma same_orders Y npix Ls Lb a2m a2ms aI aE aB bI bm bp hwp o1 o2 n qs pa polang h :
  let L := Nat.min Ls Lb in
  conj_symmetric Y -> healpix Y npix L a2m a2ms ->
  real_m0 aI -> real_m0 aE -> real_m0 aB -> real_m0 bI ->
  (forall l, bm l 0%nat = Cconj (bp l 0%nat)) ->
  (mmax o1 <= L)%nat -> (mmax o2 <= L)%nat -> plate_ok L hwp ->
  enough (has hwp) L bI bm bp o1 -> enough (has hwp) L bI bm bp o2 ->
  List.length qs = n -> List.length pa = n -> angles_for n h -> Forall (fun q => (q < npix)%nat) qs ->
  exists d1 d2 tod,
  main_spinmaps a2m a2ms (sky_arrays Ls aI aE aB) (beam_arrays Lb bI bm bp)
    (mmax o1) (max_spin o1) (declared o1) (mueller hwp) false false = Maps d1
  /\ main_spinmaps a2m a2ms (sky_arrays Ls aI aE aB) (beam_arrays Lb bI bm bp)
    (mmax o2) (max_spin o2) (declared o2) (mueller hwp) false false = Maps d2
  /\ scan_tod n d1 (map Pix qs) pa polang h = Ok (map RtoC tod)
  /\ scan_tod n d2 (map Pix qs) pa polang h = Ok (map RtoC tod) /\ List.length tod = n.
Proof.
  intros L HY HP RI RE RB Rb Hb M1 M2 HH E1 E2 Lq La Hh Hq. unfold main_spinmaps.
  change (Nat.min (mmax o1) (max_spin o1)) with (eff o1). change (Nat.min (mmax o2) (max_spin o2)) with (eff o2).
  assert (S1 : (eff o1 <= L)%nat) by (unfold eff; lia). assert (S2 : (eff o2 <= L)%nat) by (unfold eff; lia).
  assert (Lt : forall i, (i < n)%nat -> (nth i qs 0%nat < npix)%nat).
  { intros i Hi. rewrite Forall_forall in Hq. apply Hq, nth_In. lia. }
  destruct hwp as [m|]; cbn [mueller option_map has plate_ok] in *.
  - destruct HH as (H4 & SQ & SU).
    destruct (tod_plate Y npix L a2m a2ms HY HP aI aE aB bI bm bp RI RE RB Rb Hb H4 m SQ SU
      (declared o1) (eff o1) S1 n qs pa polang h Lq La Hh Hq) as (d1 & t1 & A1 & B1 & C1 & D1).
    destruct (tod_plate Y npix L a2m a2ms HY HP aI aE aB bI bm bp RI RE RB Rb Hb H4 m SQ SU
      (declared o2) (eff o2) S2 n qs pa polang h Lq La Hh Hq) as (d2 & t2 & A2 & B2 & C2 & D2).
    exists d1, d2, t1.
    split. { rewrite init_is_make. fold L. rewrite A1. reflexivity. }
    split. { rewrite init_is_make. fold L. rewrite A2. reflexivity. }
    split; [exact B1|]. split; [|exact C1].
    rewrite B2. do 2 f_equal. apply (nth_ext _ _ 0 0); [congruence|]. intros i Hi. rewrite C2 in Hi.
    rewrite D1, D2 by exact Hi. cbv zeta.
    change (both_spins (declared o1) (eff o1)) with (sI o1). change (both_spins (declared o2) (eff o2)) with (sI o2).
    change (pol_spins (declared o1) (eff o1)) with (sP o1). change (pol_spins (declared o2) (eff o2)) with (sP o2).
    rewrite !leak_both.
    set (q := nth i qs 0%nat). set (psi := PI - nth i pa 0 * (PI / 180)).
    assert (B' : forall l, bp l 0%nat = Cconj (bm l 0%nat)) by (intros l; rewrite Hb; symmetry; apply Cconj_conj).
    assert (K1 : forall o, enough true L bI bm bp o -> forall l s, (l <= L)%nat ->
       (mode bI bI l s * RtoC (e0 (e0 m)))%C <> RtoC 0 -> In s (sI o)).
    { intros o E l s Hl N. apply sI_in. apply (E l s Hl). intros X. apply N. rewrite X. ring. }
    assert (K2 : forall o, enough true L bI bm bp o -> forall l s, (l <= L)%nat ->
       displaced (mode bp bm) (-4) (c24 m) l s <> RtoC 0 -> In s (sP o)).
    { intros o E l s Hl N. apply sP_in. apply displaced_nz, (mode_conj_nz _ _ _ _ B') in N.
      destruct (E l (- (s + -4))%Z Hl) as [_ E']. destruct (E' N) as (_ & E''). destruct (E'' eq_refl) as [_ R].
      replace (4 - - (s + -4))%Z with s in R by lia. exact R. }
    assert (K3 : forall o, enough true L bI bm bp o -> forall l s, (l <= L)%nat ->
       displaced (mode bm bp) 0 (c20 m) l s <> RtoC 0 -> In s (sP o)).
    { intros o E l s Hl N. apply sP_in. apply displaced_nz in N. rewrite Z.add_0_r in N.
      destruct (E l s Hl) as [_ E']. apply E', N. }
    assert (K4 : forall o, enough true L bI bm bp o -> forall l s, (l <= L)%nat ->
       displaced (mode bp bm) (-2) (c02 m) l s <> RtoC 0 ->
       (Z.abs s <= Z.of_nat (if declared o then 0 else eff o)%nat)%Z).
    { intros o E l s Hl N. apply displaced_nz, (mode_conj_nz _ _ _ _ B') in N.
      destruct (E l (- (s + -2))%Z Hl) as [_ E']. destruct (E' N) as (_ & E''). destruct (E'' eq_refl) as [R _].
      replace (2 - - (s + -2))%Z with s in R by lia. unfold computed in R. destruct (declared o); [subst; cbn; lia|exact R]. }
    assert (K5 : forall o, enough true L bI bm bp o -> forall l s, (l <= L)%nat ->
       displaced (mode bI bI) (-2) (c22 m) l s <> RtoC 0 -> In s (sP o)).
    { intros o E l s Hl N. apply sP_in. apply displaced_nz in N.
      destruct (E l (s + -2)%Z Hl) as [E' _]. destruct (E' N) as (_ & R). specialize (R eq_refl).
      replace (s + -2 + 2)%Z with s in R by lia. exact R. }
    rewrite (convolved_support Y L _ (fun l s => mode bI bI l s * RtoC (e0 (e0 m)))%C (sI o1) (sI o2)) by (auto using sI_nodup; eauto).
    rewrite (convolved_support Y L _ (displaced (mode bp bm) (-4) (c24 m)) (sP o1) (sP o2)) by (auto using sP_nodup; eauto).
    rewrite (convolved_support Y L _ (displaced (mode bm bp) 0 (c20 m)) (sP o1) (sP o2)) by (auto using sP_nodup; eauto).
    rewrite (convolved_support Y L _ (displaced (mode bI bI) (-2) (c22 m)) (sP o1) (sP o2)) by (auto using sP_nodup; eauto).
    rewrite (coded_support Y npix L polang _ (displaced (mode bp bm) (-2) (c02 m))
      (if declared o1 then 0 else eff o1)%nat (if declared o2 then 0 else eff o2)%nat) by (auto; eauto).
    reflexivity.
  - destruct (convolution Y npix Ls Lb a2m a2ms aI aE aB bI bm bp (declared o1) (eff o1) n qs pa polang h)
      as (d1 & t1 & A1 & B1 & C1 & D1); auto.
    destruct (convolution Y npix Ls Lb a2m a2ms aI aE aB bI bm bp (declared o2) (eff o2) n qs pa polang h)
      as (d2 & t2 & A2 & B2 & C2 & D2); auto.
    exists d1, d2, t1. split; [exact A1|]. split; [exact A2|]. split; [exact B1|]. split; [|exact C1].
    rewrite B2. do 2 f_equal. apply (nth_ext _ _ 0 0); [congruence|]. intros i Hi. rewrite C2 in Hi.
    rewrite D1, D2 by exact Hi. cbv zeta. fold L.
    change (if declared o1 then [0%Z] else spins_both (eff o1)) with (sI o1).
    change (if declared o2 then [0%Z] else spins_both (eff o2)) with (sI o2).
    change (if declared o1 then [2%Z] else spins_both (eff o1)) with (sP o1).
    change (if declared o2 then [2%Z] else spins_both (eff o2)) with (sP o2).
    assert (K1 : forall o, enough false L bI bm bp o -> forall l s, (l <= L)%nat ->
       mode bI bI l s <> RtoC 0 -> In s (sI o)).
    { intros o E l s Hl N. apply sI_in. apply (E l s Hl). exact N. }
    assert (K3 : forall o, enough false L bI bm bp o -> forall l s, (l <= L)%nat ->
       mode bm bp l s <> RtoC 0 -> In s (sP o)).
    { intros o E l s Hl N. apply sP_in. destruct (E l s Hl) as [_ E']. apply E', N. }
    rewrite (convolved_support Y L _ (mode bI bI) (sI o1) (sI o2)) by (auto using sI_nodup; eauto).
    rewrite (convolved_support Y L _ (mode bm bp) (sP o1) (sP o2)) by (auto using sP_nodup; eauto).
    reflexivity.
Qed.
