(** * Lemmas: which orders are enough, and a beam for which they are not (C105) *)
From Coq Require Import Reals String Lra Lia.
From Verif Require Import Common Cplx LibList Mat M_Alm M_Blm M_Mueller S_Mueller M_Tod M_Spin M_Modes
  S_Alm S_Tod S_Spin S_Modes L_Alm L_Blm L_Mueller L_Blmxhwp L_Tod L_Tod2 L_Tod3 L_Spin L_Spin2 L_Spin3 L_Spin4 L_Modes.
Open Scope R_scope.

Lemma mode_zero f g l s : (forall k, k = Z.abs_nat s -> (0 <= s)%Z -> f l k = RtoC 0) ->
  (forall k, k = Z.abs_nat s -> (s < 0)%Z -> g l k = RtoC 0) -> mode f g l s = RtoC 0.
Proof.
  intros Hf Hg. destruct (Z_le_gt_dec (Z.abs s) (Z.of_nat l)) as [I|I]; [|apply mode_out; lia].
  destruct (Z_le_gt_dec 0 s) as [Q|N].
  - rewrite mode_pos by lia. apply Hf; lia.
  - rewrite mode_neg by lia. rewrite Hg by lia.
    unfold sg. destruct (Z.even _); apply C_eq; cbn; ring.
Qed.

Lemma mode_nz f g l s : mode f g l s <> RtoC 0 ->
  ((0 <= s)%Z /\ f l (Z.abs_nat s) <> RtoC 0) \/ ((s < 0)%Z /\ g l (Z.abs_nat s) <> RtoC 0).
Proof.
  intros N. destruct (Z_le_gt_dec 0 s) as [Q|Q].
  - left. split; [exact Q|]. intros E. apply N, mode_zero; intros k ->; [auto|lia].
  - right. split; [lia|]. intros E. apply N, mode_zero; intros k ->; [lia|auto].
Qed.

Lemma axisymmetric_enough plate L bI bm bp o : axisymmetric bI bm bp ->
  (declared o = true \/ 2 <= mmax o /\ 2 <= max_spin o)%nat -> enough plate L bI bm bp o.
Proof.
  intros A H l s _. split; intros N; apply mode_nz in N.
  - assert (s = 0%Z) as ->.
    { destruct N as [[_ N]|[_ N]];
        destruct (A l (Z.abs_nat s)) as (A0 & _ & _); destruct (Nat.eq_dec (Z.abs_nat s) 0); try lia; elim N; auto. }
    unfold computed. destruct (declared o); [auto|]. destruct H as [H|H]; [discriminate|]. lia.
  - assert (s = 2%Z) as ->.
    { destruct N as [[Q N]|[_ N]]; destruct (A l (Z.abs_nat s)) as (_ & A0 & A1).
      - destruct (Nat.eq_dec (Z.abs_nat s) 2); [lia|]. elim N; auto.
      - elim N; exact A1. }
    unfold computed. destruct (declared o); [auto|]. destruct H as [H|H]; [discriminate|]. lia.
Qed.

Lemma limited_enough (plate : bool) L M bI bm bp o : order_limited M bI bm bp -> declared o = false ->
  (M + (if plate then 4 else 0) <= mmax o)%nat -> (M + (if plate then 4 else 0) <= max_spin o)%nat ->
  enough plate L bI bm bp o.
Proof.
  intros A D H1 H2 l s _.
  assert (G : forall f g : nat -> nat -> C, (forall m, (M < m)%nat -> f l m = RtoC 0 /\ g l m = RtoC 0) ->
     mode f g l s <> RtoC 0 -> (Z.abs s <= Z.of_nat M)%Z).
  { intros f g F N. apply mode_nz in N. destruct (Z_le_gt_dec (Z.abs s) (Z.of_nat M)) as [I|I]; [exact I|].
    exfalso. destruct (F (Z.abs_nat s)) as [F1 F2]; [lia|]. destruct N as [[_ N]|[_ N]]; auto. }
  unfold computed. rewrite D. split; intros N.
  - apply G in N; [|intros m Hm; split; apply (A l m Hm)]. destruct plate; split; try discriminate; lia.
  - apply G in N; [|intros m Hm; split; apply (A l m Hm)]. destruct plate; split; try discriminate; lia.
Qed.

Lemma axisymmetric_same :
  forall Y npix Ls Lb alm2map alm2map_spin aI aE aB bI bm bp hwp mmax1 mmax2 max_spin1 max_spin2 n qs pa polang h,
  let L := Nat.min Ls Lb in
  conj_symmetric Y -> healpix Y npix L alm2map alm2map_spin ->
  real_m0 aI -> real_m0 aE -> real_m0 aB -> real_m0 bI ->
  (forall l, bm l 0%nat = Cconj (bp l 0%nat)) -> plate_ok L hwp ->
  axisymmetric bI bm bp -> (mmax1 <= L)%nat -> (2 <= mmax2 <= L)%nat -> (2 <= max_spin2)%nat ->
  List.length qs = n -> List.length pa = n -> angles_for n h -> Forall (fun q => (q < npix)%nat) qs ->
  exists d1 d2 tod,
  main_spinmaps alm2map alm2map_spin (sky_arrays Ls aI aE aB) (beam_arrays Lb bI bm bp)
    mmax1 max_spin1 true (mueller hwp) false false = Maps d1
  /\ main_spinmaps alm2map alm2map_spin (sky_arrays Ls aI aE aB) (beam_arrays Lb bI bm bp)
    mmax2 max_spin2 false (mueller hwp) false false = Maps d2
  /\ scan_tod n d1 (map Pix qs) pa polang h = Ok (map RtoC tod)
  /\ scan_tod n d2 (map Pix qs) pa polang h = Ok (map RtoC tod) /\ List.length tod = n.
Proof.
  intros Y npix Ls Lb alm2map alm2map_spin aI aE aB bI bm bp hwp mmax1 mmax2 max_spin1 max_spin2 n qs pa polang h
    L HY HP RI RE RB Rb Hb PO A M1 M2 S2 Lq La Hh Hq.
  apply (same_orders Y npix Ls Lb alm2map alm2map_spin aI aE aB bI bm bp hwp
    (Orders true mmax1 max_spin1) (Orders false mmax2 max_spin2)); auto; cbn [mmax]; try (fold L; lia);
    apply axisymmetric_enough; auto; cbn; right; lia.
Qed.

Lemma limited_same :
  forall Y npix Ls Lb alm2map alm2map_spin aI aE aB bI bm bp hwp M mmax1 mmax2 max_spin1 max_spin2 n qs pa polang h,
  let L := Nat.min Ls Lb in
  conj_symmetric Y -> healpix Y npix L alm2map alm2map_spin ->
  real_m0 aI -> real_m0 aE -> real_m0 aB -> real_m0 bI ->
  (forall l, bm l 0%nat = Cconj (bp l 0%nat)) -> plate_ok L hwp ->
  order_limited M bI bm bp -> let M' := (M + if has hwp then 4 else 0)%nat in
  (M' <= mmax1 <= L)%nat -> (M' <= max_spin1)%nat -> (M' <= mmax2 <= L)%nat -> (M' <= max_spin2)%nat ->
  List.length qs = n -> List.length pa = n -> angles_for n h -> Forall (fun q => (q < npix)%nat) qs ->
  exists d1 d2 tod,
  main_spinmaps alm2map alm2map_spin (sky_arrays Ls aI aE aB) (beam_arrays Lb bI bm bp)
    mmax1 max_spin1 false (mueller hwp) false false = Maps d1
  /\ main_spinmaps alm2map alm2map_spin (sky_arrays Ls aI aE aB) (beam_arrays Lb bI bm bp)
    mmax2 max_spin2 false (mueller hwp) false false = Maps d2
  /\ scan_tod n d1 (map Pix qs) pa polang h = Ok (map RtoC tod)
  /\ scan_tod n d2 (map Pix qs) pa polang h = Ok (map RtoC tod) /\ List.length tod = n.
Proof.
  intros Y npix Ls Lb alm2map alm2map_spin aI aE aB bI bm bp hwp M mmax1 mmax2 max_spin1 max_spin2 n qs pa polang h
    L HY HP RI RE RB Rb Hb PO A M' M1 S1 M2 S2 Lq La Hh Hq.
  apply (same_orders Y npix Ls Lb alm2map alm2map_spin aI aE aB bI bm bp hwp
    (Orders false mmax1 max_spin1) (Orders false mmax2 max_spin2)); auto; cbn [mmax]; try (fold L; lia);
    apply (limited_enough _ _ M); auto; cbn; fold M'; lia.
Qed.

(** ** An unpolarised beam of order 0 behind a partial polariser *)
Definition E20 (l m : nat) : C := if ((l =? 2) && (m =? 0))%nat%bool then RtoC 1 else RtoC 0.
Definition nothing (l m : nat) : C := RtoC 0.
Definition polariser : rmat4 := V4 (V4 1 (1/2) 0 0) (V4 (1/2) 1 0 0) (V4 0 0 1 0) (V4 0 0 0 1).

Lemma mode_nothing l s : mode nothing nothing l s = RtoC 0.
Proof. apply mode_zero; reflexivity. Qed.
Lemma displaced_nothing k c l s : displaced (mode nothing nothing) k c l s = RtoC 0.
Proof. unfold displaced. rewrite mode_nothing. destruct (_ <=? _)%Z; [ring|reflexivity]. Qed.

Lemma E20_off l s : (l <> 2%nat \/ s <> 0%Z) -> mode (plus2 E20 nothing) (minus2 E20 nothing) l s = RtoC 0.
Proof.
  intros H.
  assert (Z : forall k, k = Z.abs_nat s -> E20 l k = RtoC 0).
  { intros k ->. unfold E20. destruct (Nat.eqb_spec l 2); [|reflexivity].
    destruct (Nat.eqb_spec (Z.abs_nat s) 0); [|reflexivity]. lia. }
  apply mode_zero; intros k Hk _; unfold plus2, minus2, nothing; rewrite (Z k Hk); apply C_eq; cbn; ring.
Qed.

Lemma seen22 : convolved toyY 4 (mode (plus2 E20 nothing) (minus2 E20 nothing))
  (displaced (mode E20 E20) (-2) (c22 polariser)) (spins_both 4) 0 (PI - 0 * (PI / 180)) = RtoC (-1/2).
Proof.
  assert (V : forall l s, displaced (mode E20 E20) (-2) (c22 polariser) l s <> RtoC 0 -> s = 2%Z).
  { intros l s N. apply displaced_nz, mode_nz in N.
    assert (forall k, E20 l k <> RtoC 0 -> k = 0%nat) as Q.
    { intros k. unfold E20. destruct (Nat.eqb_spec k 0); [auto|]. rewrite andb_false_r. congruence. }
    destruct N as [[_ N]|[_ N]]; apply Q in N; lia. }
  rewrite (convolved_support toyY 4 _ _ (spins_both 4) [2%Z]).
  2: apply both_nodup. 2: repeat constructor; cbn; tauto.
  2:{ intros l s _ N. apply V in N. subst. apply both_in. cbn. lia. }
  2:{ intros l s _ N. apply V in N. subst. cbn. auto. }
  unfold convolved. cbn [map]. rewrite csum_cons. unfold csum at 1. cbn [fold_right].
  replace (cis (- (2 * (PI - 0 * (PI / 180))))) with (RtoC 1).
  2:{ unfold cis. replace (- (2 * (PI - 0 * (PI / 180)))) with (- (2 * PI)) by ring.
      rewrite cos_neg, sin_neg, cos_2PI, sin_2PI. apply C_eq; cbn; ring. }
  unfold field.
  rewrite (csum_keep _ (Nat.eqb 2) (seq 0 (4 + 1))).
  2:{ intros l _ Hl. apply Nat.eqb_neq in Hl.
      rewrite (csum_keep _ (fun _ => false)); [|intros s _ _; rewrite E20_off by lia; ring].
      assert (Z0 : forall l0 : list Z, filter (fun _ => false) l0 = []) by (induction l0; auto).
      rewrite Z0. reflexivity. }
  cbn [seq Nat.add filter Nat.eqb map].
  rewrite (csum_keep _ (Z.eqb 0) (orders 2)).
  2:{ intros s _ Hs. apply Z.eqb_neq in Hs. rewrite E20_off by lia. ring. }
  assert (F : filter (Z.eqb 0) (orders 2) = [0%Z]) by reflexivity. rewrite F. cbn [map].
  unfold csum. cbn [fold_right]. rewrite mode_pos by (cbn; lia).
  unfold displaced. cbn [Z.abs Z.of_nat Z.leb Z.add]. change (2 + -2)%Z with 0%Z.
  change (Z.pos 2 <=? Z.of_nat 2)%Z with true. cbv iota.
  rewrite mode_pos by (cbn; lia). cbn [Z.to_nat]. unfold plus2, E20, nothing, toyY, c22, polariser.
  cbn [Nat.eqb andb Z.add Z.even e0 e1 e2]. apply C_eq; cbn; field.
Qed.

Lemma unseen22 : convolved toyY 4 (mode (plus2 E20 nothing) (minus2 E20 nothing))
  (displaced (mode E20 E20) (-2) (c22 polariser)) [0%Z] 0 (PI - 0 * (PI / 180)) = RtoC 0.
Proof.
  unfold convolved. cbn [map]. rewrite csum_cons. unfold csum at 1. cbn [fold_right].
  rewrite field_beam0; [ring|]. intros l _. unfold displaced.
  rewrite (mode_zero E20 E20 l (0 + -2)).
  - destruct (_ <=? _)%Z; [ring|reflexivity].
  - intros k -> _. unfold E20. cbn. rewrite andb_false_r. reflexivity.
  - intros k -> _. unfold E20. cbn. rewrite andb_false_r. reflexivity.
Qed.

Lemma E20_real : real_m0 E20.
Proof. intros l. unfold E20. destruct (_ && _)%bool; reflexivity. Qed.
Lemma nothing_real : real_m0 nothing.
Proof. intros l. reflexivity. Qed.

Lemma mmax_cuts : exists Y npix L a2m a2ms aI aE aB bI bm bp m qs pa polang,
  conj_symmetric Y /\ healpix Y npix L a2m a2ms
  /\ real_m0 aI /\ real_m0 aE /\ real_m0 aB /\ real_m0 bI /\ (forall l, bm l 0%nat = Cconj (bp l 0%nat))
  /\ plate_ok L (Some m) /\ order_limited 0 bI bm bp
  /\ forall max_spin, exists d d' tod tod',
     main_spinmaps a2m a2ms (sky_arrays L aI aE aB) (beam_arrays L bI bm bp) 0 max_spin false (Some (cmat m)) false false
     = Maps d
     /\ main_spinmaps a2m a2ms (sky_arrays L aI aE aB) (beam_arrays L bI bm bp) L L false (Some (cmat m)) false false
     = Maps d'
     /\ scan_tod 1 d (map Pix qs) pa polang (Fixed 0) = Ok tod
     /\ scan_tod 1 d' (map Pix qs) pa polang (Fixed 0) = Ok tod'
     /\ tod <> tod'.
Proof.
  destruct (transforms_exist toyY 1 4) as (a2m & a2ms & HP).
  exists toyY, 1%nat, 4%nat, a2m, a2ms, nothing, E20, nothing, E20, nothing, nothing, polariser, [0%nat], [0], 0.
  assert (B : forall l, nothing l 0%nat = Cconj (nothing l 0%nat)) by (intros; unfold nothing; apply C_eq; cbn; ring).
  split; [apply toyY_sym|]. split; [exact HP|].
  split; [apply nothing_real|]. split; [apply E20_real|]. split; [apply nothing_real|]. split; [apply E20_real|].
  split; [exact B|].
  assert (PO : plate_ok 4 (Some polariser)) by (cbn; repeat split; lia).
  split; [exact PO|].
  split. { intros l m Hm. repeat split; try reflexivity. unfold E20. destruct (Nat.eqb_spec m 0); [lia|]. rewrite andb_false_r. reflexivity. }
  intros ms. destruct PO as (H4 & SQ & SU).
  destruct (tod_plate toyY 1 4 a2m a2ms toyY_sym HP nothing E20 nothing E20 nothing nothing nothing_real E20_real
     nothing_real E20_real B H4 polariser SQ SU false 0 ltac:(lia) 1 [0%nat] [0] 0 (Fixed 0))
     as (d & t & A1 & B1 & C1 & D1); auto; [cbn; auto|].
  destruct (tod_plate toyY 1 4 a2m a2ms toyY_sym HP nothing E20 nothing E20 nothing nothing nothing_real E20_real
     nothing_real E20_real B H4 polariser SQ SU false 4 ltac:(lia) 1 [0%nat] [0] 0 (Fixed 0))
     as (d' & t' & A2 & B2 & C2 & D2); auto; [cbn; auto|].
  exists d, d', (map RtoC t), (map RtoC t'). unfold main_spinmaps.
  split. { rewrite Nat.min_0_l, init_is_make. change (Nat.min 4 4) with 4%nat. rewrite A1. reflexivity. }
  split. { rewrite init_is_make. change (Nat.min 4 4) with 4%nat. rewrite A2. reflexivity. }
  split; [exact B1|]. split; [exact B2|]. intros E.
  assert (E' : nth 0 t 0 = nth 0 t' 0).
  { apply (f_equal (fun x => Re (nth 0 x (RtoC 0)))) in E. rewrite !(map_nth RtoC) in E. exact E. }
  rewrite D1, D2 in E' by lia. cbv zeta in E'. cbn [nth] in E'.
  rewrite !leak_both in E'.
  rewrite !(convolved_0 toyY 4 _ (displaced (mode nothing nothing) _ _)) in E' by (intros; apply displaced_nothing).
  rewrite (coded_support toyY 1 4 0 _ _ 0 4) in E'
    by (try lia; intros l s _ N; elim N; apply displaced_nothing).
  cbn [both_spins pol_spins] in E'. change (spins_both 0) with [0%Z] in E'.
  rewrite (convolved_support toyY 4 _ (fun l s => mode E20 E20 l s * RtoC (e0 (e0 polariser)))%C [0%Z] (spins_both 4)) in E'.
  2: repeat constructor; cbn; tauto. 2: apply both_nodup.
  2,3: intros l s _ N; assert (s = 0%Z) as ->;
     [destruct (Z.eq_dec s 0) as [Q|Q]; [exact Q|]; elim N; rewrite (mode_zero E20 E20 l s);
       [ring| |]; intros k -> _; unfold E20; destruct (Nat.eqb_spec (Z.abs_nat s) 0); try lia; rewrite andb_false_r; reflexivity
     |try (apply both_in); cbn; auto; lia].
  rewrite unseen22, seen22 in E'. cbn [angle_at] in E'. replace (2 * 0) with 0 in E' by ring. rewrite cis_0 in E'.
  set (x := Re (convolved _ _ _ _ _ _ _)) in E'. clearbody x.
  set (z := coded_sum _ _ _ _ _) in E'. clearbody z. destruct z as [z1 z2].
  set (w := cis _) in E'. clearbody w. destruct w as [w1 w2]. cbn in E'. clear -E'. lra.
Qed.
