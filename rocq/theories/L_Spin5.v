(** * Circular polarisation *)
From Coq Require Import Reals String Lra Lia.
From Verif Require Import Common Cplx LibList Mat M_Alm M_Blm M_Mueller S_Mueller M_Tod M_Spin
  S_Alm S_Tod S_Spin L_Alm L_Blm L_Mueller L_Blmxhwp L_Tod L_Tod2 L_Tod3 L_Spin L_Spin2 L_Spin3 L_Spin4.
Open Scope R_scope.

Lemma mode_add f f' g g' l s :
  mode (fun l k => f l k + f' l k)%C (fun l k => g l k + g' l k)%C l s
  = (mode f g l s + mode f' g' l s)%C.
Proof.
  destruct (Z_le_gt_dec (Z.abs s) (Z.of_nat l)) as [I|I]; [|rewrite !mode_out by lia; ring].
  destruct (Z_le_gt_dec 0 s) as [Q|N].
  - rewrite !mode_pos by lia. reflexivity.
  - rewrite !mode_neg by lia. rewrite Cconj_add. unfold sg. destruct (Z.even s); [reflexivity|ring].
Qed.

Lemma mode_real_mul f x l s :
  mode (fun l k => f l k * RtoC x)%C (fun l k => f l k * RtoC x)%C l s = (mode f f l s * RtoC x)%C.
Proof.
  destruct (Z_le_gt_dec (Z.abs s) (Z.of_nat l)) as [I|I]; [|rewrite !mode_out by lia; ring].
  destruct (Z_le_gt_dec 0 s) as [Q|N].
  - rewrite !mode_pos by lia. reflexivity.
  - rewrite !mode_neg by lia. rewrite Cconj_mul, Cconj_R. apply sg_mul_l.
Qed.

Definition cut (on : bool) (f : nat -> nat -> C) : nat -> nat -> C :=
  if on then f else fun _ _ => RtoC 0.

Lemma mode_zero l s : mode (fun _ _ => RtoC 0) (fun _ _ => RtoC 0) l s = RtoC 0.
Proof.
  destruct (Z_le_gt_dec (Z.abs s) (Z.of_nat l)) as [I|I]; [|apply mode_out; lia].
  destruct (Z_le_gt_dec 0 s) as [Q|N].
  - rewrite mode_pos by lia. reflexivity.
  - rewrite mode_neg by lia. rewrite Cconj_R. unfold sg. destruct (Z.even s); [reflexivity|ring].
Qed.
Lemma mode_cut on f l s : mode (cut on f) (cut on f) l s = only_if on (mode f f) l s.
Proof. destruct on; [reflexivity|apply mode_zero]. Qed.
Lemma cut_real on f : real_m0 f -> real_m0 (cut on f).
Proof. intros H. destruct on; [exact H|]. intros l. reflexivity. Qed.

Lemma convolved_ext2 Y L f f' g g' spins q psi :
  (forall l s, f l s = f' l s) -> (forall l s, g l s = g' l s) ->
  convolved Y L f g spins q psi = convolved Y L f' g' spins q psi.
Proof.
  intros H H'. unfold convolved. apply csum_map_eq. intros s _. f_equal. apply field_ext.
  intros l k _ _. rewrite H, H'. reflexivity.
Qed.

Section Two.
Variables (Y : Z -> nat -> Z -> nat -> C) (npix L : nat).
Hypothesis HY : conj_symmetric Y.

(** Sum of two convolutions. *)
Definition Smap (a b a' b' : nat -> Z -> C) (s : Z) : list C :=
  map (fun p => field Y L s (fun l k => a l k * b l s)%C p
                + field Y L s (fun l k => a' l k * b' l s)%C p)%C (seq 0 npix).

Lemma Smap_len a b a' b' s : List.length (Smap a b a' b' s) = npix.
Proof. unfold Smap. rewrite map_length, seq_length. reflexivity. Qed.

Lemma zip_maps (f g : nat -> C) l : zipwith Cadd (map f l) (map g l) = map (fun p => f p + g p)%C l.
Proof. induction l as [|x l IH]; [reflexivity|]. cbn [map zipwith]. rewrite <- IH. reflexivity. Qed.

Lemma add_Bmaps a b a' b' spins :
  add_maps (map (Bmap Y npix L a b) spins) (map (Bmap Y npix L a' b') spins)
  = Ok (map (Smap a b a' b') spins).
Proof.
  unfold add_maps. rewrite !map_length, Nat.eqb_refl.
  induction spins as [|s spins IH]; cbn [map combine mapr]; [reflexivity|].
  cbn [fst snd]. unfold add_arr at 1. rewrite !Bmap_len, Nat.eqb_refl. cbn [bind].
  rewrite IH. cbn [bind]. unfold Bmap, Smap at 2. rewrite zip_maps. reflexivity.
Qed.

Lemma Bmap_Smap a b a' b' spins : (forall l s, a' l s = RtoC 0) ->
  map (Bmap Y npix L a b) spins = map (Smap a b a' b') spins.
Proof.
  intros H. apply map_ext. intros s. apply map_ext. intros p.
  rewrite (field_ext Y L s (fun l k => a' l k * b' l s)%C (fun _ _ => RtoC 0)) by (intros; rewrite H; ring).
  rewrite field_zero. ring.
Qed.

Lemma Smap_sum a b a' b' spins q psi : (q < npix)%nat ->
  spin_sum (map (Smap a b a' b') spins) spins (Pix q) psi
  = (convolved Y L a b spins q psi + convolved Y L a' b' spins q psi)%C.
Proof.
  intros H. unfold spin_sum, convolved. rewrite combine_map_self, map_map, <- csum_plus.
  apply csum_map_eq. intros s _. cbn [fst snd]. unfold Smap. rewrite value_map by exact H. ring.
Qed.

Lemma Smap_conj a b a' b' s : real_m0 a -> real_m0 b -> real_m0 a' -> real_m0 b' ->
  (Z.abs s <= Z.of_nat L)%Z ->
  Smap (mode a a) (mode b b) (mode a' a') (mode b' b') (- s)
  = map Cconj (Smap (mode a a) (mode b b) (mode a' a') (mode b' b') s).
Proof.
  intros Ra Rb Ra' Rb' Hs.
  pose proof (Imap_conj Y npix L HY a Ra b s Rb Hs) as E.
  pose proof (Imap_conj Y npix L HY a' Ra' b' s Rb' Hs) as E'.
  unfold Imap in E, E'. unfold Smap. rewrite map_map in *.
  apply map_ext_in. intros p Hp. rewrite Cconj_add.
  f_equal.
  - exact (ext_in_map E p Hp).
  - exact (ext_in_map E' p Hp).
Qed.

Lemma Smap_two_sided a b a' b' symmetric S q psi : (q < npix)%nat -> (S <= L)%nat ->
  real_m0 a -> real_m0 b -> real_m0 a' -> real_m0 b' ->
  two_sided_sum (map (Smap (mode a a) (mode b b) (mode a' a') (mode b' b')) (unpol_spins symmetric S))
    (unpol_spins symmetric S) (Pix q) psi
  = Re (convolved Y L (mode a a) (mode b b) (both_spins symmetric S) q psi)
    + Re (convolved Y L (mode a' a') (mode b' b') (both_spins symmetric S) q psi).
Proof.
  intros Hq HS Ra Rb Ra' Rb'.
  set (S' := if symmetric then 0%nat else S).
  assert (HS' : (S' <= L)%nat) by (unfold S'; destruct symmetric; lia).
  assert (unpol_spins symmetric S = spins_upto S') as -> by (unfold S'; destruct symmetric; reflexivity).
  assert (both_spins symmetric S = spins_both S') as -> by (unfold S'; destruct symmetric; reflexivity).
  set (F := Smap (mode a a) (mode b b) (mode a' a') (mode b' b')).
  assert (E : spin_sum (map F (spins_both S')) (spins_both S') (Pix q) psi
              = RtoC (two_sided_sum (map F (spins_upto S')) (spins_upto S') (Pix q) psi)).
  { apply real_is_two_sided.
    - unfold spins_upto. rewrite !map_length, seq_length. reflexivity.
    - unfold spins_both. rewrite !map_length, seq_length. reflexivity.
    - intros k Hk. unfold spins_both, spins_upto. rewrite !map_map.
      rewrite !nth_map_seq by lia. cbn [Nat.add].
      replace (Z.of_nat (S' + k) - Z.of_nat S')%Z with (Z.of_nat k) by lia.
      replace (Z.of_nat (S' - k) - Z.of_nat S')%Z with (- Z.of_nat k)%Z by lia.
      split; [reflexivity|]. apply Smap_conj; auto. lia. }
  unfold F in E. rewrite Smap_sum in E by exact Hq.
  apply (f_equal Re) in E. cbn [Re RtoC fst] in E. unfold F. symmetry. exact E.
Qed.
End Two.

Section Circ.
Variables (Y : Z -> nat -> Z -> nat -> C) (npix L : nat).
Variables (a2m : list C -> list R) (a2ms : list C -> list C -> Z -> list R * list R).
Hypothesis HY : conj_symmetric Y.
Hypothesis HP : healpix Y npix L a2m a2ms.
Variables aI aE aB aV bI bm bp bV : nat -> nat -> C.
Hypothesis RI : real_m0 aI.
Hypothesis RE : real_m0 aE.
Hypothesis RB : real_m0 aB.
Hypothesis RV : real_m0 aV.
Hypothesis Rb : real_m0 bI.
Hypothesis RbV : real_m0 bV.
Hypothesis Hb : forall l, bm l 0%nat = Cconj (bp l 0%nat).
Variables (iv bv : bool) (alm blm : list (list C)).
Hypothesis A0 : index alm 0 = Ok (of_modes L L aI).
Hypothesis A1 : index alm 1 = Ok (of_modes L L aE).
Hypothesis A2 : index alm 2 = Ok (of_modes L L aB).
Hypothesis A3 : iv = true -> index alm 3 = Ok (of_modes L L aV).
Hypothesis B0 : index blm 0 = Ok (of_modes L L bI).
Hypothesis B1 : index blm 1 = Ok (of_modes L L bm).
Hypothesis B2 : index blm 2 = Ok (of_modes L L bp).
Hypothesis B3 : bv = true -> index blm 3 = Ok (of_modes L L bV).
Variables (symmetric : bool) (S : nat).
Hypothesis HS : (S <= L)%nat.

Let P := mode (plus2 aE aB) (minus2 aE aB).

Lemma real_Bmaps a b : real_m0 a -> real_m0 b ->
  spinmaps_real a2m a2ms (of_modes L L a) (of_modes L L b) (unpol_spins symmetric S)
  = Ok (map (Bmap Y npix L (mode a a) (mode b b)) (unpol_spins symmetric S)).
Proof.
  intros Ra Rb'. rewrite (real_maps Y npix L a2m a2ms HY HP a b) by (auto using unpol_ne, unpol_range).
  reflexivity.
Qed.

Lemma no_plate_v : (2 <= L)%nat ->
  make_spinmaps a2m a2ms alm blm S symmetric None iv bv
  = Ok [("s0a0", {| ss_maps := map (Smap Y npix L (mode aI aI) (mode bI bI)
                                   (mode (cut (iv && bv) aV) (cut (iv && bv) aV)) (mode bV bV)) (unpol_spins symmetric S);
                    ss_svals := unpol_spins symmetric S |});
        ("s2a4", {| ss_maps := map (Bmap Y npix L P (mode bm bp)) (pol_spins symmetric S);
                    ss_svals := pol_spins symmetric S |})]%string.
Proof.
  intros H2. unfold make_spinmaps. rewrite spin_values_eq, A0, A1, A2. cbn [bind].
  rewrite B1, B2. cbn [bind].
  pose proof (complex_maps_eb Y npix L a2m a2ms HY HP aE aB bm bp (pol_spins symmetric S) RE RB Hb (pol_range _ _ _ HS H2)) as CM.
  destruct (spin2eb (of_modes L L bm) (of_modes L L bp) 2) as [blmE blmB].
  rewrite B0. cbn [bind]. rewrite real_Bmaps by assumption. cbn [bind].
  rewrite (andb_comm bv iv). destruct (iv && bv)%bool eqn:F.
  - apply andb_true_iff in F. destruct F as [F1 F2]. rewrite A3, B3 by assumption. cbn [bind].
    rewrite real_Bmaps by assumption. cbn [bind]. rewrite add_Bmaps. cbn [bind]. rewrite CM. reflexivity.
  - cbn [bind]. rewrite CM. cbn [bind].
    rewrite (Bmap_Smap Y npix L _ _ (mode (cut false aV) (cut false aV)) (mode bV bV)) by (intros; apply mode_zero).
    reflexivity.
Qed.

Variables (n : nat) (qs : list nat) (pa : list R) (polang : R) (h : hwpang).
Hypothesis Lq : List.length qs = n.
Hypothesis La : List.length pa = n.
Hypothesis Hh : angles_for n h.
Hypothesis Hq : Forall (fun q => (q < npix)%nat) qs.

Lemma on_maps : Forall (on_map npix) (map Pix qs).
Proof.
  apply Forall_forall. intros p Hp. apply in_map_iff in Hp. destruct Hp as (q & <- & Iq).
  cbn. rewrite Forall_forall in Hq. apply Hq. exact Iq.
Qed.

Lemma tod_no_plate_v : (2 <= L)%nat -> exists d tod,
  make_spinmaps a2m a2ms alm blm S symmetric None iv bv = Ok d
  /\ scan_tod n d (map Pix qs) pa polang h = Ok (map RtoC tod) /\ List.length tod = n
  /\ forall i, (i < n)%nat ->
     let q := nth i qs 0%nat in
     let psi := PI - nth i pa 0 * (PI / 180) in
     nth i tod 0
     = Re (convolved Y L (mode aI aI) (mode bI bI) (both_spins symmetric S) q psi)
       + Re (convolved Y L P (mode bm bp) (pol_spins symmetric S) q psi
             * cis (4 * angle_at h i + 2 * (polang * (PI / 180))))%C
       + (if (iv && bv)%bool
          then Re (convolved Y L (mode aV aV) (mode bV bV) (both_spins symmetric S) q psi) else 0).
Proof.
  intros H2. pose proof (no_plate_v H2) as E.
  match type of E with _ = Ok ?x => set (d := x) in E end.
  match eval cbv delta [d] in d with [(_, ?e00); (_, ?e24)] =>
  destruct (timestream_old npix n (map Pix qs) pa polang h d e00 e24) as (tod & E1 & E2 & V) end; auto using on_maps.
  - rewrite map_length. exact Lq.
  - repeat constructor; cbn; intuition discriminate.
  - intros k. cbn. intuition congruence.
  - cbn. tauto.
  - cbn. tauto.
  - apply ws_maps; [apply unpol_ne|intros; apply Smap_len].
  - apply ws_maps; [apply pol_ne|intros; apply Bmap_len].
  - cbn [ss_svals]. eapply Forall_impl; [|apply (unpol_range L symmetric S HS)]. cbn. lia.
  - exists d, tod. split; [exact E|]. split; [exact E1|]. split; [exact E2|]. intros i Hi q psi.
    rewrite V by exact Hi. fold psi. cbn [ss_maps ss_svals].
    assert (Eq : nth i (map Pix qs) (Pix 0) = Pix q) by apply (map_nth Pix).
    assert (Lt : (q < npix)%nat) by (unfold q; rewrite Forall_forall in Hq; apply Hq, nth_In; lia).
    rewrite Eq, Bmap_sum, Smap_two_sided by (auto using cut_real).
    destruct (iv && bv)%bool; cbn [cut]; [lra|].
    rewrite (convolved_ext2 Y L _ (fun _ _ => RtoC 0) _ (fun _ _ => RtoC 0) _ _ _ (mode_zero)
              (fun l s => eq_refl)) || idtac.
    replace (Re (convolved Y L (mode (fun _ _ => RtoC 0) (fun _ _ => RtoC 0)) (mode bV bV) (both_spins symmetric S) q psi)) with 0; [lra|].
    unfold convolved. rewrite (csum_map_eq _ (fun s : Z => RtoC 0 * RtoC 0)%C).
    + rewrite csum_scal. cbn. ring.
    + intros s _. rewrite (field_ext Y L s _ (fun _ _ => RtoC 0)) by (intros; rewrite mode_zero; ring).
      rewrite field_zero. ring.
Qed.

(** ** Behind a plate *)
Hypothesis H4 : (4 <= L)%nat.
Variable m : rmat4.
Hypothesis SQ : e0 (e1 m) = e1 (e0 m).
Hypothesis SU : e0 (e2 m) = e2 (e0 m).
Hypothesis SVQ : iv = true -> e3 (e1 m) = e1 (e3 m).
Hypothesis SVU : iv = true -> e3 (e2 m) = e2 (e3 m).

Definition v02 : C := (e3 (e1 m), - e3 (e2 m)).
Definition v22 : C := (e1 (e3 m), e2 (e3 m)).
Let wV := cut bv bV.
Let uV := cut iv aV.
(** Beams of the unmodulated signal from I and from V. *)
Definition b00 l k : C := (bI l k * RtoC (e0 (e0 m)) + wV l k * RtoC (e0 (e3 m)))%C.
Definition b03 l k : C := (bI l k * RtoC (e3 (e0 m)) + wV l k * RtoC (e3 (e3 m)))%C.

Lemma add_modes f g : add_arr (of_modes L L f) (of_modes L L g) = Ok (of_modes L L (fun l k => f l k + g l k)%C).
Proof.
  unfold add_arr. rewrite !length_of_modes, Nat.eqb_refl. rewrite (zipwith_modes Cadd). reflexivity.
Qed.

Lemma ok_two (x y x' y' : list C) : x = x' -> y = y' -> Ok [x; y] = Ok [x'; y'].
Proof. congruence. Qed.

Lemma couplings_v :
  let h := mueller2spin (cmat m) in
  blmxhwp blm h "s0a0" bv = Ok [of_modes L L b00]
  /\ blmxhwp blm h "s0a0_v" bv = Ok [of_modes L L b03]
  /\ blmxhwp blm h "s2a4" false = Ok [of_modes L L (sh_own bp bm (-4) (c24 m)); of_modes L L (sh_other bp bm (-4) (c24 m))]
  /\ blmxhwp blm h "s0a2" false = Ok [of_modes L L (sh_other bp bm (-2) (c02 m)); of_modes L L (sh_own bp bm (-2) (c02 m))]
  /\ (iv = true -> blmxhwp blm h "s0a2_v" false = Ok [of_modes L L (sh_other bp bm (-2) v02); of_modes L L (sh_own bp bm (-2) v02)])
  /\ blmxhwp blm h "s2a2" bv
     = Ok [of_modes L L (fun l k => sh_own bI bI (-2) (c22 m) l k + sh_own wV wV (-2) v22 l k)%C;
           of_modes L L (fun l k => sh_other bI bI (-2) (c22 m) l k + sh_other wV wV (-2) v22 l k)%C]
  /\ blmxhwp blm h "s2a0" false = Ok [of_modes L L (sh_own bm bp 0 (c20 m)); of_modes L L (sh_other bm bp 0 (c20 m))].
Proof.
  cbv zeta.
  assert (Z4 : (4 <= Z.of_nat L)%Z) by lia. assert (Z2 : (2 <= Z.of_nat L)%Z) by lia.
  pose proof is2_sqrt2 as E.
  assert (F : forall x y, Cmul (is2 * x, is2 * y) sqrt2 = (x, y)).
  { intros. apply C_eq; cbn; ring [E]. }
  assert (G : forall x y, Cmul (is2 * x, - is2 * y) sqrt2 = (x, - y)).
  { intros. apply C_eq; cbn; ring [E]. }
  unfold blmxhwp, is.
  cbn [string_dec string_rec string_rect Ascii.ascii_dec sumbool_rec sumbool_rect
       Ascii.ascii_rec Ascii.ascii_rect Bool.bool_dec bool_rec bool_rect].
  rewrite B0, B1, B2. cbn [bind].
  rewrite !(shift_blm_spec (RtoC 0) Cconj Copp Cconj0 Copp0) by assumption.
  cbn [bind]. rewrite spin_elems. cbn [e0 e1 e2 e3]. rewrite !times_modes, !F, !G.
  assert (ZW : forall l k, bv = false -> sh_own wV wV (-2) v22 l k = RtoC 0 /\ sh_other wV wV (-2) v22 l k = RtoC 0).
  { intros l k E0. unfold wV. rewrite E0. unfold sh_own, sh_other. cbn [cut]. rewrite !mode_zero. split; ring. }
  split; [|split; [|split; [|split; [|split; [|split]]]]].
  - case_eq bv; intros Ebv.
    + rewrite B3 by exact Ebv. cbn [bind]. rewrite times_modes, add_modes. cbn [bind]. f_equal. f_equal. apply of_modes_ext. intros. unfold b00, b03, wV. rewrite Ebv. reflexivity.
    + f_equal. f_equal. apply of_modes_ext. intros. unfold b00, wV. rewrite Ebv. cbn [cut]. ring.
  - case_eq bv; intros Ebv.
    + rewrite B3 by exact Ebv. cbn [bind]. rewrite times_modes, add_modes. cbn [bind]. f_equal. f_equal. apply of_modes_ext. intros. unfold b00, b03, wV. rewrite Ebv. reflexivity.
    + f_equal. f_equal. apply of_modes_ext. intros. unfold b03, wV. rewrite Ebv. cbn [cut]. ring.
  - apply ok_two; apply of_modes_ext; intros l k Hk Hl; unfold sh_own, sh_other, c24, mode.
    + reflexivity.
    + replace (Z.of_nat k - -4)%Z with (Z.of_nat k + 4)%Z by lia. apply C_eq; cbn; ring.
  - apply ok_two; apply of_modes_ext; intros l k Hk Hl; unfold sh_own, sh_other, c02, mode.
    + replace (Z.of_nat k - -2)%Z with (Z.of_nat k + 2)%Z by lia. apply C_eq; cbn; rewrite ?SQ, ?SU; ring.
    + reflexivity.
  - intros Eiv. specialize (SVQ Eiv). specialize (SVU Eiv).
    apply ok_two; apply of_modes_ext; intros l k Hk Hl; unfold sh_own, sh_other, v02, mode.
    + replace (Z.of_nat k - -2)%Z with (Z.of_nat k + 2)%Z by lia. apply C_eq; cbn; rewrite ?SVQ, ?SVU; ring.
    + reflexivity.
  - case_eq bv; intros Ebv.
    + rewrite B3 by exact Ebv. cbn [bind].
      rewrite !(shift_blm_spec (RtoC 0) Cconj Copp Cconj0 Copp0) by assumption. cbn [bind].
      rewrite !times_modes. rewrite add_modes. cbn [bind]. rewrite add_modes. cbn [bind].
      apply ok_two; apply of_modes_ext; intros l k Hk Hl;
        unfold sh_own, sh_other, c22, v22, mode, wV; rewrite Ebv; cbn [cut].
      * reflexivity.
      * replace (Z.of_nat k - -2)%Z with (Z.of_nat k + 2)%Z by lia. reflexivity.
    + apply ok_two; apply of_modes_ext; intros l k Hk Hl;
        destruct (ZW l k Ebv) as [Z1' Z2']; rewrite ?Z1', ?Z2'; unfold sh_own, sh_other, c22, mode.
      * change (Z.of_nat k + -2)%Z with (Z.of_nat k - 2)%Z. apply C_eq; cbn; ring.
      * replace (Z.of_nat k - -2)%Z with (Z.of_nat k + 2)%Z by lia. apply C_eq; cbn; ring.
  - apply ok_two; apply of_modes_ext; intros l k Hk Hl; unfold sh_own, sh_other, c20, mode.
    + rewrite Z.add_0_r. rewrite coef_own by lia. reflexivity.
    + rewrite Z.sub_0_r. rewrite coef_own by lia. apply C_eq; cbn; ring.
Qed.

Lemma b00_real : real_m0 b00.
Proof.
  intros l. pose proof (Rb l) as X. pose proof (cut_real bv bV RbV l) as X'. unfold b00. fold wV in X'.
  destruct (bI l 0%nat), (wV l 0%nat). cbn in *. subst. ring.
Qed.
Lemma b03_real : real_m0 b03.
Proof.
  intros l. pose proof (Rb l) as X. pose proof (cut_real bv bV RbV l) as X'. unfold b03. fold wV in X'.
  destruct (bI l 0%nat), (wV l 0%nat). cbn in *. subst. ring.
Qed.

Let d22 l s := (displaced (mode bI bI) (-2) (c22 m) l s + displaced (mode wV wV) (-2) v22 l s)%C.

(** Intensity-like sky [a]: the maps of s0a2. *)
Lemma leak_maps a c : real_m0 a ->
  (let '(blmE, blmB) := spin2eb (of_modes L L (sh_own bp bm (-2) c)) (of_modes L L (sh_other bp bm (-2) c)) 2 in
   spinmaps_complex a2m a2ms (negs (of_modes L L a)) (times (of_modes L L a) (RtoC 0)) blmE blmB (leak_spins symmetric S))
  = Ok (map (Bmap Y npix L (mode a a) (displaced (mode bp bm) (-2) c)) (leak_spins symmetric S)).
Proof.
  intros Ra. rewrite negI, times_0.
  rewrite (complex_maps_eb Y npix L a2m a2ms HY HP (fun l k => - a l k)%C (fun _ _ => RtoC 0) _ _ (leak_spins symmetric S)
     (real_neg _ Ra) (fun _ => eq_refl)
     (fun l => sh_zero bp bm Hb (-2) c l eq_refl) (leak_range L _ _ HS)).
  f_equal. apply map_ext. intros s. apply map_ext. intros p. apply field_ext. intros l k _ _.
  rewrite sh_mode by auto. f_equal. apply mode_ext; intros; [apply plus2_I|apply minus2_I].
Qed.

Lemma plate_v :
  make_spinmaps a2m a2ms alm blm S symmetric (Some (cmat m)) iv bv
  = Ok [("s0a0", {| ss_maps := map (Smap Y npix L (mode aI aI) (mode b00 b00) (mode uV uV) (mode b03 b03)) (unpol_spins symmetric S);
                    ss_svals := unpol_spins symmetric S |});
        ("s2a4", {| ss_maps := map (Bmap Y npix L P (displaced (mode bp bm) (-4) (c24 m))) (pol_spins symmetric S);
                    ss_svals := pol_spins symmetric S |});
        ("s0a2", {| ss_maps := map (Smap Y npix L (mode aI aI) (displaced (mode bp bm) (-2) (c02 m))
                                     (mode uV uV) (displaced (mode bp bm) (-2) v02)) (leak_spins symmetric S);
                    ss_svals := leak_spins symmetric S |});
        ("s2a2", {| ss_maps := map (Bmap Y npix L P d22) (pol_spins symmetric S);
                    ss_svals := pol_spins symmetric S |});
        ("s2a0", {| ss_maps := map (Bmap Y npix L P (displaced (mode bm bp) 0 (c20 m))) (pol_spins symmetric S);
                    ss_svals := pol_spins symmetric S |})]%string.
Proof.
  unfold make_spinmaps. rewrite spin_values_eq, A0, A1, A2. cbn [bind].
  destruct couplings_v as (C00 & C0V & C24 & C02 & C02V & C22 & C20). cbv zeta in *.
  rewrite C00, C24, C02, C22, C20. cbn [bind one two].
  assert (HL2 : (2 <= L)%nat) by lia.
  rewrite (real_Bmaps aI b00 RI b00_real). cbn [bind].
  pose proof (complex_maps_eb Y npix L a2m a2ms HY HP aE aB _ _ (pol_spins symmetric S) RE RB
     (fun l => sh_zero bp bm Hb (-4) (c24 m) l eq_refl) (pol_range L _ _ HS HL2)) as M24.
  assert (HbI2 : forall l, bI l 0%nat = Cconj (bI l 0%nat)) by (intros; apply real_conj; exact Rb).
  assert (HwV : forall l, wV l 0%nat = Cconj (wV l 0%nat)) by (intros; apply real_conj; apply cut_real; exact RbV).
  assert (Hb2 : forall l, bp l 0%nat = Cconj (bm l 0%nat)) by (intros; rewrite Hb, Cconj_conj; reflexivity).
  pose proof (complex_maps_eb Y npix L a2m a2ms HY HP aE aB
     (fun l k => sh_own bI bI (-2) (c22 m) l k + sh_own wV wV (-2) v22 l k)%C
     (fun l k => sh_other bI bI (-2) (c22 m) l k + sh_other wV wV (-2) v22 l k)%C
     (pol_spins symmetric S) RE RB
     ltac:(intros l; cbv beta; rewrite Cconj_add, <- !sh_zero by (auto; reflexivity); reflexivity) (pol_range L _ _ HS HL2)) as M22.
  pose proof (complex_maps_eb Y npix L a2m a2ms HY HP aE aB _ _ (pol_spins symmetric S) RE RB
     (fun l => sh_zero bm bp Hb2 0 (c20 m) l eq_refl) (pol_range L _ _ HS HL2)) as M20.
  pose proof (leak_maps aI (c02 m) RI) as M02.
  pose proof (leak_maps aV v02 RV) as M02V.
  destruct (spin2eb (of_modes L L (sh_own bp bm (-4) (c24 m))) _ 2) as [b24E b24B]. rewrite M24.
  destruct (spin2eb (of_modes L L (sh_own bp bm (-2) (c02 m))) _ 2) as [b02E b02B]. rewrite M02.
  match goal with |- context [spin2eb (of_modes L L (fun l k => (sh_own bI bI _ _ l k + _)%C)) ?y 2] =>
    destruct (spin2eb (of_modes L L (fun l k => sh_own bI bI (-2) (c22 m) l k + sh_own wV wV (-2) v22 l k)%C) y 2) as [b22E b22B] end.
  rewrite M22.
  destruct (spin2eb (of_modes L L (sh_own bm bp 0 (c20 m))) _ 2) as [b20E b20B]. rewrite M20.
  rewrite (maps_mode Y npix L _ (sh_own bp bm (-4) (c24 m)) (sh_other bp bm (-4) (c24 m)) (displaced (mode bp bm) (-4) (c24 m))) by (intros; apply sh_mode; auto).
  rewrite (maps_mode Y npix L _ (sh_own bm bp 0 (c20 m)) (sh_other bm bp 0 (c20 m)) (displaced (mode bm bp) 0 (c20 m))) by (intros; apply sh_mode; auto).
  rewrite (maps_mode Y npix L _ (fun l k => sh_own bI bI (-2) (c22 m) l k + sh_own wV wV (-2) v22 l k)%C
     (fun l k => sh_other bI bI (-2) (c22 m) l k + sh_other wV wV (-2) v22 l k)%C d22)
    by (intros; rewrite mode_add, !sh_mode by auto; reflexivity).
  case_eq iv; intros Eiv.
  - rewrite C0V. cbn [bind one]. rewrite A3 by exact Eiv. cbn [bind].
    rewrite (real_Bmaps aV b03 RV b03_real). cbn [bind]. rewrite add_Bmaps. cbn [bind].
    rewrite C02V by exact Eiv. cbn [bind two].
    destruct (spin2eb (of_modes L L (sh_own bp bm (-2) v02)) _ 2) as [b02VE b02VB].
    rewrite M02V. cbn [bind]. rewrite add_Bmaps. cbn [bind]. unfold uV. rewrite Eiv. reflexivity.
  - cbn [bind].
    rewrite (Bmap_Smap Y npix L (mode aI aI) (mode b00 b00) (mode uV uV) (mode b03 b03)) by (intros; unfold uV; rewrite Eiv; apply mode_zero).
    rewrite (Bmap_Smap Y npix L (mode aI aI) (displaced (mode bp bm) (-2) (c02 m)) (mode uV uV) (displaced (mode bp bm) (-2) v02)) by (intros; unfold uV; rewrite Eiv; apply mode_zero).
    reflexivity.
Qed.

Lemma mode_b00 l s : mode b00 b00 l s = (mode bI bI l s * RtoC (e0 (e0 m)) + only_if bv (mode bV bV) l s * RtoC (e0 (e3 m)))%C.
Proof. unfold b00. rewrite mode_add, !mode_real_mul. unfold wV. rewrite mode_cut. reflexivity. Qed.
Lemma mode_b03 l s : mode b03 b03 l s = (mode bI bI l s * RtoC (e3 (e0 m)) + only_if bv (mode bV bV) l s * RtoC (e3 (e3 m)))%C.
Proof. unfold b03. rewrite mode_add, !mode_real_mul. unfold wV. rewrite mode_cut. reflexivity. Qed.
Lemma mode_d22 l s : d22 l s = (displaced (mode bI bI) (-2) (c22 m) l s + displaced (only_if bv (mode bV bV)) (-2) v22 l s)%C.
Proof.
  unfold d22. f_equal. unfold displaced. destruct (_ <=? _)%Z; [|reflexivity]. unfold wV. rewrite mode_cut. reflexivity.
Qed.

(** A plate that only modulates polarisation: any detector angle. *)
Lemma tod_modulator_v : (forall l s, displaced (mode bp bm) (-2) (c02 m) l s = RtoC 0) ->
  (forall l k s, (mode uV uV l k * displaced (mode bp bm) (-2) v02 l s)%C = RtoC 0) ->
  (forall l s, d22 l s = RtoC 0) -> c20 m = RtoC 0 ->
  exists d tod,
  make_spinmaps a2m a2ms alm blm S symmetric (Some (cmat m)) iv bv = Ok d
  /\ scan_tod n d (map Pix qs) pa polang h = Ok (map RtoC tod) /\ List.length tod = n
  /\ forall i, (i < n)%nat ->
     let q := nth i qs 0%nat in
     let psi := PI - nth i pa 0 * (PI / 180) in
     let sI := both_spins symmetric S in
     let sP := pol_spins symmetric S in
     let bV' := only_if bv (mode bV bV) in
     nth i tod 0
     = Re (convolved Y L (mode aI aI) (fun l s => mode bI bI l s * RtoC (e0 (e0 m)) + bV' l s * RtoC (e0 (e3 m)))%C sI q psi)
       + Re (convolved Y L (only_if iv (mode aV aV)) (fun l s => mode bI bI l s * RtoC (e3 (e0 m)) + bV' l s * RtoC (e3 (e3 m)))%C sI q psi)
       + Re (convolved Y L P (displaced (mode bp bm) (-4) (c24 m)) sP q psi
             * cis (4 * angle_at h i + 2 * (polang * (PI / 180))))%C.
Proof.
  intros Z02 Z02v Z22 Z20. pose proof plate_v as E.
  set (S' := if symmetric then 0%nat else S).
  assert (LB : leak_spins symmetric S = spins_both S') by (unfold S'; destruct symmetric; reflexivity).
  match type of E with _ = Ok ?x => set (d := x) in E end.
  match eval cbv delta [d] in d with [(_, ?e00); (_, ?e24); (_, ?e02); (_, ?e22); (_, ?e20)] =>
  destruct (timestream_new npix n (map Pix qs) pa polang h d e00 e24 e20 e02 e22 S') as (tod & E1 & E2 & V) end;
    auto using on_maps.
  - rewrite map_length. exact Lq.
  - unfold five_sets, d. split; [|cbn [In]; tauto]. cbn [map fst].
    repeat constructor; cbn; intuition discriminate.
  - repeat apply Forall_cons; [| | | | |constructor];
      (apply ws_maps; [auto using unpol_ne, pol_ne, leak_ne|intros; auto using Smap_len, Bmap_len]).
  - cbn [ss_svals]. eapply Forall_impl; [|apply (unpol_range L symmetric S HS)]. cbn. lia.
  - exists d, tod. split; [exact E|]. split; [exact E1|]. split; [exact E2|]. intros i Hi q psi sI sP bV'.
    rewrite V by exact Hi. fold psi. cbn [ss_maps ss_svals].
    assert (Eq : nth i (map Pix qs) (Pix 0) = Pix q) by apply (map_nth Pix).
    assert (Lt : (q < npix)%nat) by (unfold q; rewrite Forall_forall in Hq; apply Hq, nth_In; lia).
    rewrite Eq. rewrite !Bmap_sum by exact Lt.
    rewrite Smap_two_sided by (auto using b00_real, b03_real; apply cut_real; auto).
    rewrite zero_coded.
    2:{ apply Forall_forall. intros x Hx. apply in_map_iff in Hx. destruct Hx as (s & <- & _).
        apply Forall_forall. intros z Hz. apply in_map_iff in Hz. destruct Hz as (p & <- & _).
        rewrite (field_ext Y L s _ (fun _ _ => RtoC 0)) by (intros; rewrite Z02; ring).
        rewrite (field_ext Y L s (fun l k => mode uV uV l k * displaced (mode bp bm) (-2) v02 l s)%C (fun _ _ => RtoC 0))
          by (intros; apply Z02v).
        rewrite !field_zero. ring. }
    2:{ rewrite map_length, LB. unfold spins_both. rewrite map_length, seq_length. reflexivity. }
    fold sI sP.
    rewrite (convolved_ext2 Y L (mode aI aI) _ (mode b00 b00) _ sI q psi (fun _ _ => eq_refl) mode_b00).
    rewrite (convolved_ext2 Y L (mode uV uV) (only_if iv (mode aV aV)) (mode b03 b03) _ sI q psi (mode_cut iv aV) mode_b03).
    rewrite (convolved_0 Y L P d22) by exact Z22.
    rewrite Z20, (convolved_0 Y L P (displaced (mode bm bp) 0 (RtoC 0))) by (intros; apply displaced_0).
    fold bV'.
    match goal with |- ?a + ?b + ?c + ?e + ?f = _ =>
      replace c with 0 by (cbn; ring); replace e with 0 by (cbn; ring); replace f with 0 by (cbn; ring) end.
    ring.
Qed.

Hypothesis POL : cis (2 * (polang * (PI / 180))) = RtoC 1.

Lemma tod_plate_v : exists d tod,
  make_spinmaps a2m a2ms alm blm S symmetric (Some (cmat m)) iv bv = Ok d
  /\ scan_tod n d (map Pix qs) pa polang h = Ok (map RtoC tod) /\ List.length tod = n
  /\ forall i, (i < n)%nat ->
     let q := nth i qs 0%nat in
     let psi := PI - nth i pa 0 * (PI / 180) in
     let sI := both_spins symmetric S in
     let sP := pol_spins symmetric S in
     let a := angle_at h i in
     let V := only_if iv (mode aV aV) in
     let bV' := only_if bv (mode bV bV) in
     nth i tod 0
     = Re (convolved Y L (mode aI aI) (fun l s => mode bI bI l s * RtoC (e0 (e0 m)) + bV' l s * RtoC (e0 (e3 m)))%C sI q psi)
       + Re (convolved Y L V (fun l s => mode bI bI l s * RtoC (e3 (e0 m)) + bV' l s * RtoC (e3 (e3 m)))%C sI q psi)
       + Re (convolved Y L P (displaced (mode bp bm) (-4) (c24 m)) sP q psi * cis (4 * a))%C
       + Re (convolved Y L P (displaced (mode bm bp) 0 (c20 m)) sP q psi)
       + Re (convolved Y L (mode aI aI) (displaced (mode bp bm) (-2) (c02 m)) sI q psi * cis (2 * a))%C
       + Re (convolved Y L V (displaced (mode bp bm) (-2) v02) sI q psi * cis (2 * a))%C
       + Re (convolved Y L P (fun l s => displaced (mode bI bI) (-2) (c22 m) l s + displaced bV' (-2) v22 l s)%C sP q psi
             * cis (2 * a))%C.
Proof.
  pose proof plate_v as E.
  set (S' := if symmetric then 0%nat else S).
  assert (LB : leak_spins symmetric S = spins_both S') by (unfold S'; destruct symmetric; reflexivity).
  match type of E with _ = Ok ?x => set (d := x) in E end.
  match eval cbv delta [d] in d with [(_, ?e00); (_, ?e24); (_, ?e02); (_, ?e22); (_, ?e20)] =>
  destruct (timestream_new npix n (map Pix qs) pa polang h d e00 e24 e20 e02 e22 S') as (tod & E1 & E2 & V) end;
    auto using on_maps.
  - rewrite map_length. exact Lq.
  - unfold five_sets, d. split; [|cbn [In]; tauto]. cbn [map fst].
    repeat constructor; cbn; intuition discriminate.
  - repeat apply Forall_cons; [| | | | |constructor];
      (apply ws_maps; [auto using unpol_ne, pol_ne, leak_ne|intros; auto using Smap_len, Bmap_len]).
  - cbn [ss_svals]. eapply Forall_impl; [|apply (unpol_range L symmetric S HS)]. cbn. lia.
  - exists d, tod. split; [exact E|]. split; [exact E1|]. split; [exact E2|]. intros i Hi q psi sI sP a Vs bV'.
    rewrite V by exact Hi. fold psi a. cbn [ss_maps ss_svals].
    assert (Eq : nth i (map Pix qs) (Pix 0) = Pix q) by apply (map_nth Pix).
    assert (Lt : (q < npix)%nat) by (unfold q; rewrite Forall_forall in Hq; apply Hq, nth_In; lia).
    rewrite Eq. rewrite !Bmap_sum by exact Lt.
    rewrite Smap_two_sided by (auto using b00_real, b03_real; apply cut_real; auto).
    rewrite coded_aligned by (try exact POL; rewrite map_length, LB; unfold spins_both; rewrite map_length, seq_length; reflexivity).
    rewrite <- LB, Smap_sum by exact Lt.
    change (leak_spins symmetric S) with sI. fold sI sP.
    rewrite (convolved_ext2 Y L (mode aI aI) _ (mode b00 b00) _ sI q psi (fun _ _ => eq_refl) mode_b00).
    rewrite (convolved_ext2 Y L (mode uV uV) Vs (mode b03 b03) _ sI q psi (mode_cut iv aV) mode_b03).
    rewrite (convolved_ext2 Y L (mode uV uV) Vs (displaced (mode bp bm) (-2) v02) _ sI q psi (mode_cut iv aV) (fun _ _ => eq_refl)).
    rewrite (convolved_ext2 Y L P _ d22 _ sP q psi (fun _ _ => eq_refl) mode_d22).
    assert (cis (4 * a + 2 * (polang * (PI / 180))) = cis (4 * a)) as -> by (rewrite cis_add, POL; ring).
    assert (D : forall z w u : C, Re ((z + w) * u)%C = Re (z * u)%C + Re (w * u)%C) by (intros; cbn; ring).
    rewrite D. fold bV'. ring.
Qed.
End Circ.

(** ** Band limits *)
Lemma match_bands_v Ls Lb aI aE aB aV bI bm bp bV iv bv :
  let L := Nat.min Ls Lb in
  exists alm blm,
  match_bandlimits [of_modes Ls Ls aI; of_modes Ls Ls aE; of_modes Ls Ls aB; of_modes Ls Ls aV]
                   [of_modes Lb Lb bI; of_modes Lb Lb bm; of_modes Lb Lb bp; of_modes Lb Lb bV] iv bv
  = Ok (alm, blm)
  /\ index alm 0 = Ok (of_modes L L aI) /\ index alm 1 = Ok (of_modes L L aE)
  /\ index alm 2 = Ok (of_modes L L aB) /\ (iv = true -> index alm 3 = Ok (of_modes L L aV))
  /\ index blm 0 = Ok (of_modes L L bI) /\ index blm 1 = Ok (of_modes L L bm)
  /\ index blm 2 = Ok (of_modes L L bp) /\ (bv = true -> index blm 3 = Ok (of_modes L L bV)).
Proof.
  intros L. unfold match_bandlimits. cbn [index nth_error bind].
  rewrite !length_of_modes, !getlmax_full.
  destruct (Nat.ltb_spec Lb Ls) as [H|H]; [|destruct (Nat.ltb_spec Ls Lb) as [H'|H']].
  - pose proof (trunc_alms_spec Ls Ls [aI; aE; aB] Lb None ltac:(discriminate) ltac:(lia) ltac:(lia) ltac:(auto)) as T.
    cbn [map] in T. rewrite T. cbn [bind].
    rewrite (trunc_alm_spec Ls Ls aV Lb None) by (auto; lia).
    replace L with Lb by lia. rewrite Nat.min_l by lia.
    destruct iv; cbn [bind]; do 2 eexists; (split; [reflexivity|]); repeat split; intros; try discriminate; reflexivity.
  - pose proof (trunc_alms_spec Lb Lb [bI; bm; bp] Ls None ltac:(discriminate) ltac:(lia) ltac:(lia) ltac:(auto)) as T.
    cbn [map] in T. rewrite T. cbn [bind].
    rewrite (trunc_alm_spec Lb Lb bV Ls None) by (auto; lia).
    replace L with Ls by lia. rewrite Nat.min_l by lia.
    destruct bv; cbn [bind]; do 2 eexists; (split; [reflexivity|]); repeat split; intros; try discriminate; reflexivity.
  - replace L with Lb by lia. replace Ls with Lb by lia.
    do 2 eexists. split; [reflexivity|]. repeat split.
Qed.

Lemma init_is_make_v a2m a2ms Ls Lb aI aE aB aV bI bm bp bV S symmetric hwp iv bv alm blm :
  match_bandlimits [of_modes Ls Ls aI; of_modes Ls Ls aE; of_modes Ls Ls aB; of_modes Ls Ls aV]
                   [of_modes Lb Lb bI; of_modes Lb Lb bm; of_modes Lb Lb bp; of_modes Lb Lb bV] iv bv
  = Ok (alm, blm) ->
  init_spinmaps1 a2m a2ms (sky_arrays_v Ls aI aE aB aV) (beam_arrays_v Lb bI bm bp bV) S symmetric hwp iv bv
  = match make_spinmaps a2m a2ms alm blm S symmetric hwp iv bv with
    | Ok d => Maps d | Err e => Raises e end.
Proof.
  intros E. unfold init_spinmaps1.
  assert (Fa : forallb finite (sky_arrays_v Ls aI aE aB aV) = true)
    by (unfold sky_arrays_v, sky_arrays; cbn [app forallb]; rewrite !finite_some; reflexivity).
  assert (Fb : forallb finite (beam_arrays_v Lb bI bm bp bV) = true)
    by (unfold beam_arrays_v, beam_arrays; cbn [app forallb]; rewrite !finite_some; reflexivity).
  change (List.length (sky_arrays_v Ls aI aE aB aV)) with 4%nat.
  change (List.length (beam_arrays_v Lb bI bm bp bV)) with 4%nat.
  cbn [Nat.eqb negb andb].
  rewrite nan_check_fine by assumption. rewrite Fa, Fb. cbn [andb].
  unfold sky_arrays_v, beam_arrays_v, sky_arrays, beam_arrays. cbn [app map].
  rewrite !strip_some, E. cbn [bind]. reflexivity.
Qed.

Lemma convolution_v Y npix Ls Lb a2m a2ms aI aE aB aV bI bm bp bV iv bv symmetric S n qs pa polang h :
  let L := Nat.min Ls Lb in
  conj_symmetric Y -> healpix Y npix L a2m a2ms ->
  real_m0 aI -> real_m0 aE -> real_m0 aB -> real_m0 aV -> real_m0 bI -> real_m0 bV ->
  (forall l, bm l 0%nat = Cconj (bp l 0%nat)) -> (S <= L)%nat -> (2 <= L)%nat ->
  List.length qs = n -> List.length pa = n -> angles_for n h -> Forall (fun q => (q < npix)%nat) qs ->
  exists d tod,
  init_spinmaps1 a2m a2ms (sky_arrays_v Ls aI aE aB aV) (beam_arrays_v Lb bI bm bp bV) S symmetric None iv bv
  = Maps d
  /\ scan_tod n d (map Pix qs) pa polang h = Ok (map RtoC tod) /\ List.length tod = n
  /\ forall i, (i < n)%nat ->
     let q := nth i qs 0%nat in
     let psi := PI - nth i pa 0 * (PI / 180) in
     let sI := if symmetric then [0%Z] else spins_both S in
     nth i tod 0
     = Re (convolved Y L (mode aI aI) (mode bI bI) sI q psi)
       + Re (convolved Y L (mode (plus2 aE aB) (minus2 aE aB)) (mode bm bp)
               (if symmetric then [2%Z] else spins_both S) q psi
             * cis (4 * angle_at h i + 2 * (polang * (PI / 180))))%C
       + (if (iv && bv)%bool then Re (convolved Y L (mode aV aV) (mode bV bV) sI q psi) else 0).
Proof.
  intros L HY HP RI RE RB RV Rb RbV Hb HS H2 Lq La Hh Hq.
  destruct (match_bands_v Ls Lb aI aE aB aV bI bm bp bV iv bv)
    as (alm & blm & E & A0 & A1 & A2 & A3 & B0 & B1 & B2 & B3).
  destruct (tod_no_plate_v Y npix L a2m a2ms HY HP aI aE aB aV bI bm bp bV RI RE RB RV Rb RbV Hb iv bv alm blm
     A0 A1 A2 A3 B0 B1 B2 B3 symmetric S HS n qs pa polang h Lq La Hh Hq H2)
    as (d & tod & E1 & E2 & E3 & V).
  exists d, tod. split; [|auto]. rewrite (init_is_make_v _ _ _ _ _ _ _ _ _ _ _ _ _ _ _ _ _ alm blm E), E1. reflexivity.
Qed.

Lemma aligned_plate_v Y npix Ls Lb a2m a2ms aI aE aB aV bI bm bp bV iv bv (m : rmat4) symmetric S n qs pa z h :
  let L := Nat.min Ls Lb in
  conj_symmetric Y -> healpix Y npix L a2m a2ms ->
  real_m0 aI -> real_m0 aE -> real_m0 aB -> real_m0 aV -> real_m0 bI -> real_m0 bV ->
  (forall l, bm l 0%nat = Cconj (bp l 0%nat)) -> (S <= L)%nat -> (4 <= L)%nat ->
  e0 (e1 m) = e1 (e0 m) -> e0 (e2 m) = e2 (e0 m) ->
  (iv = true -> e3 (e1 m) = e1 (e3 m) /\ e3 (e2 m) = e2 (e3 m)) ->
  List.length qs = n -> List.length pa = n -> angles_for n h -> Forall (fun q => (q < npix)%nat) qs ->
  exists d tod,
  init_spinmaps1 a2m a2ms (sky_arrays_v Ls aI aE aB aV) (beam_arrays_v Lb bI bm bp bV) S symmetric
    (Some (cmat m)) iv bv = Maps d
  /\ scan_tod n d (map Pix qs) pa (180 * IZR z) h = Ok (map RtoC tod) /\ List.length tod = n
  /\ forall i, (i < n)%nat ->
     let q := nth i qs 0%nat in
     let psi := PI - nth i pa 0 * (PI / 180) in
     let a := angle_at h i in
     let I := mode aI aI in
     let P := mode (plus2 aE aB) (minus2 aE aB) in
     let V := only_if iv (mode aV aV) in
     let beamI := mode bI bI in
     let beamV := only_if bv (mode bV bV) in
     let sI := if symmetric then [0%Z] else spins_both S in
     let sP := if symmetric then [2%Z] else spins_both S in
     let k24 := (1/2 * (e1 (e1 m) - e2 (e2 m)), 1/2 * (e1 (e2 m) + e2 (e1 m))) in
     let k20 := (1/2 * (e1 (e1 m) + e2 (e2 m)), - (1/2) * (e1 (e2 m) - e2 (e1 m))) in
     let k02 := (e0 (e1 m), - e0 (e2 m)) in
     let kv02 := (e3 (e1 m), - e3 (e2 m)) in
     let k22 := (e1 (e0 m), e2 (e0 m)) in
     let kv22 := (e1 (e3 m), e2 (e3 m)) in
     nth i tod 0
     = Re (convolved Y L I (fun l s => beamI l s * RtoC (e0 (e0 m)) + beamV l s * RtoC (e0 (e3 m)))%C sI q psi)
       + Re (convolved Y L V (fun l s => beamI l s * RtoC (e3 (e0 m)) + beamV l s * RtoC (e3 (e3 m)))%C sI q psi)
       + Re (convolved Y L P (displaced (mode bp bm) (-4) k24) sP q psi * cis (4 * a))%C
       + Re (convolved Y L P (displaced (mode bm bp) 0 k20) sP q psi)
       + Re (convolved Y L I (displaced (mode bp bm) (-2) k02) sI q psi * cis (2 * a))%C
       + Re (convolved Y L V (displaced (mode bp bm) (-2) kv02) sI q psi * cis (2 * a))%C
       + Re (convolved Y L P (fun l s => displaced beamI (-2) k22 l s + displaced beamV (-2) kv22 l s)%C sP q psi
             * cis (2 * a))%C.
Proof.
  intros L HY HP RI RE RB RV Rb RbV Hb HS H4 SQ SU SV Lq La Hh Hq.
  destruct (match_bands_v Ls Lb aI aE aB aV bI bm bp bV iv bv)
    as (alm & blm & E & A0 & A1 & A2 & A3 & B0 & B1 & B2 & B3).
  assert (POL : cis (2 * (180 * IZR z * (PI / 180))) = RtoC 1).
  { apply cis_turns. }
  destruct (tod_plate_v Y npix L a2m a2ms HY HP aI aE aB aV bI bm bp bV RI RE RB RV Rb RbV Hb iv bv alm blm
     A0 A1 A2 A3 B0 B1 B2 B3 symmetric S HS n qs pa (180 * IZR z) h Lq La Hh Hq H4 m SQ SU
     (fun e => proj1 (SV e)) (fun e => proj2 (SV e)) POL)
    as (d & tod & E1 & E2 & E3 & V).
  exists d, tod. split; [|auto]. rewrite (init_is_make_v _ _ _ _ _ _ _ _ _ _ _ _ _ _ _ _ _ alm blm E), E1. reflexivity.
Qed.

Lemma modulator_plate_v Y npix Ls Lb a2m a2ms aI aE aB aV bI bm bp bV iv bv (m : rmat4) symmetric S n qs pa polang h :
  let L := Nat.min Ls Lb in
  conj_symmetric Y -> healpix Y npix L a2m a2ms ->
  real_m0 aI -> real_m0 aE -> real_m0 aB -> real_m0 aV -> real_m0 bI -> real_m0 bV ->
  (forall l, bm l 0%nat = Cconj (bp l 0%nat)) -> (S <= L)%nat -> (4 <= L)%nat ->
  e0 (e1 m) = 0 -> e1 (e0 m) = 0 -> e0 (e2 m) = 0 -> e2 (e0 m) = 0 ->
  ((iv || bv)%bool = true -> e3 (e1 m) = 0 /\ e1 (e3 m) = 0 /\ e3 (e2 m) = 0 /\ e2 (e3 m) = 0) ->
  e2 (e2 m) = - e1 (e1 m) -> e2 (e1 m) = e1 (e2 m) ->
  List.length qs = n -> List.length pa = n -> angles_for n h -> Forall (fun q => (q < npix)%nat) qs ->
  exists d tod,
  init_spinmaps1 a2m a2ms (sky_arrays_v Ls aI aE aB aV) (beam_arrays_v Lb bI bm bp bV) S symmetric
    (Some (cmat m)) iv bv = Maps d
  /\ scan_tod n d (map Pix qs) pa polang h = Ok (map RtoC tod) /\ List.length tod = n
  /\ forall i, (i < n)%nat ->
     let q := nth i qs 0%nat in
     let psi := PI - nth i pa 0 * (PI / 180) in
     let I := mode aI aI in
     let V := only_if iv (mode aV aV) in
     let beamI := mode bI bI in
     let beamV := only_if bv (mode bV bV) in
     let sI := if symmetric then [0%Z] else spins_both S in
     nth i tod 0
     = Re (convolved Y L I (fun l s => beamI l s * RtoC (e0 (e0 m)) + beamV l s * RtoC (e0 (e3 m)))%C sI q psi)
       + Re (convolved Y L V (fun l s => beamI l s * RtoC (e3 (e0 m)) + beamV l s * RtoC (e3 (e3 m)))%C sI q psi)
       + Re (convolved Y L (mode (plus2 aE aB) (minus2 aE aB))
               (displaced (mode bp bm) (-4) (e1 (e1 m), e1 (e2 m)))
               (if symmetric then [2%Z] else spins_both S) q psi
             * cis (4 * angle_at h i + 2 * (polang * (PI / 180))))%C.
Proof.
  intros L HY HP RI RE RB RV Rb RbV Hb HS H4 M01 M10 M02 M20 MV M22 M21 Lq La Hh Hq.
  destruct (match_bands_v Ls Lb aI aE aB aV bI bm bp bV iv bv)
    as (alm & blm & E & A0 & A1 & A2 & A3 & B0 & B1 & B2 & B3).
  assert (SQ : e0 (e1 m) = e1 (e0 m)) by congruence.
  assert (SU : e0 (e2 m) = e2 (e0 m)) by congruence.
  assert (SVQ : iv = true -> e3 (e1 m) = e1 (e3 m)).
  { intros e. destruct MV as (X1 & X2 & X3 & X4); [rewrite e; reflexivity|congruence]. }
  assert (SVU : iv = true -> e3 (e2 m) = e2 (e3 m)).
  { intros e. destruct MV as (X1 & X2 & X3 & X4); [rewrite e; reflexivity|congruence]. }
  assert (K24 : c24 m = (e1 (e1 m), e1 (e2 m))) by (apply C_eq; cbn; rewrite ?M22, ?M21; field).
  assert (K20 : c20 m = RtoC 0) by (apply C_eq; cbn; rewrite ?M22, ?M21; field).
  assert (K02 : c02 m = RtoC 0) by (apply C_eq; cbn; rewrite ?M01, ?M02; field).
  assert (K22 : c22 m = RtoC 0) by (apply C_eq; cbn; rewrite ?M10, ?M20; field).
  destruct (tod_modulator_v Y npix L a2m a2ms HY HP aI aE aB aV bI bm bp bV RI RE RB RV Rb RbV Hb iv bv alm blm
     A0 A1 A2 A3 B0 B1 B2 B3 symmetric S HS n qs pa polang h Lq La Hh Hq H4 m SQ SU SVQ SVU)
    as (d & tod & E1 & E2 & E3 & V).
  - intros l s. rewrite K02. apply displaced_0.
  - intros l k s. rewrite mode_cut. destruct iv; cbn [only_if]; [|ring].
    destruct (MV eq_refl) as (X1 & X2 & X3 & X4).
    assert (v02 m = RtoC 0) as -> by (apply C_eq; cbn; rewrite ?X1, ?X3; field).
    rewrite displaced_0. ring.
  - intros l s. cbv beta. rewrite K22, displaced_0. destruct bv.
    + destruct MV as (X1 & X2 & X3 & X4); [apply orb_true_r|].
      assert (v22 m = RtoC 0) as -> by (apply C_eq; cbn; rewrite ?X2, ?X4; field).
      rewrite displaced_0. ring.
    + unfold displaced. destruct (_ <=? _)%Z; [|ring]. cbn [cut]. rewrite mode_zero. ring.
  - exact K20.
  - exists d, tod. split; [rewrite (init_is_make_v _ _ _ _ _ _ _ _ _ _ _ _ _ _ _ _ _ alm blm E), E1; reflexivity|].
    split; [exact E2|]. split; [exact E3|]. intros i Hi. cbv zeta. rewrite (V i Hi), K24. reflexivity.
Qed.
