(** * Proofs about the beam x HWP couplings *)
From Coq Require Import Reals Lra String.
From Verif Require Import Common Cplx Mat M_Alm S_Alm L_Alm M_Blm L_Blm M_Mueller S_Mueller L_Mueller.
Open Scope R_scope.

Notation cf := (coef (RtoC 0) Cconj Copp).

Lemma times_modes k L M f : times (of_modes L M f) k = of_modes L M (fun l m => Cmul (f l m) k).
Proof. apply map_modes. Qed.

Lemma times_1 x : times x (RtoC 1) = x.
Proof.
  unfold times. rewrite <- (map_id x) at 2. apply map_ext. intros a. ring.
Qed.

Lemma times_0 L f : times (of_modes L L f) (RtoC 0) = of_modes L L (fun _ _ => RtoC 0).
Proof. rewrite times_modes. apply of_modes_ext. intros. ring. Qed.

(** Real unpolarised beams. *)
Definition real_beam (b : nat -> nat -> C) : Prop := forall l, Im (b l 0%nat) = 0.

Lemma coef_real b l k : real_beam b ->
  cf b b l (- k) = (if Z.even k then Cconj (cf b b l k) else Copp (Cconj (cf b b l k))).
Proof.
  intros Hr. unfold coef. rewrite Z.abs_opp.
  destruct (Z.ltb_spec (Z.of_nat l) (Z.abs k)).
  { rewrite Cconj0, Copp0. now destruct (Z.even k). }
  rewrite Z.opp_involutive, Z.even_opp.
  destruct (Z.leb_spec 0 (- k)), (Z.leb_spec 0 k); try lia.
  - assert (k = 0%Z) by lia. subst. cbn. apply C_eq; cbn; [reflexivity|].
    specialize (Hr l). cbn in Hr |- *. lra.
  - destruct (Z.even k); rewrite ?Cconj_opp, Cconj_conj; [reflexivity|]. apply C_eq; cbn; ring.
  - reflexivity.
Qed.

Definition copol_m2 (b : nat -> nat -> C) l m :=
  if (l <? 2)%nat then RtoC 0 else cf b b l (Z.of_nat m - 2).
Definition copol_p2 (b : nat -> nat -> C) l m :=
  if (l <? 2)%nat then RtoC 0 else cf b b l (Z.of_nat m + 2).

Lemma coef_m2 b l k : real_beam b -> (2 <= l)%nat -> (Z.abs k <= Z.of_nat l)%Z ->
  cf (copol_m2 b) (copol_p2 b) l k = cf b b l (k - 2).
Proof.
  intros Hr Hl Hk. unfold coef at 1. destruct (Z.ltb_spec (Z.of_nat l) (Z.abs k)); [lia|].
  unfold copol_m2, copol_p2. destruct (Nat.ltb_spec l 2); [lia|].
  destruct (Z.leb_spec 0 k).
  - rewrite Z2Nat.id by lia. reflexivity.
  - rewrite Z2Nat.id by lia. replace (k - 2)%Z with (- (- k + 2))%Z by lia.
    rewrite coef_real by assumption. rewrite Z.even_add, Z.even_opp. cbn.
    destruct (Z.even k); reflexivity.
Qed.

Lemma coef_p2 b l k : real_beam b -> (2 <= l)%nat -> (Z.abs k <= Z.of_nat l)%Z ->
  cf (copol_p2 b) (copol_m2 b) l k = cf b b l (k + 2).
Proof.
  intros Hr Hl Hk. unfold coef at 1. destruct (Z.ltb_spec (Z.of_nat l) (Z.abs k)); [lia|].
  unfold copol_m2, copol_p2. destruct (Nat.ltb_spec l 2); [lia|].
  destruct (Z.leb_spec 0 k).
  - rewrite Z2Nat.id by lia. reflexivity.
  - rewrite Z2Nat.id by lia. replace (k + 2)%Z with (- (- k - 2))%Z by lia.
    rewrite coef_real by assumption. rewrite Z.even_sub, Z.even_opp. cbn.
    destruct (Z.even k); reflexivity.
Qed.

(** No power in the two highest azimuthal modes of each degree. *)
Definition band (b : nat -> nat -> C) : Prop :=
  forall l m, (1 <= m)%nat -> (l <= m + 1)%nat -> b l m = RtoC 0.

Lemma coef_high b l k : band b -> (1 <= Z.abs k)%Z -> (Z.of_nat l <= Z.abs k + 1)%Z ->
  cf b b l k = RtoC 0.
Proof.
  intros Hb H1 H2. unfold coef. destruct (_ <? _)%Z; [reflexivity|].
  destruct (Z.leb_spec 0 k).
  - apply Hb; lia.
  - rewrite (Hb l (Z.to_nat (- k))) by lia. rewrite Cconj0, Copp0. now destruct (Z.even k).
Qed.

Lemma flip_m2 L b : (4 <= L)%nat -> real_beam b -> band b ->
  of_modes L L (fun l m => cf (copol_p2 b) (copol_m2 b) l (Z.of_nat m - 4))
  = of_modes L L (copol_m2 b).
Proof.
  intros HL Hr Hb. apply of_modes_ext. intros l m Hm Hl.
  destruct (Nat.ltb_spec l 2).
  { unfold copol_m2 at 2, coef. destruct (Nat.ltb_spec l 2); [|lia].
    destruct (Z.ltb_spec (Z.of_nat l) (Z.abs (Z.of_nat m - 4))); [reflexivity|lia]. }
  destruct (Z.le_gt_cases (Z.abs (Z.of_nat m - 4)) (Z.of_nat l)) as [Hk|Hk].
  - rewrite coef_p2 by (assumption || lia). unfold copol_m2.
    destruct (Nat.ltb_spec l 2); [lia|]. f_equal. lia.
  - unfold coef at 1. destruct (Z.ltb_spec (Z.of_nat l) (Z.abs (Z.of_nat m - 4))); [|lia].
    unfold copol_m2. destruct (Nat.ltb_spec l 2); [lia|].
    rewrite coef_high; auto; lia.
Qed.

Lemma flip_p2 L b : (4 <= L)%nat -> real_beam b -> band b ->
  of_modes L L (fun l m => cf (copol_m2 b) (copol_p2 b) l (Z.of_nat m + 4))
  = of_modes L L (copol_p2 b).
Proof.
  intros HL Hr Hb. apply of_modes_ext. intros l m Hm Hl.
  destruct (Nat.ltb_spec l 2).
  { unfold copol_p2 at 2, coef. destruct (Nat.ltb_spec l 2); [|lia].
    destruct (Z.ltb_spec (Z.of_nat l) (Z.abs (Z.of_nat m + 4))); [reflexivity|lia]. }
  destruct (Z.le_gt_cases (Z.abs (Z.of_nat m + 4)) (Z.of_nat l)) as [Hk|Hk].
  - rewrite coef_m2 by (assumption || lia). unfold copol_p2.
    destruct (Nat.ltb_spec l 2); [lia|]. f_equal. lia.
  - unfold coef at 1. destruct (Z.ltb_spec (Z.of_nat l) (Z.abs (Z.of_nat m + 4))); [|lia].
    unfold copol_p2. destruct (Nat.ltb_spec l 2); [lia|].
    rewrite coef_high; auto; lia.
Qed.

Lemma sqrt2_0 : (RtoC 0 * sqrt2)%C = RtoC 0.
Proof. ring. Qed.

Definition zeros (L : nat) := of_modes L L (fun _ _ => RtoC 0).

Lemma ideal_couplings L b : (4 <= L)%nat -> real_beam b -> band b ->
  exists m2 p2,
  let B := of_modes L L b in
  let blm := [B; m2; p2] in
  let h := mueller2spin (cmat ideal_hwp) in
  unpol2pol (RtoC 0) Cconj Copp B = Ok (m2, p2)
  /\ blmxhwp blm h "s0a0" false = Ok [B]
  /\ blmxhwp blm h "s2a4" false = Ok [m2; p2]
  /\ blmxhwp blm h "s0a0_v" false = Ok [zeros L]
  /\ blmxhwp blm h "s0a2" false = Ok [zeros L; zeros L]
  /\ blmxhwp blm h "s0a2_v" false = Ok [zeros L; zeros L]
  /\ blmxhwp blm h "s2a2" false = Ok [zeros L; zeros L]
  /\ blmxhwp blm h "s2a0" false = Ok [zeros L; zeros L].
Proof.
  intros HL Hr Hb. exists (of_modes L L (copol_m2 b)), (of_modes L L (copol_p2 b)). cbv zeta.
  assert (HL1 : (1 <= L)%nat) by lia. assert (Z4 : (4 <= Z.of_nat L)%Z) by lia.
  assert (Z2 : (2 <= Z.of_nat L)%Z) by lia.
  split; [exact (unpol2pol_spec (RtoC 0) Cconj Copp L b HL1)|].
  rewrite spin_ideal. unfold zeros, blmxhwp, is.
  cbn [string_dec string_rec string_rect Ascii.ascii_dec sumbool_rec sumbool_rect
       Ascii.ascii_rec Ascii.ascii_rect Bool.bool_dec bool_rec bool_rect].
  cbn [index nth_error bind e0 e1 e2 e3].
  rewrite !(shift_blm_spec (RtoC 0) Cconj Copp Cconj0 Copp0) by assumption.
  cbn [bind]. unfold c0, c1. rewrite !sqrt2_0, !times_0, !times_1, flip_m2, flip_p2 by assumption.
  repeat split; reflexivity.
Qed.

Lemma axisym_real_band (b : nat -> nat -> C) :
  (forall l m, (1 <= m)%nat -> b l m = RtoC 0) -> band b.
Proof. intros H l m Hm _. auto. Qed.

(** Below band limit 4 the modulated coupling cannot be formed. *)
Lemma small_band_limit L b1 b2 b h bv : (L < 4)%nat ->
  blmxhwp [b; of_modes L L b1; of_modes L L b2] h "s2a4" bv = Err ValueError.
Proof.
  intros HL. unfold blmxhwp, is.
  cbn [string_dec string_rec string_rect Ascii.ascii_dec sumbool_rec sumbool_rect
       Ascii.ascii_rec Ascii.ascii_rect Bool.bool_dec bool_rec bool_rect].
  cbn [index nth_error bind].
  rewrite (shift_blm_too_large (RtoC 0) Cconj Copp) by lia. reflexivity.
Qed.

(** Intensity leakage. *)
Lemma is2_sqrt2 : is2 * sqrt 2 = 1.
Proof. unfold is2. field. apply sqrt2_neq. Qed.

Lemma s0a2_law L (m : rmat4) b b1 b2 bv : (2 <= L)%nat ->
  blmxhwp [b; of_modes L L b1; of_modes L L b2] (mueller2spin (cmat m)) "s0a2" bv
  = Ok [of_modes L L (fun l k => Cmul (cf b1 b2 l (Z.of_nat k + 2)) (e1 (e0 m), e2 (e0 m)));
        of_modes L L (fun l k => Cmul (cf b2 b1 l (Z.of_nat k - 2)) (e0 (e1 m), - e0 (e2 m)))].
Proof.
  intros HL. unfold blmxhwp, is.
  cbn [string_dec string_rec string_rect Ascii.ascii_dec sumbool_rec sumbool_rect
       Ascii.ascii_rec Ascii.ascii_rect Bool.bool_dec bool_rec bool_rect].
  cbn [index nth_error bind].
  rewrite (shift_blm_spec (RtoC 0) Cconj Copp Cconj0 Copp0) by lia. cbn [bind].
  rewrite spin_elems. cbn [e0 e1 e2 e3]. rewrite !times_modes.
  pose proof is2_sqrt2 as E.
  assert (F : forall x y, Cmul (is2 * x, is2 * y) sqrt2 = (x, y)).
  { intros. apply C_eq; cbn; ring [E]. }
  assert (G : forall x y, Cmul (is2 * x, - is2 * y) sqrt2 = (x, - y)).
  { intros. apply C_eq; cbn; ring [E]. }
  rewrite F, G. reflexivity.
Qed.

(** Two matrices that agree in everything but an element of the first row. *)
Lemma s0a2_first_row_matters : exists (m m' : rmat4) (blm : list (list C)),
  map4 e0 m = map4 e0 m'
  /\ blmxhwp blm (mueller2spin (cmat m)) "s0a2" false
     <> blmxhwp blm (mueller2spin (cmat m')) "s0a2" false.
Proof.
  exists reye4, (V4 (V4 1 1 0 0) (V4 0 1 0 0) (V4 0 0 1 0) (V4 0 0 0 1)).
  exists [of_modes 2 2 (fun _ _ => RtoC 1); of_modes 2 2 (fun _ _ => RtoC 1); of_modes 2 2 (fun _ _ => RtoC 1)].
  split; [reflexivity|]. rewrite !s0a2_law by lia. cbn [e0 e1 e2 e3 reye4 diag4].
  intros E.
  apply (f_equal (fun r => match r with
    | Ok (x :: _) => match nth_error x 2 with Some z => Re z | None => 0 end | _ => 0 end)) in E.
  cbn in E. lra.
Qed.

(** The same for circular polarisation. *)
Lemma s0a2v_law L (m : rmat4) b b1 b2 v bv : (2 <= L)%nat ->
  blmxhwp [b; of_modes L L b1; of_modes L L b2; v] (mueller2spin (cmat m)) "s0a2_v" bv
  = Ok [of_modes L L (fun l k => Cmul (cf b1 b2 l (Z.of_nat k + 2)) (e1 (e3 m), e2 (e3 m)));
        of_modes L L (fun l k => Cmul (cf b2 b1 l (Z.of_nat k - 2)) (e3 (e1 m), - e3 (e2 m)))].
Proof.
  intros HL. unfold blmxhwp, is.
  cbn [string_dec string_rec string_rect Ascii.ascii_dec sumbool_rec sumbool_rect
       Ascii.ascii_rec Ascii.ascii_rect Bool.bool_dec bool_rec bool_rect].
  cbn [index nth_error bind].
  rewrite (shift_blm_spec (RtoC 0) Cconj Copp Cconj0 Copp0) by lia. cbn [bind].
  rewrite spin_elems. cbn [e0 e1 e2 e3]. rewrite !times_modes.
  pose proof is2_sqrt2 as E.
  assert (F : forall x y, Cmul (is2 * x, is2 * y) sqrt2 = (x, y)).
  { intros. apply C_eq; cbn; ring [E]. }
  assert (G : forall x y, Cmul (is2 * x, - is2 * y) sqrt2 = (x, - y)).
  { intros. apply C_eq; cbn; ring [E]. }
  rewrite F, G. reflexivity.
Qed.

Lemma s0a2v_last_row_matters : exists (m m' : rmat4) (blm : list (list C)),
  map4 e3 m = map4 e3 m'
  /\ blmxhwp blm (mueller2spin (cmat m)) "s0a2_v" false
     <> blmxhwp blm (mueller2spin (cmat m')) "s0a2_v" false.
Proof.
  exists reye4, (V4 (V4 1 0 0 0) (V4 0 1 0 0) (V4 0 0 1 0) (V4 0 1 0 1)).
  exists [of_modes 2 2 (fun _ _ => RtoC 1); of_modes 2 2 (fun _ _ => RtoC 1);
          of_modes 2 2 (fun _ _ => RtoC 1); of_modes 2 2 (fun _ _ => RtoC 1)].
  split; [reflexivity|]. rewrite !s0a2v_law by lia. cbn [e0 e1 e2 e3 reye4 diag4].
  intros E.
  apply (f_equal (fun r => match r with
    | Ok (x :: _) => match nth_error x 2 with Some z => Re z | None => 0 end | _ => 0 end)) in E.
  cbn in E. lra.
Qed.
