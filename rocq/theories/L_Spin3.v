(** * Spin maps behind a half-wave plate *)
From Coq Require Import Reals String Lra Lia.
From Verif Require Import Common Cplx LibList Mat M_Alm M_Blm M_Mueller S_Mueller M_Tod M_Spin
  S_Alm S_Tod S_Spin L_Alm L_Blm L_Mueller L_Blmxhwp L_Tod L_Tod2 L_Tod3 L_Spin L_Spin2.
Open Scope R_scope.

Section Shift.
Variables (q p : nat -> nat -> C).
Hypothesis Hqp : forall l, p l 0%nat = Cconj (q l 0%nat).

Lemma mode_conj l s : mode p q l (- s) = sg s (Cconj (mode q p l s)).
Proof.
  destruct (Z_le_gt_dec (Z.abs s) (Z.of_nat l)) as [I|I].
  - apply mode_opp; auto.
  - rewrite !mode_out by lia. rewrite Cconj_R. unfold sg. destruct (Z.even s); ring.
Qed.

Lemma sg_even j k x : Z.even k = true -> sg (j + k) x = sg j x.
Proof. intros E. rewrite sg_add. f_equal. unfold sg. rewrite E. reflexivity. Qed.

Definition sh_own (k : Z) (c : C) l m := (mode q p l (Z.of_nat m + k) * c)%C.
Definition sh_other (k : Z) (c : C) l m := (mode p q l (Z.of_nat m - k) * Cconj c)%C.

Lemma sh_zero k c l : Z.even k = true -> sh_own k c l 0%nat = Cconj (sh_other k c l 0%nat).
Proof.
  intros E. unfold sh_own, sh_other. cbn [Z.of_nat]. rewrite Z.add_0_l, Z.sub_0_l, mode_conj.
  unfold sg. rewrite E, Cconj_mul, !Cconj_conj. reflexivity.
Qed.

Lemma sh_mode k c l s : Z.even k = true ->
  mode (sh_own k c) (sh_other k c) l s = displaced (mode q p) k c l s.
Proof.
  intros E. unfold displaced. destruct (Z.leb_spec (Z.abs s) (Z.of_nat l)) as [I|I]; [|apply mode_out; lia].
  destruct (Z_le_gt_dec 0 s) as [P|N].
  - rewrite mode_pos by lia. unfold sh_own. rewrite Z2Nat.id by lia. reflexivity.
  - rewrite mode_neg by lia. unfold sh_other. rewrite Z2Nat.id by lia.
    replace (- s - k)%Z with (- (s + k))%Z by lia. rewrite mode_conj.
    rewrite sg_even by exact E. rewrite Cconj_mul, Cconj_conj, sg_conj, Cconj_conj.
    rewrite sg_mul_l, sg_sg. reflexivity.
Qed.
End Shift.

Section Plate.
Variables (Y : Z -> nat -> Z -> nat -> C) (npix L : nat).
Variables (alm2map : list C -> list R) (alm2map_spin : list C -> list C -> Z -> list R * list R).
Hypothesis HY : conj_symmetric Y.
Hypothesis HP : healpix Y npix L alm2map alm2map_spin.
Variables aI aE aB bI bm bp : nat -> nat -> C.
Hypothesis RI : real_m0 aI.
Hypothesis RE : real_m0 aE.
Hypothesis RB : real_m0 aB.
Hypothesis Rb : real_m0 bI.
Hypothesis Hb : forall l, bm l 0%nat = Cconj (bp l 0%nat).
Hypothesis H4 : (4 <= L)%nat.

Lemma Hb' l : bp l 0%nat = Cconj (bm l 0%nat).
Proof. rewrite Hb, Cconj_conj. reflexivity. Qed.
Lemma HbI l : bI l 0%nat = Cconj (bI l 0%nat).
Proof. apply real_conj. exact Rb. Qed.

Variable m : rmat4.
Hypothesis SQ : e0 (e1 m) = e1 (e0 m).
Hypothesis SU : e0 (e2 m) = e2 (e0 m).

(** Scale factors: elements of the Mueller matrix. *)
Definition c24 : C := (1/2 * (e1 (e1 m) - e2 (e2 m)), 1/2 * (e1 (e2 m) + e2 (e1 m))).
Definition c20 : C := (1/2 * (e1 (e1 m) + e2 (e2 m)), - (1/2) * (e1 (e2 m) - e2 (e1 m))).
Definition c02 : C := (e0 (e1 m), - e0 (e2 m)).
Definition c22 : C := (e1 (e0 m), e2 (e0 m)).
Definition bI' (l k : nat) : C := (bI l k * RtoC (e0 (e0 m)))%C.

Lemma couplings :
  let blm := [of_modes L L bI; of_modes L L bm; of_modes L L bp] in
  let h := mueller2spin (cmat m) in
  blmxhwp blm h "s0a0" false = Ok [of_modes L L bI']
  /\ blmxhwp blm h "s2a4" false = Ok [of_modes L L (sh_own bp bm (-4) c24); of_modes L L (sh_other bp bm (-4) c24)]
  /\ blmxhwp blm h "s0a2" false = Ok [of_modes L L (sh_other bp bm (-2) c02); of_modes L L (sh_own bp bm (-2) c02)]
  /\ blmxhwp blm h "s2a2" false = Ok [of_modes L L (sh_own bI bI (-2) c22); of_modes L L (sh_other bI bI (-2) c22)]
  /\ blmxhwp blm h "s2a0" false = Ok [of_modes L L (sh_own bm bp 0 c20); of_modes L L (sh_other bm bp 0 c20)].
Proof.
  cbv zeta.
  assert (Z4 : (4 <= Z.of_nat L)%Z) by lia. assert (Z2 : (2 <= Z.of_nat L)%Z) by lia.
  pose proof is2_sqrt2 as E.
  assert (F : forall x y, Cmul (is2 * x, is2 * y) sqrt2 = (x, y)).
  { intros. apply C_eq; cbn; ring [E]. }
  assert (G : forall x y, Cmul (is2 * x, - is2 * y) sqrt2 = (x, - y)).
  { intros. apply C_eq; cbn; ring [E]. }
  rewrite (s0a2_law L m) by lia.
  unfold blmxhwp, is.
  cbn [string_dec string_rec string_rect Ascii.ascii_dec sumbool_rec sumbool_rect
       Ascii.ascii_rec Ascii.ascii_rect Bool.bool_dec bool_rec bool_rect].
  cbn [index nth_error bind].
  rewrite !(shift_blm_spec (RtoC 0) Cconj Copp Cconj0 Copp0) by assumption.
  cbn [bind]. rewrite spin_elems. cbn [e0 e1 e2 e3]. rewrite !times_modes, !F, !G.
  unfold sh_own, sh_other, bI', c24, c02, c22, c20, mode.
  repeat split; repeat (f_equal; try (apply of_modes_ext; intros l k Hk Hl)); try reflexivity.
  all: try (replace (Z.of_nat k - -4)%Z with (Z.of_nat k + 4)%Z by lia).
  all: try (replace (Z.of_nat k - -2)%Z with (Z.of_nat k + 2)%Z by lia).
  all: try (rewrite Z.add_0_r); try rewrite Z.sub_0_r.
  - apply C_eq; cbn; ring.
  - apply C_eq; cbn; rewrite ?SQ, ?SU; ring.
  - symmetry. apply coef_own. lia.
  - symmetry. apply coef_own. lia.
  - apply C_eq; cbn; ring.
Qed.

Definition Bmap (a : nat -> Z -> C) (b : nat -> Z -> C) (s : Z) : list C :=
  map (field Y L s (fun l k => a l k * b l s)%C) (seq 0 npix).

Lemma maps_mode a f g g' spins : (forall l s, mode f g l s = g' l s) ->
  map (fun s => map (field Y L s (fun l k => a l k * mode f g l s)%C) (seq 0 npix)) spins
  = map (Bmap a g') spins.
Proof.
  intros H. apply map_ext. intros s. apply map_ext. intros p. apply field_ext. intros. rewrite H. reflexivity.
Qed.

Lemma negI : negs (of_modes L L aI) = of_modes L L (fun l k => - aI l k)%C.
Proof. apply map_modes. Qed.
Lemma real_neg a : real_m0 a -> real_m0 (fun l k => - a l k)%C.
Proof. intros H l. specialize (H l). destruct (a l 0%nat). cbn in *. subst. ring. Qed.
Lemma plus2_I l k : plus2 (fun l k => - aI l k)%C (fun _ _ => RtoC 0) l k = aI l k.
Proof. unfold plus2. ring. Qed.
Lemma minus2_I l k : minus2 (fun l k => - aI l k)%C (fun _ _ => RtoC 0) l k = aI l k.
Proof. unfold minus2. ring. Qed.

Lemma plate symmetric S : (S <= L)%nat ->
  make_spinmaps alm2map alm2map_spin [of_modes L L aI; of_modes L L aE; of_modes L L aB]
    [of_modes L L bI; of_modes L L bm; of_modes L L bp] S symmetric (Some (cmat m)) false false
  = Ok [("s0a0", {| ss_maps := map (Imap Y npix L aI bI') (unpol_spins symmetric S); ss_svals := unpol_spins symmetric S |});
        ("s2a4", {| ss_maps := map (Bmap (mode (plus2 aE aB) (minus2 aE aB)) (displaced (mode bp bm) (-4) c24)) (pol_spins symmetric S);
                    ss_svals := pol_spins symmetric S |});
        ("s0a2", {| ss_maps := map (Bmap (mode aI aI) (displaced (mode bp bm) (-2) c02)) (leak_spins symmetric S);
                    ss_svals := leak_spins symmetric S |});
        ("s2a2", {| ss_maps := map (Bmap (mode (plus2 aE aB) (minus2 aE aB)) (displaced (mode bI bI) (-2) c22)) (pol_spins symmetric S);
                    ss_svals := pol_spins symmetric S |});
        ("s2a0", {| ss_maps := map (Bmap (mode (plus2 aE aB) (minus2 aE aB)) (displaced (mode bm bp) 0 c20)) (pol_spins symmetric S);
                    ss_svals := pol_spins symmetric S |})]%string.
Proof.
  intros HS. unfold make_spinmaps. rewrite spin_values_eq. cbn [index nth_error bind].
  destruct couplings as (C00 & C24 & C02 & C22 & C20). cbv zeta in *.
  rewrite C00, C24, C02, C22, C20. cbn [bind one two].
  assert (Rb2 : real_m0 bI') by (intros l; specialize (Rb l); unfold bI'; destruct (bI l 0%nat); cbn in *; subst; ring).
  assert (HL2 : (2 <= L)%nat) by lia.
  rewrite (real_maps Y npix L alm2map alm2map_spin HY HP aI bI') by (auto using unpol_ne, unpol_range).
  cbn [bind].
  pose proof (complex_maps_eb Y npix L alm2map alm2map_spin HY HP aE aB _ _ (pol_spins symmetric S) RE RB
     (fun l => sh_zero bp bm Hb (-4) c24 l eq_refl) (pol_range L _ _ HS HL2)) as M24.
  pose proof (complex_maps_eb Y npix L alm2map alm2map_spin HY HP (fun l k => - aI l k)%C (fun _ _ => RtoC 0) _ _ (leak_spins symmetric S)
     (real_neg _ RI) (fun _ => eq_refl)
     (fun l => sh_zero bp bm Hb (-2) c02 l eq_refl) (leak_range L _ _ HS)) as M02.
  pose proof (complex_maps_eb Y npix L alm2map alm2map_spin HY HP aE aB _ _ (pol_spins symmetric S) RE RB
     (fun l => sh_zero bI bI HbI (-2) c22 l eq_refl) (pol_range L _ _ HS HL2)) as M22.
  pose proof (complex_maps_eb Y npix L alm2map alm2map_spin HY HP aE aB _ _ (pol_spins symmetric S) RE RB
     (fun l => sh_zero bm bp Hb' 0 c20 l eq_refl) (pol_range L _ _ HS HL2)) as M20.
  rewrite negI, times_0.
  destruct (spin2eb (of_modes L L (sh_own bp bm (-4) c24)) _ 2) as [b24E b24B]. rewrite M24. cbn [bind].
  destruct (spin2eb (of_modes L L (sh_own bp bm (-2) c02)) _ 2) as [b02E b02B]. rewrite M02. cbn [bind].
  destruct (spin2eb (of_modes L L (sh_own bI bI (-2) c22)) _ 2) as [b22E b22B]. rewrite M22. cbn [bind].
  destruct (spin2eb (of_modes L L (sh_own bm bp 0 c20)) _ 2) as [b20E b20B]. rewrite M20. cbn [bind].
  rewrite (maps_mode _ (sh_own bp bm (-4) c24) (sh_other bp bm (-4) c24) (displaced (mode bp bm) (-4) c24)) by (intros; apply sh_mode; auto).
  rewrite (maps_mode _ (sh_own bp bm (-2) c02) (sh_other bp bm (-2) c02) (displaced (mode bp bm) (-2) c02)) by (intros; apply sh_mode; auto).
  rewrite (maps_mode _ (sh_own bI bI (-2) c22) (sh_other bI bI (-2) c22) (displaced (mode bI bI) (-2) c22)) by (intros; apply sh_mode; auto using HbI).
  rewrite (maps_mode _ (sh_own bm bp 0 c20) (sh_other bm bp 0 c20) (displaced (mode bm bp) 0 c20)) by (intros; apply sh_mode; auto using Hb').
  assert (EI : forall spins, map (Bmap (mode (plus2 (fun l k => - aI l k)%C (fun _ _ => RtoC 0)) (minus2 (fun l k => - aI l k)%C (fun _ _ => RtoC 0)))
      (displaced (mode bp bm) (-2) c02)) spins = map (Bmap (mode aI aI) (displaced (mode bp bm) (-2) c02)) spins).
  2:{ rewrite EI. reflexivity. }
  intros spins. apply map_ext. intros s. apply map_ext. intros p. apply field_ext. intros l k Hl Hk. f_equal.
  apply mode_ext; intros; [apply plus2_I|apply minus2_I].
Qed.

Lemma Bmap_sum a b spins q psi : (q < npix)%nat ->
  spin_sum (map (Bmap a b) spins) spins (Pix q) psi = convolved Y L a b spins q psi.
Proof.
  intros H. unfold spin_sum, convolved. rewrite combine_map_self, map_map. apply csum_map_eq.
  intros s _. cbn [fst snd]. unfold Bmap. rewrite value_map by exact H. reflexivity.
Qed.
Lemma Bmap_len a b s : List.length (Bmap a b s) = npix.
Proof. unfold Bmap. rewrite map_length, seq_length. reflexivity. Qed.
End Plate.
