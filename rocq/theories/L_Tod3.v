(** * The timestream: statements used by the property file *)
From Coq Require Import Reals String Lra Lia.
From Verif Require Import Common Cplx LibList M_Alm M_Blm M_Mueller M_Tod S_Tod L_Tod L_Tod2.
Open Scope R_scope.

Lemma real_result n (f : nat -> R) :
  exists tod, Ok (arr n (fun i => RtoC (f i))) = Ok (map RtoC tod)
  /\ List.length tod = n /\ forall i, (i < n)%nat -> nth i tod 0 = f i.
Proof.
  exists (arr n f). rewrite map_arr. split; [reflexivity|]. split; [apply arr_len|].
  intros. apply arr_nth. assumption.
Qed.

Lemma modulate_two_sided npix n pix pa S (half full : list (list C)) :
  List.length pix = n -> List.length pa = n -> Forall (on_map npix) pix ->
  List.length half = (S + 1)%nat -> List.length full = (2 * S + 1)%nat ->
  Forall (fun m => List.length m = npix) half -> Forall (fun m => List.length m = npix) full ->
  (forall k, (k <= S)%nat -> nth (S + k) full [] = nth k half []
                         /\ nth (S - k) full [] = map Cconj (nth k half [])) ->
  exists tod,
    scan_modulate_pa (repeat (RtoC 0) n) pix pa full (spins_both S) false = Ok (map RtoC tod)
    /\ scan_modulate_pa (repeat (RtoC 0) n) pix pa half (spins_upto S) true = Ok (map RtoC tod)
    /\ List.length tod = n.
Proof.
  intros Lp La HP Lh Lf Mh Mf H.
  set (P i := nth i pix (Pix 0)). set (A i := nth i pa 0).
  assert (EP : pix = arr n P) by (rewrite (arr_of pix (Pix 0)), Lp; reflexivity).
  assert (EA : pa = arr n A) by (rewrite (arr_of pa 0), La; reflexivity).
  assert (HQ : forall i, (i < n)%nat -> on_map npix (P i)) by (intros; apply nth_in_range; [exact HP|lia]).
  rewrite EP, EA, repeat_arr.
  rewrite (modulate_ok n npix); auto; try discriminate.
  2:{ unfold spins_both. rewrite Nat.add_comm. cbn. discriminate. }
  2:{ unfold spins_both. rewrite map_length, seq_length. exact Lf. }
  rewrite (modulate_ok n npix); auto.
  2:{ unfold spins_upto. rewrite Nat.add_comm. cbn. discriminate. }
  2:{ unfold spins_upto. rewrite map_length, seq_length. exact Lh. }
  2:{ intros _. apply Forall_forall. intros s Hs. unfold spins_upto in Hs. apply in_map_iff in Hs.
      destruct Hs as (k & <- & _). lia. }
  exists (arr n (fun i => two_sided_sum half (spins_upto S) (P i) (A i))).
  rewrite map_arr, arr_len. split; [|split; [|reflexivity]]; f_equal; apply arr_ext; intros i Hi.
  - rewrite total_complex, (real_is_two_sided S half full) by assumption. rewrite <- RtoC_add. f_equal. ring.
  - rewrite total_real, <- RtoC_add. f_equal. ring.
Qed.

Lemma timestream_old npix n pix pa polang h d e00 e24 :
  List.length pix = n -> List.length pa = n -> angles_for n h -> Forall (on_map npix) pix ->
  NoDup (map fst d) ->
  (forall k, In k (map fst d) <-> k = "s0a0"%string \/ k = "s2a4"%string) ->
  In ("s0a0"%string, e00) d -> In ("s2a4"%string, e24) d ->
  well_sized npix e00 -> well_sized npix e24 ->
  Forall (fun s => 0 <= s)%Z (ss_svals e00) ->
  exists tod, scan_tod n d pix pa polang h = Ok (map RtoC tod) /\ List.length tod = n
  /\ forall i, (i < n)%nat ->
     let p := nth i pix (Pix 0) in
     let psi := PI - nth i pa 0 * (PI / 180) in
     nth i tod 0
     = two_sided_sum (ss_maps e00) (ss_svals e00) p psi
       + Re (spin_sum (ss_maps e24) (ss_svals e24) p psi
             * cis (4 * angle_at h i + 2 * (polang * (PI / 180))))%C.
Proof.
  intros Lp La Hh HP N K I0 I4 W0 W4 S0.
  rewrite (scan_old n npix pix pa polang h Lp La Hh HP d e00 e24); auto.
  apply real_result.
Qed.

Lemma timestream_new npix n pix pa polang h d e00 e24 e20 e02 e22 S :
  List.length pix = n -> List.length pa = n -> angles_for n h -> Forall (on_map npix) pix ->
  five_sets d e00 e24 e20 e02 e22 ->
  Forall (well_sized npix) [e00; e24; e20; e02; e22] ->
  Forall (fun s => 0 <= s)%Z (ss_svals e00) -> ss_svals e02 = spins_both S ->
  exists tod, scan_tod n d pix pa polang h = Ok (map RtoC tod) /\ List.length tod = n
  /\ forall i, (i < n)%nat ->
     let p := nth i pix (Pix 0) in
     let psi := PI - nth i pa 0 * (PI / 180) in
     nth i tod 0
     = two_sided_sum (ss_maps e00) (ss_svals e00) p psi
         + Re (spin_sum (ss_maps e24) (ss_svals e24) p psi
               * cis (4 * angle_at h i + 2 * (polang * (PI / 180))))%C
         + Re (spin_sum (ss_maps e20) (ss_svals e20) p psi)
         + Re (coded_sum polang (ss_maps e02) S p psi * cis (2 * angle_at h i))%C
         + Re (spin_sum (ss_maps e22) (ss_svals e22) p psi * cis (2 * angle_at h i))%C.
Proof.
  intros Lp La Hh HP (N & I00 & I24 & I20 & I02 & I22) W S0 ES.
  inversion W as [|? ? W00 W1]; subst. inversion W1 as [|? ? W24 W2]; subst.
  inversion W2 as [|? ? W20 W3]; subst. inversion W3 as [|? ? W02 W4]; subst.
  inversion W4 as [|? ? W22 _]; subst.
  rewrite (scan_new (List.length pix) npix pix pa polang h eq_refl La Hh HP d e00 e24 e20 e02 e22 S); auto.
  apply real_result.
Qed.

Lemma well_len npix e S : well_sized npix e -> ss_svals e = spins_both S ->
  List.length (ss_maps e) = (2 * S + 1)%nat.
Proof.
  intros (_ & L & _) ES. rewrite L, ES. unfold spins_both. rewrite map_length, seq_length. reflexivity.
Qed.

Lemma timestream_aligned npix n pix pa z h d e00 e24 e20 e02 e22 S :
  List.length pix = n -> List.length pa = n -> angles_for n h -> Forall (on_map npix) pix ->
  five_sets d e00 e24 e20 e02 e22 ->
  Forall (well_sized npix) [e00; e24; e20; e02; e22] ->
  Forall (fun s => 0 <= s)%Z (ss_svals e00) -> ss_svals e02 = spins_both S ->
  exists tod, scan_tod n d pix pa (180 * IZR z) h = Ok (map RtoC tod) /\ List.length tod = n
  /\ forall i, (i < n)%nat ->
     nth i tod 0
     = signal e00 e24 e20 e02 e22 (nth i pix (Pix 0)) (PI - nth i pa 0 * (PI / 180))
         (180 * IZR z * (PI / 180)) (angle_at h i).
Proof.
  intros Lp La Hh HP D W S0 ES.
  destruct (timestream_new npix n pix pa (180 * IZR z) h d e00 e24 e20 e02 e22 S)
    as (tod & E & L & V); auto.
  exists tod. split; [exact E|]. split; [exact L|]. intros i Hi. rewrite V by exact Hi.
  assert (Lm : List.length (ss_maps e02) = (2 * S + 1)%nat).
  { apply (well_len npix); [|exact ES]. rewrite Forall_forall in W. apply W. cbn. tauto. }
  rewrite coded_aligned by (auto using cis_turns). rewrite <- ES.
  unfold signal. rewrite cis_add, cis_turns.
  rewrite (cis_add (2 * angle_at h i)), !cis_turns.
  set (A := spin_sum (ss_maps e24) _ _ _). set (B := spin_sum (ss_maps e20) _ _ _).
  set (D' := spin_sum (ss_maps e02) _ _ _).
  assert (U : forall x : C, (x * RtoC 1)%C = x) by (intros; ring). rewrite !U. reflexivity.
Qed.

Lemma timestream_unleaked npix n pix pa polang h d e00 e24 e20 e02 e22 S :
  List.length pix = n -> List.length pa = n -> angles_for n h -> Forall (on_map npix) pix ->
  five_sets d e00 e24 e20 e02 e22 ->
  Forall (well_sized npix) [e00; e24; e20; e02; e22] ->
  Forall (fun s => 0 <= s)%Z (ss_svals e00) -> ss_svals e02 = spins_both S ->
  Forall (Forall (fun z => z = RtoC 0)) (ss_maps e20) ->
  Forall (Forall (fun z => z = RtoC 0)) (ss_maps e02) ->
  exists tod, scan_tod n d pix pa polang h = Ok (map RtoC tod) /\ List.length tod = n
  /\ forall i, (i < n)%nat ->
     nth i tod 0
     = signal e00 e24 e20 e02 e22 (nth i pix (Pix 0)) (PI - nth i pa 0 * (PI / 180))
         (polang * (PI / 180)) (angle_at h i).
Proof.
  intros Lp La Hh HP D W S0 ES Z20 Z02.
  destruct (timestream_new npix n pix pa polang h d e00 e24 e20 e02 e22 S)
    as (tod & E & L & V); auto.
  exists tod. split; [exact E|]. split; [exact L|]. intros i Hi. rewrite V by exact Hi.
  assert (Lm : List.length (ss_maps e02) = (2 * S + 1)%nat).
  { apply (well_len npix); [|exact ES]. rewrite Forall_forall in W. apply W. cbn. tauto. }
  unfold signal. rewrite zero_coded, !(zero_spin_sum (ss_maps e20)), !(zero_spin_sum (ss_maps e02)) by auto.
  cbn. ring.
Qed.

(** ** An axisymmetric beam, one pixel *)
Definition flat (s : Z) (v : C) : spinset := {| ss_maps := [[v]]; ss_svals := [s] |}.
Definition axisym (i p p0 l l2 : C) : spindict :=
  [("s0a0", flat 0 i); ("s2a4", flat 2 p); ("s2a0", flat 2 p0); ("s0a2", flat 0 l); ("s2a2", flat 2 l2)]%string.

Lemma axisym_tod i p p0 l l2 pa polang a :
  let psi := PI - pa * (PI / 180) in
  let pol := polang * (PI / 180) in
  exists t, scan_tod 1 (axisym i p p0 l l2) [Pix 0] [pa] polang (Fixed a) = Ok [RtoC t]
  /\ t = Re i + Re (p * cis (- (2 * psi)) * cis (4 * a + 2 * pol))%C
         + Re (p0 * cis (- (2 * psi)))%C
         + cos (2 * pol) * Re (l * cis (2 * a))%C
         + Re (l2 * cis (- (2 * psi)) * cis (2 * a))%C.
Proof.
  intros psi pol.
  destruct (timestream_new 1 1 [Pix 0] [pa] polang (Fixed a) (axisym i p p0 l l2)
     (flat 0 i) (flat 2 p) (flat 2 p0) (flat 0 l) (flat 2 l2) 0) as (tod & E & L & V).
  - reflexivity.
  - reflexivity.
  - exact I.
  - repeat constructor.
  - unfold five_sets, axisym. split; [|cbn; tauto].
    repeat constructor; cbn; intuition discriminate.
  - repeat constructor; cbn; try discriminate.
  - repeat constructor; cbn; lia.
  - reflexivity.
  - destruct tod as [|t [|]]; try discriminate. exists t. split; [exact E|].
    specialize (V 0%nat ltac:(lia)). cbn [nth] in V. rewrite V. clear V E L.
    unfold two_sided_sum, spin_sum, coded_sum, flat. cbn [ss_maps ss_svals combine map fst snd value nth Z.eqb seq].
    unfold csum, rsum. cbn [fold_right angle_at].
    fold psi. fold pol.
    assert (Z0 : forall x : C, (x + RtoC 0)%C = x) by (intros; ring). rewrite !Z0.
    rewrite Rmult_0_l, Ropp_0, cis_0.
    assert (U : forall x : C, (x * RtoC 1)%C = x) by (intros; ring). rewrite U.
    assert (K : Re (RtoC (cos (2 * pol)) * l * cis (2 * a))%C = cos (2 * pol) * Re (l * cis (2 * a))%C)
      by (destruct l; cbn; ring).
    rewrite K. ring.
Qed.

Lemma axisym_signal i p p0 l l2 psi pol a :
  signal (flat 0 i) (flat 2 p) (flat 2 p0) (flat 0 l) (flat 2 l2) (Pix 0) psi pol a
  = Re i + Re (p * cis (- (2 * psi)) * cis (4 * a + 2 * pol))%C
    + Re (p0 * cis (- (2 * psi)) * cis (2 * pol))%C
    + Re (l * cis (2 * a + 2 * pol))%C
    + Re (l2 * cis (- (2 * psi)) * cis (2 * a))%C.
Proof.
  unfold signal, two_sided_sum, spin_sum, flat. cbn [ss_maps ss_svals combine map fst snd value nth Z.eqb].
  unfold csum, rsum. cbn [fold_right].
  assert (Z0 : forall x : C, (x + RtoC 0)%C = x) by (intros; ring). rewrite !Z0.
  rewrite !Rmult_0_l, !Ropp_0, cis_0.
  assert (U : forall x : C, (x * RtoC 1)%C = x) by (intros; ring). rewrite !U. ring.
Qed.

Lemma leakage_wrong :
  exists l polang a t,
    scan_tod 1 (axisym (RtoC 0) (RtoC 0) (RtoC 0) l (RtoC 0)) [Pix 0] [0] polang (Fixed a) = Ok [RtoC t]
    /\ t <> Re (l * cis (2 * a + 2 * (polang * (PI / 180))))%C.
Proof.
  destruct (axisym_tod (RtoC 0) (RtoC 0) (RtoC 0) (RtoC 1) (RtoC 0) 0 45 (- (PI / 4))) as (t & E & V).
  exists (RtoC 1), 45, (- (PI / 4)), t. split; [exact E|]. rewrite V. clear.
  replace (45 * (PI / 180)) with (PI / 4) by field.
  replace (2 * - (PI / 4) + 2 * (PI / 4)) with 0 by field.
  replace (2 * (PI / 4)) with (PI / 2) by field. rewrite cis_0, cos_PI2.
  cbn. lra.
Qed.

Lemma unmodulated_wrong :
  exists p0 polang t,
    scan_tod 1 (axisym (RtoC 0) (RtoC 0) p0 (RtoC 0) (RtoC 0)) [Pix 0] [180] polang (Fixed 0) = Ok [RtoC t]
    /\ t <> Re (p0 * cis (2 * (polang * (PI / 180))))%C.
Proof.
  destruct (axisym_tod (RtoC 0) (RtoC 0) (RtoC 1) (RtoC 0) (RtoC 0) 180 90 0) as (t & E & V).
  exists (RtoC 1), 90, t. split; [exact E|]. rewrite V. clear.
  replace (PI - 180 * (PI / 180)) with 0 by field.
  replace (2 * (90 * (PI / 180))) with PI by field.
  unfold cis. rewrite cos_PI, sin_PI. rewrite !Rmult_0_r, !Ropp_0, cos_0, sin_0. cbn. lra.
Qed.
