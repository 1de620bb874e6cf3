(** * Scanning and binning: the same angle *)
From Coq Require Import Reals String Lra Lia Permutation.
From Verif Require Import Common LibList M_Chunks M_Quat M_Hwp M_Detpair M_Scan M_Bin S_Chunks S_Quat S_Hwp S_Detpair S_Scan S_Saved S_Contrib
  L_Quat L_Scan L_Scan9 L_Scan16 L_Scan17 L_Contrib L_Contrib2.
From Verif Require Import M_Tod S_Tod L_Tod L_Tod2 L_Tod3 S_Bin Cplx.
From Verif Require M_Solve S_Solve L_Solve.
Local Notation length := List.length.
Open Scope R_scope.

Lemma same_angle_trans a b c : same_angle a b -> same_angle b c -> same_angle a c.
Proof. intros [k ->] [l ->]. exists (k + l)%Z. rewrite plus_IZR. ring. Qed.
Lemma same_angle_eq a b : a = b -> same_angle a b.
Proof. intros ->. exists 0%Z. ring. Qed.
Lemma same_angle_add a b c d : same_angle a b -> same_angle (c + b) d -> same_angle (c + a) d.
Proof. intros [k ->] [l H]. exists (k + l)%Z. rewrite plus_IZR. lra. Qed.

Lemma cos_turn x k : cos (x + 2 * PI * IZR k) = cos x.
Proof.
  destruct k as [|n|n].
  - f_equal. ring.
  - rewrite <- (cos_period x (Pos.to_nat n)). f_equal. rewrite INR_IZR_INZ, positive_nat_Z. ring.
  - rewrite <- (cos_period _ (Pos.to_nat n)). f_equal. rewrite INR_IZR_INZ, positive_nat_Z.
    change (Z.neg n) with (- Z.pos n)%Z. rewrite opp_IZR. ring.
Qed.
Lemma sin_turn x k : sin (x + 2 * PI * IZR k) = sin x.
Proof.
  destruct k as [|n|n].
  - f_equal. ring.
  - rewrite <- (sin_period x (Pos.to_nat n)). f_equal. rewrite INR_IZR_INZ, positive_nat_Z. ring.
  - rewrite <- (sin_period _ (Pos.to_nat n)). f_equal. rewrite INR_IZR_INZ, positive_nat_Z.
    change (Z.neg n) with (- Z.pos n)%Z. rewrite opp_IZR. ring.
Qed.
Lemma cis_angle a b : same_angle a b -> cis (2 * a) = cis (2 * b).
Proof.
  intros [k ->]. unfold cis. replace (2 * (b + 2 * PI * IZR k)) with (2 * b + 2 * PI * IZR (2 * k)).
  - now rewrite cos_turn, sin_turn.
  - rewrite mult_IZR. ring.
Qed.

(** ** Quaternions *)
Lemma qmul_assoc p q r : quat_left_mult p (quat_left_mult q r) = quat_left_mult (quat_left_mult p q) r.
Proof. destruct p, q, r. unfold quat_left_mult. cbn. f_equal; ring. Qed.
Lemma q_z_add a b : quat_left_mult (q_z a) (q_z b) = q_z (a + b).
Proof.
  unfold quat_left_mult, q_z. cbn. replace ((a + b) / 2) with (a / 2 + b / 2) by field.
  rewrite cos_plus, sin_plus. f_equal; ring.
Qed.
Lemma sumsq_mul p q : sumsq (quat_left_mult p q) = sumsq p * sumsq q.
Proof. destruct p, q. unfold sumsq, quat_left_mult. cbn. ring. Qed.
Lemma sumsq_z a : sumsq (q_z a) = 1.
Proof. unfold sumsq, q_z. cbn. pose proof (sin2_cos2 (a / 2)) as H. unfold Rsqr in H. lra. Qed.

Lemma aimed_turned ra dec psi a : quat_left_mult (aimed ra dec psi) (q_z a) = aimed ra dec (psi - a).
Proof. unfold aimed. rewrite <- qmul_assoc, q_z_add. do 2 f_equal. ring. Qed.

(** The quaternion used for binning is the one used for scanning, turned. *)
Lemma bin_turned qb qo pol h phi : bin_q_det qb qo pol h phi
  = quat_left_mult (quat_left_mult qb qo) (q_z (- (pol * PI / 180 + 2 * h - 2 * (phi * PI / 180)))).
Proof.
  unfold bin_q_det, bin_q_off, bin_q_hwp, hwp_quat. rewrite !qmul_assoc.
  rewrite <- (qmul_assoc (quat_left_mult qb qo)), q_z_add. do 2 f_equal.
  pose proof PI_neq0. field. auto.
Qed.

Lemma same_self n maps : same_timestreams n maps maps.
Proof. intros m qs pa polang h _ _ _ _. reflexivity. Qed.

Lemma plain_seen m0 m2 maps : symmetric_maps m0 m2 maps -> seen_as m0 m2 maps.
Proof. intros H. exists maps. split; [exact H|apply same_self]. Qed.

Section P.
  Context (P : optics) (npix : nat) (SD : sound P npix).

  Lemma scan_unit d v j : sumsq (scan_q_det P d v j) = 1.
  Proof.
    unfold scan_q_det, scan_q_off. cbv zeta. rewrite !sumsq_mul, (sd_bore _ _ SD), (sd_off _ _ SD).
    change (Q4 _ _ _ _) with (q_z (v_rot v * PI / 180)). rewrite sumsq_z. ring.
  Qed.

  Lemma bin_angle d v j x : let o := bin_sample P d v j x in let at_ := x_look P (scan_q_det P d v j) in
    exists psi, M_Solve.o_pix o = fst at_ /\ M_Solve.o_val o = x
      /\ M_Solve.o_cos o = cos (2 * psi) /\ M_Solve.o_sin o = x_sign P * sin (2 * psi)
      /\ same_angle psi (snd at_ * PI / 180 + x_polang P d * PI / 180 + 2 * bin_hwp v j - 2 * (x_varphi P * PI / 180)).
  Proof.
    cbv zeta. unfold bin_sample. cbv zeta. rewrite bin_turned.
    change (quat_left_mult (x_bore P v j) (scan_q_off (v_rot v) (x_off P d))) with (scan_q_det P d v j).
    destruct (sd_turns _ _ SD (scan_q_det P d v j)
      (- (x_polang P d * PI / 180 + 2 * bin_hwp v j - 2 * (x_varphi P * PI / 180))) (scan_unit d v j)) as [F A].
    eexists. split; [exact F|]. split; [reflexivity|]. split; [reflexivity|]. split; [reflexivity|].
    eapply same_angle_trans; [exact A|]. apply same_angle_eq. ring.
  Qed.

  (** The timestream of a symmetric beam. *)
  Lemma symmetric_tod m0 m2 maps d v : symmetric_maps m0 m2 maps -> length m0 = npix -> length m2 = npix ->
    angles_for (length (v_bore v)) (view_hwp v) ->
    exists tod, view_tod P d maps v = Ok (map RtoC tod) /\ length tod = length (v_bore v)
    /\ forall j, (j < length (v_bore v))%nat ->
       let at_ := x_look P (scan_q_det P d v j) in
       nth j tod 0 = Re (nth (fst at_) m0 (RtoC 0))
         + Re (nth (fst at_) m2 (RtoC 0)
               * cis (2 * (snd at_ * PI / 180 + polang_truth P d * PI / 180 + 2 * bin_hwp v j)))%C.
  Proof.
    intros HM L0 L2 HA. set (n := length (v_bore v)) in *.
    set (at_ := fun j => x_look P (scan_q_det P d v j)).
    set (e00 := {| ss_maps := [m0]; ss_svals := [0%Z] |}). set (e24 := {| ss_maps := [m2]; ss_svals := [2%Z] |}).
    assert (PK := Permutation_map fst HM). cbn [map fst] in PK.
    destruct (timestream_old npix n (map (fun j => Pix (fst (at_ j))) (seq 0 n)) (map (fun j => snd (at_ j)) (seq 0 n))
      (polang_truth P d) (view_hwp v) maps e00 e24) as (tod & Ht & Ln & V).
    - rewrite map_length. apply seq_length.
    - rewrite map_length. apply seq_length.
    - exact HA.
    - apply Forall_forall. intros p Hp. apply in_map_iff in Hp. destruct Hp as (j & <- & _). apply (sd_pixels _ _ SD).
    - refine (Permutation_NoDup (Permutation_sym PK) _). repeat constructor; cbn; intuition discriminate.
    - intros k. split; intros H.
      + apply (Permutation_in _ PK) in H. cbn in H. intuition congruence.
      + apply (Permutation_in _ (Permutation_sym PK)). cbn. intuition congruence.
    - apply (Permutation_in _ (Permutation_sym HM)). now left.
    - apply (Permutation_in _ (Permutation_sym HM)). right; now left.
    - split; [discriminate|]. split; [reflexivity|]. constructor; [exact L0|constructor].
    - split; [discriminate|]. split; [reflexivity|]. constructor; [exact L2|constructor].
    - repeat constructor; cbn; lia.
    - exists tod. split; [exact Ht|]. split; [exact Ln|]. intros j Hj. cbv zeta.
      specialize (V j Hj). cbv zeta in V. rewrite V. clear V.
      rewrite (nth_indep _ (Pix 0) (Pix (fst (at_ 0%nat)))) by (rewrite map_length, seq_length; exact Hj).
      rewrite (nth_indep (map (fun j => snd (at_ j)) (seq 0 n)) 0 (snd (at_ 0%nat))) by (rewrite map_length, seq_length; exact Hj).
      rewrite (map_nth (fun j => Pix (fst (at_ j)))), (map_nth (fun j => snd (at_ j))), seq_nth by exact Hj.
      cbn [plus]. unfold two_sided_sum, spin_sum. cbn [e00 e24 ss_maps ss_svals combine map fst snd value].
      unfold rsum, csum. cbn [fold_right Z.eqb].
      assert (HW : angle_at (view_hwp v) j = bin_hwp v j) by (unfold bin_hwp; destruct (view_hwp v); reflexivity).
      rewrite HW. unfold at_. generalize (x_look P (scan_q_det P d v j)). intros [p a]. cbn [fst snd].
      generalize (nth p m0 (RtoC 0)) (nth p m2 (RtoC 0)) (polang_truth P d) (bin_hwp v j). intros z0 z2 pol h.
      replace (2 * (a * PI / 180 + pol * PI / 180 + 2 * h))
        with ((4 * h + 2 * (pol * (PI / 180))) + (- (2 * (PI - a * (PI / 180)))) + 2 * PI * IZR 1) by (cbn; field).
      set (w := 4 * h + 2 * (pol * (PI / 180))). set (u := - (2 * (PI - a * (PI / 180)))).
      replace (cis (w + u + 2 * PI * IZR 1)) with (cis (w + u)) by (unfold cis; now rewrite cos_turn, sin_turn).
      replace (- (0 * (PI - a * (PI / 180)))) with 0 by ring.
      unfold cis. rewrite cos_plus, sin_plus, cos_0, sin_0. destruct z0, z2. unfold Cmul, Cadd, RtoC, Re, Im. cbn [fst snd]. ring.
  Qed.

  Lemma seen_tod m0 m2 maps d v : seen_as m0 m2 maps -> length m0 = npix -> length m2 = npix ->
    angles_for (length (v_bore v)) (view_hwp v) ->
    exists tod, view_tod P d maps v = Ok (map RtoC tod) /\ length tod = length (v_bore v)
    /\ forall j, (j < length (v_bore v))%nat ->
       let at_ := x_look P (scan_q_det P d v j) in
       nth j tod 0 = Re (nth (fst at_) m0 (RtoC 0))
         + Re (nth (fst at_) m2 (RtoC 0)
               * cis (2 * (snd at_ * PI / 180 + polang_truth P d * PI / 180 + 2 * bin_hwp v j)))%C.
  Proof.
    intros (maps' & SM & ST) L0 L2 HA.
    destruct (symmetric_tod m0 m2 maps' d v SM L0 L2 HA) as (tod & VT & X).
    exists tod. split; [|exact X]. rewrite <- VT. unfold view_tod.
    rewrite <- (map_map (fun j => fst (x_look P (scan_q_det P d v j))) Pix). apply ST.
    - rewrite map_length. apply seq_length.
    - rewrite map_length. apply seq_length.
    - exact HA.
    - rewrite L0. apply Forall_forall. intros q Hq. apply in_map_iff in Hq. destruct Hq as (j & <- & _).
      apply (sd_pixels _ _ SD).
  Qed.
End P.
