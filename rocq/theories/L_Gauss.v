(** * The generated Gaussian beam *)
From Coq Require Import Reals Lra Bool.
From Verif Require Import Common LibList M_Alm S_Alm L_Alm M_Blm L_Blm M_Gauss S_Gauss.
From Verif Require M_Spin S_Spin L_Bin3 S_Bin.
From Verif Require Import Cplx.
Open Scope R_scope.

Lemma ln2_pos : 0 < ln 2.
Proof. rewrite <- ln_1. apply ln_increasing; lra. Qed.

(** The width in terms of the full width at half maximum. *)
Lemma fwhm_sq sigma w : has_fwhm sigma w -> sigma ^ 2 = w ^ 2 / (8 * ln 2).
Proof.
  intros [S0 H]. unfold profile in H. assert (L2 := ln2_pos).
  replace (- (0 ^ 2) / (2 * sigma ^ 2)) with 0 in H by (field; lra).
  rewrite exp_0 in H. apply (f_equal ln) in H. rewrite ln_exp in H.
  replace (1 / 2) with (/ 2) in H by field. rewrite ln_Rinv in H by lra.
  assert (K : w ^ 2 = 8 * sigma ^ 2 * ln 2).
  { apply (f_equal (fun x => - x * (8 * sigma ^ 2))) in H. 
    replace (- (- (w / 2) ^ 2 / (2 * sigma ^ 2)) * (8 * sigma ^ 2)) with (w ^ 2) in H by (field; lra). lra. }
  rewrite K. field. lra.
Qed.

Lemma fwhm_exists w : 0 < w -> has_fwhm (w / sqrt (8 * ln 2)) w.
Proof.
  intros W. assert (L2 := ln2_pos). assert (Q : 0 < sqrt (8 * ln 2)) by (apply sqrt_lt_R0; lra).
  split; [apply Rdiv_lt_0_compat; auto|]. unfold profile.
  assert (Sq : (w / sqrt (8 * ln 2)) ^ 2 = w ^ 2 / (8 * ln 2)).
  { unfold Rdiv. rewrite Rpow_mult_distr, pow_inv, pow2_sqrt; lra. }
  rewrite Sq.
  replace (- (w / 2) ^ 2 / (2 * (w ^ 2 / (8 * ln 2)))) with (- ln 2) by (field; lra).
  replace (- 0 ^ 2 / (2 * (w ^ 2 / (8 * ln 2)))) with 0 by (field; lra).
  rewrite exp_0, exp_Ropp, exp_ln; lra.
Qed.

Lemma sq8 w : (w / sqrt (8 * ln 2)) ^ 2 = w ^ 2 / (8 * ln 2).
Proof. assert (L2 := ln2_pos). unfold Rdiv. rewrite Rpow_mult_distr, pow_inv, pow2_sqrt; lra. Qed.
Lemma sq2 w : (w / (2 * sqrt (2 * ln 2))) ^ 2 = w ^ 2 / (8 * ln 2).
Proof.
  assert (L2 := ln2_pos). assert (Q : 0 < sqrt (2 * ln 2)) by (apply sqrt_lt_R0; lra).
  unfold Rdiv. rewrite Rpow_mult_distr, pow_inv, Rpow_mult_distr, pow2_sqrt by lra. field. lra.
Qed.

(** For any [v] that is the variance the code uses. *)
Definition win (v : R) (l : nat) : R := exp (- (INR l * (INR l + 1)) * v / 2).
Definition pwin (v : R) (l : nat) : R := exp (- (INR l * (INR l + 1) - 4) * v / 2).
Definition variance (fwhm : R) : R := (fwhm / 60 * PI / 180) ^ 2 / (8 * ln 2).

Lemma gauss_beam_win fwhm l : gauss_beam (fwhm / 60 * PI / 180) l = win (variance fwhm) l.
Proof. unfold gauss_beam, win, variance. cbv zeta. rewrite sq8. f_equal. field. pose proof ln2_pos. lra. Qed.
Lemma pwin_win fwhm l : win (variance fwhm) l * expsig2 fwhm = pwin (variance fwhm) l.
Proof.
  unfold win, pwin, expsig2. cbv zeta. rewrite sq2, <- exp_plus. fold (variance fwhm). f_equal. field.
Qed.
Lemma variance_0 : variance 0 = 0.
Proof. unfold variance. pose proof ln2_pos. field. lra. Qed.

Lemma gaussian_raw fwhm a L : (1 <= L)%nat ->
  gen_gaussian_blm fwhm a L
  = Ok (of_modes L L (fun l m => if (m =? 0)%nat then RtoC (a * win (variance fwhm) l) else RtoC 0),
        of_modes L L (fun l m => if ((m =? 2)%nat && (2 <=? l)%nat)%bool then RtoC (a * pwin (variance fwhm) l) else RtoC 0),
        of_modes L L (fun _ _ => RtoC 0)).
Proof.
  intros HL. unfold gen_gaussian_blm. rewrite gauss_blm_spec by (unfold bell; rewrite map_length, seq_length; reflexivity).
  cbn [bind].
  assert (EI : (if Req_EM_T a 1 then of_modes L L (fun l m => if (m =? 0)%nat then nth l (bell fwhm L) (RtoC 0) else RtoC 0)
     else map (fun x => Cmul x (RtoC a)) (of_modes L L (fun l m => if (m =? 0)%nat then nth l (bell fwhm L) (RtoC 0) else RtoC 0)))
    = of_modes L L (fun l m => if (m =? 0)%nat then RtoC (a * win (variance fwhm) l) else RtoC 0)).
  { assert (N : forall l, (l <= L)%nat -> nth l (bell fwhm L) (RtoC 0) = RtoC (win (variance fwhm) l)).
    { intros l Hl. unfold bell. rewrite nth_indep with (d' := RtoC (gauss_beam (fwhm / 60 * PI / 180) 0)) by (rewrite map_length, seq_length; lia).
      rewrite (map_nth (fun l => RtoC (gauss_beam (fwhm / 60 * PI / 180) l))), seq_nth by lia.
      rewrite gauss_beam_win. reflexivity. }
    destruct (Req_EM_T a 1) as [->|_]; [|rewrite map_modes]; apply of_modes_ext; intros l m _ Hl;
      (destruct (m =? 0)%nat; [rewrite N by lia|]); apply C_eq; cbn; ring. }
  rewrite EI. clear EI. unfold get_copol_blm, scale_blm. cbn [negb andb bind].
  rewrite (unpol2pol_spec (RtoC 0) Cconj Copp) by exact HL. cbn [bind].
  set (bI := fun l m : nat => if (m =? 0)%nat then RtoC (a * win (variance fwhm) l) else RtoC 0).
  assert (P : of_modes L L (pol_m2 (RtoC 0) Cconj Copp bI)
    = of_modes L L (fun l m => if ((m =? 2)%nat && (2 <=? l)%nat)%bool then RtoC (a * win (variance fwhm) l) else RtoC 0)).
  { apply of_modes_ext. intros l m Hm Hl. unfold pol_m2, bI.
    destruct (Nat.ltb_spec l 2).
    { destruct (Nat.leb_spec 2 l); [lia|]. rewrite andb_false_r. reflexivity. }
    destruct (Nat.leb_spec 2 l); [|lia]. rewrite andb_true_r.
    unfold coef. destruct (Z.ltb_spec (Z.of_nat l) (Z.abs (Z.of_nat m - 2))).
    { destruct (Nat.eqb_spec m 2); [lia|reflexivity]. }
    destruct (Z.leb_spec 0 (Z.of_nat m - 2)).
    + destruct (Nat.eqb_spec (Z.to_nat (Z.of_nat m - 2)) 0), (Nat.eqb_spec m 2); auto; lia.
    + destruct (Nat.eqb_spec (Z.to_nat (- (Z.of_nat m - 2))) 0), (Nat.eqb_spec m 2); try lia.
      rewrite Cconj0. destruct (Z.even _); auto using Copp0. }
  assert (Q : of_modes L L (pol_p2 (RtoC 0) Cconj Copp bI) = of_modes L L (fun _ _ => RtoC 0)).
  { apply of_modes_ext. intros l m Hm Hl. unfold pol_p2, bI. destruct (Nat.ltb_spec l 2); [reflexivity|].
    unfold coef. destruct (Z.ltb_spec (Z.of_nat l) (Z.abs (Z.of_nat m + 2))); [reflexivity|].
    destruct (Z.leb_spec 0 (Z.of_nat m + 2)); [|lia].
    destruct (Nat.eqb_spec (Z.to_nat (Z.of_nat m + 2)) 0); auto; lia. }
  rewrite P, Q. destruct (Req_EM_T fwhm 0) as [->|_].
  - do 3 f_equal. apply of_modes_ext. intros l m _ _. destruct (_ && _)%bool; auto.
    do 2 f_equal. unfold win, pwin. rewrite variance_0. f_equal. lra.
  - unfold scale_all. rewrite !map_modes. apply f_equal. f_equal; [f_equal|].
    + apply of_modes_ext. intros l m _ _. destruct (_ && _)%bool.
      * apply C_eq; cbn; [|ring]. rewrite <- pwin_win. ring.
      * apply C_eq; cbn; ring.
    + apply of_modes_ext. intros l m _ _. apply C_eq; cbn; ring.
Qed.

Lemma fwhm_variance sigma fwhm : has_fwhm sigma (arcmin fwhm) -> sigma ^ 2 = variance fwhm.
Proof.
  intros H. rewrite (fwhm_sq _ _ H). unfold variance, arcmin. pose proof ln2_pos. field. lra.
Qed.

Lemma gaussian_coefficients fwhm a L sigma : (1 <= L)%nat -> has_fwhm sigma (arcmin fwhm) ->
  gen_gaussian_blm fwhm a L
  = Ok (of_modes L L (gauss_I a sigma), of_modes L L (gauss_m2 a sigma), of_modes L L (fun _ _ => RtoC 0)).
Proof.
  intros HL H. rewrite gaussian_raw by auto. unfold gauss_I, gauss_m2, window, pol_window.
  rewrite (fwhm_variance _ _ H). reflexivity.
Qed.

Lemma gaussian_zero a L : (1 <= L)%nat ->
  gen_gaussian_blm 0 a L
  = Ok (of_modes L L (gauss_I a 0), of_modes L L (gauss_m2 a 0), of_modes L L (fun _ _ => RtoC 0)).
Proof.
  intros HL. rewrite gaussian_raw by auto. unfold gauss_I, gauss_m2, window, pol_window. rewrite variance_0.
  replace (0 ^ 2) with 0 by ring. reflexivity.
Qed.

Lemma gaussian_monopole fwhm a : gen_gaussian_blm fwhm a 0 = Err UnboundLocalError.
Proof.
  unfold gen_gaussian_blm. rewrite gauss_blm_spec by reflexivity. cbn [bind].
  destruct (Req_EM_T a 1); reflexivity.
Qed.

(** From the generated beam to the smoothed sky. *)
Lemma gaussian_smoothed Y npix Ls Lb a2m a2ms aI aE aB S fwhm a sigma b :
  let L := Nat.min Ls Lb in
  S_Spin.conj_symmetric Y -> S_Spin.healpix Y npix L a2m a2ms ->
  S_Spin.real_m0 aI -> S_Spin.real_m0 aE -> S_Spin.real_m0 aB -> (S <= L)%nat -> (2 <= L)%nat ->
  has_fwhm sigma (arcmin fwhm) -> gen_gaussian_blm fwhm a Lb = Ok b ->
  exists d m0 m2,
  M_Spin.init_spinmaps1 a2m a2ms (S_Spin.sky_arrays Ls aI aE aB) (some_arrays b) S true None false false = M_Spin.Maps d
  /\ S_Bin.symmetric_maps m0 m2 d /\ length m0 = npix /\ length m2 = npix
  /\ forall p, (p < npix)%nat ->
     nth p m0 (RtoC 0) = S_Spin.field Y L 0 (fun l m => S_Spin.mode aI aI l m * RtoC (a * window sigma l))%C p
     /\ nth p m2 (RtoC 0)
        = S_Spin.field Y L 2 (fun l m => S_Spin.mode (S_Spin.plus2 aE aB) (S_Spin.minus2 aE aB) l m
                                         * (if (2 <=? l)%nat then RtoC (a * pol_window sigma l) else RtoC 0))%C p.
Proof.
  intros L SY HP RI RE RB SL L2 Hf Hb.
  rewrite (gaussian_coefficients fwhm a Lb sigma) in Hb by (auto; subst L; lia). injection Hb as <-.
  destruct (L_Bin3.symmetric_smoothed Y npix Ls Lb a2m a2ms aI aE aB (gauss_I a sigma) (gauss_m2 a sigma) (fun _ _ => RtoC 0) S)
    as (d & m0 & m2 & E & Sy & L0 & L2' & V); auto.
  { intros l. reflexivity. }
  { intros l. unfold gauss_m2. cbn [Nat.eqb andb]. rewrite Cconj0. reflexivity. }
  exists d, m0, m2. split; [exact E|]. split; auto. split; auto. split; auto. intros p Hp.
  destruct (V p Hp) as [V0 V2]. split; [rewrite V0; reflexivity|]. rewrite V2. unfold S_Spin.field. f_equal.
  apply map_ext. intros l. f_equal. apply map_ext. intros m. f_equal. f_equal.
  unfold gauss_m2. destruct (2 <=? l)%nat; reflexivity.
Qed.

Lemma one_width w : 0 < w -> exists! sigma, has_fwhm sigma w.
Proof.
  intros W. exists (w / sqrt (8 * ln 2)). split; [apply fwhm_exists; auto|]. intros s Hs.
  pose proof (fwhm_exists w W) as H0. pose proof (fwhm_sq _ _ H0) as A. pose proof (fwhm_sq _ _ Hs) as B.
  destruct H0 as [P0 _], Hs as [P1 _]. apply Rsqr_inj; [lra|lra|]. rewrite !Rsqr_pow2. congruence.
Qed.
Lemma arcmin_pos : 0 < arcmin 30.
Proof. unfold arcmin. pose proof PI_RGT_0. lra. Qed.
Lemma half_degree : exists sigma, has_fwhm sigma (arcmin 30) /\ (1 <= 700)%nat.
Proof. eexists. split; [apply fwhm_exists, arcmin_pos|]. apply Nat.leb_le. reflexivity. Qed.
Lemma half_degree_beam : exists sigma b, has_fwhm sigma (arcmin 30) /\ gen_gaussian_blm 30 2 700 = Ok b.
Proof.
  destruct half_degree as (s & H & L). exists s. eexists. split; [exact H|]. exact (gaussian_coefficients 30 2 700 s L H).
Qed.

Lemma pencil a L : (1 <= L)%nat ->
  gen_gaussian_blm 0 a L
  = Ok (of_modes L L (fun _ m => if (m =? 0)%nat then RtoC a else RtoC 0),
        of_modes L L (fun l m => if ((m =? 2)%nat && (2 <=? l)%nat)%bool then RtoC a else RtoC 0),
        of_modes L L (fun _ _ => RtoC 0)).
Proof.
  intros HL. rewrite gaussian_zero by auto. unfold gauss_I, gauss_m2, window, pol_window.
  apply f_equal. f_equal. f_equal; apply of_modes_ext; intros l m _ _.
  - destruct (m =? 0)%nat; auto. f_equal. replace (- _ * 0 ^ 2 / 2) with 0 by field. rewrite exp_0. ring.
  - destruct (_ && _)%bool; auto. f_equal. replace (- _ * 0 ^ 2 / 2) with 0 by field. rewrite exp_0. ring.
Qed.

Lemma windows_fall sigma l l' : 0 < sigma -> (l < l')%nat ->
  window sigma 0 = 1 /\ window sigma l' < window sigma l /\ pol_window sigma l' < pol_window sigma l.
Proof.
  intros H0 Hl. unfold window, pol_window.
  assert (A : 0 <= INR l < INR l') by (split; [apply pos_INR|apply lt_INR; auto]).
  assert (B : 0 < sigma ^ 2) by (apply pow_lt; auto).
  assert (K : INR l * (INR l + 1) < INR l' * (INR l' + 1)) by nra.
  split; [|split].
  - replace (- (INR 0 * (INR 0 + 1)) * sigma ^ 2 / 2) with 0 by (cbn; field). apply exp_0.
  - apply exp_increasing. nra.
  - apply exp_increasing. nra.
Qed.
