(** * Lemmas for C103: detectors at different angles *)
From Coq Require Import Reals List ZArith String Lra Lia.
Import ListNotations.
From Verif Require Import Common M_Alm M_Blm M_Mueller M_Tod S_Tod L_Tod L_Tod2 L_Tod3 S_Pair Cplx.
Open Scope R_scope.

Lemma quarter x : 2 * rad (x + 90) = 2 * rad x + PI.
Proof. field. Qed.
Lemma half x : 2 * rad (x + 180) = 2 * rad x + 2 * PI.
Proof. field. Qed.

Lemma Re_phase z a t : Re (z * cis (a + t))%C = Re (z * cis a)%C * cos t - Im (z * cis a)%C * sin t.
Proof. rewrite cis_add. destruct z as [x y]. unfold cis, Re, Im. cbn. ring. Qed.

Lemma coded_split polang maps S p psi : coded_sum polang maps S p psi =
  (RtoC (cos (2 * rad polang)) * coded_sum 0 maps S p psi + RtoC (sin (2 * rad polang)) * coded_sum 45 maps S p psi)%C.
Proof.
  unfold coded_sum. replace (2 * rad 0) with 0 by ring. replace (2 * rad 45) with (PI / 2) by field.
  rewrite cos_0, cos_PI2. set (t := 2 * rad polang).
  assert (C1 : cis (PI / 2) = (0, 1)) by (unfold cis; now rewrite cos_PI2, sin_PI2).
  assert (C2 : cis (- (PI / 2)) = (0, -1)) by (unfold cis; rewrite cos_neg, sin_neg, cos_PI2, sin_PI2; f_equal; lra).
  assert (C0 : cis (- 0) = RtoC 1) by (rewrite Ropp_0; apply cis_0).
  rewrite cis_0, C0, C1, C2.
  rewrite (csum_map_eq _ (fun k => (RtoC (cos t) * (RtoC 1 * (value (nth (S + k) maps []) p * cis (- (INR k * psi)))
                                        + RtoC 1 * (value (nth (S - k) maps []) p * cis (INR k * psi)))
                         + RtoC (sin t) * ((0, 1)%R * (value (nth (S + k) maps []) p * cis (- (INR k * psi)))
                                        + (0, -1)%R * (value (nth (S - k) maps []) p * cis (INR k * psi))))%C)).
  - rewrite csum_plus, !csum_scal. destruct (value (nth S maps []) p) as [x y].
    destruct (csum _) as [a b]. destruct (csum _) as [a' b']. apply C_eq; cbn; ring.
  - intros k _. unfold cis at 1 3. rewrite cos_neg, sin_neg.
    destruct (value (nth (S + k) maps []) p * cis (- (INR k * psi)))%C as [a b].
    destruct (value (nth (S - k) maps []) p * cis (INR k * psi))%C as [a' b']. apply C_eq; cbn; ring.
Qed.


Lemma law_ideal npix n pix pa h d e00 e24 :
  pointing npix n pix pa h -> ideal_sets npix d e00 e24 ->
  exists q u : nat -> R, forall polang, exists tod,
    scan_tod n d pix pa polang h = Ok (map RtoC tod) /\ List.length tod = n
    /\ forall i, (i < n)%nat -> nth i tod 0 =
         two_sided_sum (ss_maps e00) (ss_svals e00) (nth i pix (Pix 0)) (PI - rad (nth i pa 0))
         + q i * cos (2 * rad polang) + u i * sin (2 * rad polang).
Proof.
  intros (Lp & La & Hh & HP) (N & K & I0 & I4 & W0 & W4 & S0).
  exists (fun i => Re (spin_sum (ss_maps e24) (ss_svals e24) (nth i pix (Pix 0)) (PI - rad (nth i pa 0%R))%R * cis (4 * angle_at h i)%R)%C).
  exists (fun i => - Im (spin_sum (ss_maps e24) (ss_svals e24) (nth i pix (Pix 0)) (PI - rad (nth i pa 0%R))%R * cis (4 * angle_at h i)%R)%C).
  intros polang. destruct (timestream_old npix n pix pa polang h d e00 e24) as (tod & E & L & H); auto.
  exists tod. do 2 (split; auto). intros i Hi. rewrite (H i Hi), Re_phase. ring.
Qed.

Lemma law_plate npix n pix pa h d e00 e24 e20 e02 e22 S :
  pointing npix n pix pa h -> plate_sets npix d e00 e24 e20 e02 e22 S ->
  exists i0 q u : nat -> R, forall polang, exists tod,
    scan_tod n d pix pa polang h = Ok (map RtoC tod) /\ List.length tod = n
    /\ forall i, (i < n)%nat -> nth i tod 0 = i0 i + q i * cos (2 * rad polang) + u i * sin (2 * rad polang).
Proof.
  intros (Lp & La & Hh & HP) (F & W & S0 & ES).
  set (P := fun i => nth i pix (Pix 0)). set (psi := fun i => PI - rad (nth i pa 0)).
  set (sum := fun e i => spin_sum (ss_maps e) (ss_svals e) (P i) (psi i)).
  exists (fun i => two_sided_sum (ss_maps e00) (ss_svals e00) (P i) (psi i) + Re (sum e20 i)
                   + Re (sum e22 i * cis (2 * angle_at h i)%R)%C).
  exists (fun i => Re (sum e24 i * cis (4 * angle_at h i)%R)%C
                   + Re (coded_sum 0%R (ss_maps e02) S (P i) (psi i) * cis (2 * angle_at h i)%R)%C).
  exists (fun i => - Im (sum e24 i * cis (4 * angle_at h i)%R)%C
                   + Re (coded_sum 45 (ss_maps e02) S (P i) (psi i) * cis (2 * angle_at h i)%R)%C).
  intros polang. destruct (timestream_new npix n pix pa polang h d e00 e24 e20 e02 e22 S) as (tod & E & L & H); auto.
  exists tod. do 2 (split; auto). intros i Hi. rewrite (H i Hi). fold (P i) (psi i). cbv zeta.
  fold (sum e24 i) (sum e20 i) (sum e22 i). rewrite Re_phase, coded_split.
  assert (X : forall a b x y z, Re ((RtoC a * x + RtoC b * y) * z)%C = a * Re (x * z)%C + b * Re (y * z)%C)
    by (intros a b [? ?] [? ?] [? ?]; cbn; ring).
  rewrite X. ring.
Qed.

(** What follows for sums, differences and half turns. *)
Lemma law_pair (f g : nat -> R) (i0 q u : nat -> R) polang i :
  f i = i0 i + q i * cos (2 * rad polang) + u i * sin (2 * rad polang) ->
  g i = i0 i + q i * cos (2 * rad (polang + 90)) + u i * sin (2 * rad (polang + 90)) ->
  f i + g i = 2 * i0 i /\ f i - g i = 2 * (q i * cos (2 * rad polang) + u i * sin (2 * rad polang)).
Proof. intros -> ->. rewrite quarter, neg_cos, neg_sin. split; ring. Qed.
Lemma law_half q u polang : q * cos (2 * rad (polang + 180)) + u * sin (2 * rad (polang + 180))
  = q * cos (2 * rad polang) + u * sin (2 * rad polang).
Proof. rewrite half. replace (2 * rad polang + 2 * PI) with (2 * rad polang + PI + PI) by ring. rewrite !neg_cos, !neg_sin. ring. Qed.

(** Pairs, whatever the sets. *)
Lemma pair_of_law n d pix pa h (i0 q u : nat -> R) ta tb polang :
  (forall polang, exists tod, scan_tod n d pix pa polang h = Ok (map RtoC tod) /\ List.length tod = n
    /\ forall i, (i < n)%nat -> nth i tod 0 = i0 i + q i * cos (2 * rad polang) + u i * sin (2 * rad polang)) ->
  scan_tod n d pix pa polang h = Ok (map RtoC ta) -> scan_tod n d pix pa (polang + 90) h = Ok (map RtoC tb) ->
  forall i, (i < n)%nat -> nth i ta 0 + nth i tb 0 = 2 * i0 i
    /\ nth i ta 0 - nth i tb 0 = 2 * (q i * cos (2 * rad polang) + u i * sin (2 * rad polang)).
Proof.
  intros L Ea Eb i Hi. destruct (L polang) as (ta' & Ea' & _ & Ha). destruct (L (polang + 90)) as (tb' & Eb' & _ & Hb).
  assert (I : forall a b : list R, map RtoC a = map RtoC b -> a = b).
  { induction a as [|x a IH]; intros [|y b] E; try discriminate; auto. injection E as E1 E2. f_equal; auto. }
  assert (ta' = ta) by (apply I; congruence). assert (tb' = tb) by (apply I; congruence). subst.
  apply (law_pair (fun i => nth i ta 0) (fun i => nth i tb 0) i0 q u polang i); auto.
Qed.

Lemma pair_ideal npix n pix pa h d e00 e24 polang :
  pointing npix n pix pa h -> ideal_sets npix d e00 e24 ->
  exists ta tb, scan_tod n d pix pa polang h = Ok (map RtoC ta) /\ scan_tod n d pix pa (polang + 90) h = Ok (map RtoC tb)
    /\ List.length ta = n /\ List.length tb = n
    /\ forall i, (i < n)%nat ->
       nth i ta 0 + nth i tb 0
       = 2 * two_sided_sum (ss_maps e00) (ss_svals e00) (nth i pix (Pix 0)) (PI - rad (nth i pa 0))
       /\ nth i ta 0 - nth i tb 0
       = 2 * Re (spin_sum (ss_maps e24) (ss_svals e24) (nth i pix (Pix 0)) (PI - rad (nth i pa 0%R))%R
                 * cis (4 * angle_at h i + 2 * rad polang)%R)%C.
Proof.
  intros (Lp & La & Hh & HP) (N & K & I0 & I4 & W0 & W4 & S0).
  destruct (timestream_old npix n pix pa polang h d e00 e24) as (ta & Ea & La' & Ha); auto.
  destruct (timestream_old npix n pix pa (polang + 90) h d e00 e24) as (tb & Eb & Lb' & Hb); auto.
  exists ta, tb. do 4 (split; auto). intros i Hi. rewrite (Ha i Hi), (Hb i Hi). cbv zeta.
  rewrite quarter, !Re_phase, neg_cos, neg_sin. split; ring.
Qed.

Lemma same_sum npix n pix pa h d e00 e24 e20 e02 e22 S polang polang' :
  pointing npix n pix pa h -> plate_sets npix d e00 e24 e20 e02 e22 S ->
  exists ta tb ta' tb',
    scan_tod n d pix pa polang h = Ok (map RtoC ta) /\ scan_tod n d pix pa (polang + 90) h = Ok (map RtoC tb)
    /\ scan_tod n d pix pa polang' h = Ok (map RtoC ta') /\ scan_tod n d pix pa (polang' + 90) h = Ok (map RtoC tb')
    /\ forall i, (i < n)%nat -> nth i ta 0 + nth i tb 0 = nth i ta' 0 + nth i tb' 0.
Proof.
  intros HP W. destruct (law_plate _ _ _ _ _ _ _ _ _ _ _ _ HP W) as (i0 & q & u & L).
  destruct (L polang) as (ta & Ea & _). destruct (L (polang + 90)) as (tb & Eb & _).
  destruct (L polang') as (ta' & Ea' & _). destruct (L (polang' + 90)) as (tb' & Eb' & _).
  exists ta, tb, ta', tb'. do 4 (split; auto). intros i Hi.
  destruct (pair_of_law n d pix pa h i0 q u ta tb polang L Ea Eb i Hi) as [-> _].
  destruct (pair_of_law n d pix pa h i0 q u ta' tb' polang' L Ea' Eb' i Hi) as [-> _]. reflexivity.
Qed.

Lemma scan_half_turn npix n pix pa h d polang :
  pointing npix n pix pa h ->
  (exists e00 e24, ideal_sets npix d e00 e24) \/ (exists e00 e24 e20 e02 e22 S, plate_sets npix d e00 e24 e20 e02 e22 S) ->
  scan_tod n d pix pa (polang + 180) h = scan_tod n d pix pa polang h.
Proof.
  intros HP D.
  assert (L : exists i0 q u : nat -> R, forall polang, exists tod,
    scan_tod n d pix pa polang h = Ok (map RtoC tod) /\ List.length tod = n
    /\ forall i, (i < n)%nat -> nth i tod 0 = i0 i + q i * cos (2 * rad polang) + u i * sin (2 * rad polang)).
  { destruct D as [(e00 & e24 & W)|(e00 & e24 & e20 & e02 & e22 & S & W)].
    - destruct (law_ideal _ _ _ _ _ _ _ _ HP W) as (q & u & L). eexists. exists q, u. exact L.
    - eapply law_plate; eauto. }
  destruct L as (i0 & q & u & L). destruct (L polang) as (ta & -> & L1 & H1). destruct (L (polang + 180)) as (tb & -> & L2 & H2).
  do 2 f_equal. apply (nth_ext _ _ 0 0); [congruence|]. intros i Hi. rewrite H1, H2 by lia.
  rewrite !Rplus_assoc, law_half. reflexivity.
Qed.

Lemma crosstalk_pair a b c a' b' : cross_talk a b c = Ok (a', b') ->
  forall i, (i < List.length a)%nat ->
    nth i a' 0 + nth i b' 0 = (1 + c) * (nth i a 0 + nth i b 0)
    /\ nth i a' 0 - nth i b' 0 = (1 - c) * (nth i a 0 - nth i b 0).
Proof.
  intros H i Hi. destruct (Nat.eq_dec (List.length a) (List.length b)) as [E|E].
  - destruct (cross_talk_ok a b c E) as (x & y & Ex & L1 & L2 & Hn). rewrite Ex in H. injection H as <- <-.
    destruct (Hn i) as [-> ->]. split; ring.
  - rewrite cross_talk_err in H by exact E. discriminate.
Qed.

Lemma plate_pair_wrong : exists d e00 e24 e20 e02 e22,
  plate_sets 1 d e00 e24 e20 e02 e22 0 /\ Forall (Forall (fun z => z = RtoC 0)) (ss_maps e00)
  /\ exists ta tb, scan_tod 1 d [Pix 0] [180] 0 (Fixed 0) = Ok [RtoC ta]
    /\ scan_tod 1 d [Pix 0] [180] (0 + 90) (Fixed 0) = Ok [RtoC tb] /\ ta + tb <> 0.
Proof.
  set (z s := {| ss_maps := [[RtoC 0]]; ss_svals := [s] |}). set (o := {| ss_maps := [[RtoC 1]]; ss_svals := [2%Z] |}).
  exists [("s0a0", z 0%Z); ("s2a4", z 2%Z); ("s2a0", o); ("s0a2", z 0%Z); ("s2a2", z 2%Z)]%string, (z 0%Z), (z 2%Z), o, (z 0%Z), (z 2%Z).
  split; [|split].
  - split; [|split; [|split]].
    + split; [repeat constructor; cbn; intuition discriminate|]. cbn. tauto.
    + repeat constructor; discriminate.
    + repeat constructor; lia.
    + reflexivity.
  - repeat constructor.
  - destruct (axisym_tod (RtoC 0) (RtoC 0) (RtoC 1) (RtoC 0) (RtoC 0) 180 0 0) as (ta & Ea & Ha).
    destruct (axisym_tod (RtoC 0) (RtoC 0) (RtoC 1) (RtoC 0) (RtoC 0) 180 (0 + 90) 0) as (tb & Eb & Hb).
    exists ta, tb. split; [exact Ea|]. split; [exact Eb|].
    assert (X : cis (- (2 * (PI - 180 * (PI / 180)))) = RtoC 1)
      by (replace (- (2 * (PI - 180 * (PI / 180)))) with 0 by field; apply cis_0).
    rewrite X in Ha, Hb. rewrite Ha, Hb. cbn. lra.
Qed.
