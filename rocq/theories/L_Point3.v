(** * Lemmas about the boresight motion: satellite scan, witnesses *)
From Coq Require Import Reals Lra Lia.
From Verif Require Import Common LibList M_Chunks M_Steps M_Hwp L_Hwp M_Point S_Point L_Point L_Point2.
Open Scope R_scope.

(** ** Satellite *)
Lemma same_angle_rmod x : same_angle (rmod x 360) x.
Proof. destruct (rmod_cong x 360) as [z E]. exists z. exact E. Qed.
Lemma same_angle_trans x y z : same_angle x y -> same_angle y z -> same_angle x z.
Proof. intros [k ->] [j ->]. exists (k + j)%Z. rewrite plus_IZR. ring. Qed.
Lemma same_angle_opp x y : same_angle x y -> same_angle (- x) (- y).
Proof. intros [k ->]. exists (- k)%Z. rewrite opp_IZR. ring. Qed.

Lemma linspace_to_nth a b n i : (i < n)%nat ->
  nth_error (linspace_to a b n) i = Some (a + INR i * ((b - a) / INR (n - 1))).
Proof.
  intros H. unfold linspace_to. rewrite nth_seq_map by auto. destruct (Nat.eqb_spec n 1); auto.
  assert (i = 0)%nat as -> by lia. cbn. f_equal. ring.
Qed.
Lemma linspace_to_length a b n : length (linspace_to a b n) = n.
Proof. unfold linspace_to. now rewrite map_length, seq_length. Qed.

Lemma or_zero_some x : or_zero (Some x) = x.
Proof. unfold or_zero, truthy. destruct (Req_EM_T x 0); auto. Qed.

Lemma last_item_inv {A} (l : list A) x : last_item l = Ok x -> nth_error l (length l - 1) = Some x.
Proof.
  intros H. unfold last_item in H. destruct (rev l) as [|y r] eqn:E; [discriminate|]. injection H as ->.
  assert (l = rev r ++ [x]) as -> by (rewrite <- (rev_involutive l), E; reflexivity).
  rewrite app_length. cbn [length]. rewrite nth_error_app2 by lia.
  replace (length (rev r) + 1 - 1 - length (rev r))%nat with 0%nat by lia. reflexivity.
Qed.

Lemma satellite_motion fsamp alpha beta pa pb jitter n p az el lon lat q : fsamp <> 0 -> pa <> 0 ->
  satellite fsamp alpha beta pa pb jitter n p = Ok ((az, el, lon, lat), q) ->
  (0 < n)%nat /\ alpha <> 0
  /\ length az = n /\ length el = n /\ length lon = n /\ length lat = n
  /\ (forall i, (i < n)%nat -> exists a x y,
        nth_error az i = Some a /\ 0 <= a < 360 /\ same_angle a (360 * (INR i / fsamp) / pb)
        /\ nth_error el i = Some (beta + jitter i)
        /\ nth_error lon i = Some x /\ 0 <= x < 360
        /\ same_angle x (- (or_zero (p_lon p) + INR i * (INR n / fsamp / (24 * 3600) * 360.9863 / INR (n - 1))))
        /\ nth_error lat i = Some y
        /\ y = alpha * sin (asin (or_zero (p_lat p) / alpha) + 2 * PI * (INR i / fsamp) / pa))
  /\ (exists x y, nth_error lon (n - 1) = Some x /\ nth_error lat (n - 1) = Some y /\ q = mkplace (Some x) (Some y)).
Proof.
  intros Hf Hpa H. unfold satellite in H. destruct (Req_EM_T alpha 0) as [|Ha]; [discriminate|].
  set (LON := map _ (linspace_to _ _ n)) in H. set (LAT := map _ (linspace _ _ n)) in H.
  assert (L1 : length LON = n) by (unfold LON; now rewrite map_length, linspace_to_length).
  assert (L2 : length LAT = n) by (unfold LAT; now rewrite map_length, linspace_length).
  destruct (last_item LON) as [x1|] eqn:E1; [|discriminate]. destruct (last_item LAT) as [y1|] eqn:E2; [|discriminate].
  cbn [bind] in H. injection H as <- <- <- <- <-.
  apply last_item_inv in E1. apply last_item_inv in E2. rewrite L1 in E1. rewrite L2 in E2.
  assert (Hn : (0 < n)%nat).
  { destruct n; [|lia]. destruct LON; [discriminate|discriminate]. }
  split; auto. split; auto. do 2 (split; [now rewrite map_length, seq_length|]). do 2 (split; auto).
  split; [|exists x1, y1; auto].
  intros i Hi. unfold LON, LAT.
  rewrite !nth_seq_map by auto. rewrite !nth_error_map, linspace_to_nth, linspace_nth by auto. cbn [option_map].
  do 3 eexists. split; [reflexivity|]. split; [apply rmod_bounds; lra|]. split.
  { eapply same_angle_trans; [apply same_angle_rmod|]. exists 0%Z.
    unfold Rdiv. ring. }
  split; [reflexivity|]. split; [reflexivity|]. split; [apply rmod_bounds; lra|]. split.
  { eapply same_angle_trans; [apply same_angle_rmod|]. exists 0%Z. unfold Rdiv. ring. }
  split; [reflexivity|]. rewrite Rmult_comm. f_equal. f_equal.
  assert (INR n <> 0) by (apply not_0_INR; lia). field. auto.
Qed.

Lemma satellite_runs fsamp alpha beta pa pb jitter n p : (0 < n)%nat -> alpha <> 0 ->
  exists az el lon lat q, satellite fsamp alpha beta pa pb jitter n p = Ok ((az, el, lon, lat), q).
Proof.
  intros Hn Ha. unfold satellite. destruct (Req_EM_T alpha 0); [contradiction|].
  set (LON := map _ (linspace_to _ _ n)). set (LAT := map _ (linspace _ _ n)).
  assert (L1 : length LON = n) by (unfold LON; now rewrite map_length, linspace_to_length).
  assert (L2 : length LAT = n) by (unfold LAT; now rewrite map_length, linspace_length).
  assert (X : forall l : list R, length l = n -> exists x, last_item l = Ok x).
  { intros l Hl. unfold last_item. destruct (rev l) eqn:E; eauto.
    apply (f_equal (@length R)) in E. rewrite rev_length, Hl in E. cbn in E. lia. }
  destruct (X _ L1) as [x ->]. destruct (X _ L2) as [y ->]. cbn [bind]. eauto 10.
Qed.

Lemma asin_sin_again x : sin (asin (sin x)) = sin x.
Proof. apply sin_asin. assert (B := SIN_bound x). lra. Qed.

(** The next chunk begins at the latitude where the previous one ended, and at
    minus the longitude where it ended. *)
Lemma satellite_next fsamp alpha beta pa pb jitter jitter' n n' p az el lon lat q az' el' lon' lat' q' :
  fsamp <> 0 -> pa <> 0 ->
  satellite fsamp alpha beta pa pb jitter n p = Ok ((az, el, lon, lat), q) ->
  satellite fsamp alpha beta pa pb jitter' n' q = Ok ((az', el', lon', lat'), q') ->
  exists x y x' y', nth_error lon (n - 1) = Some x /\ nth_error lat (n - 1) = Some y
    /\ nth_error lon' 0 = Some x' /\ nth_error lat' 0 = Some y' /\ y' = y /\ same_angle x' (- x).
Proof.
  intros Hf Hpa H1 H2.
  destruct (satellite_motion _ _ _ _ _ _ _ _ _ _ _ _ _ Hf Hpa H1) as (Hn & Ha & _ & _ & _ & _ & M & x & y & Ex & Ey & ->).
  destruct (satellite_motion _ _ _ _ _ _ _ _ _ _ _ _ _ Hf Hpa H2) as (Hn' & _ & _ & _ & _ & _ & M' & _).
  destruct (M (n - 1)%nat ltac:(lia)) as (_ & x1 & y1 & _ & _ & _ & _ & _ & _ & _ & Ey1 & Y).
  rewrite Ey in Ey1. injection Ey1 as <-.
  destruct (M' 0%nat Hn') as (_ & x' & y' & _ & _ & _ & _ & E3 & _ & X' & E4 & Y').
  exists x, y, x', y'. do 4 (split; auto). cbn [p_lon p_lat] in *. rewrite or_zero_some in *. cbn [INR] in *. split.
  - rewrite Y'. replace (asin (y / alpha) + 2 * PI * (0 / fsamp) / pa) with (asin (y / alpha)) by (field; auto).
    rewrite Y. set (s := asin _ + _). replace (alpha * sin s / alpha) with (sin s) by (field; auto).
    now rewrite asin_sin_again.
  - eapply same_angle_trans; [exact X'|]. exists 0%Z. ring.
Qed.

(** ** Witnesses *)
Ltac rl := repeat (f_equal; try lra).

Lemma rmod_val x m k : 0 < m -> 0 <= x + m * IZR k < m -> rmod x m = x + m * IZR k.
Proof.
  intros Hm H. unfold rmod. assert (E : Int_part (x / m) = (- k)%Z).
  { apply floor_unique. rewrite opp_IZR. assert (X : x / m = (x + m * IZR k) / m - IZR k) by (field; lra).
    rewrite X. assert (0 <= (x + m * IZR k) / m < 1).
    { split; [apply Rmult_le_pos; [lra|apply Rlt_le, Rinv_0_lt_compat; lra]|].
      apply Rmult_lt_reg_r with m; [lra|]. unfold Rdiv. rewrite Rmult_assoc, Rinv_l by lra. lra. }
    lra. }
  rewrite E, opp_IZR. ring.
Qed.

Lemma ne5400 : 5400 <> 0. Proof. lra. Qed.
Lemma ne8 : 8 <> 0. Proof. lra. Qed.

(** The first chunk moves by -10 degrees a sample and ends at 350; the second
    begins at 10. *)
Lemma longitude_witness : let fsamp := 360.9863 / (86400 * 5) in
  exists az el lat q az' el' lat' q',
    satellite fsamp 50 50 5400 600 (fun _ => 0) 2 (mkplace None None) = Ok ((az, el, [0; 350], lat), q)
    /\ satellite fsamp 50 50 5400 600 (fun _ => 0) 2 q = Ok ((az', el', [10; 0], lat'), q').
Proof.
  cbv zeta. set (f := 360.9863 / (86400 * 5)).
  destruct (satellite_runs f 50 50 5400 600 (fun _ => 0) 2 (mkplace None None)) as (az & el & lon & lat & q & H); [lia|lra|].
  destruct (satellite_runs f 50 50 5400 600 (fun _ => 0) 2 q) as (az' & el' & lon' & lat' & q' & H'); [lia|lra|].
  assert (S10 : INR 2 / f / (24 * 3600) * 360.9863 / INR (2 - 1) = 10).
  { cbn. unfold f. field. lra. }
  assert (Hf : f <> 0) by (apply Rgt_not_eq; unfold f; lra).
  assert (A : lon = [0; 350] /\ q = mkplace (Some 350) (p_lat q)).
  { assert (X := satellite_motion _ _ _ _ _ _ _ _ _ _ _ _ _ Hf ne5400 H).
    destruct X as (_ & _ & _ & _ & L & _ & M & x & y & Ex & _ & ->).
    destruct lon as [|a [|b [|]]]; try discriminate. cbn in Ex. injection Ex as <-.
    destruct (M 0%nat ltac:(lia)) as (_ & a' & _ & _ & _ & _ & _ & E1 & B1 & [k1 K1] & _). injection E1 as <-.
    destruct (M 1%nat ltac:(lia)) as (_ & b' & _ & _ & _ & _ & _ & E2 & B2 & [k2 K2] & _). injection E2 as <-.
    rewrite S10 in K1, K2. cbn in K1, K2.
    assert (k1 = 0)%Z. { assert (-1 < k1 < 1)%Z; [|lia]. split; apply lt_IZR; lra. }
    assert (k2 = 1)%Z. { assert (0 < k2 < 2)%Z; [|lia]. split; apply lt_IZR; lra. }
    subst k1 k2. split; [|cbn [p_lat]; rl]. rl. }
  destruct A as [-> Eq].
  assert (A' : lon' = [10; 0]).
  { assert (X := satellite_motion _ _ _ _ _ _ _ _ _ _ _ _ _ Hf ne5400 H').
    destruct X as (_ & _ & _ & _ & L & _ & M & _).
    destruct lon' as [|a [|b [|]]]; try discriminate.
    destruct (M 0%nat ltac:(lia)) as (_ & a' & _ & _ & _ & _ & _ & E1 & B1 & [k1 K1] & _). injection E1 as <-.
    destruct (M 1%nat ltac:(lia)) as (_ & b' & _ & _ & _ & _ & _ & E2 & B2 & [k2 K2] & _). injection E2 as <-.
    rewrite S10 in K1, K2. rewrite Eq in K1, K2. cbn [p_lon] in K1, K2. rewrite or_zero_some in K1, K2. cbn [INR] in K1, K2.
    assert (k1 = 1)%Z. { assert (0 < k1 < 2)%Z; [|lia]. split; apply lt_IZR; lra. }
    assert (k2 = 1)%Z. { assert (0 < k2 < 2)%Z; [|lia]. split; apply lt_IZR; lra. }
    subst k1 k2. rl. }
  subst lon'. do 8 eexists. split; eauto.
Qed.

(** The first chunk ends while the latitude falls; the second begins rising. *)
Lemma latitude_witness : exists az el lon lat q az' el' lon' lat' q',
  satellite 1 1 50 8 600 (fun _ => 0) 4 (mkplace None None) = Ok ((az, el, lon, lat), q)
  /\ satellite 1 1 50 8 600 (fun _ => 0) 4 q = Ok ((az', el', lon', lat'), q')
  /\ (exists y2 y3, nth_error lat 2 = Some y2 /\ nth_error lat 3 = Some y3 /\ y3 < y2)
  /\ (exists y0 y1, nth_error lat' 0 = Some y0 /\ nth_error lat' 1 = Some y1 /\ y0 < y1).
Proof.
  destruct (satellite_runs 1 1 50 8 600 (fun _ => 0) 4 (mkplace None None)) as (az & el & lon & lat & q & H); [lia|lra|].
  destruct (satellite_runs 1 1 50 8 600 (fun _ => 0) 4 q) as (az' & el' & lon' & lat' & q' & H'); [lia|lra|].
  do 10 eexists. split; [exact H|]. split; [exact H'|].
  assert (HP := PI_RGT_0).
  assert (S34 : sin (3 * (PI / 4)) = sin (PI / 4)).
  { replace (3 * (PI / 4)) with (PI - PI / 4) by field. apply sin_PI_x. }
  assert (Hlt : sin (PI / 4) < 1).
  { rewrite <- sin_PI2. apply sin_increasing_1; lra. }
  destruct (satellite_motion _ _ _ _ _ _ _ _ _ _ _ _ _ R1_neq_R0 ne8 H) as (_ & _ & _ & _ & _ & _ & M & x & y & _ & Ey & Eq).
  destruct (M 2%nat ltac:(lia)) as (_ & _ & y2 & _ & _ & _ & _ & _ & _ & _ & E2 & Y2).
  destruct (M 3%nat ltac:(lia)) as (_ & _ & y3 & _ & _ & _ & _ & _ & _ & _ & E3 & Y3).
  cbn [p_lat or_zero INR] in Y2, Y3.
  replace (0 / 1) with 0 in Y2, Y3 by field. rewrite asin_0 in Y2, Y3.
  replace (0 + 2 * PI * ((1 + 1) / 1) / 8) with (PI / 2) in Y2 by field.
  replace (0 + 2 * PI * ((1 + 1 + 1) / 1) / 8) with (3 * (PI / 4)) in Y3 by field.
  rewrite sin_PI2 in Y2. rewrite S34 in Y3.
  split; [exists y2, y3; do 2 (split; auto); lra|].
  cbn in Ey. change (nth_error lat 3 = Some y) in Ey. rewrite E3 in Ey. injection Ey as <-.
  destruct (satellite_motion _ _ _ _ _ _ _ _ _ _ _ _ _ R1_neq_R0 ne8 H') as (_ & _ & _ & _ & _ & _ & M' & _).
  destruct (M' 0%nat ltac:(lia)) as (_ & _ & z0 & _ & _ & _ & _ & _ & _ & _ & F0 & Z0).
  destruct (M' 1%nat ltac:(lia)) as (_ & _ & z1 & _ & _ & _ & _ & _ & _ & _ & F1 & Z1).
  rewrite Eq in Z0, Z1. cbn [p_lat INR] in Z0, Z1. rewrite or_zero_some in Z0, Z1.
  replace (y3 / 1) with (sin (PI / 4)) in Z0, Z1 by lra. rewrite asin_sin in Z0, Z1 by lra.
  replace (PI / 4 + 2 * PI * (0 / 1) / 8) with (PI / 4) in Z0 by field.
  replace (PI / 4 + 2 * PI * (1 / 1) / 8) with (PI / 2) in Z1 by field. rewrite sin_PI2 in Z1.
  exists z0, z1. do 2 (split; auto). lra.
Qed.

(** ** Schedule witnesses *)
Lemma trunc_nat x k : IZR (Z.of_nat k) <= x < IZR (Z.of_nat k) + 1 -> trunc x = Z.of_nat k.
Proof.
  intros H. unfold trunc. assert (0 <= IZR (Z.of_nat k)) by (rewrite <- INR_IZR_INZ; apply pos_INR).
  destruct (Rle_dec 0 x); [|lra]. now apply floor_unique.
Qed.

Lemma ph_val x z : x = IZR z -> (- Int_part (- x))%Z = z.
Proof. intros ->. rewrite <- opp_IZR. rewrite (floor_unique (IZR (- z)) (- z)%Z); [lia|lra]. Qed.

Lemma schedule_eval fsamp speed az0 az1 dt n (nscan : nat) (z : Z) :
  az0 < az1 -> IZR (Z.of_nat nscan) <= (az1 - az0) / speed * fsamp < IZR (Z.of_nat nscan) + 1 -> (0 < nscan)%nat ->
  rmod (dt / fsamp) (INR (2 * nscan - 1)) * INR (2 * nscan - 1) = IZR z ->
  schedule_az fsamp speed Triangle az0 az1 dt n
  = Ok (firstn n (roll z (concat (repeat (linspace az0 az1 (nscan - 1) ++ linspace_to az1 az0 nscan) (ceil_div n (2 * nscan - 1)))))).
Proof.
  intros Ha Hb Hn Hz. unfold schedule_az.
  destruct (Rlt_dec az1 az0); [lra|]. destruct (Rle_dec (az1 - az0) 0); [lra|].
  rewrite (trunc_nat _ nscan Hb). destruct (Z.leb_spec (Z.of_nat nscan) 0); [lia|].
  rewrite Nat2Z.id. now rewrite (ph_val _ z Hz).
Qed.

(** Scan from 0 to 3 degrees at 1 degree and 1 sample a second: 3 samples up
    to 3 degrees, then the next 3 samples start at 0 again. *)
Lemma schedule_jump : schedule_az 1 1 Triangle 0 3 0 3 = Ok [0; 1.5; 3]
  /\ schedule_az 1 1 Triangle 0 3 3 3 = Ok [0; 1.5; 3].
Proof.
  assert (B : IZR (Z.of_nat 3) <= (3 - 0) / 1 * 1 < IZR (Z.of_nat 3) + 1) by (cbn; lra).
  split.
  - rewrite (schedule_eval 1 1 0 3 0 3 3 0); [|lra|exact B|lia|].
    + cbn. change (Pos.to_nat 1) with 1%nat. change (Pos.to_nat 2) with 2%nat. cbv iota. apply f_equal. repeat (apply (f_equal2 (@cons R)); [lra|]). reflexivity.
    + cbn -[rmod]. rewrite rmod_small by lra. lra.
  - rewrite (schedule_eval 1 1 0 3 3 3 3 15); [|lra|exact B|lia|].
    + cbn. change (Pos.to_nat 1) with 1%nat. change (Pos.to_nat 2) with 2%nat. cbv iota. apply f_equal. repeat (apply (f_equal2 (@cons R)); [lra|]). reflexivity.
    + cbn -[rmod]. rewrite rmod_small by lra. lra.
Qed.

(** Scan from 350 to 10 degrees, through north: the code sweeps through south. *)
Lemma schedule_wraps : exists az, schedule_az 1 5 Triangle 350 10 0 5 = Ok az /\ nth_error az 1 = Some (350 - 340 / 3).
Proof.
  unfold schedule_az. destruct (Rlt_dec 10 350); [|lra]. destruct (Rle_dec (360 - 350 + 10) 0); [lra|].
  rewrite (trunc_nat _ 4) by (cbn; lra). destruct (Z.leb_spec (Z.of_nat 4) 0); [lia|]. rewrite Nat2Z.id.
  rewrite (ph_val _ 0).
  - eexists. split; [reflexivity|]. cbn. change (Pos.to_nat 1) with 1%nat. cbv iota. f_equal. lra.
  - cbn -[rmod]. rewrite rmod_small by lra. lra.
Qed.
