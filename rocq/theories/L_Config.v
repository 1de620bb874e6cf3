From Verif Require Import Common LibList M_Chunks S_Chunks L_Chunks M_Steps M_Hwp L_Hwp M_Config.
From Coq Require Import Lra.
Open Scope R_scope.

Lemma init_mission_consistent d r n m :
  init_mission d r n = Ok m ->
  nsamp m = trunc (mlen m * fsamp m)
  /\ (forall k, n = Some k -> nsamp m = k)
  /\ (forall x, d = Some x -> mlen m = x)
  /\ (forall x, r = Some x -> d <> Some 0 -> fsamp m = x).
Proof.
  unfold init_mission. destruct r as [r|].
  - destruct (Rle_dec r 0); [discriminate|].
    destruct d as [d|].
    + destruct (Req_EM_T d 0) as [->|Hd].
      * destruct n as [n|].
        { destruct (Z.eqb_spec (trunc (0 * 0)) n); [|discriminate].
          intros E; injection E as <-. cbn. repeat split; intros; congruence. }
        { intros E; injection E as <-. cbn. repeat split; intros; congruence. }
      * destruct n as [n|].
        { destruct (Z.eqb_spec (trunc (d * r)) n); [|discriminate].
          intros E; injection E as <-. cbn. repeat split; intros; congruence. }
        { intros E; injection E as <-. cbn. repeat split; intros; congruence. }
    + destruct n as [n|]; [|discriminate].
      intros E; injection E as <-. cbn. repeat split; intros; try congruence.
      replace (IZR n / r * r) with (IZR n) by (field; lra). now rewrite trunc_Z.
  - destruct d as [d|].
    + destruct (Req_EM_T d 0) as [->|Hd].
      * destruct n as [n|].
        { destruct (Z.eqb_spec (trunc (0 * 0)) n); [|discriminate].
          intros E; injection E as <-. cbn. repeat split; intros; congruence. }
        { intros E; injection E as <-. cbn. repeat split; intros; congruence. }
      * destruct n as [n|]; [|discriminate].
        intros E; injection E as <-. cbn. repeat split; intros; try congruence.
        replace (d * (IZR n / d)) with (IZR n) by (field; lra). now rewrite trunc_Z.
    + destruct n; discriminate.
Qed.

Lemma init_mission_two d r n :
  (forall x, r = Some x -> 0 < x) -> d <> Some 0 ->
  ((exists x y, d = Some x /\ r = Some y /\ n = None)
   \/ (exists x k, d = Some x /\ r = None /\ n = Some k)
   \/ (exists y k, d = None /\ r = Some y /\ n = Some k)) ->
  is_ok (init_mission d r n).
Proof.
  intros Hr Hd [(x & y & -> & -> & ->)|[(x & k & -> & -> & ->)|(y & k & -> & -> & ->)]];
    unfold init_mission, is_ok.
  - specialize (Hr y eq_refl). destruct (Rle_dec y 0); [lra|].
    destruct (Req_EM_T x 0); [congruence|]. eexists; reflexivity.
  - destruct (Req_EM_T x 0); [congruence|]. eexists; reflexivity.
  - specialize (Hr y eq_refl). destruct (Rle_dec y 0); [lra|]. eexists; reflexivity.
Qed.

Lemma init_mission_three d r n :
  0 < r -> d <> 0 ->
  init_mission (Some d) (Some r) (Some n)
  = if (trunc (d * r) =? n)%Z then Ok (mkmission r d n) else Err ValueError.
Proof.
  intros Hr Hd. unfold init_mission. destruct (Rle_dec r 0); [lra|].
  destruct (Req_EM_T d 0); [congruence|].
  destruct (Z.eqb_spec (trunc (d * r)) n); subst; reflexivity.
Qed.

Lemma init_mission_bad_rate d r n : r <= 0 -> init_mission d (Some r) n = Err ValueError.
Proof. intros H. unfold init_mission. destruct (Rle_dec r 0); [reflexivity|lra]. Qed.

Lemma init_mission_too_few d r n :
  d <> Some 0 ->
  (d = None /\ r = None) \/ (d = None /\ n = None) \/ (r = None /\ n = None) ->
  init_mission d r n = Err ValueError.
Proof.
  intros Hd H. unfold init_mission.
  destruct d as [d|], r as [r|], n as [n|];
    repeat match goal with
    | |- context [Rle_dec ?a ?b] => destruct (Rle_dec a b)
    | |- context [Req_EM_T ?a ?b] => destruct (Req_EM_T a b)
    end; try reflexivity; subst; try congruence;
    destruct H as [[? ?]|[[? ?]|[? ?]]]; discriminate.
Qed.

Lemma zero_duration_alone : init_mission (Some 0) None None = Ok (mkmission 0 0 0).
Proof.
  unfold init_mission. destruct (Req_EM_T 0 0); [|lra].
  replace (0 * 0) with (IZR 0) by (simpl; ring). now rewrite trunc_Z.
Qed.

Lemma zero_duration_samples n : n <> 0%Z -> init_mission (Some 0) None (Some n) = Err ValueError.
Proof.
  intros H. unfold init_mission. destruct (Req_EM_T 0 0); [|lra].
  replace (0 * 0) with (IZR 0) by (simpl; ring). rewrite trunc_Z.
  destruct (Z.eqb_spec 0 n); congruence.
Qed.

(** ** Times *)

Lemma zrange_app a b c : (a <= b)%Z -> (b <= c)%Z -> zrange a c = zrange a b ++ zrange b c.
Proof.
  intros H1 H2. unfold zrange.
  replace (Z.to_nat (c - a)) with (Z.to_nat (b - a) + Z.to_nat (c - b))%nat by lia.
  rewrite seq_app, map_app. f_equal. cbn [Nat.add].
  replace (Z.to_nat (b - a)) with (Z.to_nat (b - a) + 0)%nat at 1 by lia.
  generalize (Z.to_nat (c - b)) as m. intros m. generalize 0%nat as s.
  induction m as [|m IH]; intros s; cbn [seq map]; [reflexivity|].
  f_equal; [lia|]. rewrite <- (IH (S s)). f_equal. f_equal. lia.
Qed.

Lemma zrange_nth a b i : (i < Z.to_nat (b - a))%nat ->
  nth_error (zrange a b) i = Some (a + Z.of_nat i)%Z.
Proof. intros H. unfold zrange. rewrite nth_error_map_seq by auto. reflexivity. Qed.

Lemma zrange_length a b : length (zrange a b) = Z.to_nat (b - a).
Proof. unfold zrange. now rewrite map_length, seq_length. Qed.

Lemma ctimes_concat fs c0 lo hi chunks :
  tiles lo hi (map span chunks) ->
  concat (map (chunk_ctime fs c0) chunks) = map (fun k => IZR k / fs + c0) (zrange lo hi).
Proof.
  revert lo; induction chunks as [|c chunks IH]; intros lo H.
  - cbn in H. subst. unfold zrange. rewrite Z.sub_diag. reflexivity.
  - cbn [map span tiles] in H. destruct H as (<- & Hlt & H).
    cbn [map concat]. rewrite (IH _ H). unfold chunk_ctime at 1. rewrite <- map_app.
    f_equal. symmetry. apply zrange_app; [lia|]. apply tiles_le in H. exact H.
Qed.

Lemma ctimes_law fs c0 n chunks k :
  tiles 0 n (map span chunks) -> (0 <= k < n)%Z ->
  nth_error (concat (map (chunk_ctime fs c0) chunks)) (Z.to_nat k) = Some (c0 + IZR k / fs).
Proof.
  intros HT Hk. rewrite (ctimes_concat _ _ _ _ _ HT), nth_error_map, zrange_nth by lia.
  cbn. f_equal. replace (Z.of_nat (Z.to_nat k)) with k by lia. ring.
Qed.

Lemma ctimes_length fs c0 n chunks :
  tiles 0 n (map span chunks) ->
  length (concat (map (chunk_ctime fs c0) chunks)) = Z.to_nat n.
Proof.
  intros HT. rewrite (ctimes_concat _ _ _ _ _ HT), map_length, zrange_length. lia.
Qed.

Lemma ctimes_increasing fs c0 n chunks i j s t :
  0 < fs -> tiles 0 n (map span chunks) -> (i < j)%nat ->
  nth_error (concat (map (chunk_ctime fs c0) chunks)) i = Some s ->
  nth_error (concat (map (chunk_ctime fs c0) chunks)) j = Some t ->
  s < t.
Proof.
  intros Hf HT Hij Hs Ht.
  assert (Hj : (j < Z.to_nat n)%nat)
    by (rewrite <- (ctimes_length fs c0 n chunks HT); apply nth_error_Some; congruence).
  pose proof (ctimes_law fs c0 n chunks (Z.of_nat i) HT ltac:(lia)) as E1.
  pose proof (ctimes_law fs c0 n chunks (Z.of_nat j) HT ltac:(lia)) as E2.
  rewrite Nat2Z.id in E1, E2. rewrite Hs in E1. rewrite Ht in E2.
  injection E1 as ->. injection E2 as ->.
  apply Rplus_lt_compat_l. apply Rmult_lt_compat_r.
  - now apply Rinv_0_lt_compat.
  - apply IZR_lt. lia.
Qed.

(** ** Location and start time *)

Lemma truthy_some v : v <> 0 -> truthy (Some v) = true.
Proof. intros H. cbn. destruct (Req_EM_T v 0); [contradiction|reflexivity]. Qed.

Lemma location_nonzero loc lat lon :
  lat <> 0 -> lon <> 0 -> init_location loc (Some lat) (Some lon) = Ok (Some lat, Some lon).
Proof.
  intros H1 H2. unfold init_location. rewrite !truthy_some by auto.
  destruct loc; cbv iota zeta; rewrite ?truthy_some by auto; reflexivity.
Qed.

Lemma location_zero_lat : init_location Spole (Some 0) None = Ok (Some (-89.9), Some 169.15).
Proof.
  assert (Z0 : truthy (Some 0) = false) by (cbn; destruct (Req_EM_T 0 0); [reflexivity|lra]).
  unfold init_location. rewrite Z0. change (truthy None) with false. cbv iota zeta.
  rewrite !truthy_some by lra. reflexivity.
Qed.

Lemma location_zero_space lon : lon <> 0 ->
  init_location Space (Some 0) (Some lon) = Ok (None, Some lon).
Proof.
  intros H. unfold init_location. rewrite (truthy_some lon) by auto. cbn [truthy].
  destruct (Req_EM_T 0 0); [|lra]. reflexivity.
Qed.

Lemma ctime0_nonzero now v : v <> 0 -> set_ctime0 now (Some v) = v.
Proof. intros H. unfold set_ctime0. now rewrite truthy_some. Qed.

Lemma ctime0_zero now : set_ctime0 now (Some 0) = now.
Proof. unfold set_ctime0. cbn. destruct (Req_EM_T 0 0); [reflexivity|lra]. Qed.

Lemma hwpang_zero fs h n :
  h_mode h = NoMode -> rotate_hwp fs (Some 0) n h = Ok (HScalar (radians (st_angle (h_steps h))), h).
Proof.
  intros H. unfold rotate_hwp. rewrite H. cbn [truthy]. destruct (Req_EM_T 0 0); [reflexivity|lra].
Qed.

Lemma hwpang_nonzero fs h n a :
  h_mode h = NoMode -> a <> 0 -> rotate_hwp fs (Some a) n h = Ok (HScalar (radians a), h).
Proof.
  intros H Ha. unfold rotate_hwp. rewrite H, truthy_some by auto. reflexivity.
Qed.

Lemma hwpang_zero_witness :
  exists fs h n o h', set_hwp_mod fs NoMode None 45 None = Ok h
    /\ rotate_hwp fs (Some 0) n h = Ok (HScalar o, h') /\ o <> radians 0.
Proof.
  do 5 eexists. split; [reflexivity|]. split; [apply hwpang_zero with (fs := 1) (n := 1%nat); reflexivity|].
  cbn. unfold radians. pose proof PI_RGT_0. lra.
Qed.

Lemma zero_witnesses :
  (exists loc lat p, init_location loc (Some lat) None = Ok p /\ fst p <> Some lat)
  /\ (forall now, now <> 0 -> exists v, set_ctime0 now (Some v) <> v).
Proof.
  split.
  - exists Spole, 0, (Some (-89.9), Some 169.15). split; [apply location_zero_lat|].
    cbn. intros E. injection E. lra.
  - intros now H. exists 0. now rewrite ctime0_zero.
Qed.
