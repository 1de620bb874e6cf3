(** * Lemmas about the boresight motion: whole chunks *)
From Coq Require Import Reals Lra Lia.
From Verif Require Import Common LibList M_Chunks M_Steps M_Hwp L_Hwp M_Point S_Point L_Point.
Open Scope R_scope.

Lemma sawtooth_sample throw speed fsamp n i : 0 < throw -> 0 < fsamp -> (i < n)%nat ->
  exists x, nth_error (map (fun x => x - throw / 2) (sawtooth_wave n (speed / fsamp) throw)) i = Some x
    /\ sawtooth throw speed (INR i / fsamp) x.
Proof.
  intros Ht Hf Hi. unfold sawtooth_wave. rewrite !nth_error_map, linspace_nth by auto. cbn [option_map].
  eexists. split; [reflexivity|]. assert (Hn : INR n <> 0) by (apply not_0_INR; lia).
  set (y := 0 + INR i * ((speed / fsamp * INR n - 0) / INR n)).
  assert (Ey : y = speed * (INR i / fsamp)) by (unfold y; field; split; lra).
  assert (B := rmod_bounds y throw Ht). destruct (rmod_cong y throw) as [z Ez]. split; [lra|].
  exists (- z)%Z. rewrite Ez, Ey, opp_IZR. ring.
Qed.

Definition wave (p : prf) (throw speed t x : R) : Prop :=
  match p with
  | Triangle => Rabs x <= throw / 2 /\ triangle throw speed t x
  | Sawtooth => sawtooth throw speed t x
  | OtherPrf => False
  end.

Lemma az_profile_ok fsamp throw speed p n chunk : 0 < throw -> 0 < speed -> 0 < fsamp -> p <> OtherPrf ->
  exists l, az_profile fsamp throw speed p n chunk = Ok l /\ length l = n /\
    forall i y, nth_error l i = Some y -> wave p throw speed (INR i / fsamp) y.
Proof.
  intros Ht Hs Hf Hp. unfold az_profile. destruct (Req_EM_T speed 0); [lra|]. destruct (Req_EM_T throw 0); [lra|].
  destruct p; [| |congruence]; (eexists; split; [reflexivity|]; split; [unfold sawtooth_wave; now rewrite ?map_length, ?linspace_length, ?seq_length|]); intros i y Ei.
  - assert (Hi : (i < n)%nat). { assert (X : nth_error _ i <> None) by (rewrite Ei; discriminate). apply nth_error_Some in X. now rewrite map_length, seq_length in X. }
    rewrite nth_seq_map in Ei by auto. injection Ei as <-. apply (triangle_wave throw speed fsamp i); auto.
  - assert (Hi : (i < n)%nat). { assert (X : nth_error _ i <> None) by (rewrite Ei; discriminate). apply nth_error_Some in X. unfold sawtooth_wave in X. now rewrite !map_length, linspace_length in X. }
    destruct (sawtooth_sample throw speed fsamp n i) as (x & E & H); auto. rewrite Ei in E. injection E as <-. exact H.
Qed.

Lemma reshape_ok n k l : length l = (n * k)%nat -> exists m, reshape n k l = Ok m.
Proof. intros H. unfold reshape. rewrite H, Nat.eqb_refl. eauto. Qed.

Section AzEl.
  Context (fuel : nat) (hor : R -> R -> R -> R * R) (fsamp ctime0 : R) (ras decs : list R)
    (throw speed : R) (p : prf) (check_len : nat) (el_min : R) (cut : bool) (start : Z) (chunk : nat).
  Hypothesis Hl : length ras = length decs.
  Hypothesis Hne : decs <> [].
  Hypothesis Hfu : (length decs <= fuel)%nat.
  Hypothesis Hcl : (0 < check_len)%nat.

  Lemma positions : exists azel flags,
    patches fuel hor ras decs (every check_len (ctimes fsamp ctime0 start chunk)) el_min cut = Some (Ok (azel, flags))
    /\ length azel = ceil_div chunk check_len
    /\ forall i, (i < chunk)%nat -> exists a e f, nth_error azel (i / check_len) = Some (a, e) /\ el_min <= e
         /\ chosen hor ras decs el_min cut (check_time fsamp ctime0 start check_len i) a e f.
  Proof.
    destruct (selection hor ras decs el_min cut fuel (every check_len (ctimes fsamp ctime0 start chunk)) Hl Hne Hfu)
      as (azel & flags & E & L1 & _ & N).
    assert (Lc : length (ctimes fsamp ctime0 start chunk) = chunk) by (unfold ctimes; now rewrite map_length, seq_length).
    exists azel, flags. split; auto. split; [now rewrite L1, every_length, Lc|].
    intros i Hi. destruct (N (i / check_len)%nat (check_time fsamp ctime0 start check_len i)) as (a & e & f & E1 & E2 & E3 & E4).
    - rewrite every_nth by (auto; lia). unfold ctimes. rewrite nth_seq_map; [reflexivity|].
      assert (X := Nat.div_mod i check_len ltac:(lia)). nia.
    - exists a, e, f. auto.
  Qed.

  Lemma scan_chunk : 0 < throw -> 0 < speed -> 0 < fsamp -> p <> OtherPrf ->
    exists az el, az_el fuel hor fsamp ctime0 ras decs throw speed p check_len el_min cut start chunk = Some (Ok (az, el))
      /\ length az = chunk /\ length el = chunk
      /\ forall i, (i < chunk)%nat -> exists a e f x,
           chosen hor ras decs el_min cut (check_time fsamp ctime0 start check_len i) a e f /\ el_min <= e
           /\ nth_error el i = Some e /\ nth_error az i = Some (a + x)
           /\ wave p throw speed (INR i / fsamp) x.
  Proof.
    intros Ht Hs Hf Hp. destruct positions as (azel & flags & E & L & N).
    unfold az_el. destruct (Nat.eqb_spec check_len 0); [lia|]. rewrite E.
    set (nc := ceil_div chunk check_len) in *. assert (Hc := proj2 (ceil_div_spec chunk check_len Hcl)). fold nc in Hc.
    destruct (az_profile_ok fsamp throw speed p (check_len * nc) chunk Ht Hs Hf Hp) as (l & El & Ll & W).
    rewrite El. cbn [bind].
    destruct (reshape_ok nc check_len l) as [m Em]; [lia|]. rewrite Em. cbn [bind].
    destruct (reshape_ok nc check_len (repeat 0 (check_len * nc))) as [m' Em']; [rewrite repeat_length; lia|]. rewrite Em'. cbn [bind].
    do 2 eexists. split; [reflexivity|].
    assert (La : length (map fst azel) = nc) by (now rewrite map_length).
    assert (Le : length (map snd azel) = nc) by (now rewrite map_length).
    assert (Hc' : (chunk <= nc * check_len)%nat) by lia.
    destruct (expanded nc check_len l (map fst azel) chunk Hcl La Hc' m Em) as [X1 X2].
    destruct (expanded nc check_len _ (map snd azel) chunk Hcl Le Hc' m' Em') as [Y1 Y2].
    split; auto. split; auto. intros i Hi.
    destruct (N i Hi) as (a & e & f & N1 & N2 & N3).
    destruct (X2 i Hi) as (x & y & A1 & A2 & A3). destruct (Y2 i Hi) as (x' & y' & B1 & B2 & B3).
    rewrite nth_error_map, N1 in A1, B1. cbn in A1, B1. injection A1 as <-. injection B1 as <-.
    rewrite nth_error_repeat in B2 by lia. injection B2 as <-.
    exists a, e, f, y. do 2 (split; auto). split; [rewrite B3; f_equal; ring|]. split; [rewrite A3; f_equal; ring|]. eauto.
  Qed.

  Lemma no_throw : throw = 0 ->
    (chunk = ceil_div chunk check_len * check_len)%nat ->
    exists az el, az_el fuel hor fsamp ctime0 ras decs throw speed p check_len el_min cut start chunk = Some (Ok (az, el))
      /\ length az = chunk /\ length el = chunk
      /\ forall i, (i < chunk)%nat -> exists a e f,
           chosen hor ras decs el_min cut (check_time fsamp ctime0 start check_len i) a e f /\ el_min <= e
           /\ nth_error el i = Some e /\ nth_error az i = Some a.
  Proof.
    intros Ht Hcc. destruct positions as (azel & flags & E & L & N).
    unfold az_el. destruct (Nat.eqb_spec check_len 0); [lia|]. rewrite E.
    set (nc := ceil_div chunk check_len) in *.
    unfold az_profile. destruct (Req_EM_T throw 0); [|lra]. cbn [bind].
    destruct (reshape_ok nc check_len (repeat 0 chunk)) as [m Em]; [rewrite repeat_length; lia|]. rewrite Em. cbn [bind].
    destruct (reshape_ok nc check_len (repeat 0 (check_len * nc))) as [m' Em']; [rewrite repeat_length; lia|]. rewrite Em'. cbn [bind].
    do 2 eexists. split; [reflexivity|].
    assert (La : length (map fst azel) = nc) by (now rewrite map_length).
    assert (Le : length (map snd azel) = nc) by (now rewrite map_length).
    assert (Hc' : (chunk <= nc * check_len)%nat) by lia.
    destruct (expanded nc check_len _ (map fst azel) chunk Hcl La Hc' m Em) as [X1 X2].
    destruct (expanded nc check_len _ (map snd azel) chunk Hcl Le Hc' m' Em') as [Y1 Y2].
    split; auto. split; auto. intros i Hi.
    destruct (N i Hi) as (a & e1 & f & N1 & N2 & N3).
    destruct (X2 i Hi) as (x & y & A1 & A2 & A3). destruct (Y2 i Hi) as (x' & y' & B1 & B2 & B3).
    rewrite nth_error_map, N1 in A1, B1. cbn in A1, B1. injection A1 as <-. injection B1 as <-.
    rewrite nth_error_repeat in A2, B2 by lia. injection A2 as <-. injection B2 as <-.
    exists a, e1, f. do 2 (split; auto). split; [rewrite B3; f_equal; ring|]. rewrite A3; f_equal; ring.
  Qed.

  Lemma no_throw_fails : throw = 0 -> (chunk <> ceil_div chunk check_len * check_len)%nat ->
    az_el fuel hor fsamp ctime0 ras decs throw speed p check_len el_min cut start chunk = Some (Err ValueError).
  Proof.
    intros Ht Hcc. destruct positions as (azel & flags & E & L & N).
    unfold az_el. destruct (Nat.eqb_spec check_len 0); [lia|]. rewrite E.
    unfold az_profile. destruct (Req_EM_T throw 0); [|lra]. cbn [bind]. unfold reshape at 1. rewrite repeat_length.
    destruct (Nat.eqb_spec chunk (ceil_div chunk check_len * check_len)); [contradiction|reflexivity].
  Qed.
End AzEl.

(** More fuel never changes the result. *)
Lemma patch_loop_more hor ras decs ts el_min cut : forall fuel n cur flags r fuel',
  patch_loop fuel hor ras decs ts el_min cut n cur flags = Some r -> (fuel <= fuel')%nat ->
  patch_loop fuel' hor ras decs ts el_min cut n cur flags = Some r.
Proof.
  induction fuel as [|fuel IH]; intros n cur flags r fuel' H Hf.
  - cbn [patch_loop] in H. destruct (existsb (below el_min) cur) eqn:E; [discriminate|].
    rewrite <- H. apply loop_done. exact E.
  - destruct fuel' as [|fuel']; [lia|]. cbn [patch_loop] in *.
    destruct (existsb (below el_min) cur); auto.
    destruct (n <? length decs)%nat; [|eapply IH; eauto; lia].
    destruct (index ras n), (index decs n); auto. eapply IH; eauto; lia.
Qed.

(** ** Schedule *)
(** The azimuth follows [0, 1, ..., k, ..., 1, 0] (with [k = nscan - 1]). *)
Definition tri (k m : nat) : nat := if (m <=? k)%nat then m else (2 * k - m)%nat.

Lemma tri_step k m : (m < 2 * k)%nat -> tri k (S m) = S (tri k m) \/ tri k m = S (tri k (S m)).
Proof. intros H. unfold tri. destruct (Nat.leb_spec m k), (Nat.leb_spec (S m) k); lia. Qed.

Lemma single_nth az0 az1 k m : (m < 2 * k + 1)%nat -> (0 < k)%nat ->
  nth_error (linspace az0 az1 k ++ linspace_to az1 az0 (S k)) m = Some (az0 + (az1 - az0) / INR k * INR (tri k m)).
Proof.
  intros Hm Hk. assert (INR k <> 0) by (apply not_0_INR; lia). unfold tri.
  destruct (Nat.lt_ge_cases m k).
  - rewrite nth_error_app1 by (rewrite linspace_length; auto). rewrite linspace_nth by auto.
    destruct (Nat.leb_spec m k); [|lia]. f_equal. field. auto.
  - rewrite nth_error_app2 by (rewrite linspace_length; auto). rewrite linspace_length.
    unfold linspace_to. rewrite nth_seq_map by lia. destruct (Nat.eqb_spec (S k) 1); [lia|].
    replace (S k - 1)%nat with k by lia. f_equal. rewrite minus_INR by lia.
    destruct (Nat.leb_spec m k).
    + assert (m = k) by lia. subst. field. auto.
    + rewrite minus_INR, mult_INR by lia. cbn [INR]. field. auto.
Qed.

Lemma nth_repeat_concat {A} (l : list A) : forall q i d, length l <> 0%nat -> (i < q * length l)%nat ->
  nth i (concat (repeat l q)) d = nth (i mod length l) l d.
Proof.
  induction q as [|q IH]; intros i d Hl Hi; [lia|]. cbn [repeat concat].
  destruct (Nat.lt_ge_cases i (length l)).
  - rewrite app_nth1 by auto. now rewrite Nat.mod_small by auto.
  - rewrite app_nth2 by lia. rewrite IH; [|auto|cbn in Hi; lia]. f_equal.
    replace i with ((i - length l) + 1 * length l)%nat at 2 by lia. now rewrite Nat.mod_add.
Qed.
Lemma concat_repeat_length {A} (l : list A) q : length (concat (repeat l q)) = (q * length l)%nat.
Proof. induction q; cbn; [auto|]. rewrite app_length. lia. Qed.

Lemma rolled single q ph n i : length single <> 0%nat -> (n <= q * length single)%nat -> (i < n)%nat ->
  nth_error (firstn n (roll ph (concat (repeat single q)))) i
  = Some (nth (Z.to_nat ((Z.of_nat i - ph) mod Z.of_nat (length single))) single 0).
Proof.
  intros Hs Hn Hi. rewrite nth_error_firstn by auto. unfold roll. rewrite concat_repeat_length.
  rewrite nth_seq_map by lia. f_equal. set (N := length single) in *.
  assert (Hq : (0 < q)%nat) by (destruct q; [lia|lia]).
  assert (HN : (0 < q * N)%nat) by (apply Nat.mul_pos_pos; lia).
  assert (Hq' : (0 < Z.of_nat (q * N))%Z) by lia.
  assert (B := Z.mod_pos_bound (Z.of_nat i - ph) (Z.of_nat (q * N)) Hq').
  rewrite nth_repeat_concat by (fold N; lia). fold N. f_equal.
  apply Nat2Z.inj. rewrite Nat2Z.inj_mod, Z2Nat.id by lia.
  rewrite Z2Nat.id by (apply Z.mod_pos_bound; lia).
  rewrite Nat2Z.inj_mul, Z.mul_comm, Z.rem_mul_r by lia.
  rewrite Z.mul_comm, Z_mod_plus_full. apply Z.mod_mod. lia.
Qed.

Lemma trunc_ge1 x : 1 <= x -> (1 <= trunc x)%Z /\ IZR (trunc x) <= x < IZR (trunc x) + 1.
Proof.
  intros H. unfold trunc. destruct (Rle_dec 0 x); [|lra]. assert (B := floor_bounds x). split; auto.
  assert (1 < Int_part x + 1)%Z by (apply lt_IZR; rewrite plus_IZR; lra). lia.
Qed.

Lemma rolled_length single ph q n : (n <= q * length single)%nat ->
  length (firstn n (roll ph (concat (repeat single q)))) = n.
Proof.
  intros H. rewrite firstn_length. unfold roll. rewrite map_length, seq_length, concat_repeat_length. lia.
Qed.

Lemma schedule_law fsamp speed az0 az1 dt n (k : nat) :
  az0 < az1 -> (0 < k)%nat -> INR k + 1 <= (az1 - az0) / speed * fsamp < INR k + 2 ->
  exists az (ph : Z), schedule_az fsamp speed Triangle az0 az1 dt n = Ok az /\ length az = n
    /\ forall i, (i < n)%nat -> nth_error az i =
         Some (az0 + (az1 - az0) / INR k * INR (tri k (Z.to_nat ((Z.of_nat i - ph) mod (2 * Z.of_nat k + 1))))).
Proof.
  intros Ha Hk Hb. unfold schedule_az.
  destruct (Rlt_dec az1 az0); [lra|]. destruct (Rle_dec (az1 - az0) 0); [lra|].
  set (x := (az1 - az0) / speed * fsamp) in *.
  assert (Ex : trunc x = Z.of_nat (S k)).
  { unfold trunc. assert (0 <= INR k) by apply pos_INR. destruct (Rle_dec 0 x); [|lra].
    apply floor_unique. rewrite <- INR_IZR_INZ, S_INR. lra. }
  rewrite Ex. destruct (Z.leb_spec (Z.of_nat (S k)) 0); [lia|].
  rewrite Nat2Z.id.
  replace (S k - 1)%nat with k by lia.
  set (single := linspace az0 az1 k ++ linspace_to az1 az0 (S k)).
  assert (Ls : length single = (2 * k + 1)%nat).
  { unfold single, linspace_to. rewrite app_length, linspace_length, map_length, seq_length. lia. }
  replace (2 * S k - 1)%nat with (2 * k + 1)%nat by lia.
  set (ph := (- Int_part (- _))%Z).
  assert (Hn : (n <= ceil_div n (2 * k + 1) * length single)%nat).
  { rewrite Ls. assert (X := proj2 (ceil_div_spec n (2 * k + 1) ltac:(lia))). lia. }
  eexists; exists ph. split; [reflexivity|]. split; [apply rolled_length; auto|].
  intros i Hi. rewrite rolled by (auto; lia). f_equal. rewrite Ls.
  replace (Z.of_nat (2 * k + 1)) with (2 * Z.of_nat k + 1)%Z by lia.
  assert (B := Z.mod_pos_bound (Z.of_nat i - ph) (2 * Z.of_nat k + 1) ltac:(lia)).
  apply nth_error_nth with (d := 0). apply single_nth; auto. lia.
Qed.

Lemma tri_le k m : (m <= 2 * k)%nat -> (tri k m <= k)%nat.
Proof. unfold tri. destruct (Nat.leb_spec m k); lia. Qed.

Lemma schedule_short fsamp speed az0 az1 dt n :
  az0 < az1 -> 1 <= (az1 - az0) / speed * fsamp < 2 ->
  exists az, schedule_az fsamp speed Triangle az0 az1 dt n = Ok az /\ length az = n /\ forall a, In a az -> a = az1.
Proof.
  intros Ha Hb. unfold schedule_az.
  destruct (Rlt_dec az1 az0); [lra|]. destruct (Rle_dec (az1 - az0) 0); [lra|].
  set (x := (az1 - az0) / speed * fsamp) in *.
  assert (Ex : trunc x = 1%Z).
  { unfold trunc. destruct (Rle_dec 0 x); [|lra]. apply floor_unique. lra. }
  rewrite Ex. change (1 <=? 0)%Z with false. cbv iota.
  change (Z.to_nat 1) with 1%nat. change (2 * 1 - 1)%nat with 1%nat. change (1 - 1)%nat with 0%nat.
  set (ph := (- Int_part (- _))%Z).
  change (linspace az0 az1 0 ++ linspace_to az1 az0 1) with [az1].
  assert (Hn : (n <= ceil_div n 1 * length [az1])%nat).
  { assert (X := proj2 (ceil_div_spec n 1 ltac:(lia))). cbn [length]. lia. }
  eexists. split; [reflexivity|]. split; [apply rolled_length; auto|].
  intros a Hin. apply In_nth_error in Hin as [i Ei].
  assert (Hi : (i < n)%nat). { rewrite <- (rolled_length [az1] ph _ n Hn). apply nth_error_Some. congruence. }
  rewrite (rolled [az1] _ ph n i) in Ei by (auto; cbn; lia). injection Ei as <-. cbn [length].
  change (Z.of_nat 1) with 1%Z. now rewrite Z.mod_1_r.
Qed.

Lemma Some_inj {A} (x y : A) : Some x = Some y -> x = y.
Proof. congruence. Qed.

Lemma schedule_limits fsamp speed az0 az1 dt n : az0 < az1 -> 1 <= (az1 - az0) / speed * fsamp ->
  exists az, schedule_az fsamp speed Triangle az0 az1 dt n = Ok az /\ length az = n
    /\ forall a, In a az -> az0 <= a <= az1.
Proof.
  intros Ha Hb. destruct (trunc_ge1 _ Hb) as [T1 T2]. set (x := (az1 - az0) / speed * fsamp) in *.
  destruct (Z.eq_dec (trunc x) 1) as [E1|N1].
  - rewrite E1 in T2. destruct (schedule_short fsamp speed az0 az1 dt n Ha) as (az & E & L & H); [fold x; lra|].
    exists az. split; auto. split; auto. intros a Hin. rewrite (H a Hin). lra.
  - set (k := Z.to_nat (trunc x - 1)). assert (Ek : IZR (trunc x) = INR k + 1).
    { unfold k. rewrite INR_IZR_INZ, Z2Nat.id by lia. rewrite minus_IZR. lra. }
    assert (Hk : (0 < k)%nat) by (unfold k; lia). clearbody k.
    destruct (schedule_law fsamp speed az0 az1 dt n k Ha Hk) as (az & ph & E & L & N); [fold x; lra|].
    exists az. split; auto. split; auto. intros a Hin. apply In_nth_error in Hin as [i Ei].
    rewrite N in Ei by (rewrite <- L; apply nth_error_Some; congruence). apply Some_inj in Ei as <-.
    assert (B := Z.mod_pos_bound (Z.of_nat i - ph) (2 * Z.of_nat k + 1) ltac:(lia)).
    set (m := Z.to_nat _). assert (Hm : (m <= 2 * k)%nat) by (unfold m; zify; lia). assert (Ht := tri_le k m Hm).
    assert (0 < INR k) by (apply lt_0_INR; auto).
    assert (0 <= INR (tri k m)) by apply pos_INR. apply le_INR in Ht.
    assert (Q : 0 <= (az1 - az0) / INR k) by (apply Rlt_le, Rdiv_lt_0_compat; lra).
    assert (Q' : (az1 - az0) / INR k * INR k = az1 - az0) by (field; lra).
    assert (X1 := Rmult_le_pos _ _ Q H0). assert (X2 := Rmult_le_compat_l _ _ _ Q Ht). lra.
Qed.

Lemma schedule_steps fsamp speed az0 az1 dt n (k : nat) :
  az0 < az1 -> (0 < k)%nat -> INR k + 1 <= (az1 - az0) / speed * fsamp < INR k + 2 ->
  exists az, schedule_az fsamp speed Triangle az0 az1 dt n = Ok az /\ length az = n
    /\ forall i x y, nth_error az i = Some x -> nth_error az (S i) = Some y -> Rabs (y - x) <= (az1 - az0) / INR k.
Proof.
  intros Ha Hk Hb. destruct (schedule_law fsamp speed az0 az1 dt n k Ha Hk Hb) as (az & ph & E & L & N).
  exists az. split; auto. split; auto. intros i x y Ex Ey.
  assert (Hi : (S i < n)%nat) by (rewrite <- L; apply nth_error_Some; congruence).
  rewrite N in Ex, Ey by lia. apply Some_inj in Ex as <-. apply Some_inj in Ey as <-.
  set (N' := (2 * Z.of_nat k + 1)%Z). set (m := ((Z.of_nat i - ph) mod N')%Z).
  assert (B := Z.mod_pos_bound (Z.of_nat i - ph) N' ltac:(lia)). fold m in B.
  assert (0 < INR k) by (apply lt_0_INR; auto).
  assert (Q : 0 < (az1 - az0) / INR k) by (apply Rdiv_lt_0_compat; lra).
  assert (D : forall a b, (a = b \/ a = S b \/ b = S a)%nat ->
    Rabs (az0 + (az1 - az0) / INR k * INR a - (az0 + (az1 - az0) / INR k * INR b)) <= (az1 - az0) / INR k).
  { intros a b Hab. replace (az0 + (az1 - az0) / INR k * INR a - (az0 + (az1 - az0) / INR k * INR b))
      with ((az1 - az0) / INR k * (INR a - INR b)) by ring.
    rewrite Rabs_mult, (Rabs_pos_eq ((az1 - az0) / INR k)) by lra.
    rewrite <- (Rmult_1_r ((az1 - az0) / INR k)) at 2. apply Rmult_le_compat_l; [lra|].
    destruct Hab as [->|[->| ->]]; rewrite ?S_INR; apply Rabs_le; lra. }
  apply D. destruct (Z.eq_dec m (N' - 1)) as [Em|Nm].
  - assert (X : ((Z.of_nat (S i) - ph) mod N' = 0)%Z).
    { replace (Z.of_nat (S i) - ph)%Z with (Z.of_nat i - ph + 1)%Z by lia.
      rewrite <- Zplus_mod_idemp_l. fold m. rewrite Em. replace (N' - 1 + 1)%Z with N' by lia. apply Z_mod_same_full. }
    rewrite X. left. rewrite Em. unfold tri, N'. replace (Z.to_nat (2 * Z.of_nat k + 1 - 1)) with (2 * k)%nat by lia.
    change (Z.to_nat 0) with 0%nat. destruct (Nat.leb_spec 0 k), (Nat.leb_spec (2 * k) k); lia.
  - assert (X : ((Z.of_nat (S i) - ph) mod N' = m + 1)%Z).
    { replace (Z.of_nat (S i) - ph)%Z with (Z.of_nat i - ph + 1)%Z by lia.
      rewrite <- Zplus_mod_idemp_l. fold m. apply Z.mod_small. lia. }
    rewrite X. right. replace (Z.to_nat (m + 1)) with (S (Z.to_nat m)) by lia.
    destruct (tri_step k (Z.to_nat m)); [unfold N' in *; lia|left; auto|right; auto].
Qed.
