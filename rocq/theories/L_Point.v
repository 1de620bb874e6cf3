(** * Lemmas about the boresight motion *)
From Coq Require Import Reals Lra Lia.
From Verif Require Import Common LibList M_Chunks M_Steps M_Hwp L_Hwp M_Point S_Point.
From Coq Require Import Ratan.
Open Scope R_scope.

(** ** Patch selection *)
Section P.
  Context (hor : R -> R -> R -> R * R) (ras decs : list R) (el_min : R) (cut : bool).

  Definition low_upto (n : nat) (t : R) : Prop := forall k ra dec, (k < n)%nat ->
    nth_error ras k = Some ra -> nth_error decs k = Some dec -> snd (hor ra dec t) < el_min.
  Definition at_patch (j : nat) (t : R) (c : R * R) : Prop := exists ra dec,
    nth_error ras j = Some ra /\ nth_error decs j = Some dec /\ hor ra dec t = c.
  Definition sofar (n : nat) (t : R) (c : R * R) : Prop :=
    (exists j, (j < n)%nat /\ at_patch j t c /\ el_min <= snd c /\ low_upto j t)
    \/ (low_upto n t /\ at_patch (n - 1) t c).

  Lemma below_true c : below el_min c = true <-> snd c < el_min.
  Proof. unfold below. destruct (Rlt_dec (snd c) el_min); split; auto; discriminate. Qed.
  Lemma below_false c : below el_min c = false <-> el_min <= snd c.
  Proof. unfold below. destruct (Rlt_dec (snd c) el_min); split; auto; try discriminate; intros; lra. Qed.

  Lemma sofar_below n t c : sofar n t c -> snd c < el_min -> low_upto n t /\ at_patch (n - 1) t c.
  Proof. intros [(j & _ & _ & H & _)|H] Hb; [lra|auto]. Qed.
  Lemma sofar_high n t c : sofar n t c -> el_min <= snd c -> (0 < n)%nat ->
    exists j, (j < n)%nat /\ at_patch j t c /\ el_min <= snd c /\ low_upto j t.
  Proof.
    intros [H|(H & ra & dec & E1 & E2 & E3)] Hb Hn; [auto|]. exfalso.
    assert (X := H (n - 1)%nat ra dec ltac:(lia) E1 E2). rewrite E3 in X. lra.
  Qed.

  Lemma sofar_step n t c ra dec : sofar n t c -> (0 < n)%nat ->
    nth_error ras n = Some ra -> nth_error decs n = Some dec ->
    sofar (S n) t (if below el_min c then hor ra dec t else c).
  Proof.
    intros H Hn E1 E2. destruct (below el_min c) eqn:Eb.
    - apply below_true in Eb. destruct (sofar_below _ _ _ H Eb) as [L _].
      destruct (Rle_dec el_min (snd (hor ra dec t))) as [Hh|Hh].
      + left. exists n. split; [lia|]. split; [exists ra, dec; auto|]. auto.
      + right. split.
        * intros k ra' dec' Hk K1 K2. destruct (Nat.eq_dec k n) as [->|]; [|apply (L k); auto; lia].
          rewrite E1 in K1. rewrite E2 in K2. injection K1 as <-. injection K2 as <-. lra.
        * replace (S n - 1)%nat with n by lia. exists ra, dec. auto.
    - apply below_false in Eb. destruct (sofar_high _ _ _ H Eb Hn) as (j & Hj & X). left. exists j. split; [lia|auto].
  Qed.

  Definition settled (t : R) (c : R * R) (f : bool) : Prop :=
    el_min <= snd c /\ chosen hor ras decs el_min cut t (fst c) (snd c) f.

  Lemma high_settled n t c : sofar n t c -> el_min <= snd c -> (0 < n)%nat -> settled t c false.
  Proof.
    intros H Hb Hn. split; auto. destruct (sofar_high _ _ _ H Hb Hn) as (j & Hj & (ra & dec & E1 & E2 & E3) & _ & L).
    left. exists j, ra, dec. rewrite E3. destruct c; cbn. do 5 (split; auto).
  Qed.
  Lemma low_settled n t c : sofar n t c -> snd c < el_min -> n = length decs -> length ras = length decs ->
    settled t (fst c, el_min) cut.
  Proof.
    intros H Hb -> Hl. destruct (sofar_below _ _ _ H Hb) as [L (ra & dec & E1 & E2 & E3)].
    split; [cbn; lra|]. right. split.
    - intros k ra' dec' K1 K2. eapply L; eauto. apply nth_error_Some. congruence.
    - cbn. split; auto. split; auto. exists ra, dec. rewrite Hl. split; auto. split; auto. now rewrite E3.
  Qed.

  Lemma loop_done fuel n cur flags ts : existsb (below el_min) cur = false ->
    patch_loop fuel hor ras decs ts el_min cut n cur flags = Some (Ok (cur, flags)).
  Proof. intros H. destruct fuel; cbn [patch_loop]; now rewrite H. Qed.

  Lemma existsb_none cur : existsb (below el_min) cur = false -> forall c, In c cur -> el_min <= snd c.
  Proof.
    intros H c Hc. apply below_false. destruct (below el_min c) eqn:E; auto.
    assert (existsb (below el_min) cur = true) by (apply existsb_exists; eauto). congruence.
  Qed.

  Inductive all3 (P : R -> R * R -> bool -> Prop) : list R -> list (R * R) -> list bool -> Prop :=
  | all3_nil : all3 P [] [] []
  | all3_cons t c f ts cs fs : P t c f -> all3 P ts cs fs -> all3 P (t :: ts) (c :: cs) (f :: fs).

  Lemma patch_loop_ok ts : length ras = length decs -> forall fuel n cur,
    (1 <= n <= length decs)%nat -> (length decs <= fuel + (n - 1))%nat ->
    Forall2 (sofar n) ts cur ->
    exists out flags, patch_loop fuel hor ras decs ts el_min cut n cur (map (fun _ => false) ts) = Some (Ok (out, flags))
      /\ all3 settled ts out flags.
  Proof.
    intros Hl. induction fuel as [|fuel IH]; intros n cur Hn Hf F.
    { lia. }
    destruct (existsb (below el_min) cur) eqn:Ex.
    2:{ rewrite loop_done by auto. do 2 eexists. split; [reflexivity|].
        assert (Hh := existsb_none _ Ex). clear Ex IH Hf. revert cur F Hh. induction ts as [|t ts' IHt]; intros cur F Hh; inversion F; subst; constructor.
        - eapply high_settled; eauto; [|lia]. apply Hh. now left.
        - apply IHt; auto. intros c Hc. apply Hh. now right. }
    cbn [patch_loop]. rewrite Ex. destruct (Nat.ltb_spec n (length decs)) as [Hlt|Hge].
    - assert (R1 : exists ra, nth_error ras n = Some ra).
      { destruct (nth_error ras n) eqn:E; eauto. apply nth_error_None in E. lia. }
      assert (D1 : exists dec, nth_error decs n = Some dec).
      { destruct (nth_error decs n) eqn:E; eauto. apply nth_error_None in E. lia. }
      destruct R1 as [ra Era], D1 as [dec Edec]. unfold index. rewrite Era, Edec.
      apply IH; [lia|lia|]. clear -F Era Edec Hn. unfold map2. induction F; cbn; constructor; auto.
      apply sofar_step; auto; lia.
    - assert (n = length decs) by lia.
      rewrite loop_done.
      + do 2 eexists. split; [reflexivity|]. clear -F Hl H Hn. unfold map2.
        induction F as [|t c ts' cs' Hc F IHF]; cbn; constructor; auto.
        destruct (below el_min c) eqn:Eb; cbn.
        * apply below_true in Eb. eapply low_settled; eauto.
        * apply below_false in Eb. eapply high_settled; eauto; lia.
      + apply not_true_is_false. intros X. apply existsb_exists in X as (x & Hx & Hb).
        apply in_map_iff in Hx as (c & <- & _). apply below_true in Hb. destruct (below el_min c) eqn:Eb; cbn in Hb; [lra|].
        apply below_false in Eb. lra.
  Qed.

  Lemma patches_ok fuel ts : length ras = length decs -> decs <> [] -> (length decs <= fuel)%nat ->
    exists out flags, patches fuel hor ras decs ts el_min cut = Some (Ok (out, flags)) /\ all3 settled ts out flags.
  Proof.
    intros Hl Hne Hf. unfold patches.
    assert (N0 : (0 < length decs)%nat) by (destruct decs; [congruence|cbn; lia]).
    destruct (nth_error ras 0) as [ra|] eqn:Era; [|apply nth_error_None in Era; lia].
    destruct (nth_error decs 0) as [dec|] eqn:Edec; [|apply nth_error_None in Edec; lia].
    unfold index. rewrite Era, Edec. apply patch_loop_ok; auto; try lia.
    clear Hf. induction ts as [|t ts' IH]; cbn; constructor; auto.
    destruct (Rle_dec el_min (snd (hor ra dec t))) as [Hh|Hh].
    - left. exists 0%nat. split; [lia|]. split; [exists ra, dec; auto|]. split; auto. intros k ra' dec' Hk. lia.
    - right. split; [|exists ra, dec; auto]. intros k ra' dec' Hk K1 K2. assert (k = 0)%nat as -> by lia.
      rewrite Era in K1. rewrite Edec in K2. injection K1 as <-. injection K2 as <-. lra.
  Qed.

  Lemma all3_nth P ts cs fs : all3 P ts cs fs -> length cs = length ts /\ length fs = length ts
    /\ forall i t, nth_error ts i = Some t -> exists c f, nth_error cs i = Some c /\ nth_error fs i = Some f /\ P t c f.
  Proof.
    induction 1 as [|t c f ts' cs' fs' H A (L1 & L2 & IH)]; [repeat split; intros [|]; discriminate|].
    cbn. split; [lia|]. split; [lia|]. intros [|i] t' E; cbn in *; eauto. injection E as <-. eauto.
  Qed.

  Lemma selection fuel ts : length ras = length decs -> decs <> [] -> (length decs <= fuel)%nat ->
    exists out flags, patches fuel hor ras decs ts el_min cut = Some (Ok (out, flags))
      /\ length out = length ts /\ length flags = length ts
      /\ forall i t, nth_error ts i = Some t -> exists az el f,
           nth_error out i = Some (az, el) /\ nth_error flags i = Some f /\ el_min <= el
           /\ chosen hor ras decs el_min cut t az el f.
  Proof.
    intros Hl Hne Hf. destruct (patches_ok fuel ts Hl Hne Hf) as (out & flags & E & A).
    exists out, flags. split; auto. destruct (all3_nth _ _ _ _ A) as (L1 & L2 & N). do 2 (split; auto).
    intros i t Et. destruct (N _ _ Et) as ([az el] & f & E1 & E2 & S1 & S2). exists az, el, f. auto.
  Qed.
End P.

(** ** Arrays *)
Lemma nth_seq_map {A} (f : nat -> A) n i : (i < n)%nat -> nth_error (map f (seq 0 n)) i = Some (f i).
Proof.
  intros H. rewrite nth_error_map. rewrite (nth_error_nth' _ 0%nat) by (rewrite seq_length; auto).
  rewrite seq_nth by auto. reflexivity.
Qed.

Lemma ceil_div_spec a b : (0 < b)%nat -> (b * (ceil_div a b) < a + b)%nat /\ (a <= b * ceil_div a b)%nat.
Proof.
  intros H. unfold ceil_div. assert (X := Nat.div_mod (a + b - 1) b ltac:(lia)).
  assert (Y := Nat.mod_upper_bound (a + b - 1) b ltac:(lia)). lia.
Qed.
Lemma ceil_div_lt i a b : (0 < b)%nat -> (i < a)%nat -> (i / b < ceil_div a b)%nat.
Proof.
  intros H Hi. destruct (ceil_div_spec a b H) as [_ X]. apply Nat.div_lt_upper_bound; lia.
Qed.

Lemma every_nth k l i : (0 < k)%nat -> (i < length l)%nat ->
  nth_error (every k l) (i / k) = nth_error l ((i / k) * k).
Proof.
  intros Hk Hi. unfold every. rewrite nth_seq_map by (apply ceil_div_lt; auto).
  symmetry. apply nth_error_nth'. assert (X := Nat.div_mod i k ltac:(lia)). nia.
Qed.
Lemma every_length k l : length (every k l) = ceil_div (length l) k.
Proof. unfold every. now rewrite map_length, seq_length. Qed.

Lemma reshape_nth n k l m : reshape n k l = Ok m -> (0 < k)%nat -> length m = n /\
  forall i, (i < n)%nat -> exists row, nth_error m i = Some row /\ length row = k
    /\ forall j, (j < k)%nat -> nth_error row j = nth_error l (i * k + j).
Proof.
  unfold reshape. destruct (Nat.eqb_spec (length l) (n * k)) as [El|]; [|discriminate]. intros H Hk. injection H as <-.
  split; [now rewrite map_length, seq_length|]. intros i Hi. eexists. split; [apply nth_seq_map; auto|].
  unfold slice. replace (i * k + k - i * k)%nat with k by lia. split.
  - rewrite firstn_length, skipn_length. nia.
  - intros j Hj. rewrite nth_error_firstn by auto. apply nth_error_skipn.
Qed.

Lemma add_rows_nth : forall m v k i, (0 < k)%nat -> length v = length m ->
  (forall row, In row m -> length row = k) -> (i < length m * k)%nat ->
  length (add_rows m v) = (length m * k)%nat /\
  exists row x y, nth_error m (i / k) = Some row /\ nth_error v (i / k) = Some x
    /\ nth_error row (i mod k) = Some y /\ nth_error (add_rows m v) i = Some (y + x).
Proof.
  induction m as [|row m IH]; intros v k i Hk Hv Hr Hi; [cbn in Hi; lia|].
  destruct v as [|x v]; [discriminate|]. unfold add_rows. cbn [combine map concat fst snd].
  assert (Lr : length row = k) by (apply Hr; now left).
  assert (Lm : length (add_rows m v) = (length m * k)%nat).
  { destruct (Nat.eq_dec (length m) 0) as [E0|].
    - destruct m; [reflexivity|discriminate].
    - apply (IH v k 0%nat); auto; [intros; apply Hr; now right|nia]. }
  split; [rewrite app_length, map_length, Lr; unfold add_rows in Lm; cbn; lia|].
  destruct (Nat.lt_ge_cases i k) as [Hlt|Hge].
  - rewrite Nat.div_small, Nat.mod_small by auto. destruct (nth_error row i) as [y|] eqn:Ey; [|apply nth_error_None in Ey; lia].
    exists row, x, y. do 2 (split; [reflexivity|]). split; auto.
    rewrite nth_error_app1 by (rewrite map_length; lia). rewrite nth_error_map, Ey. reflexivity.
  - destruct (IH v k (i - k)%nat) as (_ & row' & x' & y & E1 & E2 & E3 & E4); auto; [intros; apply Hr; now right|cbn in Hi; lia|].
    exists row', x', y. assert (D : (i / k = S ((i - k) / k))%nat).
    { replace i with ((i - k) + 1 * k)%nat at 1 by lia. rewrite Nat.div_add by lia. lia. }
    assert (M : (i mod k = (i - k) mod k)%nat).
    { replace i with ((i - k) + 1 * k)%nat at 1 by lia. rewrite Nat.mod_add by lia. auto. }
    rewrite D, M. cbn [nth_error]. do 3 (split; auto).
    rewrite nth_error_app2 by (rewrite map_length; lia). rewrite map_length, Lr. exact E4.
Qed.

(** Expanding by check interval. *)
Lemma expanded n k l v chunk : (0 < k)%nat -> length v = n -> (chunk <= n * k)%nat ->
  forall m, reshape n k l = Ok m ->
  length (firstn chunk (add_rows m v)) = chunk /\
  forall i, (i < chunk)%nat -> exists x y, nth_error v (i / k) = Some x /\ nth_error l i = Some y
    /\ nth_error (firstn chunk (add_rows m v)) i = Some (y + x).
Proof.
  intros Hk Hv Hc m Hm. destruct (reshape_nth _ _ _ _ Hm Hk) as [Lm N].
  assert (Rows : forall row, In row m -> length row = k).
  { intros row Hr. apply In_nth_error in Hr as [i Ei]. assert (i < n)%nat by (rewrite <- Lm; apply nth_error_Some; congruence).
    destruct (N i H) as (row' & E & L & _). congruence. }
  split.
  - rewrite firstn_length. destruct (Nat.eq_dec (n * k) 0) as [E0|]; [lia|].
    destruct (add_rows_nth m v k 0%nat Hk) as [L _]; [congruence|auto|lia|]. lia.
  - intros i Hi. destruct (add_rows_nth m v k i Hk) as (_ & row & x & y & E1 & E2 & E3 & E4); [congruence|auto|lia|].
    exists x, y. split; auto.
    assert (Hik : (i / k < n)%nat) by (apply Nat.div_lt_upper_bound; lia).
    destruct (N _ Hik) as (row' & R1 & _ & R2). rewrite E1 in R1. injection R1 as <-.
    rewrite R2 in E3 by (apply Nat.mod_upper_bound; lia).
    replace (i / k * k + i mod k)%nat with i in E3 by (assert (X := Nat.div_mod i k ltac:(lia)); lia).
    split; auto. rewrite nth_error_firstn by auto. auto.
Qed.

(** ** Waves *)
Lemma Rabs_between x a : Rabs x <= a -> - a <= x <= a.
Proof. unfold Rabs. destruct (Rcase_abs x); lra. Qed.
Lemma asin_sin_shift x k : Rabs (x - IZR k * PI) <= PI / 2 -> Z.Even k -> asin (sin x) = x - IZR k * PI.
Proof.
  intros H [m ->]. assert (PI > 0) by apply PI_RGT_0. apply Rabs_between in H.
  replace (sin x) with (sin (x - IZR (2 * m) * PI)).
  - apply asin_sin. lra.
  - replace (x - IZR (2 * m) * PI) with (x + 2 * IZR (- m) * PI) by (rewrite mult_IZR, opp_IZR; ring).
    destruct (Z_le_gt_dec 0 (- m)) as [Hm|Hm].
    + rewrite <- (Z2Nat.id (- m)) by auto. rewrite <- INR_IZR_INZ. apply sin_period.
    + rewrite <- (sin_period (x + 2 * IZR (- m) * PI) (Z.to_nat m)). f_equal.
      rewrite INR_IZR_INZ, Z2Nat.id by lia. rewrite opp_IZR. ring.
Qed.
Lemma asin_sin_fall x k : Rabs (x - (IZR k + / 2) * (2 * PI)) <= PI / 2 ->
  asin (sin x) = - (x - (IZR k + / 2) * (2 * PI)).
Proof.
  intros H. assert (E : sin x = sin (PI - x)) by (symmetry; apply sin_PI_x). rewrite E.
  replace (- (x - (IZR k + / 2) * (2 * PI))) with ((PI - x) - IZR (- (2 * k)) * PI).
  - apply asin_sin_shift.
    + replace (PI - x - IZR (- (2 * k)) * PI) with (- (x - (IZR k + / 2) * (2 * PI))) by (rewrite opp_IZR, mult_IZR; field).
      rewrite Rabs_Ropp. auto.
    + exists (- k)%Z. lia.
  - rewrite opp_IZR, mult_IZR. field.
Qed.

Lemma triangle_wave throw speed fsamp i : 0 < throw -> 0 < speed -> 0 < fsamp ->
  let x := asin (sin (INR i * (2 * PI / (2 * throw / speed) / fsamp))) * (throw / PI) in
  Rabs x <= throw / 2 /\ triangle throw speed (INR i / fsamp) x.
Proof.
  intros Ht Hs Hf x. assert (HP : PI > 0) by apply PI_RGT_0.
  set (w := INR i * (2 * PI / (2 * throw / speed) / fsamp)) in *.
  assert (Ew : w = (INR i / fsamp) * (PI * speed / throw)) by (unfold w; field; lra).
  split.
  - assert (B := asin_bound (sin w)). unfold x. apply Rabs_le.
    replace (throw / 2) with (PI / 2 * (throw / PI)) by (field; lra).
    assert (0 < throw / PI) by (apply Rdiv_lt_0_compat; lra).
    split; [rewrite Ropp_mult_distr_l|]; apply Rmult_le_compat_r; lra.
  - unfold triangle. intros k. set (t := INR i / fsamp) in *.
    assert (Q : 0 < PI * speed / throw) by (apply Rdiv_lt_0_compat; [apply Rmult_lt_0_compat|]; lra).
    split; intros H.
    + assert (E : asin (sin w) = w - IZR (2 * k) * PI).
      { apply asin_sin_shift; [|exists k; auto].
        replace (w - IZR (2 * k) * PI) with ((t - IZR k * (2 * throw / speed)) * (PI * speed / throw))
          by (rewrite Ew, mult_IZR; field; lra).
        rewrite Rabs_mult, (Rabs_pos_eq (PI * speed / throw)) by lra.
        replace (PI / 2) with (2 * throw / speed / 4 * (PI * speed / throw)) by (field; lra).
        apply Rmult_le_compat_r; lra. }
      unfold x. rewrite E, Ew, mult_IZR. field. lra.
    + assert (E : asin (sin w) = - (w - (IZR k + / 2) * (2 * PI))).
      { apply asin_sin_fall.
        replace (w - (IZR k + / 2) * (2 * PI)) with ((t - (IZR k + / 2) * (2 * throw / speed)) * (PI * speed / throw))
          by (rewrite Ew; field; lra).
        rewrite Rabs_mult, (Rabs_pos_eq (PI * speed / throw)) by lra.
        replace (PI / 2) with (2 * throw / speed / 4 * (PI * speed / throw)) by (field; lra).
        apply Rmult_le_compat_r; lra. }
      unfold x. rewrite E, Ew. field. lra.
Qed.
