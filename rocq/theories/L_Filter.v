(** * Lemmas about the HWP filter *)
From Coq Require Import Reals Lra Lia.
From Verif Require Import Common LibList M_Hwp L_Hwp M_Point L_Point L_L2 M_Filter.
Open Scope R_scope.

(** Taper of the window. *)
Definition taper (n i : nat) : R := 1 / 2 * (1 - cos (4 * PI * INR i / INR (n + 1))).

Lemma INR_div_floor n d : (0 < d)%nat -> Int_part (INR n / INR d) = Z.of_nat (n / d).
Proof.
  intros H. apply floor_unique. assert (E := Nat.div_mod n d ltac:(lia)). assert (B := Nat.mod_upper_bound n d ltac:(lia)).
  assert (0 < INR d) by (apply lt_0_INR; auto). rewrite <- INR_IZR_INZ.
  assert (E' : INR n = INR d * INR (n / d) + INR (n mod d)) by (rewrite <- mult_INR, <- plus_INR; now f_equal).
  assert (0 <= INR (n mod d)) by apply pos_INR. apply lt_INR in B.
  replace (INR n / INR d) with (INR (n / d) + INR (n mod d) / INR d) by (rewrite E'; field; lra).
  assert (0 <= INR (n mod d) / INR d) by (apply Rmult_le_pos; [lra|]; apply Rlt_le, Rinv_0_lt_compat; lra).
  assert (INR (n mod d) / INR d < 1).
  { apply Rmult_lt_reg_r with (INR d); [lra|]. unfold Rdiv. rewrite Rmult_assoc, Rinv_l by lra. lra. }
  lra.
Qed.
Lemma trunc_div n d : (0 < d)%nat -> trunc (INR n / INR d) = Z.of_nat (n / d).
Proof.
  intros H. unfold trunc. destruct (Rle_dec 0 (INR n / INR d)) as [|N]; [now apply INR_div_floor|].
  exfalso. apply N. apply Rmult_le_pos; [apply pos_INR|]. apply Rlt_le, Rinv_0_lt_compat, lt_0_INR. auto.
Qed.

Lemma window_eq n : n <> 1%nat -> exists w, tukey_window n = Ok w /\ length w = n /\
  (forall i, (2 * i < n)%nat -> nth_error w i = Some (if (4 * i <? n + 2)%nat then taper n i else 1)) /\
  (forall i, (i < n)%nat -> nth_error w i = nth_error w (n - 1 - i)).
Proof.
  intros Hn. unfold tukey_window.
  assert (K : Z.to_nat (trunc (0.5 * INR (n + 1) / 2)) = ((n + 1) / 4)%nat).
  { replace (0.5 * INR (n + 1) / 2) with (INR (n + 1) / INR 4) by (cbn [INR]; lra). rewrite trunc_div by lia. lia. }
  assert (Hh : Z.to_nat (trunc (INR n / 2)) = (n / 2)%nat).
  { replace (INR n / 2) with (INR n / INR 2) by (cbn [INR]; lra). rewrite trunc_div by lia. lia. }
  rewrite K, Hh. set (k := ((n + 1) / 4)%nat). set (h := (n / 2)%nat).
  assert (Dk := Nat.div_mod (n + 1) 4 ltac:(lia)). fold k in Dk. assert (Bk := Nat.mod_upper_bound (n + 1) 4 ltac:(lia)).
  assert (Dh := Nat.div_mod n 2 ltac:(lia)). fold h in Dh. assert (Bh := Nat.mod_upper_bound n 2 ltac:(lia)).
  set (W := map _ (seq 0 n)).
  assert (LW : length W = n) by (unfold W; now rewrite map_length, seq_length).
  assert (NW : forall i, (i < n)%nat -> nth_error W i = Some (if (4 * i <? n + 2)%nat then taper n i else 1)).
  { intros i Hi. unfold W. rewrite nth_seq_map by auto. f_equal.
    destruct (Nat.ltb_spec i (k + 1)), (Nat.ltb_spec (4 * i) (n + 2)); try lia; auto.
    unfold taper. assert (0 < INR (n + 1)) by (apply lt_0_INR; lia).
    replace 0.5 with (1 / 2) by lra.
    replace (2 * PI * INR i / (1 / 2) / INR (n + 1)) with (4 * PI * INR i / INR (n + 1)) by (field; lra). lra. }
  destruct (Nat.eqb_spec h 0) as [H0|H0].
  - destruct (Nat.eqb_spec n 0); [|lia]. exists W. split; auto. split; auto. split; intros; lia.
  - eexists. split; [reflexivity|]. split.
    { rewrite app_length, rev_length, !firstn_length, LW. lia. }
    assert (A : forall i, (i < n - h)%nat -> nth_error (firstn (n - h) W ++ rev (firstn h W)) i = nth_error W i).
    { intros i Hi. rewrite nth_error_app1 by (rewrite firstn_length, LW; lia). now apply nth_error_firstn. }
    assert (B : forall i, (n - h <= i < n)%nat -> nth_error (firstn (n - h) W ++ rev (firstn h W)) i = nth_error W (n - 1 - i)).
    { intros i Hi. rewrite nth_error_app2 by (rewrite firstn_length, LW; lia).
      rewrite firstn_length, LW. replace (Nat.min (n - h) n) with (n - h)%nat by lia.
      assert (Lf : length (firstn h W) = h) by (rewrite firstn_length, LW; lia).
      rewrite (nth_error_nth' _ 0) by (rewrite rev_length, Lf; lia).
      rewrite rev_nth by (rewrite Lf; lia). rewrite Lf. rewrite <- nth_error_nth' by (rewrite Lf; lia).
      rewrite nth_error_firstn by lia. f_equal. lia. }
    split.
    + intros i Hi. rewrite A by lia. apply NW. lia.
    + intros i Hi. destruct (Nat.lt_ge_cases i (n - h)).
      * rewrite (A i) by lia. destruct (Nat.lt_ge_cases (n - 1 - i) (n - h)).
        -- rewrite A by lia. f_equal. lia.
        -- rewrite B by lia. f_equal. lia.
      * rewrite (B i) by lia. rewrite A by lia. reflexivity.
Qed.

Lemma taper_bounds n i : 0 <= taper n i <= 1.
Proof. unfold taper. assert (B := COS_bound (4 * PI * INR i / INR (n + 1))). lra. Qed.

Lemma window_spec n : n <> 1%nat -> exists w, tukey_window n = Ok w /\ length w = n
  /\ (forall i x, nth_error w i = Some x -> 0 <= x <= 1)
  /\ (forall i, (i < n)%nat -> nth_error w i = nth_error w (n - 1 - i))
  /\ (forall i, (n + 1 <= 4 * i)%nat -> (n + 1 <= 4 * (n - 1 - i))%nat -> nth_error w i = Some 1)
  /\ (forall i, (4 * i <= n + 1)%nat -> (i < n)%nat -> nth_error w i = Some (taper n i)).
Proof.
  intros Hn. destruct (window_eq n Hn) as (w & E & L & V & Sy).
  assert (Half : forall i, (i < n)%nat -> exists j, (2 * j < n)%nat /\ nth_error w i = nth_error w j /\ (j = i \/ (j = n - 1 - i)%nat)).
  { intros i Hi. destruct (Nat.lt_ge_cases (2 * i) n); [exists i; auto|].
    exists (n - 1 - i)%nat. split; [lia|]. split; auto. }
  assert (P4 : forall i, (4 * i = n + 1)%nat -> taper n i = 1).
  { intros i Hi. unfold taper. assert (0 < INR (n + 1)) by (apply lt_0_INR; lia).
    replace (4 * PI * INR i / INR (n + 1)) with PI; [rewrite cos_PI; lra|].
    rewrite <- Hi, mult_INR. cbn [INR]. assert (INR i <> 0) by (apply not_0_INR; lia). field. auto. }
  exists w. do 2 (split; auto). split; [|split; [auto|split]].
  - intros i x Hx. assert (Hi : (i < n)%nat) by (rewrite <- L; apply nth_error_Some; congruence).
    destruct (Half i Hi) as (j & Hj & Ej & _). rewrite Ej, (V j Hj) in Hx. injection Hx as <-.
    match goal with |- 0 <= (if ?b then _ else _) <= 1 => destruct b end; [apply taper_bounds|lra].
  - intros i H1 H2. assert (Hi : (i < n)%nat) by lia.
    destruct (Half i Hi) as (j & Hj & Ej & Ho). rewrite Ej, (V j Hj). f_equal.
    destruct (Nat.ltb_spec (4 * j) (n + 2)); auto. apply P4. lia.
  - intros i H1 Hi. destruct (Nat.lt_ge_cases (2 * i) n) as [Hs|Hs].
    + rewrite (V i Hs). destruct (Nat.ltb_spec (4 * i) (n + 2)); [auto|lia].
    + (* only n = 0, 1 *) lia.
Qed.

Lemma window_one : tukey_window 1 = Err ValueError.
Proof.
  unfold tukey_window. replace (INR 1 / 2) with (INR 1 / INR 2) by (cbn [INR]; lra). rewrite trunc_div by lia. reflexivity.
Qed.

(** ** Filtering a spectrum *)
Section F.
  Context {A : Type} (scale : R -> A -> A).

  Lemma norm_in n i : (0 <= i)%Z -> norm_idx n i = Nat.min n (Z.to_nat i).
  Proof. intros H. unfold norm_idx. destruct (Z.ltb_spec i 0); [lia|]. lia. Qed.

  Lemma filter_parts (fd : list A) c width h : (0 <= width)%Z -> trunc (IZR width / 2) = Z.of_nat h ->
    (Z.of_nat h <= c)%Z -> (c + Z.of_nat h < Z.of_nat (length fd))%Z -> (0 < h)%nat ->
    exists out, filter_ft_hwp scale fd c width = Ok out /\ length out = length fd
      /\ (forall j x, nth_error fd j = Some x ->
            (Z.of_nat j < c - Z.of_nat h \/ c + Z.of_nat h < Z.of_nat j)%Z -> nth_error out j = Some (scale 0 x))
      /\ (forall j x, nth_error fd j = Some x -> (c - Z.of_nat h <= Z.of_nat j <= c + Z.of_nat h)%Z ->
            exists g, nth_error out j = Some (scale g x) /\ 0 <= g <= 1
              /\ ((2 * Z.abs (Z.of_nat j - c) <= Z.of_nat h - 1)%Z -> g = 1)).
  Proof.
    intros Hw Ht Hc Hn Hh. unfold filter_ft_hwp; cbv zeta. rewrite Ht.
    set (n := length fd) in *. rewrite !norm_in by lia.
    set (l := Z.to_nat (c - Z.of_nat h)). set (r := (l + (2 * h + 1))%nat).
    replace (Nat.min n l) with l by lia.
    replace (Nat.min n (Z.to_nat (c + Z.of_nat h + 1))) with r by lia.
    replace (r - l)%nat with (2 * h + 1)%nat by lia.
    destruct (window_spec (2 * h + 1)) as (w & Ew & Lw & Bw & _ & Pw & _); [lia|].
    rewrite Ew. cbn [bind]. replace (Nat.max l r) with r by lia.
    set (mid := map _ (combine (slice fd l r) w)).
    assert (Lsl : length (slice fd l r) = (2 * h + 1)%nat).
    { unfold slice. rewrite firstn_length, skipn_length. fold n. lia. }
    assert (Lm : length mid = (2 * h + 1)%nat) by (unfold mid; rewrite map_length, combine_length, Lsl, Lw; lia).
    assert (Ll : length (firstn l fd) = l) by (rewrite firstn_length; fold n; lia).
    assert (Lr : length (skipn r fd) = (n - r)%nat) by (rewrite skipn_length; reflexivity).
    set (body := firstn l fd ++ mid ++ skipn r fd).
    assert (F1 : firstn l body = firstn l fd).
    { unfold body. rewrite firstn_app, Ll, Nat.sub_diag. cbn [firstn]. rewrite app_nil_r. rewrite firstn_all2; [auto|lia]. }
    assert (F2 : skipn l body = mid ++ skipn r fd).
    { unfold body. rewrite skipn_app, Ll, Nat.sub_diag. cbn [skipn]. rewrite skipn_all2 by lia. reflexivity. }
    rewrite F1, F2.
    set (Z0 := map (scale 0) (firstn l fd)). assert (LZ : length Z0 = l) by (unfold Z0; now rewrite map_length).
    assert (G1 : firstn r (Z0 ++ mid ++ skipn r fd) = Z0 ++ mid).
    { rewrite app_assoc, firstn_app, app_length, LZ, Lm. replace (r - (l + (2 * h + 1)))%nat with 0%nat by lia.
      cbn [firstn]. rewrite app_nil_r. apply firstn_all2. rewrite app_length, LZ, Lm. lia. }
    assert (G2 : skipn r (Z0 ++ mid ++ skipn r fd) = skipn r fd).
    { rewrite app_assoc, skipn_app, app_length, LZ, Lm. replace (r - (l + (2 * h + 1)))%nat with 0%nat by lia.
      cbn [skipn]. rewrite skipn_all2; [reflexivity|]. rewrite app_length, LZ, Lm. lia. }
    rewrite G1, G2. eexists. split; [reflexivity|]. split.
    { rewrite !app_length, map_length, LZ, Lm, Lr. lia. }
    split.
    - intros j x Hx Ho. assert (Hj : (j < n)%nat) by (apply nth_error_Some; congruence).
      destruct Ho as [Ho|Ho].
      + rewrite nth_error_app1 by (rewrite app_length; lia). rewrite nth_error_app1 by lia.
        unfold Z0. rewrite nth_error_map, nth_error_firstn, Hx by lia. reflexivity.
      + rewrite nth_error_app2 by (rewrite app_length; lia). rewrite app_length, LZ, Lm.
        rewrite nth_error_map, nth_error_skipn. replace (r + (j - (l + (2 * h + 1))))%nat with j by lia. rewrite Hx. reflexivity.
    - intros j x Hx Hi. assert (Hj : (j < n)%nat) by (apply nth_error_Some; congruence).
      rewrite nth_error_app1 by (rewrite app_length; lia). rewrite nth_error_app2 by lia. rewrite LZ.
      assert (Hjl : (j - l < 2 * h + 1)%nat) by lia.
      destruct (nth_error w (j - l)) as [g|] eqn:Eg; [|apply nth_error_None in Eg; lia].
      exists g. split; [|split].
      + unfold mid. rewrite nth_error_map.
        assert (X : nth_error (combine (slice fd l r) w) (j - l) = Some (x, g)).
        { assert (Hs : nth_error (slice fd l r) (j - l) = Some x).
          { unfold slice. rewrite nth_error_firstn by lia. rewrite nth_error_skipn. replace (l + (j - l))%nat with j by lia. auto. }
          clear -Hs Eg. revert w Eg Hs. generalize (slice fd l r). generalize (j - l)%nat. intros i.
          induction i as [|i IH]; intros [|a la] [|b lb] E1 E2; cbn in *; try discriminate; [congruence|eauto]. }
        rewrite X. reflexivity.
      + eauto.
      + intros Ha. assert (X : nth_error w (j - l) = Some 1) by (apply Pw; lia). congruence.
  Qed.

  (** The lower edge below the first frequency: everything is lost. *)
  Lemma filter_low (fd : list A) c width h : trunc (IZR width / 2) = Z.of_nat h ->
    (0 <= c < Z.of_nat h)%Z -> (2 * Z.of_nat h + 1 <= Z.of_nat (length fd))%Z ->
    exists out, filter_ft_hwp scale fd c width = Ok out
      /\ forall j x, nth_error out j = Some x -> exists y, x = scale 0 y.
  Proof.
    intros Ht Hc Hn. unfold filter_ft_hwp; cbv zeta. rewrite Ht. set (n := length fd) in *.
    assert (El : norm_idx n (c - Z.of_nat h) = Z.to_nat (c - Z.of_nat h + Z.of_nat n)).
    { unfold norm_idx. destruct (Z.ltb_spec (c - Z.of_nat h) 0); lia. }
    rewrite El, norm_in by lia. set (l := Z.to_nat (c - Z.of_nat h + Z.of_nat n)).
    set (r := Nat.min n (Z.to_nat (c + Z.of_nat h + 1))).
    assert (Hlr : (r <= l)%nat) by lia. replace (r - l)%nat with 0%nat by lia.
    destruct (window_spec 0) as (w & Ew & Lw & _); [lia|]. rewrite Ew. destruct w; [|discriminate]. cbn [bind].
    rewrite combine_nil. cbn [map app]. replace (Nat.max l r) with l by lia.
    rewrite firstn_skipn. eexists. split; [reflexivity|].
    intros j x Hx. destruct (Nat.lt_ge_cases j r) as [Hj|Hj].
    - assert (Lb : length (map (scale 0) (firstn l fd)) = Nat.min l n) by (now rewrite map_length, firstn_length).
      rewrite nth_error_app1 in Hx by (rewrite firstn_length, app_length, Lb, skipn_length; fold n; lia).
      rewrite nth_error_firstn in Hx by auto. rewrite nth_error_app1 in Hx by lia.
      rewrite nth_error_map in Hx. destruct (nth_error (firstn l fd) j) as [y|]; [|discriminate]. cbn in Hx. injection Hx as <-. eauto.
    - apply nth_error_In in Hx. apply in_app_or in Hx as [Hx|Hx].
      + rewrite firstn_app in Hx. apply in_app_or in Hx as [Hx|Hx].
        * apply In_nth_error in Hx as [i Ei]. assert (Hi : (i < r)%nat).
          { assert (X : nth_error (firstn r (map (scale 0) (firstn l fd))) i <> None) by congruence.
            apply nth_error_Some in X. rewrite firstn_length in X. lia. }
          rewrite nth_error_firstn in Ei by auto. rewrite nth_error_map in Ei.
          destruct (nth_error (firstn l fd) i) as [y|]; [|discriminate]. cbn in Ei. injection Ei as <-. eauto.
        * rewrite map_length, firstn_length in Hx. fold n in Hx. replace (r - Nat.min l n)%nat with 0%nat in Hx by lia. destruct Hx.
      + apply in_map_iff in Hx as (y & <- & _). eauto.
  Qed.

  Lemma filter_narrow (fd : list A) c width : (width = 0 \/ width = 1)%Z -> (0 <= c < Z.of_nat (length fd))%Z ->
    filter_ft_hwp scale fd c width = Err ValueError.
  Proof.
    intros Hw Hc. unfold filter_ft_hwp.
    assert (Ht : trunc (IZR width / 2) = 0%Z).
    { unfold trunc. destruct Hw as [-> | ->].
      - destruct (Rle_dec 0 (0 / 2)); [apply floor_unique; lra|lra].
      - destruct (Rle_dec 0 (1 / 2)); [apply floor_unique; lra|lra]. }
    rewrite Ht, !norm_in by lia.
    replace (Nat.min (length fd) (Z.to_nat (c + 0 + 1)) - Nat.min (length fd) (Z.to_nat (c - 0)))%nat with 1%nat by lia.
    now rewrite window_one.
  Qed.
End F.

(** ** The timestream *)
Lemma round_near x : IZR (round x) - 1 / 2 <= x <= IZR (round x) + 1 / 2.
Proof.
  unfold round. assert (B := floor_bounds x). destruct (Rlt_dec (x - IZR (Int_part x)) (1 / 2)); [lra|].
  destruct (Rlt_dec (1 / 2) (x - IZR (Int_part x))); [rewrite plus_IZR; lra|].
  destruct (Z.even (Int_part x)); [lra|rewrite plus_IZR; lra].
Qed.

Lemma trunc_half z : (0 <= z)%Z -> trunc (IZR z / 2) = (z / 2)%Z.
Proof.
  intros H. unfold trunc. assert (0 <= IZR z) by (apply IZR_le; auto). destruct (Rle_dec 0 (IZR z / 2)); [|lra].
  apply floor_unique. assert (E := Z.div_mod z 2 ltac:(lia)). assert (B := Z.mod_pos_bound z 2 ltac:(lia)).
  assert (X : IZR z = 2 * IZR (z / 2) + IZR (z mod 2)) by (rewrite <- mult_IZR, <- plus_IZR; now f_equal).
  destruct B as [B1 B2]. apply IZR_le in B1. assert (B3 : (z mod 2 <= 1)%Z) by lia. apply IZR_le in B3. lra.
Qed.

Section T.
  Context {A : Type} (scale : R -> A -> A) (rfft : list R -> list A) (irfft : list A -> nat -> list R).
  Context (tod : list R) (fsamp freq : R).
  Let x := freq / fsamp * INR (length tod).

  Lemma filter_tod_spec : fsamp <> 0 -> 3 / 10 < x -> x <> 1 / 2 -> 5 * x + 4 <= INR (length (rfft tod)) ->
    exists fd, filter_tod_hwp scale rfft irfft tod fsamp freq = Ok (irfft fd (length tod), fd)
      /\ length fd = length (rfft tod)
      /\ (forall j y, nth_error (rfft tod) j = Some y -> x + 3 / 2 < Rabs (INR j - 4 * x) ->
            nth_error fd j = Some (scale 0 y))
      /\ (forall j y, nth_error (rfft tod) j = Some y -> Rabs (INR j - 4 * x) <= x / 2 - 5 / 4 \/ Rabs (INR j - 4 * x) < 1 / 2 ->
            nth_error fd j = Some (scale 1 y))
      /\ (forall j y, nth_error (rfft tod) j = Some y -> exists g, nth_error fd j = Some (scale g y) /\ 0 <= g <= 1).
  Proof.
    intros Hf Hx Hx2 Hn. unfold filter_tod_hwp.
    assert (Q : forall k, k * freq / fsamp * INR (length tod) = k * x) by (intros; unfold x; field; auto). rewrite !Q.
    assert (R4 := round_near (4 * x)). assert (R3 := round_near (3 * x)). assert (R5 := round_near (5 * x)).
    set (c := round (4 * x)) in *. set (r3 := round (3 * x)) in *. set (r5 := round (5 * x)) in *.
    set (w := (r5 - r3 + 1)%Z).
    assert (Ew : IZR w = IZR r5 - IZR r3 + 1) by (unfold w; rewrite plus_IZR, minus_IZR; lra).
    assert (Hw : 2 * x <= IZR w <= 2 * x + 2) by lra.
    assert (Hw0 : (2 <= w)%Z /\ (x < 1 / 2 -> w = 2%Z /\ (1 <= c)%Z)).
    { destruct (Rlt_dec x (1 / 2)) as [S|S].
      - assert (r3 = 1)%Z.
        { assert (IZR r3 < 2) by lra. assert (0 < IZR r3) by lra. apply lt_IZR in H, H0. lia. }
        assert (r5 = 2)%Z.
        { assert (1 < IZR r5) by lra. assert (IZR r5 < 3) by lra. apply lt_IZR in H0, H1. lia. }
        assert (0 < IZR c) by lra. apply lt_IZR in H1. unfold w. split; [lia|]. intros _. split; lia.
      - split; [|intros; lra]. assert (1 < IZR w) by lra. apply lt_IZR in H. lia. }
    destruct Hw0 as [Hw0 Hsm].
    set (h := Z.to_nat (w / 2)). assert (Hh := Z.div_mod w 2 ltac:(lia)). assert (Bh := Z.mod_pos_bound w 2 ltac:(lia)).
    assert (Eh : Z.of_nat h = (w / 2)%Z) by (unfold h; lia).
    assert (Hh' : x - 1 / 2 <= INR h <= x + 1).
    { rewrite INR_IZR_INZ, Eh. assert (X : IZR w = 2 * IZR (w / 2) + IZR (w mod 2)) by (rewrite <- mult_IZR, <- plus_IZR; now f_equal).
      destruct Bh as [B1 B2]. apply IZR_le in B1. assert (B3 : (w mod 2 <= 1)%Z) by lia. apply IZR_le in B3. lra. }
    assert (IZh : IZR (Z.of_nat h) = INR h) by (symmetry; apply INR_IZR_INZ).
    assert (Hc : (Z.of_nat h <= c)%Z) by (destruct (Rlt_dec x (1 / 2)) as [S|S];
      [destruct (Hsm S) as [W C1]; rewrite Eh, W; exact C1|apply le_IZR; rewrite IZh; lra]).
    assert (Hcn : (c + Z.of_nat h < Z.of_nat (length (rfft tod)))%Z).
    { apply lt_IZR. rewrite plus_IZR, IZh, <- INR_IZR_INZ. lra. }
    destruct (filter_parts scale (rfft tod) c w h) as (fd & E & L & Out & In); auto; try lia.
    { rewrite Eh. apply trunc_half. lia. }
    exists fd. rewrite E. cbn [bind]. split; auto. split; auto. split; [|split].
    - intros j y Hy Ha. apply (Out j y Hy).
      assert (Hz : IZR (Z.of_nat j) = INR j) by (symmetry; apply INR_IZR_INZ).
      unfold Rabs in Ha. destruct (Rcase_abs (INR j - 4 * x)).
      + left. apply lt_IZR. rewrite minus_IZR, IZh, Hz. lra.
      + right. apply lt_IZR. rewrite plus_IZR, IZh, Hz. lra.
    - intros j y Hy Ha. assert (Hz : IZR (Z.of_nat j) = INR j) by (symmetry; apply INR_IZR_INZ).
      destruct Ha as [Ha|Ha].
      2:{ apply Rabs_def2 in Ha. assert (Z.of_nat j = c)%Z.
          { assert (IZR (Z.of_nat j) < IZR (c + 1)) by (rewrite plus_IZR; lra).
            assert (IZR (c - 1) < IZR (Z.of_nat j)) by (rewrite minus_IZR; lra). apply lt_IZR in H, H0. lia. }
          destruct (In j y Hy) as (g & Eg & Bg & G1); [lia|]. rewrite Eg, G1; [reflexivity|]. lia. }
      assert (HA := Rabs_pos (INR j - 4 * x)). assert (Hx5 : 5 / 2 <= x) by lra. clear HA.
      apply Rabs_between in Ha.
      destruct (In j y Hy) as (g & Eg & Bg & G1).
      + split; apply le_IZR; rewrite ?minus_IZR, ?plus_IZR, IZh, Hz; lra.
      + rewrite Eg, G1; auto.
        assert (2 * (Z.of_nat j - c) <= Z.of_nat h - 1)%Z by (apply le_IZR; rewrite mult_IZR, !minus_IZR, IZh, Hz; lra).
        assert (- (Z.of_nat h - 1) <= 2 * (Z.of_nat j - c))%Z by (apply le_IZR; rewrite opp_IZR, mult_IZR, !minus_IZR, IZh, Hz; lra).
        lia.
    - intros j y Hy. destruct (Z_lt_ge_dec (Z.of_nat j) (c - Z.of_nat h)) as [H1|H1].
      + assert (Hz := Out j y Hy ltac:(lia)). exists 0. split; [auto|lra].
      + destruct (Z_lt_ge_dec (c + Z.of_nat h) (Z.of_nat j)) as [H2|H2].
        * assert (Hz := Out j y Hy ltac:(lia)). exists 0. split; [auto|lra].
        * destruct (In j y Hy) as (g & Eg & Bg & _); [lia|]. exists g. auto.
  Qed.
End T.

Lemma filter_spectrum {A} (scale : R -> A -> A) (fd : list A) c width (h : nat) :
  (0 < h)%nat -> (Z.of_nat h = width / 2)%Z ->
  (Z.of_nat h <= c)%Z -> (c + Z.of_nat h < Z.of_nat (length fd))%Z ->
  exists out, filter_ft_hwp scale fd c width = Ok out /\ length out = length fd
    /\ (forall j x, nth_error fd j = Some x ->
          (Z.of_nat j < c - Z.of_nat h \/ c + Z.of_nat h < Z.of_nat j)%Z -> nth_error out j = Some (scale 0 x))
    /\ (forall j x, nth_error fd j = Some x -> (c - Z.of_nat h <= Z.of_nat j <= c + Z.of_nat h)%Z ->
          exists g, nth_error out j = Some (scale g x) /\ 0 <= g <= 1
            /\ ((2 * Z.abs (Z.of_nat j - c) <= Z.of_nat h - 1)%Z -> g = 1)).
Proof.
  intros Hh Hw Hc Hn. assert (0 <= width)%Z by (assert (X := Z.div_mod width 2 ltac:(lia)); assert (Y := Z.mod_pos_bound width 2 ltac:(lia)); lia).
  apply filter_parts; auto. rewrite trunc_half by auto. auto.
Qed.
Lemma filter_wiped {A} (scale : R -> A -> A) (fd : list A) c width (h : nat) :
  (0 <= width)%Z -> (Z.of_nat h = width / 2)%Z ->
  (0 <= c < Z.of_nat h)%Z -> (2 * Z.of_nat h + 1 <= Z.of_nat (length fd))%Z ->
  exists out, filter_ft_hwp scale fd c width = Ok out
    /\ forall j x, nth_error out j = Some x -> exists y, x = scale 0 y.
Proof. intros H Hw Hc Hn. apply (filter_low scale fd c width h); auto. rewrite trunc_half by auto. auto. Qed.

Lemma filter_tod_slow {A} (scale : R -> A -> A) rfft irfft tod fsamp freq :
  let x := freq / fsamp * INR (length tod) in
  fsamp <> 0 -> 0 <= x < 1 / 10 -> rfft tod <> [] ->
  filter_tod_hwp scale rfft irfft tod fsamp freq = Err ValueError.
Proof.
  intros x Hf Hx Hn. unfold filter_tod_hwp.
  assert (Q : forall k, k * freq / fsamp * INR (length tod) = k * x) by (intros; unfold x; field; auto). rewrite !Q.
  assert (Z : forall k, 0 <= k <= 5 -> round (k * x) = 0%Z).
  { intros k Hk. assert (0 <= k * x < 1 / 2).
    { split; [apply Rmult_le_pos; lra|]. apply Rle_lt_trans with (5 * x); [apply Rmult_le_compat_r; lra|lra]. }
    unfold round. replace (Int_part (k * x)) with 0%Z by (symmetry; apply floor_unique; lra).
    destruct (Rlt_dec (k * x - 0) (1 / 2)); [auto|lra]. }
  rewrite !Z by lra. rewrite filter_narrow; auto. destruct (rfft tod); [tauto|]. cbn [length]. lia.
Qed.
