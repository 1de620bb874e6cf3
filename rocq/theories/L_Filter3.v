(** * The filters as [bin_tod] applies them *)
From Coq Require Import Reals Lra Lia.
From Verif Require Import Common LibList M_Hwp M_Filter L_Filter L_Filter2.
Open Scope R_scope.

Lemma fold_somes {A} (l : list (option A)) (r : list A) : l = map Some r ->
  fold_right (fun x r => do r <- r; match x with Some v => Ok (v :: r) | None => Err ValueError end) (Ok []) l = Ok r.
Proof. intros ->. induction r as [|a r IH]; [reflexivity|]. cbn. cbn in IH. now rewrite IH. Qed.

Lemma somes_of {A} (g : nat -> A -> A) (xs : list A) : forall l k0, length l = length xs ->
  (forall k y, nth_error xs k = Some y -> nth_error l k = Some (Some (g (k0 + k)%nat y))) ->
  exists r, l = map Some r /\ length r = length xs
    /\ forall k y, nth_error xs k = Some y -> nth_error r k = Some (g (k0 + k)%nat y).
Proof.
  induction xs as [|x xs IH]; intros [|a l] k0 Hl H; try discriminate.
  - exists []. repeat split. intros [|k]; discriminate.
  - destruct (IH l (S k0)) as (r & -> & L & R).
    + cbn in Hl. lia.
    + intros k y Hy. specialize (H (S k) y Hy). cbn in H. rewrite H. now rewrite Nat.add_succ_r.
    + specialize (H 0%nat x eq_refl) as H0. cbn in H0. injection H0 as ->. eexists (_ :: r).
      split; [reflexivity|]. split; [cbn; lia|]. intros [|k] y Hy; cbn in Hy |- *.
      * now injection Hy as <-.
      * rewrite (R _ _ Hy). now rewrite Nat.add_succ_r.
Qed.

Lemma highpass_length {A} (scale : R -> A -> A) rfft tod fsamp w_c m :
  length (filter_tod_highpass scale rfft tod fsamp w_c m) = length (rfft tod).
Proof. unfold filter_tod_highpass. rewrite map_length, combine_length, seq_length. lia. Qed.

Lemma binned_highpass {A} (scale : R -> A -> A) rfft irfft tod fsamp freq w_c (m : nat) mode :
  tod <> [] -> 0 < fsamp -> 0 < w_c -> (0 < m)%nat ->
  exists (gain : nat -> R) fd,
    bin_filters scale rfft irfft fsamp freq (set_filter_dict w_c m) false true mode tod
      = Ok (irfft fd (length tod))
    /\ length fd = length (rfft tod)
    /\ (forall k y, nth_error (rfft tod) k = Some y -> nth_error fd k = Some (scale (gain k) y))
    /\ gain 0%nat = 0
    /\ (forall k, (0 < k)%nat -> let f := INR k * fsamp / INR (length tod) in
          0 <= gain k /\ gain k * gain k = f ^ (2 * m) / (f ^ (2 * m) + w_c ^ (2 * m))).
Proof.
  intros Ht Hf Hw Hm. destruct (highpass_spec scale rfft tod fsamp w_c m Ht Hf Hw Hm) as (g & G & G0 & _ & GB & GP).
  destruct (somes_of (fun k y => scale (g k) y) (rfft tod) (filter_tod_highpass scale rfft tod fsamp w_c m) 0)
    as (fd & E & L & R); [apply highpass_length|exact G|].
  exists g, fd. split; [|split; [exact L|split; [exact R|split; [exact G0|]]]].
  - cbn. now rewrite (fold_somes _ _ E).
  - intros k Hk. split; [apply GB|]. now apply GP.
Qed.

Lemma binned_average {A} (scale : R -> A -> A) rfft irfft tod fsamp freq mode : tod <> [] ->
  exists a, bin_filters scale rfft irfft fsamp freq None false true mode tod = Ok (map (fun x => x - a) tod)
    /\ fold_right Rplus 0 (map (fun x => x - a) tod) = 0.
Proof.
  intros H. destruct (sub_average_spec tod H) as (a & E & Z). exists a. cbn. rewrite E in *. auto.
Qed.

Lemma binned_plain {A} (scale : R -> A -> A) rfft irfft tod fsamp freq fd mode :
  bin_filters scale rfft irfft fsamp freq fd false false mode tod = Ok tod.
Proof. reflexivity. Qed.

(** The plate filter first, the high-pass after it; neither without a turning plate. *)
Lemma binned_plate {A} (scale : R -> A -> A) rfft irfft tod fsamp freq fd hp mode :
  (mode <> Continuous -> bin_filters scale rfft irfft fsamp freq fd true hp mode tod = Err ValueError)
  /\ (forall t' fd', mode = Continuous -> filter_tod_hwp scale rfft irfft tod fsamp freq = Ok (t', fd') ->
      bin_filters scale rfft irfft fsamp freq fd true hp mode tod
      = bin_filters scale rfft irfft fsamp freq fd false hp mode t')
  /\ (forall e, mode = Continuous -> filter_tod_hwp scale rfft irfft tod fsamp freq = Err e ->
      bin_filters scale rfft irfft fsamp freq fd true hp mode tod = Err e).
Proof.
  split; [|split].
  - destruct mode; intros H; try reflexivity. now destruct H.
  - intros t' fd' -> H. unfold bin_filters. rewrite H. reflexivity.
  - intros e -> H. unfold bin_filters. rewrite H. reflexivity.
Qed.

(** ** Slow plates, and bands that reach past the spectrum *)

Lemma round_val (x : R) (z : Z) : IZR z - 1 / 2 < x < IZR z + 1 / 2 -> round x = z.
Proof.
  intros H. pose proof (round_near x). assert (IZR (round x) < IZR (z + 1)) by (rewrite plus_IZR; lra).
  assert (IZR (z - 1) < IZR (round x)) by (rewrite minus_IZR; lra). apply lt_IZR in H1, H2. lia.
Qed.

Lemma round_half (f : Z) : round (IZR f + 1 / 2) = if Z.even f then f else (f + 1)%Z.
Proof.
  unfold round. assert (E : Int_part (IZR f + 1 / 2) = f).
  { destruct (base_Int_part (IZR f + 1 / 2)) as [A B].
    assert (IZR (Int_part (IZR f + 1 / 2)) < IZR (f + 1)) by (rewrite plus_IZR; lra).
    assert (IZR (f - 1) < IZR (Int_part (IZR f + 1 / 2))) by (rewrite minus_IZR; lra).
    apply lt_IZR in H, H0. lia. }
  rewrite E. destruct (Rlt_dec _ _); [lra|]. destruct (Rlt_dec _ _); [lra|]. reflexivity.
Qed.

Section S.
  Context {A : Type} (scale : R -> A -> A) (rfft : list R -> list A) (irfft : list A -> nat -> list R).
  Variables (tod : list R) (fsamp freq : R).
  Let x := freq / fsamp * INR (length tod).

  Lemma filter_tod_gap : fsamp <> 0 -> 1 / 6 < x < 3 / 10 \/ x = 1 / 2 -> (3 <= length (rfft tod))%nat ->
    filter_tod_hwp scale rfft irfft tod fsamp freq = Err ValueError.
  Proof.
    intros Hf Hx Hn. unfold filter_tod_hwp.
    assert (Q : forall k, k * freq / fsamp * INR (length tod) = k * x) by (intros; unfold x; field; auto). rewrite !Q.
    rewrite filter_narrow; [reflexivity| |].
    - destruct Hx as [Hx|Hx].
      + right. rewrite (round_val (5 * x) 1), (round_val (3 * x) 1) by (split; cbn; lra). reflexivity.
      + right. rewrite Hx. replace (5 * (1 / 2)) with (IZR 2 + 1 / 2) by lra. replace (3 * (1 / 2)) with (IZR 1 + 1 / 2) by lra.
        rewrite !round_half. reflexivity.
    - pose proof (round_near (4 * x)) as B. assert (B2 : 4 * x <= 2 /\ 1 / 2 < 4 * x) by (destruct Hx; lra).
      assert (IZR (round (4 * x)) < 3) by lra. assert (-1 < IZR (round (4 * x))) by lra. apply lt_IZR in H, H0. lia.
  Qed.

  Lemma filter_tod_wiped : fsamp <> 0 -> 1 / 10 < x <= 1 / 8 -> (3 <= length (rfft tod))%nat ->
    exists fd, filter_tod_hwp scale rfft irfft tod fsamp freq = Ok (irfft fd (length tod), fd)
      /\ forall j y, nth_error fd j = Some y -> exists z, y = scale 0 z.
  Proof.
    intros Hf Hx Hn. unfold filter_tod_hwp.
    assert (Q : forall k, k * freq / fsamp * INR (length tod) = k * x) by (intros; unfold x; field; auto). rewrite !Q.
    rewrite (round_val (5 * x) 1), (round_val (3 * x) 0) by (split; cbn; lra).
    assert (E : round (4 * x) = 0%Z).
    { destruct (Req_dec x (1 / 8)) as [->|N]; [|apply round_val; cbn; lra].
      replace (4 * (1 / 8)) with (IZR 0 + 1 / 2) by lra. apply round_half. }
    rewrite E. destruct (filter_wiped scale (rfft tod) 0 (1 - 0 + 1) 1) as (fd & -> & W); try reflexivity; try lia.
    exists fd. split; [reflexivity|exact W].
  Qed.
End S.

Lemma window_last n : (2 <= n)%nat -> exists w, tukey_window n = Ok w /\ length w = n /\ nth_error w (n - 1) = Some 0.
Proof.
  intros H. destruct (window_spec n) as (w & E & L & _ & Sy & _ & T); [lia|]. exists w. split; [exact E|]. split; [exact L|].
  rewrite (Sy (n - 1)%nat) by lia. replace (n - 1 - (n - 1))%nat with 0%nat by lia. rewrite T by lia. f_equal.
  unfold taper. cbn [INR]. replace (4 * PI * 0 / INR (n + 1)) with 0; [rewrite cos_0; lra|].
  assert (0 < INR (n + 1)) by (apply lt_0_INR; lia). field. lra.
Qed.

Lemma filter_high {A} (scale : R -> A -> A) (fd : list A) c width (h : nat) x :
  (0 < h)%nat -> (Z.of_nat h = width / 2)%Z -> (Z.of_nat h <= c)%Z -> (c = Z.of_nat (length fd) - 1)%Z ->
  nth_error fd (Z.to_nat c) = Some x ->
  exists out, filter_ft_hwp scale fd c width = Ok out /\ nth_error out (Z.to_nat c) = Some (scale 0 x).
Proof.
  intros Hh Hw Hc Hn Hx.
  assert (Hw0 : (0 <= width)%Z) by (assert (X := Z.div_mod width 2 ltac:(lia)); assert (Y := Z.mod_pos_bound width 2 ltac:(lia)); lia).
  unfold filter_ft_hwp; cbv zeta. rewrite trunc_half by exact Hw0. rewrite <- Hw.
  rewrite !norm_in by lia. set (n := length fd) in *.
  set (l := Z.to_nat (c - Z.of_nat h)). replace (Nat.min n l) with l by lia.
  replace (Nat.min n (Z.to_nat (c + Z.of_nat h + 1))) with n by lia.
  destruct (window_last (n - l)) as (w & Ew & Lw & W0); [lia|]. rewrite Ew. cbn [bind].
  replace (Nat.max l n) with n by lia.
  set (mid := map _ (combine (slice fd l n) w)).
  assert (Lsl : length (slice fd l n) = (n - l)%nat) by (unfold slice; rewrite firstn_length, skipn_length; fold n; lia).
  assert (Lm : length mid = (n - l)%nat) by (unfold mid; rewrite map_length, combine_length, Lsl, Lw; lia).
  assert (Ll : length (firstn l fd) = l) by (rewrite firstn_length; fold n; lia).
  rewrite (skipn_all2 (n := n) fd) by (fold n; lia). rewrite app_nil_r.
  eexists. split; [reflexivity|].
  assert (F1 : firstn l (firstn l fd ++ mid) = firstn l fd).
  { rewrite firstn_app, Ll, Nat.sub_diag. cbn [firstn]. rewrite app_nil_r. apply firstn_all2. lia. }
  assert (F2 : skipn l (firstn l fd ++ mid) = mid).
  { rewrite skipn_app, Ll, Nat.sub_diag. cbn [skipn]. rewrite skipn_all2 by lia. reflexivity. }
  rewrite F1, F2. set (Z0 := map (scale 0) (firstn l fd)). assert (LZ : length Z0 = l) by (unfold Z0; now rewrite map_length).
  rewrite (firstn_all2 (n := n)) by (rewrite app_length; lia). rewrite (skipn_all2 (n := n)) by (rewrite app_length; lia).
  cbn [map]. rewrite app_nil_r, nth_error_app2 by lia. rewrite LZ.
  replace (Z.to_nat c - l)%nat with (n - l - 1)%nat by lia.
  unfold mid. rewrite nth_error_map.
  assert (Hs : nth_error (slice fd l n) (n - l - 1) = Some x).
  { unfold slice. rewrite nth_error_firstn by lia. rewrite nth_error_skipn. replace (l + (n - l - 1))%nat with (Z.to_nat c) by lia. exact Hx. }
  assert (X : nth_error (combine (slice fd l n) w) (n - l - 1) = Some (x, 0)).
  { clear -Hs W0. revert w W0 Hs. generalize (slice fd l n). generalize (n - l - 1)%nat. intros i.
    induction i as [|i IH]; intros [|a la] [|b lb] E1 E2; cbn in *; try discriminate; [congruence|eauto]. }
  rewrite X. reflexivity.
Qed.
