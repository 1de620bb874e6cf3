(** * Lemmas: the filters are linear (C89) *)
From Coq Require Import Reals Lra.
From Verif Require Import Common LibList M_Chunks M_Hwp M_Detpair M_Scan M_Filter S_Linear S_LinearScan L_Linear L_Linear3 L_Linear4 Cplx.
Open Scope R_scope.

Section Mix.
  Context (a b : R).
  Notation V := (F3 (E a b)).
  Notation VR := (MV a b).

  Lemma E_real k x y z : E a b x y z -> E a b (times_real k x) (times_real k y) (times_real k z).
  Proof. apply E_mull. Qed.

  Lemma ft_mix x y z c w : V x y z ->
    R3 V (filter_ft_hwp times_real x c w) (filter_ft_hwp times_real y c w) (filter_ft_hwp times_real z c w).
  Proof.
    intros H. unfold filter_ft_hwp. destruct (F3_length _ _ _ _ H) as [E1 E2]. rewrite <- E1, <- E2. cbv zeta.
    eapply R3_bind with (P := same3); [apply R3_same|]. intros win ? ? [<- <-]. cbn [R3].
    generalize (norm_idx (length x) (c - trunc (IZR w / 2))) (norm_idx (length x) (c + trunc (IZR w / 2) + 1)). intros l r.
    assert (Z : forall x y z, V x y z -> V (map (times_real 0) x) (map (times_real 0) y) (map (times_real 0) z)).
    { intros u v q K. eapply F3_map; [|exact K]. intros; now apply E_real. }
    match goal with |- V (firstn r ?x ++ _) (firstn r ?y ++ _) (firstn r ?z ++ _) => assert (Q : V x y z) end.
    { assert (Q : V (firstn l x ++ map (fun p => times_real (snd p) (fst p)) (combine (slice x l r) win) ++ skipn (Nat.max l r) x)
        (firstn l y ++ map (fun p => times_real (snd p) (fst p)) (combine (slice y l r) win) ++ skipn (Nat.max l r) y)
        (firstn l z ++ map (fun p => times_real (snd p) (fst p)) (combine (slice z l r) win) ++ skipn (Nat.max l r) z)).
      { apply F3_app; [now apply F3_firstn|]. apply F3_app; [|now apply F3_skipn].
        eapply F3_map; [|exact (F3_combine _ _ _ _ _ _ _ _ (F3_slice _ _ _ _ l r H) (F3_same win))].
        intros [? ?] [? ?] [? ?] [K [<- <-]]. now apply E_real. }
      apply F3_app; [apply Z; now apply F3_firstn|now apply F3_skipn]. }
    apply F3_app; [now apply F3_firstn|]. apply Z. now apply F3_skipn.
  Qed.

  Variable (rfft : list R -> list C) (irfft : list C -> nat -> list R).
  Hypothesis LF : linear_fourier rfft irfft.

  Lemma rfft_mix x y z : VR x y z -> V (rfft x) (rfft y) (rfft z).
  Proof.
    intros H. apply MV_sup in H as [L ->]. destruct (proj1 LF a b x y L) as [L' ->]. now apply V_mix.
  Qed.
  Lemma irfft_mix x y z n : V x y z -> VR (irfft x n) (irfft y n) (irfft z n).
  Proof.
    intros H. rewrite (V_eq _ _ _ _ _ H). destruct (F3_length _ _ _ _ H) as [L _].
    destruct (proj2 LF a b x y n L) as [L1 ->]. destruct (proj2 LF a b y x n (eq_sym L)) as [L2 _].
    apply MV_sup. split; [congruence|reflexivity].
  Qed.

  Lemma sum_mix x y z : VR x y z -> fold_right Rplus 0 z = a * fold_right Rplus 0 x + b * fold_right Rplus 0 y.
  Proof. induction 1 as [|p q r l m n H K IH]; cbn; [ring|]. rewrite IH, H. ring. Qed.

  Lemma average_mix x y z : VR x y z -> VR (sub_average x) (sub_average y) (sub_average z).
  Proof.
    intros H. unfold sub_average. destruct (F3_length _ _ _ _ H) as [L1 L2]. rewrite <- L1, <- L2, (sum_mix _ _ _ H).
    eapply F3_map; [|exact H]. unfold MR. intros ? ? ? ->. unfold Rdiv. ring.
  Qed.

  Lemma hp_mix n fs wc m : forall x y z i, V x y z ->
    R3 V (fold_right (fun u r => do r <- r; match u with Some v => Ok (v :: r) | None => Err ValueError end) (Ok [])
       (map (fun p => option_map (fun g => times_real g (snd p)) (highpass_factor n fs wc m (fst p))) (combine (seq i (length x)) x)))
      (fold_right (fun u r => do r <- r; match u with Some v => Ok (v :: r) | None => Err ValueError end) (Ok [])
       (map (fun p => option_map (fun g => times_real g (snd p)) (highpass_factor n fs wc m (fst p))) (combine (seq i (length y)) y)))
      (fold_right (fun u r => do r <- r; match u with Some v => Ok (v :: r) | None => Err ValueError end) (Ok [])
       (map (fun p => option_map (fun g => times_real g (snd p)) (highpass_factor n fs wc m (fst p))) (combine (seq i (length z)) z))).
  Proof.
    intros x y z i H. revert i. induction H as [|p q r l l' l'' H K IH]; intros i; [constructor|].
    cbn [length seq combine map fold_right fst snd]. eapply R3_bind; [exact (IH (S i))|]. intros u v w U.
    destruct (highpass_factor n fs wc m i); cbn; [|now split]. constructor; [now apply E_real|exact U].
  Qed.

  Lemma filters_mix fs freq fd f4 hp mode x y z : VR x y z ->
    R3 VR (bin_filters times_real rfft irfft fs freq fd f4 hp mode x) (bin_filters times_real rfft irfft fs freq fd f4 hp mode y)
      (bin_filters times_real rfft irfft fs freq fd f4 hp mode z).
  Proof.
    intros H. unfold bin_filters. eapply R3_bind with (P := VR).
    { destruct f4; [|exact H]. destruct mode; try apply R3_err.
      eapply R3_bind with (P := fun p q r => VR (fst p) (fst q) (fst r)); [|intros [? ?] [? ?] [? ?] K; exact K].
      unfold filter_tod_hwp. cbv zeta. destruct (F3_length _ _ _ _ H) as [L1 L2]. rewrite <- L1, <- L2.
      eapply R3_bind; [apply ft_mix; apply rfft_mix; exact H|]. intros u v w U. cbn. now apply irfft_mix. }
    clear H x y z. intros x y z H. destruct hp; [|exact H]. destruct fd as [[wc m]|]; [|cbn; now apply average_mix].
    destruct (F3_length _ _ _ _ H) as [L1 L2]. unfold filter_tod_highpass. rewrite <- L1, <- L2.
    eapply R3_bind; [apply hp_mix; apply rfft_mix; exact H|]. intros u v w U. cbn. now apply irfft_mix.
  Qed.
End Mix.

Lemma filters_linear a b rfft irfft fs freq fd f4 hp O : linear_fourier rfft irfft ->
  o_filter O = bin_filters times_real rfft irfft fs freq fd f4 hp -> linear_filter a b O.
Proof.
  intros L F h x y z H. rewrite F. apply MV_sup in H. pose proof (filters_mix a b rfft irfft L fs freq fd f4 hp h x y z H) as R.
  destruct (bin_filters _ _ _ _ _ _ _ _ h x), (bin_filters _ _ _ _ _ _ _ _ h y), (bin_filters _ _ _ _ _ _ _ _ h z);
    cbn in R; try contradiction; [now apply MV_sup|]. destruct R; subst; auto.
Qed.
