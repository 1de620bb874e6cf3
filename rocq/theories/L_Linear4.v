(** * Lemmas: superposition, in the words of the specification (C89) *)
From Coq Require Import Reals Lra.
From Verif Require Import Common LibList Cplx M_Chunks M_Steps M_Hwp M_Mpi M_Detpair M_Scan S_Linear S_LinearScan L_Linear L_Linear3.
From Verif Require M_Solve S_Solve.
Open Scope R_scope.

(** ** F3 and positions *)
Lemma F3_of_nth {A B D} (P : A -> B -> D -> Prop) : forall l m n, length m = length l -> length n = length l ->
  (forall k x y z, nth_error l k = Some x -> nth_error m k = Some y -> nth_error n k = Some z -> P x y z) -> F3 P l m n.
Proof.
  induction l as [|x l IH]; intros [|y m] [|z n] H K N; try discriminate H; try discriminate K; constructor.
  - exact (N 0%nat _ _ _ eq_refl eq_refl eq_refl).
  - injection H as H; injection K as K. apply IH; auto. intros k; exact (N (S k)).
Qed.
Lemma F3_nth_error {A B D} (P : A -> B -> D -> Prop) l m n : F3 P l m n ->
  forall k x y z, nth_error l k = Some x -> nth_error m k = Some y -> nth_error n k = Some z -> P x y z.
Proof.
  induction 1; intros [|k] x y z H1 H2 H3; cbn in *; try discriminate; [congruence|eauto].
Qed.
Lemma F3_impl {A B D} (P Q : A -> B -> D -> Prop) l m n : (forall x y z, P x y z -> Q x y z) -> F3 P l m n -> F3 Q l m n.
Proof. induction 2; constructor; auto. Qed.

Ltac tup := repeat match goal with |- (_, _) = (_, _) => apply f_equal2 end.

Section Mix.
  Context {B : Type} (a b : R).

  Lemma MV_sup x y z : MV a b x y z <-> superposes a b x y z.
  Proof.
    unfold superposes, rmix. split.
    - induction 1 as [|p q r l m n H K IH]; [now split|]. destruct IH as [E ->]. split; [cbn; now rewrite E|]. unfold MR in H. cbn. now rewrite H.
    - intros [H ->]. revert y H. induction x as [|p l IH]; intros [|q m] H; try discriminate H; [constructor|].
      injection H as H. cbn. constructor; [reflexivity|apply IH, H].
  Qed.
  Lemma MO_sup x y z : MO a b x y z <-> superposes_opt a b x y z.
  Proof. destruct x, y, z; cbn; try tauto. apply MV_sup. Qed.
  Lemma ME_sup x y z : ME a b x y z <-> superposed_event a b x y z.
  Proof.
    destruct x, y, z; cbn; try tauto; rewrite <- ?MV_sup; intuition congruence.
  Qed.
  Lemma MS_sup (s1 s2 s3 : state B) : MS a b s1 s2 s3 <-> superposed a b s1 s2 s3.
  Proof.
    split.
    - intros [st be ch ma mm bo gb hw u u' u'' qo d d' d'' po hs l l' l'' U D L].
      constructor; cbn; auto.
      + now apply MO_sup.
      + intros. now apply MO_sup.
      + destruct (F3_length _ _ _ _ L) as [E1 E2]. lia.
      + intros k x y z H1 H2 H3. apply ME_sup. eapply F3_nth_error; eassumption.
    - intros [H1 H2 H3 H4 H5 H6 H7 H8 H9 H10 H11 T D [L1 L2] L].
      destruct s1, s2, s3. cbn in *. repeat match goal with H : _ /\ _ |- _ => destruct H end. subst. constructor.
      + now apply MO_sup.
      + intros. now apply MO_sup.
      + apply F3_of_nth; auto. intros k x y z K1 K2 K3. apply ME_sup. eauto.
  Qed.
  Lemma unscanned_sup (s : state B) : unscanned s -> superposed a b s s s.
  Proof.
    intros (T & D & L). constructor; auto.
    - now rewrite T.
    - intros. now rewrite D.
    - rewrite L. intros [|k] ? ? ? H; discriminate H.
  Qed.

  Lemma sup_scan (E1 E2 E3 : env B) O s1 s2 s3 : superposed_skies a b E1 E2 E3 -> linear_filter a b O -> superposed a b s1 s2 s3 ->
    R3 (MS a b) (scan_instrument E1 O s1) (scan_instrument E2 O s2) (scan_instrument E3 O s3).
  Proof.
    intros [S A1 A2 A3 A4 A5 A6 A7] F H. destruct E1, E2, E3. cbn in *.
    repeat match goal with H : _ /\ _ |- _ => destruct H end. subst.
    apply instrument_mix; [exact S| |now apply MS_sup].
    intros h x y z V. apply MV_sup in V. specialize (F h x y z V).
    destruct (o_filter O h x), (o_filter O h y), (o_filter O h z); cbn; try contradiction; [now apply MV_sup|]. intuition congruence.
  Qed.

  Lemma scan_superposed (E1 E2 E3 : env B) O s1 s2 s3 s1' s2' :
    superposed_skies a b E1 E2 E3 -> linear_filter a b O -> superposed a b s1 s2 s3 ->
    scan_instrument E1 O s1 = Ok s1' -> scan_instrument E2 O s2 = Ok s2' ->
    exists s3', scan_instrument E3 O s3 = Ok s3' /\ superposed a b s1' s2' s3'.
  Proof.
    intros S F H K1 K2. pose proof (sup_scan _ _ _ _ _ _ _ S F H) as R. rewrite K1, K2 in R.
    destruct (scan_instrument E3 O s3) as [s3'|]; [|contradiction]. exists s3'. split; [reflexivity|]. now apply MS_sup.
  Qed.
  Lemma scan_fails_alike (E1 E2 E3 : env B) O s1 s2 s3 e :
    superposed_skies a b E1 E2 E3 -> linear_filter a b O -> superposed a b s1 s2 s3 ->
    scan_instrument E1 O s1 = Err e -> scan_instrument E2 O s2 = Err e /\ scan_instrument E3 O s3 = Err e.
  Proof.
    intros S F H K. pose proof (sup_scan _ _ _ _ _ _ _ S F H) as R. rewrite K in R.
    destruct (scan_instrument E2 O s2), (scan_instrument E3 O s3); cbn in R; try contradiction. destruct R; subst; auto.
  Qed.

  (** ** Maps *)
  Import M_Solve.
  Definition PX (x y z : pixel) : Prop := snd y = snd x /\ snd z = snd x /\ fst z = vmix a b (fst x) (fst y).
  Definition SX (x y z : obs) : Prop := o_pix z = o_pix x /\ o_pix y = o_pix x /\ o_cos z = o_cos x /\ o_cos y = o_cos x
     /\ o_sin z = o_sin x /\ o_sin y = o_sin x /\ o_val z = a * o_val x + b * o_val y.
  Lemma PX_sup g1 g2 g3 : F3 PX g1 g2 g3 <-> superposed_maps a b g1 g2 g3.
  Proof.
    split.
    - intros H. destruct (F3_length _ _ _ _ H) as [E1 E2]. split; [lia|]. split; [lia|]. intros p x y z H1 H2 H3. exact (F3_nth_error _ _ _ _ H _ _ _ _ H1 H2 H3).
    - intros (E1 & E2 & H). apply F3_of_nth; auto.
  Qed.
  Lemma SX_sup x y z : superposed_samples a b x y z -> F3 SX x y z.
  Proof.
    intros [H L]. revert y z H L. induction x as [|u x IH]; intros [|v y] z H L; try discriminate L; inversion H; subst; constructor; auto.
  Qed.
  Lemma PX_add x y z x' y' z' : PX x y z -> PX x' y' z' -> PX (add_pixel x x') (add_pixel y y') (add_pixel z z').
  Proof.
    destruct x as [[[? ?] ?] [[[[[? ?] ?] ?] ?] ?]], y as [[[? ?] ?] [[[[[? ?] ?] ?] ?] ?]], z as [[[? ?] ?] [[[[[? ?] ?] ?] ?] ?]],
     x' as [[[? ?] ?] [[[[[? ?] ?] ?] ?] ?]], y' as [[[? ?] ?] [[[[[? ?] ?] ?] ?] ?]], z' as [[[? ?] ?] [[[[[? ?] ?] ?] ?] ?]].
    unfold PX, vmix. cbn [fst snd add_pixel]. intros (H1 & H2 & H3) (K1 & K2 & K3).
    injection H1 as -> -> -> -> -> ->. injection H2 as -> -> -> -> -> ->. injection H3 as -> -> ->.
    injection K1 as -> -> -> -> -> ->. injection K2 as -> -> -> -> -> ->. injection K3 as -> -> ->.
    repeat split. tup; ring.
  Qed.
  Lemma PX_zero : PX zero_pixel zero_pixel zero_pixel.
  Proof. repeat split. unfold vmix, zero_pixel; cbn. tup; ring. Qed.
  Lemma PX_contribution x y z : SX x y z -> PX (contribution x) (contribution y) (contribution z).
  Proof.
    intros (_ & _ & H1 & H2 & H3 & H4 & H5). unfold PX, contribution, vmix. cbn. rewrite H1, H2, H3, H4, H5. repeat split. tup; ring.
  Qed.
  Lemma PX_add_at g1 g2 g3 : F3 PX g1 g2 g3 -> forall i x y z, PX x y z -> F3 PX (add_at g1 i x) (add_at g2 i y) (add_at g3 i z).
  Proof. induction 1; intros [|i] x y z K; cbn; constructor; auto. now apply PX_add. Qed.
  Lemma PX_from_tod x y z : F3 SX x y z -> forall fl g1 g2 g3, F3 PX g1 g2 g3 -> F3 PX (from_tod g1 x fl) (from_tod g2 y fl) (from_tod g3 z fl).
  Proof.
    unfold from_tod. induction 1 as [|u v w l m n H K IH]; intros [|f fl] g1 g2 g3 G; cbn; auto. apply IH. destruct f; [exact G|].
    pose proof (PX_contribution _ _ _ H). destruct H as (-> & -> & _). now apply PX_add_at.
  Qed.
  Lemma PX_zipadd g1 g2 g3 h1 h2 h3 : F3 PX g1 g2 g3 -> F3 PX h1 h2 h3 ->
    F3 PX (zipadd add_pixel g1 h1) (zipadd add_pixel g2 h2) (zipadd add_pixel g3 h3).
  Proof. intros H. revert h1 h2 h3. induction H; intros ? ? ? []; cbn; constructor; auto. now apply PX_add. Qed.

  Definition PM (s1 s2 s3 : maps) : Prop :=
    own_flag s2 = own_flag s1 /\ own_flag s3 = own_flag s1 /\ npix s2 = npix s1 /\ npix s3 = npix s1
    /\ exists g1 g2 g3, global s1 = Some g1 /\ global s2 = Some g2 /\ global s3 = Some g3 /\ F3 PX g1 g2 g3.

  Lemma bin_calls_mix l1 l2 l3 : superposed_calls a b l1 l2 l3 -> forall s1 s2 s3, PM s1 s2 s3 ->
    R3 PM (bin_calls s1 l1) (bin_calls s2 l2) (bin_calls s3 l3).
  Proof.
    induction 1 as [|x y z l m n S F1 F2 A1 A2 B1 B2 H IH]; intros s1 s2 s3 G; [exact G|].
    cbn [bin_calls]. eapply R3_bind; [|exact IH]. unfold bin_tod. destruct G as (O1 & O2 & N1 & N2 & g1 & g2 & g3 & G1 & G2 & G3 & G).
    apply SX_sup in S. destruct (F3_length _ _ _ _ S) as [L1 L2].
    rewrite F1, F2, A1, A2, B1, B2, O1, O2, N1, N2, <- L1, <- L2, G1, G2, G3.
    eapply R3_bind with (P := same3); [apply R3_same|]. intros fl ? ? [<- <-].
    destruct (negb _); [apply R3_err|]. cbn [bind]. unfold R3, PM. cbn [own_flag npix global].
    repeat (split; [reflexivity|]). do 3 eexists. repeat (split; [reflexivity|]). apply PX_zipadd; [exact G|].
    apply PX_from_tod; [exact S|]. apply F3_repeat, PX_zero.
  Qed.

  Lemma maps_superposed nside s0 l1 l2 l3 g1 g2 : superposed_calls a b l1 l2 l3 ->
    S_Solve.rank_maps nside (s0, l1) g1 -> S_Solve.rank_maps nside (s0, l2) g2 ->
    exists g3, S_Solve.rank_maps nside (s0, l3) g3 /\ superposed_maps a b g1 g2 g3.
  Proof.
    unfold S_Solve.rank_maps. cbn [fst snd]. intros H (s1 & K1 & G1) (s2 & K2 & G2).
    assert (P0 : PM (allocate_maps nside s0) (allocate_maps nside s0) (allocate_maps nside s0)).
    { repeat (split; [reflexivity|]). do 3 eexists. repeat (split; [reflexivity|]). apply F3_repeat, PX_zero. }
    pose proof (bin_calls_mix _ _ _ H _ _ _ P0) as R. rewrite K1, K2 in R.
    destruct (bin_calls (allocate_maps nside s0) l3) as [s3|]; [|contradiction].
    destruct R as (_ & _ & _ & _ & h1 & h2 & h3 & H1 & H2 & H3 & P). rewrite G1 in H1; rewrite G2 in H2. injection H1 as <-. injection H2 as <-.
    exists h3. split; [now exists s3|]. now apply PX_sup.
  Qed.

  Lemma PX_reduce l1 l2 l3 : F3 (F3 PX) l1 l2 l3 ->
    F3 PX (reduce_array add_pixel l1) (reduce_array add_pixel l2) (reduce_array add_pixel l3).
  Proof.
    unfold reduce_array. intros [|g1 g2 g3 m1 m2 m3 G H]; [constructor|]. revert g1 g2 g3 G.
    induction H; intros g1 g2 g3 G; cbn [fold_left]; auto. apply IHF3. now apply PX_zipadd.
  Qed.

  Lemma PX_solve well fill x y z : PX x y z ->
    solve_pixel well fill z = vmix a b (solve_pixel well fill x) (solve_pixel well fill y)
    \/ (solve_pixel well fill x = (fill, fill, fill) /\ solve_pixel well fill y = (fill, fill, fill) /\ solve_pixel well fill z = (fill, fill, fill)).
  Proof.
    destruct x as [[[? ?] ?] [[[[[? ?] ?] ?] ?] ?]], y as [[[? ?] ?] [[[[[? ?] ?] ?] ?] ?]], z as [[[? ?] ?] [[[[[? ?] ?] ?] ?] ?]].
    unfold PX, vmix. cbn [fst snd]. intros (H1 & H2 & H3).
    injection H1 as -> -> -> -> -> ->. injection H2 as -> -> -> -> -> ->. injection H3 as -> -> ->.
    unfold solve_pixel. destruct (well _); [|right; auto]. cbv zeta. destruct (Req_EM_T _ 0); [right; auto|].
    left. tup; field; assumption.
  Qed.

  Lemma solve_superposed well cond mpi gs1 gs2 gs3 fill : length gs2 = length gs1 -> length gs3 = length gs1 ->
    (forall r g1 g2 g3, nth_error gs1 r = Some g1 -> nth_error gs2 r = Some g2 -> nth_error gs3 r = Some g3 -> superposed_maps a b g1 g2 g3) ->
    forall m1 c1 P1 m2 c2 P2,
    solve_for_map well cond mpi 0 gs1 fill = (Some m1, c1, P1) -> solve_for_map well cond mpi 0 gs2 fill = (Some m2, c2, P2) ->
    exists m3, solve_for_map well cond mpi 0 gs3 fill = (Some m3, c1, P1) /\ c2 = c1 /\ P2 = P1
      /\ superposed_solutions a b fill m1 m2 m3.
  Proof.
    intros L1 L2 H.
    assert (F : F3 (F3 PX) gs1 gs2 gs3).
    { apply F3_of_nth; auto. intros. apply PX_sup. eauto. }
    assert (K : match (if mpi then Some (reduce_array add_pixel gs1) else nth_error gs1 0),
                      (if mpi then Some (reduce_array add_pixel gs2) else nth_error gs2 0),
                      (if mpi then Some (reduce_array add_pixel gs3) else nth_error gs3 0) with
                | Some x, Some y, Some z => F3 PX x y z | None, None, None => True | _, _, _ => False end).
    { destruct mpi; [now apply PX_reduce|]. destruct F; cbn; auto. }
    unfold solve_for_map. cbn [Nat.eqb]. revert K.
    generalize (if mpi then Some (reduce_array add_pixel gs1) else nth_error gs1 0).
    generalize (if mpi then Some (reduce_array add_pixel gs2) else nth_error gs2 0).
    generalize (if mpi then Some (reduce_array add_pixel gs3) else nth_error gs3 0).
    intros [g3|] [g2|] [g1|] K m1 c1 P1 m2 c2 P2 E1 E2; try contradiction; try discriminate.
    injection E1 as <- <- <-. injection E2 as <- <- <-.
    assert (S2 : map snd g2 = map snd g1 /\ map snd g3 = map snd g1).
    { clear - K. induction K as [|x y z l m n (A & A' & C) K [IH IH']]; cbn; [now split|]. rewrite A, A', IH, IH'. now split. }
    destruct S2 as [S2 S3].
    rewrite <- (map_map snd (fun q => match cond q with Some k => k | None => fill end) g1),
      <- (map_map snd (fun q => match cond q with Some k => k | None => fill end) g2),
      <- (map_map snd (fun q => match cond q with Some k => k | None => fill end) g3), S2, S3.
    exists (map (solve_pixel well fill) g3). split; [reflexivity|]. split; [reflexivity|]. split; [reflexivity|].
    unfold superposed_solutions. rewrite !map_length. destruct (F3_length _ _ _ _ K) as [Q1 Q2]. split; [lia|]. split; [lia|].
    apply F3_nth_error. apply (F3_map PX); [|exact K]. intros x y z Z. now apply PX_solve.
  Qed.
End Mix.
