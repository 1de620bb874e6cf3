(** * Lemmas about binned maps *)
From Coq Require Import Reals Lra Lia.
From Verif Require Import Common LibList M_Mpi S_Mpi L_Mpi M_Solve S_Solve.
Open Scope R_scope.

Definition total (p : nat) (l : list obs) : pixel := (data_sums (in_pixel p l), angle_sums (in_pixel p l)).
Definition binned (n : nat) (m : list pixel) (l : list obs) : Prop :=
  length m = n /\ forall p, (p < n)%nat -> nth p m zero_pixel = total p l.

Lemma rsum_app {A} (f : A -> R) a b : rsum f (a ++ b) = rsum f a + rsum f b.
Proof. unfold rsum. induction a as [|x a IH]; cbn; lra. Qed.
Lemma in_pixel_app p a b : in_pixel p (a ++ b) = in_pixel p a ++ in_pixel p b.
Proof. apply filter_app. Qed.
Lemma total_app p a b : total p (a ++ b) = add_pixel (total p a) (total p b).
Proof.
  unfold total, data_sums, angle_sums, add_pixel. rewrite in_pixel_app, app_length, plus_INR, !rsum_app. reflexivity.
Qed.
Lemma total_nil p : total p [] = zero_pixel.
Proof. reflexivity. Qed.
Lemma total_one p o : total p [o] = if (o_pix o =? p)%nat then contribution o else zero_pixel.
Proof.
  unfold total, in_pixel. cbn [filter]. destruct (o_pix o =? p)%nat; [|reflexivity].
  unfold data_sums, angle_sums, contribution, rsum. cbn. rewrite !Rplus_0_r. reflexivity.
Qed.

Lemma pixel_comm a b : add_pixel a b = add_pixel b a.
Proof.
  destruct a as [[[a1 a2] a3] [[[[[a4 a5] a6] a7] a8] a9]], b as [[[b1 b2] b3] [[[[[b4 b5] b6] b7] b8] b9]].
  cbn. repeat (apply (f_equal2 (@pair _ _))); lra.
Qed.
Lemma pixel_assoc a b c : add_pixel a (add_pixel b c) = add_pixel (add_pixel a b) c.
Proof.
  destruct a as [[[a1 a2] a3] [[[[[a4 a5] a6] a7] a8] a9]], b as [[[b1 b2] b3] [[[[[b4 b5] b6] b7] b8] b9]],
    c as [[[c1 c2] c3] [[[[[c4 c5] c6] c7] c8] c9]].
  cbn. repeat (apply (f_equal2 (@pair _ _))); lra.
Qed.
Lemma pixel_0 a : add_pixel zero_pixel a = a.
Proof. destruct a as [[[a1 a2] a3] [[[[[a4 a5] a6] a7] a8] a9]]. cbn. repeat (apply (f_equal2 (@pair _ _))); lra. Qed.
Lemma pixel_0r a : add_pixel a zero_pixel = a.
Proof. rewrite pixel_comm. apply pixel_0. Qed.

Lemma add_at_length m i p : length (add_at m i p) = length m.
Proof. revert i; induction m; intros [|i]; cbn; auto. Qed.
Lemma add_at_nth m i p j : (j < length m)%nat ->
  nth j (add_at m i p) zero_pixel = if (i =? j)%nat then add_pixel (nth j m zero_pixel) p else nth j m zero_pixel.
Proof.
  revert i j; induction m as [|q m IH]; intros [|i] [|j] H; cbn in *; try lia; auto. apply IH. lia.
Qed.

Lemma binned_empty n : binned n (repeat zero_pixel n) [].
Proof. split; [apply repeat_length|]. intros p Hp. now rewrite nth_repeat. Qed.

Lemma binned_add n m l o : binned n m l -> binned n (add_at m (o_pix o) (contribution o)) (l ++ [o]).
Proof.
  intros [L H]. split; [now rewrite add_at_length|]. intros p Hp.
  rewrite add_at_nth by lia. rewrite total_app, total_one, (H p Hp).
  destruct (o_pix o =? p)%nat; [auto|now rewrite pixel_0r].
Qed.

Lemma binned_from_tod n samples : forall fl m l, binned n m l ->
  binned n (from_tod m samples fl) (l ++ unflagged samples fl).
Proof.
  unfold from_tod, unflagged. induction samples as [|o samples IH]; intros [|b fl] m l H; cbn; try (now rewrite app_nil_r).
  destruct b; cbn.
  - now apply IH.
  - assert (X : l ++ o :: map fst (filter (fun x : obs * bool => negb (snd x)) (combine samples fl))
      = (l ++ [o]) ++ map fst (filter (fun x : obs * bool => negb (snd x)) (combine samples fl))) by now rewrite <- app_assoc.
    rewrite X. apply IH. now apply binned_add.
Qed.

Lemma binned_zip n a b l l' : binned n a l -> binned n b l' -> binned n (zipadd add_pixel a b) (l ++ l').
Proof.
  intros [La Ha] [Lb Hb]. split; [now apply zipadd_length|]. intros p Hp.
  rewrite (nth_zipadd add_pixel zero_pixel _ _ _ n) by auto. now rewrite total_app, Ha, Hb.
Qed.

Lemma unflagged_all samples : unflagged samples (repeat false (length samples)) = samples.
Proof. unfold unflagged. induction samples; cbn; congruence. Qed.

Lemma bin_tod_binned s samples flag g l a b s' : global s = Some g -> binned (npix s) g l ->
  bin_tod s samples flag true true a b = Ok s' ->
  exists g', global s' = Some g' /\ npix s' = npix s /\ own_flag s' = own_flag s
    /\ binned (npix s) g' (l ++ used (own_flag s) {| c_samples := samples; c_flag := flag; c_start := a; c_end := b |}).
Proof.
  intros Hg Hb E. unfold bin_tod in E. rewrite Hg in E.
  assert (K : forall fl, (if negb (length fl =? length samples)%nat then Err ValueError
    else Ok {| global := Some (zipadd add_pixel g (from_tod (repeat zero_pixel (npix s)) samples fl));
               depo := from_tod (repeat zero_pixel (npix s)) samples fl; own_flag := own_flag s; npix := npix s |}) = Ok s' ->
    unflagged samples fl = used (own_flag s) {| c_samples := samples; c_flag := flag; c_start := a; c_end := b |} ->
    exists g', global s' = Some g' /\ npix s' = npix s /\ own_flag s' = own_flag s
    /\ binned (npix s) g' (l ++ used (own_flag s) {| c_samples := samples; c_flag := flag; c_start := a; c_end := b |})).
  { intros fl E' U. destruct (negb (length fl =? length samples)%nat); [discriminate|]. injection E' as <-. cbn.
    eexists. split; [reflexivity|]. do 2 (split; auto). rewrite <- U. apply binned_zip; auto.
    apply (binned_from_tod _ samples fl _ [] (binned_empty _)). }
  unfold used in *. cbn [c_samples c_flag c_start c_end] in *.
  destruct flag as [| |fl]; [destruct (own_flag s) as [f|] eqn:Eo| |].
  - cbn [bind] in E. apply (K (slice f a b)); auto.
  - cbn [bind] in E. apply (K (repeat false (length samples))); auto. apply unflagged_all.
  - cbn [bind] in E. apply (K (repeat false (length samples))); auto. apply unflagged_all.
  - destruct (2 <=? length fl)%nat; [discriminate|]. cbn [bind] in E. apply (K fl); auto.
Qed.

Lemma bin_calls_binned calls : forall s g l s', global s = Some g -> binned (npix s) g l -> bin_calls s calls = Ok s' ->
  exists g', global s' = Some g' /\ binned (npix s) g' (l ++ all_used (own_flag s) calls).
Proof.
  induction calls as [|c calls IH]; intros s g l s' Hg Hb E; cbn in E.
  - injection E as <-. exists g. unfold all_used. cbn. now rewrite app_nil_r.
  - destruct (bin_tod s (c_samples c) (c_flag c) true true (c_start c) (c_end c)) as [s1|] eqn:E1; cbn [bind] in E; [|discriminate].
    destruct (bin_tod_binned _ _ _ _ _ _ _ _ Hg Hb E1) as (g1 & Hg1 & N1 & O1 & B1).
    rewrite <- N1 in B1. destruct (IH s1 g1 _ s' Hg1 B1 E) as (g' & Hg' & B').
    exists g'. split; auto. rewrite N1, O1 in B'. unfold all_used in *. cbn [map concat].
    rewrite app_assoc. destruct c. exact B'.
Qed.

Lemma bin_alloc nside s0 calls s : bin_calls (allocate_maps nside s0) calls = Ok s ->
  exists g, global s = Some g /\ binned (12 * nside ^ 2) g (all_used (own_flag s0) calls).
Proof.
  intros E. exact (bin_calls_binned calls (allocate_maps nside s0) _ [] s eq_refl (binned_empty _) E).
Qed.

Lemma binned_nth n m l p : binned n m l -> (p < n)%nat -> nth_error m p = Some (total p l).
Proof. intros [L H] Hp. rewrite (nth_error_nth' m zero_pixel) by lia. now rewrite H. Qed.

Lemma binned_sums nside s0 calls s : bin_calls (allocate_maps nside s0) calls = Ok s ->
  exists g, global s = Some g /\ length g = (12 * nside ^ 2)%nat
    /\ forall p, (p < 12 * nside ^ 2)%nat -> let l := in_pixel p (all_used (own_flag s0) calls) in
         nth_error g p = Some (data_sums l, angle_sums l).
Proof.
  intros E. destruct (bin_alloc _ _ _ _ E) as (g & Hg & B). exists g. split; auto. split; [apply B|].
  intros p Hp. now rewrite (binned_nth _ _ _ _ B Hp).
Qed.

(** Success. *)
Lemma bin_tod_ok s samples g a b : global s = Some g -> own_flag s = None ->
  exists s', bin_tod s samples FNone true true a b = Ok s' /\ (exists g', global s' = Some g') /\ own_flag s' = None.
Proof.
  intros Hg Ho. unfold bin_tod. rewrite Hg, Ho. cbn [bind]. rewrite repeat_length, Nat.eqb_refl. cbn. eexists. split; [reflexivity|]. cbn. eauto.
Qed.
Lemma bin_calls_ok calls : (forall c, In c calls -> c_flag c = FNone) -> forall s g, global s = Some g -> own_flag s = None ->
  exists s', bin_calls s calls = Ok s'.
Proof.
  induction calls as [|c calls IH]; intros Hc s g Hg Ho; cbn; eauto.
  rewrite (Hc c) by now left. destruct (bin_tod_ok s (c_samples c) g (c_start c) (c_end c) Hg Ho) as (s1 & E1 & (g1 & Hg1) & O1).
  rewrite E1. cbn [bind]. apply (IH ltac:(intros; apply Hc; now right) s1 g1 Hg1 O1).
Qed.
Lemma bin_succeeds nside s0 calls : own_flag s0 = None -> (forall c, In c calls -> c_flag c = FNone) ->
  exists s, bin_calls (allocate_maps nside s0) calls = Ok s.
Proof. intros Ho Hc. exact (bin_calls_ok calls Hc (allocate_maps nside s0) _ eq_refl Ho). Qed.

(** Ranks. *)
Lemma reduce_binned n : forall all ls, Forall2 (binned n) all ls -> all <> [] -> binned n (reduce_array add_pixel all) (concat ls).
Proof.
  intros all ls F Hn. destruct F as [|m l all ls Hm F]; [tauto|]. cbn [concat reduce_array].
  clear Hn. revert m l Hm. induction F as [|m' l' all ls Hm' F IH]; intros m l Hm; cbn [fold_left concat].
  - now rewrite app_nil_r.
  - rewrite app_assoc. apply IH. now apply binned_zip.
Qed.

(** ** Linear algebra *)
Definition mul3 (m : sym3) (x : vec3) : vec3 :=
  let '(u, v, w, x', y, z) := m in let '(a, b, c) := x in
  (u * a + v * b + w * c, v * a + x' * b + y * c, w * a + y * b + z * c).

Lemma cramer (well : sym3 -> bool) fill m x : well m = true -> det3 m <> 0 -> solve_pixel well fill (mul3 m x, m) = x.
Proof.
  destruct m as [[[[[u v] w] x'] y] z], x as [[a b] c]. intros W D. unfold solve_pixel, mul3. rewrite W.
  destruct (Req_EM_T _ 0) as [E|_]; [tauto|]. unfold det3 in *.
  repeat (apply (f_equal2 (@pair _ _))); field; auto.
Qed.

Lemma sum_mul (l : list obs) i q u : (forall o, In o l -> o_val o = i + q * o_cos o + u * o_sin o) ->
  data_sums l = mul3 (angle_sums l) (i, q, u).
Proof.
  intros H. induction l as [|o l IH].
  - unfold data_sums, mul3, angle_sums, rsum. cbn. repeat (apply (f_equal2 (@pair _ _))); lra.
  - assert (IH' := IH ltac:(intros; apply H; now right)). assert (Ho := H o ltac:(now left)).
    unfold data_sums, mul3, angle_sums, rsum in *. cbn [map fold_right]. cbn [length]. rewrite S_INR.
    injection IH' as E1 E2 E3. rewrite E1, E2, E3, Ho. repeat (apply (f_equal2 (@pair _ _))); ring.
Qed.

(** The quadratic form of the sums. *)
Definition dot (o : obs) (x : vec3) : R := let '(a, b, c) := x in a + b * o_cos o + c * o_sin o.
Lemma quad_form (l : list obs) a b c :
  let '(p, q, r) := mul3 (angle_sums l) (a, b, c) in
  a * p + b * q + c * r = rsum (fun o => dot o (a, b, c) * dot o (a, b, c)) l.
Proof.
  unfold mul3, angle_sums, dot. induction l as [|o l IH]; [unfold rsum; cbn; ring|].
  unfold rsum in *. cbn [map fold_right length]. rewrite S_INR. rewrite <- IH. ring.
Qed.
Lemma rsum_sq_zero (l : list obs) (f : obs -> R) : rsum (fun o => f o * f o) l = 0 -> forall o, In o l -> f o = 0.
Proof.
  assert (N : forall l, 0 <= rsum (fun o => f o * f o) l).
  { clear. induction l as [|o l IH]; unfold rsum in *; cbn; [lra|]. assert (0 <= f o * f o) by apply Rle_0_sqr. lra. }
  induction l as [|o l IH]; intros E o' [].
  - subst o'. specialize (N l). unfold rsum in *. cbn in E. assert (0 <= f o * f o) by apply Rle_0_sqr.
    assert (X : f o * f o = 0) by lra. apply Rmult_integral in X. tauto.
  - apply IH; auto. specialize (N l). unfold rsum in *. cbn in E. assert (0 <= f o * f o) by apply Rle_0_sqr. lra.
Qed.

Lemma null_vector m : det3 m = 0 -> (let '(u, _, _, _, _, _) := m in u <> 0) ->
  exists x, x <> (0, 0, 0) /\ mul3 m x = (0, 0, 0).
Proof.
  destruct m as [[[[[u v] w] x] y] z]. unfold det3, mul3. intros D U.
  set (A1 := x * z - y * y). set (A2 := y * w - v * z). set (A3 := v * y - x * w).
  set (B2 := u * z - w * w). set (B3 := v * w - u * y). set (C3 := u * x - v * v).
  destruct (Req_EM_T C3 0) as [E|N].
  - exists (- v, u, 0). split; [intros X; injection X; auto|].
    (* need the minor u*y - v*w to vanish *)
    assert (F : B3 * B3 = 0).
    { (* u * det = (u z - w^2)(u x - v^2) - (u y - v w)^2 *)
      assert (I : u * (u * A1 - v * (v * z - y * w) + w * A3) = B2 * C3 - B3 * B3) by (unfold A1, A3, B2, B3, C3; ring).
      unfold A1, A3 in I. rewrite D, E in I. lra. }
    apply Rmult_integral in F. assert (F' : B3 = 0) by tauto. unfold B3, C3 in *.
    repeat (apply (f_equal2 (@pair _ _))); lra.
  - exists (A3, B3, C3). split; [intros X; injection X; auto|].
    unfold A3, B3, C3. repeat (apply (f_equal2 (@pair _ _))); [|ring|]; [ring|]. rewrite <- D. ring.
Qed.

Lemma line_circle a b c (o1 o2 o3 : obs) : on_circle o1 -> on_circle o2 -> on_circle o3 ->
  ~ same_direction o1 o2 -> ~ same_direction o2 o3 -> ~ same_direction o1 o3 ->
  dot o1 (a, b, c) = 0 -> dot o2 (a, b, c) = 0 -> dot o3 (a, b, c) = 0 -> (a, b, c) = (0, 0, 0).
Proof.
  unfold on_circle, same_direction, dot. destruct o1 as [? ? x1 y1], o2 as [? ? x2 y2], o3 as [? ? x3 y3]. cbn.
  intros C1 C2 C3 N12 N23 N13 D1 D2 D3.
  destruct (Req_EM_T (b * b + c * c) 0) as [Z|Z].
  - assert (b = 0) by nra. assert (c = 0) by nra. assert (a = 0) by (subst; lra). now subst.
  - exfalso.
    (* coordinates along the line *)
    set (t2 := (b * (y2 - y1) - c * (x2 - x1))). set (t3 := (b * (y3 - y1) - c * (x3 - x1))).
    set (n := b * b + c * c) in *.
    assert (L2 : b * (x2 - x1) + c * (y2 - y1) = 0) by lra.
    assert (X2 : n * (x2 - x1) = - c * t2).
    { replace (- c * t2) with (- c * t2 + b * (b * (x2 - x1) + c * (y2 - y1))) by (rewrite L2; ring). unfold n, t2. ring. }
    assert (Y2 : n * (y2 - y1) = b * t2).
    { replace (b * t2) with (b * t2 + c * (b * (x2 - x1) + c * (y2 - y1))) by (rewrite L2; ring). unfold n, t2. ring. }
    assert (L3 : b * (x3 - x1) + c * (y3 - y1) = 0) by lra.
    assert (X3 : n * (x3 - x1) = - c * t3).
    { replace (- c * t3) with (- c * t3 + b * (b * (x3 - x1) + c * (y3 - y1))) by (rewrite L3; ring). unfold n, t3. ring. }
    assert (Y3 : n * (y3 - y1) = b * t3).
    { replace (b * t3) with (b * t3 + c * (b * (x3 - x1) + c * (y3 - y1))) by (rewrite L3; ring). unfold n, t3. ring. }
    assert (K : forall x y t, x * x + y * y = 1 -> n * (x - x1) = - c * t -> n * (y - y1) = b * t ->
       t * (t + 2 * (b * y1 - c * x1)) = 0).
    { intros x y t Hc Hx Hy.
      assert (E : (n * (x - x1)) * (n * (x - x1)) + (n * (y - y1)) * (n * (y - y1)) = n * (t * t)) by (rewrite Hx, Hy; unfold n; ring).
      assert (E2 : n * (x - x1) * x1 + n * (y - y1) * y1 = t * (b * y1 - c * x1)) by (rewrite Hx, Hy; ring).
      assert (E3 : (x - x1) * (x - x1) + (y - y1) * (y - y1) + 2 * ((x - x1) * x1 + (y - y1) * y1) = 0) by (ring_simplify; lra).
      assert (E4 : n * (t * (t + 2 * (b * y1 - c * x1))) = 0).
      { replace (n * (t * (t + 2 * (b * y1 - c * x1)))) with (n * (t * t) + 2 * n * (t * (b * y1 - c * x1))) by ring.
        rewrite <- E, <- E2. replace 0 with (n * n * 0) by ring. rewrite <- E3 at 1. ring. }
      apply Rmult_integral in E4. tauto. }
    assert (K2 := K x2 y2 t2 C2 X2 Y2). assert (K3 := K x3 y3 t3 C3 X3 Y3).
    assert (T2 : t2 <> 0).
    { intros T. rewrite T in X2, Y2. apply N12. split.
      - assert (Q : n * (x2 - x1) = 0) by lra. apply Rmult_integral in Q. lra.
      - assert (Q : n * (y2 - y1) = 0) by lra. apply Rmult_integral in Q. lra. }
    assert (T3 : t3 <> 0).
    { intros T. rewrite T in X3, Y3. apply N13. split.
      - assert (Q : n * (x3 - x1) = 0) by lra. apply Rmult_integral in Q. lra.
      - assert (Q : n * (y3 - y1) = 0) by lra. apply Rmult_integral in Q. lra. }
    apply Rmult_integral in K2. apply Rmult_integral in K3.
    assert (T : t2 = t3) by lra. rewrite <- T in X3, Y3. apply N23. split.
    + assert (Q : n * (x2 - x3) = 0) by lra. apply Rmult_integral in Q. lra.
    + assert (Q : n * (y2 - y3) = 0) by lra. apply Rmult_integral in Q. lra.
Qed.

Lemma regular p l : (forall o, In o l -> on_circle o) -> three_angles p l -> det3 (angle_sums (in_pixel p l)) <> 0.
Proof.
  intros Hc (o1 & o2 & o3 & I1 & I2 & I3 & P1 & P2 & P3 & N12 & N23 & N13) D.
  set (L := in_pixel p l) in *.
  assert (J : forall o, In o l -> o_pix o = p -> In o L).
  { intros o Ho Hp. unfold L, in_pixel. apply filter_In. split; auto. now apply Nat.eqb_eq. }
  destruct (null_vector _ D) as ([[a b] c] & Hx & M).
  { unfold angle_sums. apply not_0_INR. assert (In o1 L) by auto. destruct L; [tauto|]. cbn. lia. }
  assert (Q := quad_form L a b c). rewrite M in Q.
  assert (Z : rsum (fun o => dot o (a, b, c) * dot o (a, b, c)) L = 0) by lra.
  assert (V := rsum_sq_zero L (fun o => dot o (a, b, c)) Z).
  apply Hx. apply (line_circle a b c o1 o2 o3); auto.
Qed.

(** ** Solving *)
Lemma ranks_binned nside ranks gs : Forall2 (rank_maps nside) ranks gs ->
  Forall2 (binned (12 * nside ^ 2)) gs (map (fun r => all_used (own_flag (fst r)) (snd r)) ranks).
Proof.
  induction 1 as [|r g ranks gs (s & E & Hg) F IH]; cbn [map]; constructor; auto.
  destruct (bin_alloc _ _ _ _ E) as (g' & Hg' & B). congruence.
Qed.

Section Final.
  Context (well : sym3 -> bool) (cond : sym3 -> option R) (fill : R).

  Lemma solve_total sky p l : (forall o, In o l -> seen_from sky o /\ on_circle o) -> three_angles p l ->
    well (angle_sums (in_pixel p l)) = true -> solve_pixel well fill (total p l) = sky p.
  Proof.
    intros H T W. destruct (sky p) as [[i q] u] eqn:Es.
    assert (G : forall o, In o (in_pixel p l) -> o_val o = i + q * o_cos o + u * o_sin o).
    { intros o Ho. apply filter_In in Ho as [Ho Hp]. apply Nat.eqb_eq in Hp. destruct (H o Ho) as [X _].
      unfold seen_from in X. rewrite Hp, Es in X. exact X. }
    unfold total. rewrite (sum_mul _ i q u G). apply cramer; auto.
    apply regular; auto. intros o Ho. now apply H.
  Qed.

  Lemma solve_root nside ranks gs sky p : Forall2 (rank_maps nside) ranks gs -> ranks <> [] ->
    (forall o, In o (ranks_used ranks) -> seen_from sky o /\ on_circle o) ->
    (p < 12 * nside ^ 2)%nat -> three_angles p (ranks_used ranks) ->
    well (angle_sums (in_pixel p (ranks_used ranks))) = true ->
    exists m c P, solve_for_map well cond true 0 gs fill = (Some m, c, Some P)
      /\ nth_error m p = Some (sky p) /\ nth_error P p = Some (angle_sums (in_pixel p (ranks_used ranks))).
  Proof.
    intros F Hn H Hp T W. assert (B : binned (12 * nside ^ 2) (reduce_array add_pixel gs) (ranks_used ranks)).
    { apply reduce_binned; [now apply ranks_binned|]. destruct F; congruence. }
    unfold solve_for_map. cbn [Nat.eqb]. do 3 eexists. split; [reflexivity|].
    assert (X := binned_nth _ _ _ _ B Hp). split.
    - rewrite (map_nth_error _ _ _ X). now rewrite (solve_total sky) by auto.
    - exact (map_nth_error snd _ _ X).
  Qed.

  Lemma solve_other_ranks r gs : (0 < r)%nat -> solve_for_map well cond true r gs fill = (None, None, None).
  Proof. intros Hr. unfold solve_for_map. destruct r; [lia|]. reflexivity. Qed.

  Lemma solve_serial g : solve_for_map well cond false 0 [g] fill = solve_for_map well cond true 0 [g] fill.
  Proof. reflexivity. Qed.

  Lemma solve_unseen nside ranks gs p : Forall2 (rank_maps nside) ranks gs -> ranks <> [] ->
    (p < 12 * nside ^ 2)%nat -> (forall o, In o (ranks_used ranks) -> o_pix o <> p) ->
    exists m c P, solve_for_map well cond true 0 gs fill = (Some m, c, P) /\ nth_error m p = Some (fill, fill, fill).
  Proof.
    intros F Hn Hp H. assert (B : binned (12 * nside ^ 2) (reduce_array add_pixel gs) (ranks_used ranks)).
    { apply reduce_binned; [now apply ranks_binned|]. destruct F; congruence. }
    unfold solve_for_map. cbn [Nat.eqb]. do 3 eexists. split; [reflexivity|].
    rewrite !nth_error_map, (binned_nth _ _ _ _ B Hp). cbn [option_map]. f_equal.
    assert (E : in_pixel p (ranks_used ranks) = []).
    { destruct (in_pixel p (ranks_used ranks)) as [|o l] eqn:E; auto. exfalso.
      assert (Ho : In o (in_pixel p (ranks_used ranks))) by (rewrite E; now left).
      apply filter_In in Ho as [Ho X]. apply Nat.eqb_eq in X. apply (H o Ho X). }
    unfold total. rewrite E. unfold solve_pixel, angle_sums, data_sums, rsum. cbn.
    destruct (well (0, 0, 0, 0, 0, 0)); auto. destruct (Req_EM_T _ 0); [auto|]. exfalso. apply n. ring.
  Qed.
End Final.

Lemma flag_array_fails s samples l init add a b : (2 <= length l)%nat ->
  bin_tod s samples (FArray l) init add a b = Err ValueError.
Proof. intros H. unfold bin_tod. destruct (Nat.leb_spec 2 (length l)); [reflexivity|lia]. Qed.

(** Binning twice without a new destination. *)
Lemma kept_destination s g l first second a b : global s = Some g -> binned (npix s) g l -> own_flag s = None ->
  exists s1 s2 g2, bin_tod s first FNone true true a b = Ok s1 /\ bin_tod s1 second FNone false true a b = Ok s2
    /\ global s2 = Some g2 /\ binned (npix s) g2 (l ++ first ++ first ++ second).
Proof.
  intros Hg Hb Ho. unfold bin_tod. rewrite Hg, Ho. cbn [bind]. rewrite !repeat_length, !Nat.eqb_refl. cbn [negb bind].
  eexists. eexists. eexists. split; [reflexivity|]. cbn [own_flag global npix depo bind].
  rewrite !repeat_length, !Nat.eqb_refl. cbn [negb bind]. split; [reflexivity|]. cbn [global]. split; [reflexivity|].
  assert (B1 := binned_from_tod (npix s) first (repeat false (length first)) _ _ (binned_empty _)). cbn [app] in B1.
  assert (B2 := binned_from_tod (npix s) second (repeat false (length second)) _ _ B1).
  rewrite !unflagged_all in *. rewrite app_assoc. apply binned_zip; auto. apply binned_zip; auto.
Qed.
Lemma double_counted nside s0 first second a b : own_flag s0 = None ->
  exists s1 s2 g2, bin_tod (allocate_maps nside s0) first FNone true true a b = Ok s1
    /\ bin_tod s1 second FNone false true a b = Ok s2 /\ global s2 = Some g2
    /\ forall p, (p < 12 * nside ^ 2)%nat -> let l := in_pixel p (first ++ first ++ second) in
         nth_error g2 p = Some (data_sums l, angle_sums l).
Proof.
  intros Ho. destruct (kept_destination (allocate_maps nside s0) _ [] first second a b eq_refl (binned_empty _) Ho)
    as (s1 & s2 & g2 & E1 & E2 & Hg & B).
  exists s1, s2, g2. do 3 (split; auto). intros p Hp. exact (binned_nth _ _ _ _ B Hp).
Qed.
