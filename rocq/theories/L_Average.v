(** * Band averages, element by element *)
From Coq Require Import Reals Lra Psatz.
From Verif Require Import Common Cplx Mat M_Mueller S_Mueller M_Transfer S_Transfer L_Band.
Open Scope R_scope.

Lemma band_elements s spectrum lo hi rfl pass th n rot n1 n3 (M : nat -> rmat4) (sp pb : nat -> R) :
  (2 <= n)%nat -> lo <> hi ->
  (forall i, (i < n)%nat -> let f := lo + INR i * (hi - lo) / INR n in
     Mueller s f th rot n1 n3 rfl = Ok (M i) /\ spectrum f = Ok (sp i)
     /\ match pass with None => pb i = 1 | Some p => p f = Ok (pb i) end) ->
  let w i := trapezium n i * (sp i * pb i) in
  total n w <> 0 ->
  exists A, BandAveragedMueller s spectrum lo hi rfl pass th n rot n1 n3 = Ok (Some A)
    /\ forall (i : rmat4 -> v4 R) (j : v4 R -> R), In i [e0; e1; e2; e3] -> In j [e0; e1; e2; e3] ->
       j (i A) = total n (fun k => w k * j (i (M k))) / total n w.
Proof.
  intros Hn Hh H w Hw. eexists. split.
  - rewrite (band_law s spectrum lo hi rfl pass th n rot n1 n3 M sp pb Hn Hh).
    + fold w. destruct (Req_EM_T _ _) as [Z|_]; [now elim Hw|]. reflexivity.
    + intros i Hi. apply (H i Hi).
    + intros i Hi. apply (H i Hi).
    + intros i Hi. apply (H i Hi).
  - intros i j Hi Hj. cbn in Hi, Hj.
    decompose [or] Hi; subst; try tauto; decompose [or] Hj; subst; try tauto; reflexivity.
Qed.

Lemma band_rescaled s spectrum spectrum' lo hi rfl pass th n rot n1 n3 (M : nat -> rmat4) (sp pb : nat -> R) c :
  (2 <= n)%nat -> lo <> hi -> c <> 0 ->
  (forall i, (i < n)%nat -> let f := lo + INR i * (hi - lo) / INR n in
     Mueller s f th rot n1 n3 rfl = Ok (M i) /\ spectrum f = Ok (sp i) /\ spectrum' f = Ok (c * sp i)
     /\ match pass with None => pb i = 1 | Some p => p f = Ok (pb i) end) ->
  BandAveragedMueller s spectrum lo hi rfl pass th n rot n1 n3
  = BandAveragedMueller s spectrum' lo hi rfl pass th n rot n1 n3.
Proof.
  intros Hn Hh Hc H.
  rewrite (band_law s spectrum lo hi rfl pass th n rot n1 n3 M sp pb Hn Hh) by (intros i Hi; apply (H i Hi)).
  rewrite (band_law s spectrum' lo hi rfl pass th n rot n1 n3 M (fun i => c * sp i) pb Hn Hh) by (intros i Hi; apply (H i Hi)).
  assert (E : total n (fun i => trapezium n i * (c * sp i * pb i)) = c * total n (fun i => trapezium n i * (sp i * pb i))).
  { rewrite <- total_scale. apply total_ext. intros. ring. }
  assert (E' : forall el, total n (fun i => trapezium n i * (c * sp i * pb i) * el (M i))
    = c * total n (fun i => trapezium n i * (sp i * pb i) * el (M i))).
  { intros el. rewrite <- total_scale. apply total_ext. intros. ring. }
  rewrite E. set (W := total n (fun i => trapezium n i * (sp i * pb i))) in *.
  destruct (Req_EM_T W 0) as [Z|Z]; destruct (Req_EM_T (c * W) 0) as [Y|Y].
  - reflexivity.
  - rewrite Z in Y. lra.
  - apply Rmult_integral in Y. tauto.
  - assert (Q : forall el : rmat4 -> R,
      total n (fun i => trapezium n i * (sp i * pb i) * el (M i)) / W
      = total n (fun i => trapezium n i * (c * sp i * pb i) * el (M i)) / (c * W)).
    { intros el. rewrite E'. field. auto. }
    cbv zeta. f_equal. f_equal.
    f_equal; f_equal;
    first [ exact (Q (fun m => e0 (e0 m))) | exact (Q (fun m => e1 (e0 m))) | exact (Q (fun m => e2 (e0 m))) | exact (Q (fun m => e3 (e0 m))) | exact (Q (fun m => e0 (e1 m))) | exact (Q (fun m => e1 (e1 m))) | exact (Q (fun m => e2 (e1 m))) | exact (Q (fun m => e3 (e1 m))) | exact (Q (fun m => e0 (e2 m))) | exact (Q (fun m => e1 (e2 m))) | exact (Q (fun m => e2 (e2 m))) | exact (Q (fun m => e3 (e2 m))) | exact (Q (fun m => e0 (e3 m))) | exact (Q (fun m => e1 (e3 m))) | exact (Q (fun m => e2 (e3 m))) | exact (Q (fun m => e3 (e3 m))) ].
Qed.

Lemma total_abs n f : Rabs (total n f) <= total n (fun i => Rabs (f i)).
Proof.
  unfold total. generalize 0%nat. induction n as [|n IH]; intros k; cbn [seq map fold_right].
  - rewrite Rabs_R0. lra.
  - eapply Rle_trans; [apply Rabs_triang|]. specialize (IH (S k)). lra.
Qed.

(** Mixtures of light are light. *)
Definition scaled (a : R) (s : stokes) : stokes := V4 (a * e0 s) (a * e1 s) (a * e2 s) (a * e3 s).
Definition mixed (n : nat) (w : nat -> R) (s : nat -> stokes) : stokes :=
  V4 (total n (fun k => w k * e0 (s k))) (total n (fun k => w k * e1 (s k)))
     (total n (fun k => w k * e2 (s k))) (total n (fun k => w k * e3 (s k))).

Lemma physical_scaled a s : 0 <= a -> physical s -> physical (scaled a s).
Proof.
  destruct s as [i q u v]. unfold physical, scaled. cbn [e0 e1 e2 e3]. intros Ha [I P]. split; [nra|].
  assert (0 <= a * a) by nra. nra.
Qed.

Lemma dominated i j x y : 0 <= i -> 0 <= j -> x <= i * i -> y <= j * j ->
  forall d, d * d <= x * y -> 0 <= x -> 0 <= y -> d <= i * j.
Proof. intros. assert (x * y <= (i * j) * (i * j)) by nra. assert (0 <= i * j) by nra. nra. Qed.

Lemma physical_sum (s t : stokes) : physical s -> physical t ->
  physical (V4 (e0 s + e0 t) (e1 s + e1 t) (e2 s + e2 t) (e3 s + e3 t)).
Proof.
  destruct s as [i q u v], t as [j r x y]. unfold physical. cbn [e0 e1 e2 e3]. intros [I P] [J Q].
  split; [lra|].
  assert (D : q * r + u * x + v * y <= i * j).
  { apply (dominated i j (q * q + u * u + v * v) (r * r + x * x + y * y)); try assumption; try nra.
    assert (0 <= (q * x - u * r) ^ 2) by apply pow2_ge_0. assert (0 <= (q * y - v * r) ^ 2) by apply pow2_ge_0.
    assert (0 <= (u * y - v * x) ^ 2) by apply pow2_ge_0. nra. }
  nra.
Qed.

Lemma physical_mixed n w s : (forall k, (k < n)%nat -> 0 <= w k) -> (forall k, (k < n)%nat -> physical (s k)) ->
  physical (mixed n w s).
Proof.
  unfold mixed, total. intros Hw Hs.
  assert (G : forall l, (forall k, In k l -> (k < n)%nat) ->
    physical (V4 (fold_right Rplus 0 (map (fun k => w k * e0 (s k)) l)) (fold_right Rplus 0 (map (fun k => w k * e1 (s k)) l))
                 (fold_right Rplus 0 (map (fun k => w k * e2 (s k)) l)) (fold_right Rplus 0 (map (fun k => w k * e3 (s k)) l)))).
  { induction l as [|k l IH]; intros Hl; cbn [map fold_right].
    - unfold physical. cbn [e0 e1 e2 e3]. lra.
    - apply (physical_sum (scaled (w k) (s k)) (V4 _ _ _ _)).
      + apply physical_scaled; [apply Hw|apply Hs]; apply Hl; now left.
      + apply IH. intros; apply Hl; now right. }
  apply G. intros k Hk. apply in_seq in Hk. lia.
Qed.

Lemma total_dot4 n (w a b c d : nat -> R) (p q r t : R) :
  total n (fun k => w k * (a k * p + b k * q + c k * r + d k * t))
  = total n (fun k => w k * a k) * p + total n (fun k => w k * b k) * q
    + total n (fun k => w k * c k) * r + total n (fun k => w k * d k) * t.
Proof.
  unfold total. induction (seq 0 n) as [|k l IH]; cbn [map fold_right]; [ring|]. rewrite IH. ring.
Qed.

Lemma mean_physical n (w : nat -> R) (M : nat -> rmat4) (A : rmat4) :
  (forall k, (k < n)%nat -> 0 <= w k) -> 0 < total n w ->
  (forall k, (k < n)%nat -> physical_transmission (M k)) ->
  (forall (i : rmat4 -> v4 R) (j : v4 R -> R), In i [e0; e1; e2; e3] -> In j [e0; e1; e2; e3] ->
     j (i A) = total n (fun k => w k * j (i (M k))) / total n w) ->
  physical_transmission A.
Proof.
  intros Hw HW HM HA. split.
  - intros s Hs.
    assert (E : rmvec4 A s = scaled (/ total n w) (mixed n w (fun k => rmvec4 (M k) s))).
    { unfold scaled, mixed, rmvec4, map4, rdot4.
      apply v4_eq; cbn [e0 e1 e2 e3]; rewrite !total_dot4;
      repeat match goal with |- context [?j (?i A)] => rewrite (HA i j) by (cbn; tauto) end; field; lra. }
    assert (P : 0 < / total n w) by now apply Rinv_0_lt_compat.
    rewrite E. split.
    + apply physical_scaled; [lra|]. apply physical_mixed; [assumption|]. intros k Hk. now apply (HM k Hk).
    + unfold scaled, mixed. cbn [e0]. apply (Rmult_le_reg_l (total n w)); [assumption|].
      rewrite <- Rmult_assoc, Rinv_r, Rmult_1_l, Rmult_comm, <- total_scale by lra.
      apply total_le. intros k Hk. rewrite Rmult_comm. apply Rmult_le_compat_r; [now apply Hw|]. now apply (HM k Hk).
  - intros i j Hi Hj. rewrite (HA i j Hi Hj), (HA e0 e0) by (cbn; tauto).
    unfold Rdiv. rewrite Rabs_mult, (Rabs_right (/ total n w)).
    2:{ apply Rle_ge. left. now apply Rinv_0_lt_compat. }
    apply Rmult_le_compat_r; [left; now apply Rinv_0_lt_compat|].
    eapply Rle_trans; [apply total_abs|]. apply total_le. intros k Hk.
    rewrite Rabs_mult, Rabs_right by (apply Rle_ge, Hw, Hk).
    apply Rmult_le_compat_l; [now apply Hw|]. now apply (HM k Hk).
Qed.

Lemma band_physical s spectrum lo hi rfl pass th n rot n1 n3 (M : nat -> rmat4) (sp pb : nat -> R) :
  (2 <= n)%nat -> lo <> hi ->
  (forall i, (i < n)%nat -> let f := lo + INR i * (hi - lo) / INR n in
     Mueller s f th rot n1 n3 rfl = Ok (M i) /\ spectrum f = Ok (sp i)
     /\ match pass with None => pb i = 1 | Some p => p f = Ok (pb i) end) ->
  (forall i, (i < n)%nat -> 0 <= sp i * pb i /\ physical_transmission (M i)) ->
  (exists i, (i < n)%nat /\ 0 < sp i * pb i) ->
  exists A, BandAveragedMueller s spectrum lo hi rfl pass th n rot n1 n3 = Ok (Some A)
    /\ physical_transmission A
    /\ forall (i : rmat4 -> v4 R) (j : v4 R -> R) a b, In i [e0; e1; e2; e3] -> In j [e0; e1; e2; e3] ->
       (forall k, (k < n)%nat -> a <= j (i (M k)) <= b) -> a <= j (i A) <= b.
Proof.
  intros Hn Hh H HP (k & Hk & Pk).
  assert (W0 : forall i, (i < n)%nat -> 0 <= trapezium n i * (sp i * pb i)).
  { intros i Hi. apply Rmult_le_pos; [left; apply trapezium_pos|now apply HP]. }
  assert (W1 : 0 < total n (fun i => trapezium n i * (sp i * pb i))).
  { apply total_pos; [assumption|]. exists k. split; [assumption|].
    apply Rmult_lt_0_compat; [apply trapezium_pos|assumption]. }
  destruct (band_elements s spectrum lo hi rfl pass th n rot n1 n3 M sp pb Hn Hh H) as (A & E & EL).
  { lra. }
  exists A. split; [exact E|]. split.
  - apply (mean_physical n (fun i => trapezium n i * (sp i * pb i)) M); auto. intros i Hi. now apply HP.
  - intros i j a b Hi Hj B. rewrite (EL i j Hi Hj).
    apply (mean_between n (fun i => trapezium n i * (sp i * pb i)) (fun k => j (i (M k)))); assumption.
Qed.

Lemma band_constant s spectrum lo hi rfl pass th n rot n1 n3 (M : rmat4) (sp pb : nat -> R) :
  (2 <= n)%nat -> lo <> hi ->
  (forall i, (i < n)%nat -> let f := lo + INR i * (hi - lo) / INR n in
     Mueller s f th rot n1 n3 rfl = Ok M /\ spectrum f = Ok (sp i)
     /\ match pass with None => pb i = 1 | Some p => p f = Ok (pb i) end) ->
  total n (fun i => trapezium n i * (sp i * pb i)) <> 0 ->
  BandAveragedMueller s spectrum lo hi rfl pass th n rot n1 n3 = Ok (Some M).
Proof.
  intros Hn Hh H HW.
  destruct (band_elements s spectrum lo hi rfl pass th n rot n1 n3 (fun _ => M) sp pb Hn Hh H HW) as (A & E & EL).
  rewrite E. f_equal. f_equal.
  assert (Q : forall (i : rmat4 -> v4 R) (j : v4 R -> R), In i [e0; e1; e2; e3] -> In j [e0; e1; e2; e3] -> j (i A) = j (i M)).
  { intros i j Hi Hj. rewrite (EL i j Hi Hj).
    now apply (mean_const n (fun i => trapezium n i * (sp i * pb i)) (fun _ => j (i M))). }
  apply v4_eq; apply v4_eq; apply Q; cbn; tauto.
Qed.
