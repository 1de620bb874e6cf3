(** * Two-sided sums and the whole timestream *)
From Coq Require Import Reals String Lra Lia Permutation.
From Verif Require Import Common Cplx LibList M_Alm M_Blm M_Mueller M_Tod S_Tod L_Tod.
Open Scope R_scope.

Lemma csum_app a b : csum (a ++ b)%list = (csum a + csum b)%C.
Proof.
  induction a as [|x a IH]; cbn [app]; [unfold csum at 2; cbn [fold_right]; ring|].
  rewrite !csum_cons, IH. ring.
Qed.
Lemma csum_rev l : csum (rev l) = csum l.
Proof.
  induction l as [|x l IH]; [reflexivity|]. cbn [rev]. rewrite csum_app, IH, !csum_cons.
  unfold csum at 2. cbn [fold_right]. ring.
Qed.
Lemma csum_plus {A} (f g : A -> C) l :
  csum (map (fun x => f x + g x)%C l) = (csum (map f l) + csum (map g l))%C.
Proof.
  induction l as [|x l IH]; cbn [map]; [unfold csum; cbn [fold_right]; ring|].
  rewrite !csum_cons, IH. ring.
Qed.
Lemma csum_scal {A} k (f : A -> C) l :
  csum (map (fun x => k * f x)%C l) = (k * csum (map f l))%C.
Proof.
  induction l as [|x l IH]; cbn [map]; [unfold csum; cbn [fold_right]; ring|].
  rewrite !csum_cons, IH. ring.
Qed.
Lemma csum_conj {A} (f : A -> C) l :
  csum (map (fun x => Cconj (f x)) l) = Cconj (csum (map f l)).
Proof.
  induction l as [|x l IH]; cbn [map]; [symmetry; apply Cconj_R|].
  rewrite !csum_cons, IH, Cconj_add. reflexivity.
Qed.
Lemma rsum_plus {A} (f g : A -> R) l :
  rsum (map (fun x => f x + g x) l) = rsum (map f l) + rsum (map g l).
Proof.
  induction l as [|x l IH]; cbn [map]; [unfold rsum; cbn; ring|].
  rewrite !rsum_cons, IH. ring.
Qed.
Lemma rsum_scal {A} k (f : A -> R) l : rsum (map (fun x => k * f x) l) = k * rsum (map f l).
Proof.
  induction l as [|x l IH]; cbn [map]; [unfold rsum; cbn; ring|].
  rewrite !rsum_cons, IH. ring.
Qed.
Lemma Re_csum {A} (f : A -> C) l : Re (csum (map f l)) = rsum (map (fun x => Re (f x)) l).
Proof.
  induction l as [|x l IH]; cbn [map]; [reflexivity|].
  rewrite csum_cons, rsum_cons, <- IH. reflexivity.
Qed.

Lemma split_sum (g : nat -> C) S :
  csum (map g (seq 0 (2 * S + 1)))
  = (g S + csum (map (fun k => g (S + k)%nat + g (S - k)%nat)%C (seq 1 S)))%C.
Proof.
  replace (2 * S + 1)%nat with (S + (1 + S))%nat by lia.
  rewrite seq_app, map_app, csum_app. cbn [Nat.add seq map].
  rewrite csum_cons, csum_plus.
  assert (E1 : csum (map g (seq 0 S)) = csum (map (fun k => g (S - k)%nat) (seq 1 S))).
  { rewrite <- csum_rev, <- map_rev. f_equal. apply nth_ext with (d := g O) (d' := g O).
    - rewrite !map_length, rev_length, !seq_length. reflexivity.
    - intros i Hi. rewrite map_length, rev_length, seq_length in Hi.
      rewrite (map_nth g). rewrite rev_nth by (rewrite seq_length; exact Hi).
      rewrite seq_length, seq_nth by lia.
      rewrite (nth_indep _ _ (g (S - 0)%nat)) by (rewrite map_length, seq_length; exact Hi).
      rewrite (map_nth (fun k => g (S - k)%nat)), seq_nth by exact Hi. reflexivity. }
  assert (E2 : csum (map g (seq (Datatypes.S S) S)) = csum (map (fun k => g (S + k)%nat) (seq 1 S))).
  { f_equal. replace (Datatypes.S S) with (S + 1)%nat by lia. assert (forall c a b, map g (seq (a + b) c) = map (fun k => g (a + k)%nat) (seq b c)) as H.
    { induction c; intros; cbn; [reflexivity|]. rewrite <- IHc. repeat f_equal. lia. }
    apply H. }
  rewrite E1, E2. ring.
Qed.

Lemma combine_seq {A B} (f : nat -> A) (l : list B) n d :
  List.length l = n -> combine (map f (seq 0 n)) l = map (fun k => (f k, nth k l d)) (seq 0 n).
Proof.
  intros <-. rewrite <- (map_nth_seq l d) at 2.
  generalize (seq 0 (List.length l)) as s. induction s as [|x s IH]; cbn; [reflexivity|].
  rewrite IH. reflexivity.
Qed.

Lemma spin_sum_both S maps p psi :
  List.length maps = (2 * S + 1)%nat ->
  spin_sum maps (spins_both S) p psi
  = (value (nth S maps []) p
     + csum (map (fun k => value (nth (S + k) maps []) p * cis (- (INR k * psi))
                           + value (nth (S - k) maps []) p * cis (INR k * psi))%C (seq 1 S)))%C.
Proof.
  intros L. unfold spin_sum, spins_both. rewrite (combine_seq _ _ _ []) by exact L.
  rewrite map_map. cbn [fst snd]. rewrite split_sum. f_equal.
  - rewrite Z.sub_diag, Rmult_0_l, Ropp_0, cis_0. ring.
  - apply csum_map_eq. intros k Hk. apply in_seq in Hk. rewrite !INR_IZR_INZ.
    replace (Z.of_nat (S + k) - Z.of_nat S)%Z with (Z.of_nat k) by lia.
    replace (Z.of_nat (S - k) - Z.of_nat S)%Z with (- Z.of_nat k)%Z by lia.
    rewrite opp_IZR. f_equal. f_equal. f_equal. ring.
Qed.

Lemma two_sided_upto S maps p psi :
  List.length maps = (S + 1)%nat ->
  two_sided_sum maps (spins_upto S) p psi
  = Re (value (nth 0 maps []) p)
    + rsum (map (fun k => 2 * Re (value (nth k maps []) p * cis (- (INR k * psi)))%C) (seq 1 S)).
Proof.
  intros L. unfold two_sided_sum, spins_upto. rewrite (combine_seq _ _ _ []) by exact L.
  rewrite map_map. rewrite Nat.add_comm. cbn [Nat.add seq map]. rewrite rsum_cons. cbn [fst snd Z.of_nat Z.eqb].
  rewrite Rmult_0_l, Ropp_0, cis_0. f_equal.
  - assert (forall v, (v * RtoC 1)%C = v) as -> by (intros; ring). ring.
  - f_equal. apply map_ext_in. intros k Hk. apply in_seq in Hk. cbn [fst snd].
    destruct (Z.eqb_spec (Z.of_nat k) 0); [lia|]. rewrite <- INR_IZR_INZ. reflexivity.
Qed.

(** ** Values of combined maps *)
Lemma nth_map0 (f : C -> C) m i : f (RtoC 0) = RtoC 0 -> nth i (map f m) (RtoC 0) = f (nth i m (RtoC 0)).
Proof. intros E. rewrite <- E at 1. apply map_nth. Qed.

Lemma value_map_conj m p : value (map Cconj m) p = Cconj (value m p).
Proof.
  destruct p as [i|w]; cbn [value].
  - apply nth_map0. apply Cconj_R.
  - rewrite <- csum_conj. apply csum_map_eq. intros x _. rewrite Cconj_mul, Cconj_R.
    rewrite nth_map0 by apply Cconj_R. reflexivity.
Qed.
Lemma value_scal k m p : value (map (Cmul k) m) p = (k * value m p)%C.
Proof.
  destruct p as [i|w]; cbn [value].
  - apply nth_map0. ring.
  - rewrite <- csum_scal. apply csum_map_eq. intros x _. rewrite nth_map0 by ring. ring.
Qed.
Lemma nth_zip m m' i :
  List.length m = List.length m' ->
  nth i (zipwith Cadd m m') (RtoC 0) = (nth i m (RtoC 0) + nth i m' (RtoC 0))%C.
Proof.
  unfold zipwith. revert m' i. induction m as [|x m IH]; intros [|x' m'] [|i] E; try discriminate; cbn; try ring.
  apply IH. now injection E.
Qed.
Lemma value_zip m m' p :
  List.length m = List.length m' -> value (zipwith Cadd m m') p = (value m p + value m' p)%C.
Proof.
  intros E. destruct p as [i|w]; cbn [value].
  - apply nth_zip. exact E.
  - rewrite <- csum_plus. apply csum_map_eq. intros x _. rewrite nth_zip by exact E. ring.
Qed.

(** ** The real mode is the two-sided sum *)
Lemma real_is_two_sided S (half full : list (list C)) p psi :
  List.length half = (S + 1)%nat -> List.length full = (2 * S + 1)%nat ->
  (forall k, (k <= S)%nat -> nth (S + k) full [] = nth k half []
                         /\ nth (S - k) full [] = map Cconj (nth k half [])) ->
  spin_sum full (spins_both S) p psi = RtoC (two_sided_sum half (spins_upto S) p psi).
Proof.
  intros Lh Lf H. rewrite spin_sum_both, two_sided_upto by assumption.
  rewrite RtoC_add, <- rsum_csum. f_equal.
  - destruct (H 0%nat ltac:(lia)) as [E1 E2]. rewrite Nat.add_0_r in E1. rewrite Nat.sub_0_r in E2.
    assert (X : value (nth 0 half []) p = Cconj (value (nth 0 half []) p))
      by (rewrite <- value_map_conj; congruence).
    rewrite E1. destruct (value (nth 0 half []) p) as [x y]. injection X as Y.
    apply C_eq; cbn; lra.
  - apply csum_map_eq. intros k Hk. apply in_seq in Hk. destruct (H k ltac:(lia)) as [E1 E2].
    rewrite E1, E2, value_map_conj. set (v := value _ p).
    replace (cis (INR k * psi)) with (Cconj (cis (- (INR k * psi))))
      by (rewrite cis_conj, Ropp_involutive; reflexivity).
    generalize (cis (- (INR k * psi))). intros [c s]. destruct v as [x y]. ceq; ring.
Qed.

(** ** The whole timestream *)

Lemma angles_arr h n : angles_for n h -> angles h n = Ok (arr n (angle_at h)).
Proof.
  destruct h as [a|l]; cbn; intros H.
  - rewrite repeat_arr. reflexivity.
  - rewrite H, Nat.eqb_refl. rewrite (arr_of l 0) at 1. rewrite H. reflexivity.
Qed.

Lemma times_phase_arr n T f h :
  angles_for n h -> times_phase (arr n T) f h = Ok (arr n (fun i => T i * cis (f (angle_at h i)))%C).
Proof.
  intros H. unfold times_phase. rewrite arr_len, angles_arr by exact H. cbn [bind].
  rewrite map_arr, mul_arr_arr. reflexivity.
Qed.
Lemma times_real_arr n T f h :
  angles_for n h -> times_real (arr n T) f h = Ok (arr n (fun i => T i * RtoC (f (angle_at h i)))%C).
Proof.
  intros H. unfold times_real. rewrite arr_len, angles_arr by exact H. cbn [bind].
  rewrite map_arr, mul_arr_arr. reflexivity.
Qed.
Lemma real_arr n T : real (arr n T) = arr n (fun i => RtoC (Re (T i))).
Proof. exact (map_arr (fun z => RtoC (Re z)) n T). Qed.

Lemma is_true a b : is a b = true <-> a = b.
Proof. unfold is. destruct (string_dec a b); split; congruence. Qed.
Lemma is_refl a : is a a = true.
Proof. apply is_true. reflexivity. Qed.

Lemma getitem_in d k e : NoDup (map fst d) -> In (k, e) d -> getitem d k = Ok e.
Proof.
  induction d as [|[k' e'] d IH]; cbn [map fst getitem]; intros N I; [destruct I|].
  inversion N as [|? ? N1 N2]; subst. destruct I as [E|I].
  - injection E as -> ->. rewrite is_refl. reflexivity.
  - destruct (is k' k) eqn:X; [|apply IH; assumption].
    apply is_true in X. subst. exfalso. apply N1. apply in_map_iff. exists (k, e). auto.
Qed.

Lemma only_ideal_true d :
  (forall k, In k (map fst d) <-> k = "s0a0"%string \/ k = "s2a4"%string) -> only_ideal d = true.
Proof.
  intros H. unfold only_ideal. rewrite !andb_true_iff. repeat split.
  - apply forallb_forall. intros [k e] I. cbn [fst].
    destruct (proj1 (H k)) as [-> | ->]; [apply in_map_iff; exists (k, e); auto| |];
      rewrite ?is_refl, ?orb_true_r; reflexivity.
  - apply existsb_exists. destruct (proj1 (in_map_iff fst d "s0a0"%string)) as ([k e] & E & I);
      [apply H; auto|]. exists (k, e). rewrite E. split; [exact I|apply is_refl].
  - apply existsb_exists. destruct (proj1 (in_map_iff fst d "s2a4"%string)) as ([k e] & E & I);
      [apply H; auto|]. exists (k, e). rewrite E. split; [exact I|apply is_refl].
Qed.

Lemma only_ideal_false d e : In ("s2a2"%string, e) d -> only_ideal d = false.
Proof.
  intros I. unfold only_ideal.
  assert (forallb (fun kv : string * spinset => is (fst kv) "s0a0" || is (fst kv) "s2a4")%bool d = false) as ->;
    [|reflexivity].
  apply not_true_is_false. intros X. rewrite forallb_forall in X. specialize (X _ I). discriminate.
Qed.

Section Whole.
Variables (n npix : nat) (pix : list point) (pa : list R) (polang : R) (h : hwpang).
Hypothesis Lp : List.length pix = n.
Hypothesis La : List.length pa = n.
Hypothesis Hh : angles_for n h.
Hypothesis HP : Forall (on_map npix) pix.

Let P i := nth i pix (Pix 0).
Let psi i := PI - nth i pa 0 * (PI / 180).
Let pol := polang * (PI / 180).

Lemma P_ok i : (i < n)%nat -> on_map npix (P i).
Proof. intros. apply nth_in_range; [exact HP|lia]. Qed.

Lemma pix_arr : pix = arr n P.
Proof. rewrite (arr_of pix (Pix 0)). rewrite Lp. reflexivity. Qed.

Lemma pa_arr : map (fun p => radians p * (-1) + PI) pa = arr n psi.
Proof.
  rewrite (arr_of pa 0) at 1. rewrite La, map_arr. apply arr_ext. intros. unfold psi, radians. ring.
Qed.

Lemma mod_set e reality T :
  well_sized npix e -> (reality = true -> Forall (fun s => 0 <= s)%Z (ss_svals e)) ->
  scan_modulate_pa (arr n T) (arr n P) (arr n psi) (ss_maps e) (ss_svals e) reality
  = Ok (arr n (fun i => T i + total P psi reality (ss_svals e) (ss_maps e) i)%C).
Proof.
  intros (NE & L & M) R. apply (modulate_ok n npix); auto. apply P_ok.
Qed.

Lemma scan_old d e00 e24 :
  NoDup (map fst d) ->
  (forall k, In k (map fst d) <-> k = "s0a0"%string \/ k = "s2a4"%string) ->
  In ("s0a0"%string, e00) d -> In ("s2a4"%string, e24) d ->
  well_sized npix e00 -> well_sized npix e24 ->
  Forall (fun s => 0 <= s)%Z (ss_svals e00) ->
  scan_tod n d pix pa polang h
  = Ok (arr n (fun i => RtoC (two_sided_sum (ss_maps e00) (ss_svals e00) (P i) (psi i)
         + Re (spin_sum (ss_maps e24) (ss_svals e24) (P i) (psi i)
               * cis (4 * angle_at h i + 2 * pol))%C))).
Proof.
  intros N K I0 I4 W0 W4 S0. unfold scan_tod. rewrite (only_ideal_true d K).
  rewrite (getitem_in d _ _ N I0), (getitem_in d _ _ N I4). cbv zeta. cbn [bind].
  rewrite pa_arr. rewrite pix_arr, zeros_arr.
  rewrite mod_set by (auto; discriminate). cbn [bind].
  rewrite times_phase_arr by exact Hh. cbn [bind].
  rewrite real_arr, mod_set by auto. f_equal. apply arr_ext. intros i Hi.
  rewrite total_real, total_complex, <- RtoC_add. f_equal.
  rewrite Rplus_comm. f_equal. unfold pol, radians.
  replace (RtoC 0 + spin_sum (ss_maps e24) (ss_svals e24) (P i) (psi i))%C
    with (spin_sum (ss_maps e24) (ss_svals e24) (P i) (psi i)) by ring.
  reflexivity.
Qed.

(** *** The s0a2 term *)
Lemma where_nonneg_both S : where_nonneg (spins_both S) = map (fun k => (S + k)%nat) (seq 0 (S + 1)).
Proof.
  assert (V : forall i, (i < 2 * S + 1)%nat -> nth i (spins_both S) 0%Z = (Z.of_nat i - Z.of_nat S)%Z).
  { intros i Hi. unfold spins_both. rewrite nth_map_seq by exact Hi. reflexivity. }
  assert (L : List.length (spins_both S) = (S + (S + 1))%nat)
    by (unfold spins_both; rewrite map_length, seq_length; lia).
  unfold where_nonneg. rewrite L.
  rewrite seq_app, filter_app.
  rewrite (filter_ext_in _ (fun _ => false) (seq 0 S)).
  2:{ intros i Hi. apply in_seq in Hi. rewrite V by lia. apply Z.leb_gt. lia. }
  rewrite (filter_ext_in _ (fun _ => true) (seq (0 + S) (S + 1))).
  2:{ intros i Hi. apply in_seq in Hi. rewrite V by lia. apply Z.leb_le. lia. }
  assert (forall (l : list nat), filter (fun _ => false) l = []) as -> by (induction l; auto).
  assert (forall (l : list nat), filter (fun _ => true) l = l) as -> by (induction l; cbn; congruence).
  cbn [app]. generalize (S + 1)%nat. intros c.
  assert (forall c a b, seq (a + b) c = map (fun k => (b + k)%nat) (seq a c)) as X.
  { induction c0; intros; cbn; [reflexivity|]. rewrite <- IHc0. f_equal. lia. }
  apply X.
Qed.

Lemma find_spin_both S k : (k <= S)%nat ->
  find_spin (- Z.of_nat k) (spins_both S) = Some (S - k)%nat.
Proof.
  intros Hk. unfold spins_both.
  assert (forall c a, (Z.of_nat a - Z.of_nat S <= - Z.of_nat k)%Z ->
     (- Z.of_nat k < Z.of_nat (a + c) - Z.of_nat S)%Z ->
     find_spin (- Z.of_nat k) (map (fun k => Z.of_nat k - Z.of_nat S)%Z (seq a c))
     = Some (S - k - a)%nat) as X.
  { induction c; intros a H1 H2; [lia|]. cbn [seq map find_spin].
    destruct (Z.eqb_spec (Z.of_nat a - Z.of_nat S) (- Z.of_nat k)) as [E|E].
    - f_equal. lia.
    - rewrite IHc by lia. cbn. f_equal. lia. }
  rewrite X by lia. f_equal. lia.
Qed.

Definition pair_re (e : spinset) (S k : nat) : list C :=
  map (Cmul (RtoC (1/2))) (zipwith Cadd
    (times (nth (S + k) (ss_maps e) []) (cis (2 * pol)))
    (map Cconj (times (nth (S - k) (ss_maps e) []) (cis (- (2 * pol)))))).
Definition pair_im (e : spinset) (S k : nat) : list C :=
  map (Cmul (0, 1/2)) (zipwith Cadd
    (times (nth (S + k) (ss_maps e) []) (cis (2 * pol)))
    (map (fun z => - Cconj z)%C (times (nth (S - k) (ss_maps e) []) (cis (- (2 * pol)))))).

Lemma s0a2_pair_ok e S k :
  well_sized npix e -> ss_svals e = spins_both S -> (k <= S)%nat ->
  s0a2_pair e polang (S + k) = Ok (pair_re e S k, pair_im e S k).
Proof.
  intros (NE & L & M) ES Hk. unfold s0a2_pair.
  assert (Lm : List.length (ss_maps e) = (2 * S + 1)%nat).
  { rewrite L, ES. unfold spins_both. rewrite map_length, seq_length. reflexivity. }
  assert (V : nth (S + k) (ss_svals e) 0%Z = Z.of_nat k).
  { rewrite ES. unfold spins_both. rewrite nth_map_seq by lia. lia. }
  rewrite V. cbv zeta.
  assert (Q : (if (Z.of_nat k =? 0)%Z then Ok (S + k)%nat
               else match find_spin (- Z.of_nat k) (ss_svals e) with
                    | Some i => Ok i | None => Err IndexError end) = Ok (S - k)%nat).
  { destruct (Z.eqb_spec (Z.of_nat k) 0).
    - f_equal. lia.
    - rewrite ES, find_spin_both by exact Hk. reflexivity. }
  rewrite Q. cbn [bind].
  assert (ML : forall j, (j <= 2 * S)%nat -> List.length (nth j (ss_maps e) []) = npix).
  { intros j Hj. rewrite Forall_forall in M. apply M. apply nth_In. lia. }
  unfold index. rewrite !(nth_error_nth_iff _ _ []) by lia. cbn [bind].
  unfold add_arr, times. rewrite !map_length, !ML, Nat.eqb_refl by lia. cbn [bind].
  reflexivity.
Qed.

Lemma value_times m k p : value (times m k) p = (k * value m p)%C.
Proof.
  rewrite <- value_scal. unfold times. f_equal. apply map_ext. intros. ring.
Qed.

Lemma value_pair_re e S k p :
  well_sized npix e -> List.length (ss_maps e) = (2 * S + 1)%nat -> (k <= S)%nat ->
  value (pair_re e S k) p
  = (RtoC (1/2) * (cis (2 * pol) * value (nth (S + k) (ss_maps e) []) p
       + Cconj (cis (- (2 * pol)) * value (nth (S - k) (ss_maps e) []) p)))%C.
Proof.
  intros (_ & _ & M) L Hk. unfold pair_re. rewrite value_scal, value_zip.
  - rewrite value_map_conj, !value_times. reflexivity.
  - unfold times. rewrite !map_length. rewrite Forall_forall in M.
    rewrite !M; [reflexivity| |]; apply nth_In; lia.
Qed.
Lemma value_pair_im e S k p :
  well_sized npix e -> List.length (ss_maps e) = (2 * S + 1)%nat -> (k <= S)%nat ->
  value (pair_im e S k) p
  = Cmul (0, 1/2) (cis (2 * pol) * value (nth (S + k) (ss_maps e) []) p
       - Cconj (cis (- (2 * pol)) * value (nth (S - k) (ss_maps e) []) p))%C.
Proof.
  intros (_ & _ & M) L Hk. unfold pair_im. rewrite value_scal, value_zip.
  - rewrite <- (map_map Cconj Copp).
    rewrite (map_ext Copp (Cmul (RtoC (-1)))) by (intros; ceq; ring).
    rewrite value_scal, value_map_conj, !value_times. f_equal. generalize (Cconj (cis (- (2 * pol)) * value (nth (S - k) (ss_maps e) []) p)%C). intros [x y]. generalize (cis (2 * pol) * value (nth (S + k) (ss_maps e) []) p)%C. intros [x' y']. ceq; ring.
  - unfold times. rewrite !map_length. rewrite Forall_forall in M.
    rewrite !M; [reflexivity| |]; apply nth_In; lia.
Qed.

(** The phase that the code gives to the polarisation angle in the term of
    spin s. *)
Definition coded_sum (maps : list (list C)) (S : nat) (p : point) (psi : R) : C :=
  (RtoC (cos (2 * pol)) * value (nth S maps []) p
   + csum (map (fun k => cis (2 * pol) * (value (nth (S + k) maps []) p * cis (- (INR k * psi)))
                         + cis (- (2 * pol)) * (value (nth (S - k) maps []) p * cis (INR k * psi)))%C (seq 1 S)))%C.

Lemma s0a2_sum e S a i :
  well_sized npix e -> ss_svals e = spins_both S ->
  two_sided_sum (map (pair_re e S) (seq 0 (S + 1))) (spins_upto S) (P i) (psi i) * cos (2 * a)
  + two_sided_sum (map (pair_im e S) (seq 0 (S + 1))) (spins_upto S) (P i) (psi i) * sin (2 * a)
  = Re (coded_sum (ss_maps e) S (P i) (psi i) * cis (2 * a))%C.
Proof.
  intros W ES.
  assert (Lm : List.length (ss_maps e) = (2 * S + 1)%nat).
  { destruct W as (_ & L & _). rewrite L, ES. unfold spins_both. rewrite map_length, seq_length. reflexivity. }
  rewrite !two_sided_upto by (rewrite map_length, seq_length; reflexivity).
  unfold coded_sum.
  assert (RX : forall x y : C, Re ((x + y) * cis (2 * a))%C = Re (x * cis (2 * a))%C + Re (y * cis (2 * a))%C)
    by (intros [? ?] [? ?]; cbn; ring).
  rewrite RX. rewrite !Rmult_plus_distr_r.
  match goal with |- ?A + ?B + (?D + ?E) = ?F + ?G => assert (A + D = F /\ B + E = G) as [H1 H2] end.
  2:{ rewrite <- H1, <- H2. ring. }
  split.
  - rewrite !nth_map_seq by lia. cbn [Nat.add].
    rewrite value_pair_re, value_pair_im by (auto; lia). rewrite Nat.add_0_r, Nat.sub_0_r.
    destruct (value (nth S (ss_maps e) []) (P i)) as [x y].
    unfold cis. cbn. rewrite cos_neg, sin_neg. field.
  - rewrite (Rmult_comm _ (cos (2 * a))), (Rmult_comm _ (sin (2 * a))), <- !rsum_scal, <- rsum_plus.
    assert (RS : forall l : list C, Re (csum l * cis (2 * a))%C = rsum (map (fun z => Re (z * cis (2 * a))%C) l)).
    { induction l as [|z l IH]; cbn [map]; [cbn; ring|]. rewrite csum_cons, rsum_cons, <- IH. destruct (csum l), z; cbn; ring. }
    rewrite RS, map_map. f_equal. apply map_ext_in. intros k Hk. apply in_seq in Hk.
    rewrite !nth_map_seq by lia. cbn [Nat.add].
    rewrite value_pair_re, value_pair_im by (auto; lia).
    destruct (value (nth (S + k) (ss_maps e) []) (P i)) as [x y].
    destruct (value (nth (S - k) (ss_maps e) []) (P i)) as [x' y'].
    unfold cis. cbn. rewrite !cos_neg, !sin_neg. field.
Qed.

Lemma scan_new d e00 e24 e20 e02 e22 S :
  NoDup (map fst d) ->
  In ("s0a0"%string, e00) d -> In ("s2a4"%string, e24) d -> In ("s2a0"%string, e20) d ->
  In ("s0a2"%string, e02) d -> In ("s2a2"%string, e22) d ->
  well_sized npix e00 -> well_sized npix e24 -> well_sized npix e20 ->
  well_sized npix e02 -> well_sized npix e22 ->
  Forall (fun s => 0 <= s)%Z (ss_svals e00) -> ss_svals e02 = spins_both S ->
  scan_tod n d pix pa polang h
  = Ok (arr n (fun i => RtoC (two_sided_sum (ss_maps e00) (ss_svals e00) (P i) (psi i)
         + Re (spin_sum (ss_maps e24) (ss_svals e24) (P i) (psi i)
               * cis (4 * angle_at h i + 2 * pol))%C
         + Re (spin_sum (ss_maps e20) (ss_svals e20) (P i) (psi i))
         + Re (coded_sum (ss_maps e02) S (P i) (psi i) * cis (2 * angle_at h i))%C
         + Re (spin_sum (ss_maps e22) (ss_svals e22) (P i) (psi i) * cis (2 * angle_at h i))%C))).
Proof.
  intros N I00 I24 I20 I02 I22 W00 W24 W20 W02 W22 S0 ES.
  unfold scan_tod. rewrite (only_ideal_false d e22 I22).
  rewrite (getitem_in d _ _ N I00), (getitem_in d _ _ N I24), (getitem_in d _ _ N I20),
    (getitem_in d _ _ N I02), (getitem_in d _ _ N I22). cbv zeta. cbn [bind].
  rewrite pa_arr. rewrite pix_arr, zeros_arr.
  rewrite !mod_set by (auto; discriminate). cbn [bind].
  rewrite times_phase_arr by exact Hh. cbn [bind].
  rewrite times_phase_arr by exact Hh. cbn [bind].
  rewrite !real_arr, add_arr_arr. cbn [bind]. rewrite add_arr_arr. cbn [bind].
  assert (Lm : List.length (ss_maps e02) = (2 * S + 1)%nat).
  { destruct W02 as (_ & L & _). rewrite L, ES. unfold spins_both. rewrite map_length, seq_length. reflexivity. }
  unfold index at 1. rewrite (nth_error_nth_iff _ 0%nat []) by lia. cbn [bind].
  rewrite ES, where_nonneg_both.
  rewrite (mapr_ok _ (fun j => (pair_re e02 S (j - S), pair_im e02 S (j - S)))).
  2:{ apply Forall_forall. intros j Hj. apply in_map_iff in Hj. destruct Hj as (k & <- & Hk).
      apply in_seq in Hk. replace (S + k - S)%nat with k by lia. apply s0a2_pair_ok; auto. lia. }
  cbn [bind]. rewrite !map_map. cbn [fst snd].
  assert (E1 : map (fun k => pair_re e02 S (S + k - S)) (seq 0 (S + 1)) = map (pair_re e02 S) (seq 0 (S + 1))).
  { apply map_ext. intros. f_equal. lia. }
  assert (E2 : map (fun k => pair_im e02 S (S + k - S)) (seq 0 (S + 1)) = map (pair_im e02 S) (seq 0 (S + 1))).
  { apply map_ext. intros. f_equal. lia. }
  assert (E3 : map (fun k => nth (S + k) (spins_both S) 0%Z) (seq 0 (S + 1)) = spins_upto S).
  { unfold spins_upto. apply map_ext_in. intros k Hk. apply in_seq in Hk. unfold spins_both.
    rewrite nth_map_seq by lia. lia. }
  rewrite E1, E2, E3.
  assert (NN : Forall (fun s => 0 <= s)%Z (spins_upto S)).
  { apply Forall_forall. intros s Hs. unfold spins_upto in Hs. apply in_map_iff in Hs.
    destruct Hs as (k & <- & _). lia. }
  assert (LU : List.length (spins_upto S) = (S + 1)%nat)
    by (unfold spins_upto; rewrite map_length, seq_length; reflexivity).
  assert (PL : forall k, (k <= S)%nat -> List.length (pair_re e02 S k) = npix /\ List.length (pair_im e02 S k) = npix).
  { intros k Hk. destruct W02 as (_ & _ & M). rewrite Forall_forall in M.
    assert (M1 : List.length (nth (S + k) (ss_maps e02) []) = npix) by (apply M, nth_In; lia).
    assert (M2 : List.length (nth (S - k) (ss_maps e02) []) = npix) by (apply M, nth_In; lia).
    unfold pair_re, pair_im, zipwith, times.
    rewrite !map_length, !combine_length, !map_length, M1, M2. split; apply Nat.min_id. }
  set (er := {| ss_maps := map (pair_re e02 S) (seq 0 (S + 1)); ss_svals := spins_upto S |}).
  set (ei := {| ss_maps := map (pair_im e02 S) (seq 0 (S + 1)); ss_svals := spins_upto S |}).
  assert (NE : spins_upto S <> []) by (intros X; rewrite X in LU; cbn in LU; lia).
  assert (Wr : well_sized npix er).
  { split; [exact NE|]. cbn [ss_maps ss_svals er]. split; [rewrite map_length, seq_length, LU; reflexivity|].
    apply Forall_forall. intros m Hm. apply in_map_iff in Hm. destruct Hm as (k & <- & Hk).
    apply in_seq in Hk. apply PL. lia. }
  assert (Wi : well_sized npix ei).
  { split; [exact NE|]. cbn [ss_maps ss_svals ei]. split; [rewrite map_length, seq_length, LU; reflexivity|].
    apply Forall_forall. intros m Hm. apply in_map_iff in Hm. destruct Hm as (k & <- & Hk).
    apply in_seq in Hk. apply PL. lia. }
  pose proof (mod_set er true (fun _ => RtoC 0) Wr (fun _ => NN)) as Xr.
  pose proof (mod_set ei true (fun _ => RtoC 0) Wi (fun _ => NN)) as Xi.
  cbn [ss_maps ss_svals er ei] in Xr, Xi. rewrite Xr, Xi. cbn [bind].
  rewrite times_real_arr by exact Hh. cbn [bind]. rewrite add_arr_arr. cbn [bind].
  rewrite times_real_arr by exact Hh. cbn [bind]. rewrite add_arr_arr. cbn [bind].
  rewrite mod_set by auto. f_equal. apply arr_ext. intros i Hi.
  rewrite !total_real, !total_complex.
  rewrite <- (s0a2_sum e02 S (angle_at h i) i W02 ES).
  unfold pol, radians.
  set (A := spin_sum (ss_maps e24) _ _ _). set (B := spin_sum (ss_maps e22) _ _ _).
  set (D := spin_sum (ss_maps e20) _ _ _).
  set (X1 := two_sided_sum _ _ _ _). set (X2 := two_sided_sum _ _ _ _). set (X3 := two_sided_sum _ _ _ _).
  clearbody A B D X1 X2 X3. destruct A, B, D. unfold cis.
  apply C_eq; cbn; ring.
Qed.
End Whole.

Lemma zero_value npix m p : Forall (fun z => z = RtoC 0) m -> List.length m = npix -> value m p = RtoC 0.
Proof.
  intros H _. assert (X : forall i, nth i m (RtoC 0) = RtoC 0).
  { intros i. destruct (lt_dec i (List.length m)) as [L|L].
    - rewrite Forall_forall in H. apply H. apply nth_In. exact L.
    - apply nth_overflow. lia. }
  destruct p as [i|w]; cbn [value]; [apply X|].
  induction w as [|[x i] w IH]; cbn [map]; [reflexivity|]. rewrite csum_cons. cbn [fst snd]. rewrite X.
  unfold value in IH. rewrite IH. ring.
Qed.

Lemma zero_spin_sum maps svs p psi :
  Forall (Forall (fun z => z = RtoC 0)) maps -> spin_sum maps svs p psi = RtoC 0.
Proof.
  intros H. unfold spin_sum. revert svs. induction H as [|m maps Hm _ IH]; intros [|s svs]; try reflexivity.
  cbn [combine map fst snd]. rewrite csum_cons, IH, (zero_value _ m p Hm eq_refl). ring.
Qed.

Lemma zero_coded polang maps S p psi :
  Forall (Forall (fun z => z = RtoC 0)) maps -> List.length maps = (2 * S + 1)%nat ->
  coded_sum polang maps S p psi = RtoC 0.
Proof.
  intros H L. unfold coded_sum.
  assert (X : forall j, value (nth j maps []) p = RtoC 0).
  { intros j. destruct (lt_dec j (List.length maps)) as [Q|Q].
    - rewrite Forall_forall in H. eapply zero_value; [|reflexivity]. apply H. apply nth_In. exact Q.
    - rewrite (nth_overflow maps) by lia. eapply zero_value; [constructor|reflexivity]. }
  rewrite X. transitivity (RtoC (cos (2 * (polang * (PI / 180)))) * RtoC 0 + csum (map (fun _ : nat => RtoC 0) (seq 1 S)))%C.
  - f_equal. apply csum_map_eq. intros k _. rewrite !X. ring.
  - rewrite (csum_map_eq (fun _ : nat => RtoC 0) (fun k : nat => RtoC 0 * RtoC 0)%C) by (intros; ring).
    rewrite csum_scal. ring.
Qed.

Lemma coded_aligned polang maps S p psi :
  List.length maps = (2 * S + 1)%nat -> cis (2 * (polang * (PI / 180))) = RtoC 1 ->
  coded_sum polang maps S p psi = spin_sum maps (spins_both S) p psi.
Proof.
  intros L E. rewrite spin_sum_both by exact L. unfold coded_sum.
  assert (E' : cis (- (2 * (polang * (PI / 180)))) = RtoC 1)
    by (rewrite cis_opp, E; apply Cconj_R).
  assert (cos (2 * (polang * (PI / 180))) = 1) as -> by (change (Re (cis (2 * (polang * (PI / 180)))) = 1); rewrite E; reflexivity).
  rewrite E, E'. f_equal; [ring|]. apply csum_map_eq. intros. ring.
Qed.

Lemma cis_turns z : cis (2 * (180 * IZR z * (PI / 180))) = RtoC 1.
Proof.
  replace (2 * (180 * IZR z * (PI / 180))) with (0 + 2 * IZR z * PI) by field.
  apply C_eq; cbn; [|].
  - destruct z as [|q|q].
    + rewrite Rmult_0_r, Rmult_0_l, Rplus_0_r. apply cos_0.
    + rewrite <- (positive_nat_Z q), <- INR_IZR_INZ, cos_period. apply cos_0.
    + rewrite <- Pos2Z.opp_pos, opp_IZR, <- (positive_nat_Z q), <- INR_IZR_INZ.
      replace (0 + 2 * - INR (Pos.to_nat q) * PI) with (- (0 + 2 * INR (Pos.to_nat q) * PI)) by ring.
      rewrite cos_neg, cos_period. apply cos_0.
  - destruct z as [|q|q].
    + rewrite Rmult_0_r, Rmult_0_l, Rplus_0_r. apply sin_0.
    + rewrite <- (positive_nat_Z q), <- INR_IZR_INZ, sin_period. apply sin_0.
    + rewrite <- Pos2Z.opp_pos, opp_IZR, <- (positive_nat_Z q), <- INR_IZR_INZ.
      replace (0 + 2 * - INR (Pos.to_nat q) * PI) with (- (0 + 2 * INR (Pos.to_nat q) * PI)) by ring.
      rewrite sin_neg, sin_period, sin_0. ring.
Qed.
