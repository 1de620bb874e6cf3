(** * Proofs about half-wave plate models, and band averages of a plate *)
From Coq Require Import Reals Lra Psatz String.
From Verif Require Import Common Cplx Mat M_Mueller S_Mueller M_Transfer S_Transfer L_Mueller L_Jones L_JonesRot
  L_Layer L_Layer2 L_Power L_Stack L_Stack2 L_Band L_Normal L_Axis.
Open Scope R_scope.

(** ** stack_builder *)
Definition row_of (a : R * R) : list R := [fst a; snd a].

Lemma size_rows l : size2 (map row_of l) = (2 * List.length l)%nat.
Proof.
  unfold size2. induction l as [|x l IH]; [reflexivity|].
  cbn [map list_sum fold_right]. fold (list_sum (map (@List.length R) (map row_of l))).
  rewrite IH. cbn [row_of List.length]. lia.
Qed.

Lemma index_rows (l : list (R * R)) i d : (i < List.length l)%nat ->
  index (map row_of l) i = Ok (row_of (nth i l d)).
Proof.
  intros H. unfold index. rewrite nth_error_map, (nth_error_nth' l d) by assumption. reflexivity.
Qed.

Lemma mapM_seq {A B} (f : nat -> res B) (g : A -> B) (l : list A) (d : A) :
  (forall i, (i < List.length l)%nat -> f i = Ok (g (nth i l d))) ->
  mapM f (seq 0 (List.length l)) = Ok (map g l).
Proof.
  intros H. rewrite <- (map_id (seq 0 (List.length l))).
  rewrite (mapM_map f (fun i => i) (fun i => g (nth i l d))).
  - f_equal. clear H. induction l as [|x l IH]; [reflexivity|].
    cbn [List.length seq map nth]. f_equal. rewrite <- seq_shift, map_map. exact IH.
  - intros i Hi. apply in_seq in Hi. apply H. lia.
Qed.

Lemma builder_ok (l : list (R * (R * R) * (R * R) * R)) :
  stack_builder (map (fun x => fst (fst (fst x))) l) (map (fun x => row_of (snd (fst (fst x)))) l)
    (map (fun x => row_of (snd (fst x))) l) (map snd l)
  = Ok (stack_of (map (fun x => (fst (fst (fst x)) / 1000,
      Material (fst (snd (fst (fst x)))) (snd (snd (fst (fst x)))) (fst (snd (fst x))) (snd (snd (fst x))),
      snd x)) l)).
Proof.
  unfold stack_builder. cbv zeta. rewrite !map_length.
  rewrite <- (map_map (fun x => snd (fst (fst x))) row_of), <- (map_map (fun x => snd (fst x)) row_of).
  rewrite !size_rows, !map_length, !Nat.eqb_refl. cbn [negb orb].
  pose (d := ((0, (0, 0), (0, 0), 0) : R * (R * R) * (R * R) * R)).
  rewrite (mapM_seq _ (fun x => Material (fst (snd (fst (fst x)))) (snd (snd (fst (fst x))))
     (fst (snd (fst x))) (snd (snd (fst x)))) l d).
  - cbn [bind]. f_equal. unfold stack_of. rewrite !map_map. f_equal.
    apply map_ext. intros x. unfold mm, Rdiv. cbn [fst snd]. field.
  - intros i Hi. unfold index2.
    rewrite (index_rows _ i (snd (fst (fst d)))) by now rewrite map_length.
    rewrite (index_rows _ i (snd (fst d))) by now rewrite map_length.
    rewrite (map_nth (fun x => snd (fst (fst x))) l d i), (map_nth (fun x => snd (fst x)) l d i). reflexivity.
Qed.

Lemma builder_mismatch t i l a :
  List.length a <> List.length t \/ size2 i <> (2 * List.length t)%nat \/ size2 l <> (2 * List.length t)%nat ->
  stack_builder t i l a = Err ValueError.
Proof.
  intros H. unfold stack_builder. cbv zeta.
  destruct (Nat.eqb_spec (List.length t) (List.length a)); cbn [negb orb]; [|reflexivity].
  destruct (Nat.eqb_spec (2 * List.length t) (size2 i)); cbn [negb orb]; [|reflexivity].
  destruct (Nat.eqb_spec (2 * List.length t) (size2 l)); cbn [negb orb]; [|reflexivity].
  exfalso. destruct H as [H|[H|H]]; apply H; congruence.
Qed.

(** ** The predefined plates *)
Lemma stack_of_lists t m a n : List.length t = n -> List.length m = n -> List.length a = n ->
  Stack t m a = stack_of (combine (combine t m) a).
Proof.
  unfold stack_of. revert m a n.
  induction t as [|x t IH]; intros [|y m] [|z a] n; cbn; intros <-; try discriminate; [reflexivity|].
  intros H K. injection H as H. injection K as K. specialize (IH m a _ eq_refl H K). injection IH as E1 E2 E3.
  cbn in *. congruence.
Qed.

Ltac choose_cases name H :=
  unfold choose_HWP_model, is in H;
  repeat match type of H with
  | context [string_dec name ?s] => destruct (string_dec name s) as [->|]
  end; try discriminate H; injection H as <-.

Ltac usable_all := repeat constructor; cbn; unfold mm; lra.

Lemma models_usable name s : choose_HWP_model name = Ok s ->
  exists l, s = stack_of l /\ l <> [] /\ Forall usable l
    /\ materials s = rev (materials s) /\ thicknesses s = rev (thicknesses s).
Proof.
  intros H. choose_cases name H;
  (eexists; split; [eapply stack_of_lists; reflexivity|]; split; [discriminate|]; split;
   [usable_all|split; reflexivity]).
Qed.

Lemma models_known name : (In name known -> exists s, choose_HWP_model name = Ok s)
  /\ (~ In name known -> choose_HWP_model name = Err ValueError).
Proof.
  split; intros H.
  - cbn in H. decompose [or] H; subst; try tauto; eexists; reflexivity.
  - unfold choose_HWP_model, is.
    repeat match goal with |- context [string_dec name ?s] =>
      destruct (string_dec name s); [elim H; subst; cbn; tauto|] end. reflexivity.
Qed.

Lemma single_axis_angles name s : In name single_axis -> choose_HWP_model name = Ok s ->
  exists l, s = stack_of l /\ l <> [] /\ Forall (fun x => usable x /\ snd x = 0) l.
Proof.
  intros HN H. cbn in HN. decompose [or] HN; subst; try tauto; injection H as <-;
  (eexists; split; [eapply stack_of_lists; reflexivity|]; split; [discriminate|];
   repeat constructor; cbn; unfold mm; lra).
Qed.

(** ** Their Mueller matrices *)
Lemma stack_transmission l f th : l <> [] -> 0 <= f -> 0 <= th < PI / 2 -> Forall usable l ->
  th = 0 \/ Forall (fun x => sin (snd x) = 0) l ->
  exists T, Mueller (stack_of l) f th 0 1 1 false = Ok T /\ physical_transmission T.
Proof.
  intros NE Hf [T0 T1] U A.
  assert (CT : 0 < cos th) by (apply cos_gt_0; lra).
  pose proof (SIN_bound th) as SB.
  assert (S1 : sin th < 1).
  { pose proof (sin2_cos2 th) as E. unfold Rsqr in E. nra. }
  assert (S0 : 0 <= sin th) by (apply sin_ge_0; lra).
  assert (R1 : Rabs (sin th * 1) < 1) by (rewrite Rmult_1_r, Rabs_right; lra).
  destruct (stack_mueller l f th 0 1 1) as (T & K & E & E' & LE & _ & DOM); try assumption; try lra.
  { intros x Hx. rewrite Forall_forall in U. destruct (U x Hx) as (P & I1 & I2 & L).
    split; [|split; [assumption|lra]]. split.
    - repeat split; lra.
    - rewrite Rplus_0_r. destruct A as [-> | A]; [left; rewrite sin_0; ring|].
      right. right. right. rewrite Forall_forall in A. now apply A. }
  exists T. split; [exact E|].
  assert (AE : cos (asin (sin th * 1 / 1)) = cos th).
  { replace (sin th * 1 / 1) with (sin th) by field. rewrite asin_sin by lra. reflexivity. }
  rewrite AE in LE.
  assert (P : forall i j, In i [e0; e1; e2; e3] -> In j [e0; e1; e2; e3] -> Rabs (j (i T)) <= e0 (e0 T))
    by (intros; now apply DOM).
  split; [|exact P]. intros s Hs. destruct (LE s Hs) as (PT & PR & L). split; [assumption|].
  destruct PR as [K0 _]. assert (e0 (rmvec4 T s) + e0 (rmvec4 K s) <= e0 s); [|lra].
  apply (Rmult_le_reg_l (cos th)); [assumption|]. lra.
Qed.

Definition of_model (name : string) : hwp_args := HwpArgs (Some name) None None None None.

Lemma hwp_normal name freq : In name known -> 0 <= freq ->
  exists s T, set_hwp_mueller 0 0 freq (of_model name) = Ok (s, T) /\ physical_transmission T.
Proof.
  intros HN Hf. destruct (proj1 (models_known name) HN) as [s E].
  destruct (models_usable name s E) as (l & -> & NE & U & _).
  unfold set_hwp_mueller, of_model. cbn [a_model]. rewrite E. cbn [bind].
  replace (sqrt (0 ^ 2 + 0 ^ 2) * PI / 180) with 0.
  2:{ replace (0 ^ 2 + 0 ^ 2) with 0 by ring. rewrite sqrt_0. field. }
  destruct (stack_transmission l (1000000000 * freq) 0) as (T & ET & P); auto.
  - lra.
  - pose proof PI_RGT_0. lra.
  - unfold compute_mueller. rewrite ET. cbn [bind]. eauto.
Qed.

Lemma hwp_oblique name az el freq : In name single_axis -> 0 <= freq -> sqrt (el ^ 2 + az ^ 2) < 90 ->
  exists s T, set_hwp_mueller az el freq (of_model name) = Ok (s, T) /\ physical_transmission T.
Proof.
  intros HN Hf HA.
  assert (HK : In name known) by (cbn in HN; cbn; tauto).
  destruct (proj1 (models_known name) HK) as [s E].
  destruct (single_axis_angles name s HN E) as (l & -> & NE & U).
  unfold set_hwp_mueller, of_model. cbn [a_model]. rewrite E. cbn [bind].
  destruct (stack_transmission l (1000000000 * freq) (sqrt (el ^ 2 + az ^ 2) * PI / 180)) as (T & ET & P); auto.
  - lra.
  - pose proof PI_RGT_0. pose proof (sqrt_pos (el ^ 2 + az ^ 2)). nra.
  - eapply Forall_impl; [|exact U]. intros x Hx. apply Hx.
  - right. eapply Forall_impl; [|exact U]. intros x [_ ->]. apply sin_0.
  - unfold compute_mueller. rewrite ET. cbn [bind]. eauto.
Qed.

(** A plate built by hand from usable layers, at normal incidence. *)
Lemma hwp_custom (l : list (R * (R * R) * (R * R) * R)) freq : l <> [] -> 0 <= freq ->
  (forall t nO nE lO lE a, In (t, (nO, nE), (lO, lE), a) l ->
     0 <= t /\ 0 < nO /\ 0 < nE /\ 0 <= lO /\ 0 <= lE) ->
  exists s T, set_hwp_mueller 0 0 freq
      (HwpArgs None (Some (map (fun x => fst (fst (fst x))) l))
         (Some (map (fun x => [fst (snd (fst (fst x))); snd (snd (fst (fst x)))]) l))
         (Some (map (fun x => [fst (snd (fst x)); snd (snd (fst x))]) l)) (Some (map snd l))) = Ok (s, T)
    /\ physical_transmission T.
Proof.
  intros NE Hf HL. unfold set_hwp_mueller. cbn [a_model a_thick a_indices a_losses a_angles].
  pose proof (builder_ok l) as B. unfold row_of in B. rewrite B. cbn [bind]. clear B.
  set (g := fun x : R * (R * R) * (R * R) * R => (fst (fst (fst x)) / 1000,
      Material (fst (snd (fst (fst x)))) (snd (snd (fst (fst x)))) (fst (snd (fst x))) (snd (snd (fst x))), snd x)).
  replace (sqrt (0 ^ 2 + 0 ^ 2) * PI / 180) with 0.
  2:{ replace (0 ^ 2 + 0 ^ 2) with 0 by ring. rewrite sqrt_0. field. }
  assert (C0 : 0 < cos 0) by (rewrite cos_0; lra).
  assert (R0 : Rabs (sin 0 * 1) < 1) by (rewrite sin_0, Rmult_0_l, Rabs_R0; lra).
  destruct (stack_mueller (map g l) (1000000000 * freq) 0 0 1 1) as (T & K & E & E' & LE & _ & DOM); try assumption; try lra.
  { destruct l; [tauto|discriminate]. }
  { intros x Hx. apply in_map_iff in Hx. destruct Hx as ([[[t [nO nE]] [lO lE]] a] & <- & Hx).
    destruct (HL _ _ _ _ _ _ Hx) as (P1 & P2 & P3 & P4 & P5). unfold g, good, transparent, passive, aligned.
    cbn [fst snd ordinaryIndex extraIndex ordinaryLoss extraLoss].
    rewrite sin_0, Rmult_0_l, Rabs_R0. repeat split; try lra. }
  unfold compute_mueller. rewrite E. cbn [bind].
  do 2 eexists. split; [reflexivity|].
  rewrite asin_normal, cos_0 in LE.
  assert (P : forall i j, In i [e0; e1; e2; e3] -> In j [e0; e1; e2; e3] -> Rabs (j (i T)) <= e0 (e0 T))
    by (intros; now apply DOM).
  split; [|exact P]. intros s Hs. destruct (LE s Hs) as (PT & PR & L). split; [assumption|].
  destruct PR as [K0 _]. lra.
Qed.

Lemma hwp_incomplete az el freq a : a_model a = None ->
  a_thick a = None \/ a_indices a = None \/ a_losses a = None \/ a_angles a = None ->
  set_hwp_mueller az el freq a = Err ValueError.
Proof.
  intros HM H. unfold set_hwp_mueller. rewrite HM.
  destruct (a_thick a), (a_indices a), (a_losses a), (a_angles a); try reflexivity.
  destruct H as [H|[H|[H|H]]]; discriminate.
Qed.

(** The detector direction only counts through its distance from the centre. *)
Lemma hwp_radial az el az' el' freq a : el ^ 2 + az ^ 2 = el' ^ 2 + az' ^ 2 ->
  set_hwp_mueller az el freq a = set_hwp_mueller az' el' freq a.
Proof. intros H. unfold set_hwp_mueller. now rewrite H. Qed.
