(** * Stacks edited layer by layer; a quarter-wave plate; averaged plates *)
From Coq Require Import Reals Lra Psatz.
From Verif Require Import Common Cplx Mat M_Mueller S_Mueller M_Transfer S_Transfer L_Mueller L_Jones L_JonesRot
  L_Layer L_Layer2 L_Power L_Stack L_Stack2 L_Band L_Normal L_Axis L_Waveplate.
Open Scope R_scope.

(** ** Stacks as products *)
Lemma mapM_forall2 {A B} (f : A -> res B) l ts : Forall2 (fun x t => f x = Ok t) l ts -> mapM f l = Ok ts.
Proof. induction 1 as [|x t l ts E _ IH]; cbn; [reflexivity|]. rewrite E. cbn. now rewrite IH. Qed.

Lemma stack_product l f th rot n1 n3 ts :
  Forall2 (fun (x : layer) t => transferMatrix (snd (fst x)) (fst (fst x)) f (sin th * n1) (snd x + rot) = Ok t) l ts ->
  exists x, stackTransferMatrix (stack_of l) f th rot n1 n3 = Ok x
    /\ st_transfers x = ts /\ st_total x = product ts
    /\ st_inputIndex x = n1 /\ st_exitIndex x = n3 /\ st_incidenceAngle x = th
    /\ (l <> [] -> st_exitAngle x = Some (asin (sin th * n1 / n3))).
Proof.
  intros H. rewrite stack_spec. unfold layer_matrix. rewrite (mapM_forall2 _ l ts H). cbn [bind].
  eexists. split; [reflexivity|]. cbn. repeat split. destruct l; [tauto|reflexivity].
Qed.

Lemma stack_concat l k f th rot n1 n3 :
  (forall x : layer, In x (l ++ k) -> transparent (sin th * n1) (snd (fst x))) -> exists a b c,
  stackTransferMatrix (stack_of l) f th rot n1 n3 = Ok a
  /\ stackTransferMatrix (stack_of k) f th rot n1 n3 = Ok b
  /\ stackTransferMatrix (stack_of (l ++ k)) f th rot n1 n3 = Ok c
  /\ st_total c = mmul4 (st_total a) (st_total b).
Proof.
  intros H. rewrite !stack_spec, mapM_app.
  destruct (stack_matrices f (sin th * n1) rot l) as (ts & E & _). { intros; apply H, in_or_app; now left. }
  destruct (stack_matrices f (sin th * n1) rot k) as (us & E' & _). { intros; apply H, in_or_app; now right. }
  rewrite E, E'. cbn [bind]. do 3 eexists. repeat (split; [reflexivity|]). cbn [st_total]. apply product_app.
Qed.

Lemma stack_middle l m k f th rot n1 n3 tm :
  (forall x : layer, In x (l ++ k) -> transparent (sin th * n1) (snd (fst x))) ->
  mapM (layer_matrix f (sin th * n1) rot) m = Ok tm -> exists tl tk,
  (do x <- stackTransferMatrix (stack_of (l ++ m ++ k)) f th rot n1 n3; Ok (st_total x))
  = Ok (mmul4 tl (mmul4 (product tm) tk))
  /\ (do x <- stackTransferMatrix (stack_of (l ++ k)) f th rot n1 n3; Ok (st_total x)) = Ok (mmul4 tl tk).
Proof.
  intros H EM. rewrite !stack_spec, !mapM_app.
  destruct (stack_matrices f (sin th * n1) rot l) as (ts & E & _). { intros; apply H, in_or_app; now left. }
  destruct (stack_matrices f (sin th * n1) rot k) as (us & E' & _). { intros; apply H, in_or_app; now right. }
  rewrite E, E', EM. cbn [bind]. exists (product ts), (product us). cbn [st_total].
  now rewrite !product_app.
Qed.

Lemma insert_empty_layer l k m chi f th rot n1 n3 :
  (forall x : layer, In x (l ++ k) -> transparent (sin th * n1) (snd (fst x))) ->
  transparent (sin th * n1) m ->
  exists t, (do x <- stackTransferMatrix (stack_of (l ++ [(0, m, chi)] ++ k)) f th rot n1 n3; Ok (st_total x)) = Ok t
    /\ (do x <- stackTransferMatrix (stack_of (l ++ k)) f th rot n1 n3; Ok (st_total x)) = Ok t.
Proof.
  intros H T. destruct (stack_middle l [(0, m, chi)] k f th rot n1 n3 [eye4] H) as (a & b & E & E').
  - cbn [mapM]. unfold layer_matrix. cbn [fst snd]. now rewrite zero_thickness.
  - rewrite E, E'. cbn [product fold_right]. rewrite !mmul4_eye_l. eauto.
Qed.

Lemma split_layer l k m chi a b f th rot n1 n3 :
  (forall x : layer, In x (l ++ k) -> transparent (sin th * n1) (snd (fst x))) ->
  transparent (sin th * n1) m ->
  exists t, (do x <- stackTransferMatrix (stack_of (l ++ [(a, m, chi); (b, m, chi)] ++ k)) f th rot n1 n3; Ok (st_total x)) = Ok t
    /\ (do x <- stackTransferMatrix (stack_of (l ++ [(a + b, m, chi)] ++ k)) f th rot n1 n3; Ok (st_total x)) = Ok t.
Proof.
  intros H T. destruct (thickness_add m (sin th * n1) (chi + rot) f a b T) as (x & y & E1 & E2 & E3).
  destruct (stack_middle l [(a, m, chi); (b, m, chi)] k f th rot n1 n3 [x; y] H) as (p & q & E & _).
  { cbn [mapM]. unfold layer_matrix. cbn [fst snd]. rewrite E1, E2. reflexivity. }
  destruct (stack_middle l [(a + b, m, chi)] k f th rot n1 n3 [mmul4 x y] H) as (p' & q' & E' & E'').
  { cbn [mapM]. unfold layer_matrix. cbn [fst snd]. rewrite E3. reflexivity. }
  destruct (stack_middle l [(a, m, chi); (b, m, chi)] k f th rot n1 n3 [x; y] H) as (p2 & q2 & F & F').
  { cbn [mapM]. unfold layer_matrix. cbn [fst snd]. rewrite E1, E2. reflexivity. }
  clear E. revert F E'. rewrite !stack_spec, !mapM_app.
  destruct (stack_matrices f (sin th * n1) rot l) as (ts & G & _). { intros; apply H, in_or_app; now left. }
  destruct (stack_matrices f (sin th * n1) rot k) as (us & G' & _). { intros; apply H, in_or_app; now right. }
  rewrite G, G'. cbn [mapM bind]. unfold layer_matrix. cbn [fst snd]. rewrite E1, E2, E3. cbn [bind].
  intros _ _. eexists. split; [reflexivity|]. cbn [st_total]. f_equal. rewrite !product_app.
  cbn [product fold_right]. now rewrite !mmul4_eye_r.
Qed.

(** ** Averages of two frequencies with all the weight on the first *)
Definition plate : list layer := [(1, Material 1 2 0 0, 0)].
Definition f_quarter : R := 299800000 / 4.
Definition line (f : R) : res R := Ok (if Req_EM_T f f_quarter then 1 else 0).

Lemma plate_ok : forall x, In x plate ->
  transparent 0 (snd (fst x)) /\ passive (snd (fst x)) /\ 0 <= fst (fst x).
Proof.
  intros x [<-|[]]. cbn. unfold transparent, passive. cbn. rewrite Rabs_R0. repeat split; lra.
Qed.

Lemma quarter_slab : mapM (layer_matrix f_quarter 0 0) plate
  = Ok [slab 2 PI 1 (PI / 2)].
Proof.
  unfold plate. cbn [mapM]. unfold layer_matrix. cbn [fst snd]. rewrite Rplus_0_l.
  rewrite normal_slab.
  - cbn [ordinaryIndex extraIndex bind]. unfold wavenumber, f_quarter. f_equal. f_equal. f_equal; field.
  - apply (plate_ok (1, Material 1 2 0 0, 0)). now left.
  - split; reflexivity.
Qed.

Lemma quarter_jones : Jones (stack_of plate) f_quarter 0 0 1 1 false
  = Ok (V2 (V2 (RtoC (-1)) (RtoC 0)) (V2 (RtoC 0) (0, -1))).
Proof.
  assert (C0 : 0 < cos 0) by (rewrite cos_0; lra).
  assert (R0 : Rabs (sin 0 * 1) < 1) by (rewrite sin_0, Rmult_0_l, Rabs_R0; lra).
  destruct (stack_power plate f_quarter 0 0 1 1) as (x & J & K & EX & EJ & SC & _); try assumption; try lra.
  { discriminate. }
  { unfold f_quarter. lra. }
  { intros y Hy. destruct (plate_ok y Hy) as (A & B & D). rewrite sin_0, Rmult_0_l.
    split; [split; [assumption|now left]|now split]. }
  rewrite asin_normal in SC. unfold Jones. rewrite EX. cbn [bind]. rewrite EJ. cbn [bind]. f_equal.
  assert (TT : st_total x = slab 2 PI 1 (PI / 2)).
  { rewrite stack_spec in EX. assert (Z : sin 0 * 1 = 0) by (rewrite sin_0; ring). rewrite Z, quarter_slab in EX.
    cbn [bind] in EX. injection EX as <-. cbn [st_total product fold_right]. apply mmul4_eye_r. }
  apply mat2_ext. intros e.
  assert (S : scatters (st_total x) 1 0 1 0 e (mvec2 (V2 (V2 (RtoC (-1)) (RtoC 0)) (V2 (RtoC 0) (0, -1))) e) no_wave).
  { rewrite TT. unfold scatters, fields, slab, no_wave. rewrite cos_0, cos_PI, sin_PI, cos_PI2, sin_PI2.
    destruct e as [[a a'] [b b']]. cbv zeta. apply v4_eq; mcbn; apply C_eq; cexpand; field. }
  apply SC in S. destruct S as [S _]. now symmetry.
Qed.

Lemma quarter_mueller : Mueller (stack_of plate) f_quarter 0 0 1 1 false
  = Ok (V4 (V4 1 0 0 0) (V4 0 1 0 0) (V4 0 0 0 (-1)) (V4 0 0 1 0)) \/
  Mueller (stack_of plate) f_quarter 0 0 1 1 false
  = Ok (V4 (V4 1 0 0 0) (V4 0 1 0 0) (V4 0 0 0 1) (V4 0 0 (-1) 0)).
Proof.
  assert (E : forall M, JonesToMueller (V2 (V2 (RtoC (-1)) (RtoC 0)) (V2 (RtoC 0) (0, -1))) = M ->
    Mueller (stack_of plate) f_quarter 0 0 1 1 false = Ok M).
  { intros M <-. apply mueller_of_jones, quarter_jones. }
  unfold RtoC in E.
  (left; apply E; rewrite jones_twice; unfold twice; apply v4_eq; apply v4_eq; mcbn; field)
  || (right; apply E; rewrite jones_twice; unfold twice; apply v4_eq; apply v4_eq; mcbn; field).
Qed.

(** With all the weight on the first of two frequencies the average is the
    matrix at the first. *)
Lemma line_average rot M M2 :
  Mueller (stack_of plate) f_quarter 0 rot 1 1 false = Ok M ->
  Mueller (stack_of plate) (3 / 2 * f_quarter) 0 rot 1 1 false = Ok M2 ->
  BandAveragedMueller (stack_of plate) line f_quarter (2 * f_quarter) false None 0 2 rot 1 1 = Ok (Some M).
Proof.
  intros E1 E2.
  assert (G0 : grid f_quarter (2 * f_quarter) 2 0 = f_quarter) by (unfold grid; cbn; field).
  assert (G1 : grid f_quarter (2 * f_quarter) 2 1 = 3 / 2 * f_quarter) by (unfold grid; cbn; field).
  assert (FP : 0 < f_quarter) by (unfold f_quarter; lra).
  rewrite (band_law _ _ _ _ _ _ _ 2 rot 1 1 (fun i => match i with O => M | _ => M2 end)
    (fun i => match i with O => 1 | _ => 0 end) (fun _ => 1)).
  - assert (W : total 2 (fun i => trapezium 2 i * (match i with O => 1 | _ => 0 end * 1)) = 1 / 2).
    { unfold total, trapezium. cbn. field. }
    rewrite W. destruct (Req_EM_T (1 / 2) 0) as [Z|_]; [lra|]. cbv zeta. f_equal. f_equal.
    destruct M as [[m00 m01 m02 m03] [m10 m11 m12 m13] [m20 m21 m22 m23] [m30 m31 m32 m33]].
    unfold total, trapezium. apply v4_eq; apply v4_eq; cbn; field.
  - lia.
  - lra.
  - intros [|[|i]] Hi; [rewrite G0; exact E1|rewrite G1; exact E2|lia].
  - intros [|[|i]] Hi; [rewrite G0|rewrite G1|lia]; unfold line; f_equal;
    destruct (Req_EM_T _ _); try reflexivity; lra.
  - intros i Hi. reflexivity.
Qed.

Lemma degrees_wrong : exists M M',
  BandAveragedMueller (stack_of plate) line f_quarter (2 * f_quarter) false None 0 2 0 1 1 = Ok (Some M)
  /\ BandAveragedMueller (stack_of plate) line f_quarter (2 * f_quarter) false None 0 2 1 1 1 = Ok (Some M')
  /\ is_turned 1 M M' /\ ~ is_turned (1 * PI / 180) M M'.
Proof.
  assert (FP : 0 < f_quarter) by (unfold f_quarter; lra).
  destruct (turned_mueller plate f_quarter 1 1 1) as (T & K & T' & K' & E1 & _ & E2 & _ & TU & _); try lra.
  { discriminate. } { exact plate_ok. }
  destruct (turned_mueller plate (3 / 2 * f_quarter) 1 1 1) as (S & L & S' & L' & F1 & _ & F2 & _); try lra.
  { discriminate. } { exact plate_ok. }
  exists T, T'. split; [now apply (line_average 0 T S)|]. split; [now apply (line_average 1 T' S')|].
  split; [assumption|]. intros TB.
  set (b := 1 * PI / 180) in *.
  (* Q-polarised light passes the plate unchanged *)
  pose (q := V4 1 1 0 0).
  assert (MQ : forall c s, e1 (rmvec4 T (V4 1 c s 0)) = c /\ e2 (rmvec4 T (V4 1 c s 0)) = 0
     /\ e0 (rmvec4 T (V4 1 c s 0)) = 1).
  { intros c s. destruct quarter_mueller as [EM|EM]; rewrite E1 in EM; injection EM as ->; mcbn; repeat split; ring. }
  (* hence light turned by b passes the plate turned by b, and turning it back by 1 ... *)
  assert (X : rmvec4 T' (turn b q) = turn b q).
  { rewrite TB. f_equal. destruct quarter_mueller as [EM|EM]; rewrite E1 in EM; injection EM as ->;
    unfold q; apply v4_eq; mcbn; ring. }
  assert (Y : turn b q = turn 1 (turn (b - 1) q)).
  { unfold turn, q. replace (2 * b) with (2 * 1 + 2 * (b - 1)) by ring. rewrite cos_plus, sin_plus.
    apply v4_eq; mcbn; ring. }
  rewrite Y, TU in X.
  assert (INJ : forall u v, turn 1 u = turn 1 v -> u = v).
  { intros u v E. apply (f_equal (turn (- 1))) in E.
    assert (BK : forall w, turn (- 1) (turn 1 w) = w).
    { intros [w0 w1 w2 w3]. unfold turn. replace (2 * (- 1)) with (- (2 * 1)) by lra. rewrite cos_neg, sin_neg.
      pose proof (sin2_cos2 (2 * 1)) as Q. unfold Rsqr in Q.
      set (c := cos (2 * 1)) in *. set (s := sin (2 * 1)) in *. clearbody c s.
      assert (F : c * c = 1 - s * s) by lra. apply v4_eq; mcbn; ring [F]. }
    now rewrite !BK in E. }
  apply INJ in X.
  assert (U : turn (b - 1) q = V4 1 (cos (2 * (b - 1))) (sin (2 * (b - 1))) 0).
  { unfold turn, q. apply v4_eq; mcbn; ring. }
  rewrite U in X. apply (f_equal e2) in X. rewrite (proj1 (proj2 (MQ _ _))) in X. cbn [e2] in X.
  assert (BB : 0 < b < 1).
  { unfold b. pose proof PI_RGT_0. pose proof PI_4. lra. }
  assert (SP : 0 < sin (2 * (1 - b))).
  { apply sin_gt_0; [lra|]. pose proof PI2_3_2. lra. }
  replace (2 * (b - 1)) with (- (2 * (1 - b))) in X by ring. rewrite sin_neg in X. lra.
Qed.

(** ** Frequencies that are not used *)
Lemma mapM_ext {A B} (f g : A -> res B) l : (forall x, In x l -> f x = g x) -> mapM f l = mapM g l.
Proof.
  induction l as [|x l IH]; intros H; cbn; [reflexivity|].
  rewrite H by now left. rewrite IH; [reflexivity|]. intros; apply H; now right.
Qed.

Lemma top_unused s sp sp' lo hi rfl p p' th n rot n1 n3 : lo <= hi ->
  (forall f, f <= hi - (hi - lo) / INR n -> sp f = sp' f /\ p f = p' f) ->
  BandAveragedMueller s sp lo hi rfl (Some p) th n rot n1 n3
  = BandAveragedMueller s sp' lo hi rfl (Some p') th n rot n1 n3.
Proof.
  intros Hh H. unfold BandAveragedMueller. cbv zeta.
  assert (F : forall f, In f (frequencies lo hi n) -> f <= hi - (hi - lo) / INR n).
  { intros f Hf. unfold frequencies in Hf. apply in_map_iff in Hf. destruct Hf as (i & <- & Hi).
    apply in_seq in Hi. assert (P : 0 < INR n) by (apply lt_0_INR; lia).
    assert (Q : INR i + 1 <= INR n) by (rewrite <- S_INR; apply le_INR; lia).
    assert (Q' : (INR n - 1 - INR i) * ((hi - lo) / INR n) >= 0).
    { apply Rle_ge. apply Rmult_le_pos; [lra|]. apply Rmult_le_pos; [lra|]. left. now apply Rinv_0_lt_compat. }
    replace (hi - (hi - lo) / INR n) with (lo + INR i * (hi - lo) / INR n + (INR n - 1 - INR i) * ((hi - lo) / INR n))
      by (field; lra). lra. }
  rewrite (mapM_ext sp sp'). 2:{ intros f Hf. apply H, F, Hf. }
  rewrite (mapM_ext p p'). 2:{ intros f Hf. apply H, F, Hf. }
  reflexivity.
Qed.

(** ** Statements in the form of P_Transfer *)
Section Forms.
Variables (l : list layer) (f th rot n1 n3 : R).
Hypothesis NE : l <> [].
Hypothesis Hf : 0 <= f.
Hypothesis H1 : 0 < n1.
Hypothesis H3 : 0 < n3.
Hypothesis HC : 0 < cos th.
Hypothesis HR : Rabs (sin th * n1) < n3.
Hypothesis HL : forall x, In x l -> transparent (sin th * n1) (snd (fst x)) /\ passive (snd (fst x)) /\ 0 <= fst (fst x)
  /\ aligned (sin th * n1) (snd (fst x)) (snd x + rot).

Lemma forms_good x : In x l -> good (sin th * n1) rot x /\ passive (snd (fst x)) /\ 0 <= fst (fst x).
Proof. intros Hx. destruct (HL x Hx) as (A & B & C & D). repeat split; try apply A; try apply B; assumption. Qed.

Lemma stack_scatters : exists x J K, let th3 := asin (sin th * n1 / n3) in
    stackTransferMatrix (stack_of l) f th rot n1 n3 = Ok x
    /\ Jones (stack_of l) f th rot n1 n3 false = Ok J
    /\ Jones (stack_of l) f th rot n1 n3 true = Ok K
    /\ (forall e t r, scatters (st_total x) n1 th n3 th3 e t r <-> t = mvec2 J e /\ r = mvec2 K e).
Proof.
  destruct (stack_power l f th rot n1 n3 NE Hf H1 H3 HC HR forms_good) as (x & J & K & EX & EJ & SC & _).
  exists x, J, K. cbv zeta. unfold Jones. rewrite EX. cbn [bind]. rewrite EJ. split; [reflexivity|]. split; [reflexivity|]. split; [reflexivity|exact SC].
Qed.

Lemma stack_jones_power : exists J K, let th3 := asin (sin th * n1 / n3) in
    Jones (stack_of l) f th rot n1 n3 false = Ok J /\ Jones (stack_of l) f th rot n1 n3 true = Ok K
    /\ (forall e, n3 * cos th3 * intensity (mvec2 J e) + n1 * cos th * intensity (mvec2 K e)
                  <= n1 * cos th * intensity e)
    /\ ((forall x, In x l -> lossless (snd (fst x))) ->
        forall e, n3 * cos th3 * intensity (mvec2 J e) + n1 * cos th * intensity (mvec2 K e)
                  = n1 * cos th * intensity e).
Proof.
  destruct (stack_power l f th rot n1 n3 NE Hf H1 H3 HC HR forms_good) as (x & J & K & EX & EJ & _ & LE & EQ).
  exists J, K. cbv zeta. unfold Jones. rewrite EX. cbn [bind]. rewrite EJ. repeat split; assumption.
Qed.

Lemma stack_mueller_power : exists T K, let th3 := asin (sin th * n1 / n3) in
    Mueller (stack_of l) f th rot n1 n3 false = Ok T /\ Mueller (stack_of l) f th rot n1 n3 true = Ok K
    /\ (forall s, physical s -> physical (rmvec4 T s) /\ physical (rmvec4 K s)
         /\ n3 * cos th3 * e0 (rmvec4 T s) + n1 * cos th * e0 (rmvec4 K s) <= n1 * cos th * e0 s)
    /\ ((forall x, In x l -> lossless (snd (fst x))) -> forall s, physical s ->
        n3 * cos th3 * e0 (rmvec4 T s) + n1 * cos th * e0 (rmvec4 K s) = n1 * cos th * e0 s)
    /\ (forall (i : rmat4 -> v4 R) (j : v4 R -> R),
        In i [e0; e1; e2; e3] -> In j [e0; e1; e2; e3] ->
        Rabs (j (i T)) <= e0 (e0 T) /\ Rabs (j (i K)) <= e0 (e0 K)).
Proof. exact (stack_mueller l f th rot n1 n3 NE Hf H1 H3 HC HR forms_good). Qed.
End Forms.

Lemma normal_slab_turned m chi t f : transparent 0 m -> lossless m ->
  let nO := ordinaryIndex m in let nE := extraIndex m in
  transferMatrix m t f 0 chi
  = Ok (mmul4 (turn_fields chi)
       (mmul4 (slab nE (wavenumber f * nE * t) nO (wavenumber f * nO * t)) (turn_fields (- chi)))).
Proof.
  intros T L. cbv zeta. destruct (layer_turned m chi t f T) as (x & E & F).
  rewrite normal_slab in E by assumption. injection E as <-. exact F.
Qed.
