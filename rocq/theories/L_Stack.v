(** * Proofs about stacks: products, Jones matrices, power *)
From Coq Require Import Reals Lra Psatz.
From Verif Require Import Common Cplx Mat M_Mueller S_Mueller M_Transfer S_Transfer L_Mueller L_Jones
  L_Layer L_Layer2 L_Power.
Open Scope R_scope.

(** ** The loop *)
Definition layer_matrix (f nsin rotation : R) (x : layer) : res mat4 :=
  transferMatrix (snd (fst x)) (fst (fst x)) f nsin (snd x + rotation).

Lemma product_snoc l x : product (l ++ [x]) = mmul4 (product l) x.
Proof.
  induction l as [|y l IH]; cbn [product fold_right app].
  - now rewrite mmul4_eye_l, mmul4_eye_r.
  - fold (product (l ++ [x])) (product l). now rewrite IH, mmul4_assoc.
Qed.

Lemma product_app l k : product (l ++ k) = mmul4 (product l) (product k).
Proof.
  induction l as [|y l IH]; cbn [product fold_right app].
  - now rewrite mmul4_eye_l.
  - fold (product (l ++ k)) (product l). now rewrite IH, mmul4_assoc.
Qed.

Lemma mapM_app {A B} (f : A -> res B) l k :
  mapM f (l ++ k) = (do a <- mapM f l; do b <- mapM f k; Ok (a ++ b)).
Proof.
  induction l as [|x l IH]; cbn [mapM app bind].
  - destruct (mapM f k); reflexivity.
  - destruct (f x); cbn [bind]; [|reflexivity]. rewrite IH.
    destruct (mapM f l); cbn [bind]; [|reflexivity]. destruct (mapM f k); reflexivity.
Qed.

Lemma nth_error_middle {A} (l r : list A) x : nth_error (l ++ x :: r) (length l) = Some x.
Proof. rewrite nth_error_app2, Nat.sub_diag by lia. reflexivity. Qed.

Lemma loop_spec f nsin rotation n3 done : forall rest acc ea,
  let l := done ++ rest in
  fold_res (layer_step (stack_of l) f nsin rotation n3) (acc, product acc, ea)
    (seq (length done) (length rest))
  = (do ts <- mapM (layer_matrix f nsin rotation) rest;
     Ok ((acc ++ ts)%list, product (acc ++ ts),
         match rest with [] => ea | _ => Some (asin (nsin / n3)) end)).
Proof.
  intros rest. revert done. induction rest as [|x rest IH]; intros done acc ea l.
  - cbn. now rewrite app_nil_r.
  - cbn [length seq fold_res mapM].
    unfold layer_step at 1.
    assert (NL : numLayers (stack_of l) = length l) by apply map_length.
    assert (LL : length l = (length done + S (length rest))%nat).
    { unfold l. rewrite app_length. reflexivity. }
    assert (N : nth_error l (length done) = Some x) by apply nth_error_middle.
    unfold index at 1 2 3. cbn [materials thicknesses angles stack_of].
    rewrite !nth_error_map, N. cbn [option_map bind].
    assert (EX : (if (length done =? numLayers (stack_of l) - 1)%nat
                  then Ok (Some (asin (nsin / n3)))
                  else do _ <- index (map (fun y : layer => snd (fst y)) l) (S (length done)); Ok ea)
      = Ok (match rest with [] => Some (asin (nsin / n3)) | _ => ea end)).
    { rewrite NL, LL. destruct rest as [|y rest].
      - cbn [length]. replace (length done + 1 - 1)%nat with (length done) by lia.
        now rewrite Nat.eqb_refl.
      - destruct (Nat.eqb_spec (length done) (length done + S (length (y :: rest)) - 1));
          [cbn in *; lia|].
        unfold index. rewrite nth_error_map.
        assert (N2 : nth_error l (S (length done)) = Some y).
        { unfold l. rewrite nth_error_app2 by lia. now replace (S (length done) - length done)%nat with 1%nat by lia. }
        rewrite N2. reflexivity. }
    rewrite EX. cbn [bind]. unfold layer_matrix at 1.
    destruct (transferMatrix (snd (fst x)) (fst (fst x)) f nsin (snd x + rotation)) as [t|e];
      cbn [bind]; [|reflexivity].
    rewrite <- product_snoc.
    specialize (IH (done ++ [x]) (acc ++ [t])%list
      (match rest with [] => Some (asin (nsin / n3)) | _ => ea end)). cbv zeta in IH.
    rewrite app_length in IH. cbn [length] in IH. rewrite Nat.add_1_r in IH.
    rewrite <- app_assoc in IH. cbn [app] in IH. fold l in IH. rewrite IH.
    destruct (mapM (layer_matrix f nsin rotation) rest) as [ts|e]; cbn [bind]; [|reflexivity].
    rewrite <- app_assoc. cbn [app]. destruct rest; reflexivity.
Qed.

Lemma stack_spec l f th rot n1 n3 :
  stackTransferMatrix (stack_of l) f th rot n1 n3
  = (do ts <- mapM (layer_matrix f (sin th * n1) rot) l;
     Ok (StackTransfer n1 n3 th ts (product ts)
         (match l with [] => None | _ => Some (asin (sin th * n1 / n3)) end))).
Proof.
  unfold stackTransferMatrix. cbv zeta.
  assert (NL : numLayers (stack_of l) = length l) by apply map_length. rewrite NL.
  pose proof (loop_spec f (sin th * n1) rot n3 [] l [] None) as H. cbv zeta in H. cbn [app length] in H.
  change (product []) with eye4 in H. rewrite H.
  destruct (mapM _ l); reflexivity.
Qed.

(** Every list of arrays of equal lengths is such a stack. *)
Lemma stack_of_surj s : length (materials s) = length (thicknesses s) ->
  length (angles s) = length (thicknesses s) -> exists l, s = stack_of l.
Proof.
  destruct s as [t m a]. cbn. revert m a. induction t as [|x t IH]; intros [|y m] [|z a]; cbn; try discriminate.
  - exists []. reflexivity.
  - intros H1 H2. injection H1 as H1. injection H2 as H2. destruct (IH m a H1 H2) as [l E].
    exists ((x, y, z) :: l). unfold stack_of in *. cbn. injection E as -> -> ->. reflexivity.
Qed.

(** ** Jones matrices solve the boundary-value problem *)
Lemma Cdiv_eq (a b k : C) : k <> RtoC 0 -> (k * a = b)%C <-> a = (b / k)%C.
Proof.
  intros H. split; intros E.
  - subst. field. assumption.
  - subst. field. assumption.
Qed.

Lemma system_solved (A B D1 D N K P S i0 i1 t0 t1 r0 r1 : C) :
  let Cc := D1 in
  let denom := ((A + Cc) * (K + S) - (B + D) * (N + P))%C in
  denom <> RtoC 0 ->
  ((i0 - r0 = A * t0 + B * t1 /\ i0 + r0 = Cc * t0 + D * t1
    /\ i1 + r1 = N * t0 + K * t1 /\ i1 - r1 = P * t0 + S * t1)
  <->
  (t0 = (K + S) * RtoC 2 / denom * i0 + (- B - D) * RtoC 2 / denom * i1
   /\ t1 = (- N - P) * RtoC 2 / denom * i0 + (A + Cc) * RtoC 2 / denom * i1
   /\ r0 = ((Cc - A) * (K + S) - (D - B) * (N + P)) / denom * i0
          + RtoC 2 * (A * D - Cc * B) / denom * i1
   /\ r1 = RtoC 2 * (N * S - P * K) / denom * i0
          + ((A + Cc) * (K - S) - (D + B) * (N - P)) / denom * i1))%C.
Proof.
  intros Cc denom H.
  assert (TW : RtoC 2 = (RtoC 1 + RtoC 1)%C) by (apply C_eq; cbn; ring).
  assert (T2 : RtoC 2 <> RtoC 0) by (intros E; apply RtoC_inj in E; lra).
  rewrite TW in *. subst Cc.
  split.
  - intros (E1 & E2 & E3 & E4).
    assert (I0 : ((RtoC 1 + RtoC 1) * i0 = (A + D1) * t0 + (B + D) * t1)%C).
    { transitivity ((i0 - r0) + (i0 + r0))%C; [ring|]. rewrite E1, E2. ring. }
    assert (I1 : ((RtoC 1 + RtoC 1) * i1 = (N + P) * t0 + (K + S) * t1)%C).
    { transitivity ((i1 + r1) + (i1 - r1))%C; [ring|]. rewrite E3, E4. ring. }
    assert (R0 : ((RtoC 1 + RtoC 1) * r0 = (D1 - A) * t0 + (D - B) * t1)%C).
    { transitivity ((i0 + r0) - (i0 - r0))%C; [ring|]. rewrite E1, E2. ring. }
    assert (R1 : ((RtoC 1 + RtoC 1) * r1 = (N - P) * t0 + (K - S) * t1)%C).
    { transitivity ((i1 + r1) - (i1 - r1))%C; [ring|]. rewrite E3, E4. ring. }
    rewrite Cdiv_eq in I0, I1, R0, R1 by assumption.
    rewrite R0, R1, I0, I1. unfold denom in *.
    repeat split; field; split; assumption.
  - intros (-> & -> & -> & ->). unfold denom in *.
    repeat split; field; assumption.
Qed.

(** The common denominator of the two Jones matrices. *)
Definition jones_denominator (x : stackTransfer) (theta3 : R) : C :=
  let m := st_total x in
  let n1 := RtoC (st_inputIndex x) in
  let n3 := RtoC (st_exitIndex x) in
  let cos1 := RtoC (cos (st_incidenceAngle x)) in
  let cos3 := RtoC (cos theta3) in
  (let A := (e0 (e0 m) * cos3 + e1 (e0 m) * n3) / cos1 in
   let B := (e2 (e0 m) + e3 (e0 m) * n3 * cos3) / cos1 in
   let C := (e0 (e1 m) * cos3 + e1 (e1 m) * n3) / n1 in
   let D := (e2 (e1 m) + e3 (e1 m) * n3 * cos3) / n1 in
   let N := e0 (e2 m) * cos3 + e1 (e2 m) * n3 in
   let K := e2 (e2 m) + e3 (e2 m) * n3 * cos3 in
   let P := (e0 (e3 m) * cos3 + e1 (e3 m) * n3) / (n1 * cos1) in
   let S := (e2 (e3 m) + e3 (e3 m) * n3 * cos3) / (n1 * cos1) in
   (A + C) * (K + S) - (B + D) * (N + P))%C.

Lemma v2_pair (a b : v2 C) : a = b <-> f0 a = f0 b /\ f1 a = f1 b.
Proof. split; [intros ->; auto|]. intros [H K]. now apply v2_eq. Qed.
Lemma v4_split (a b : v4 C) : a = b <-> e0 a = e0 b /\ e1 a = e1 b /\ e2 a = e2 b /\ e3 a = e3 b.
Proof. split; [intros ->; auto|]. intros (H & K & L & M). now apply v4_eq. Qed.

Lemma scatters_system (m : mat4) n1 th1 n3 th3 e t r :
  n1 <> 0 -> cos th1 <> 0 ->
  let c1 := RtoC (cos th1) in let c3 := RtoC (cos th3) in
  let k1 := RtoC n1 in let k3 := RtoC n3 in
  scatters m n1 th1 n3 th3 e t r <->
  (f0 e - f0 r = (e0 (e0 m) * c3 + e1 (e0 m) * k3) / c1 * f0 t + (e2 (e0 m) + e3 (e0 m) * k3 * c3) / c1 * f1 t
   /\ f0 e + f0 r = (e0 (e1 m) * c3 + e1 (e1 m) * k3) / k1 * f0 t + (e2 (e1 m) + e3 (e1 m) * k3 * c3) / k1 * f1 t
   /\ f1 e + f1 r = (e0 (e2 m) * c3 + e1 (e2 m) * k3) * f0 t + (e2 (e2 m) + e3 (e2 m) * k3 * c3) * f1 t
   /\ f1 e - f1 r = (e0 (e3 m) * c3 + e1 (e3 m) * k3) / (k1 * c1) * f0 t
                    + (e2 (e3 m) + e3 (e3 m) * k3 * c3) / (k1 * c1) * f1 t)%C.
Proof.
  intros H1 H2 c1 c3 k1 k3. unfold scatters, fields, no_wave. rewrite v4_split. mcbn.
  assert (C1 : c1 <> RtoC 0) by now apply RtoC_neq.
  assert (K1 : k1 <> RtoC 0) by now apply RtoC_neq.
  rewrite !RtoC_mul. fold c1 c3 k1 k3.
  destruct m as [[m00 m01 m02 m03] [m10 m11 m12 m13] [m20 m21 m22 m23] [m30 m31 m32 m33]].
  destruct e as [i0 i1], t as [t0 t1], r as [r0 r1]. cbn [Mat.f0 Mat.f1 Mat.e0 Mat.e1 Mat.e2 Mat.e3].
  rewrite !(Cdiv_eq _ _ (k1 * c1)%C) by now apply Cmul_neq.
  rewrite !(Cdiv_eq _ _ c1), !(Cdiv_eq _ _ k1) by assumption.
  clearbody c1 c3 k1 k3.
  split; intros (E1 & E2 & E3 & E4); (split; [|split; [|split]]);
    first [rewrite E1|rewrite E2|rewrite E3|rewrite E4]; try (field; (assumption || split; assumption)); ring.
Qed.

Lemma jones_solves (x : stackTransfer) th3 :
  st_exitAngle x = Some th3 -> st_inputIndex x <> 0 -> cos (st_incidenceAngle x) <> 0 ->
  jones_denominator x th3 <> RtoC 0 ->
  exists J K, TranToJones x = Ok (J, K) /\
    forall e t r, scatters (st_total x) (st_inputIndex x) (st_incidenceAngle x) (st_exitIndex x) th3 e t r
      <-> t = mvec2 J e /\ r = mvec2 K e.
Proof.
  intros EX H1 H2 D. unfold TranToJones. rewrite EX. do 2 eexists. split; [reflexivity|].
  intros e t r. rewrite (scatters_system _ _ _ _ _ e t r H1 H2). unfold jones_denominator in D.
  cbv zeta in D |- *.
  rewrite (system_solved _ _ _ _ _ _ _ _ _ _ _ _ _ _ D). rewrite !v2_pair. mcbn. tauto.
Qed.
