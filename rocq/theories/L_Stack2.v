(** * Proofs about the power through a stack *)
From Coq Require Import Reals Lra Psatz.
From Verif Require Import Common Cplx Mat M_Mueller S_Mueller M_Transfer S_Transfer L_Mueller L_Jones
  L_Layer L_Layer2 L_Power L_Stack.
Open Scope R_scope.

Lemma mapM_ok {A B} (f : A -> res B) l : (forall x, In x l -> exists b, f x = Ok b) ->
  exists bs, mapM f l = Ok bs /\ Forall2 (fun x b => f x = Ok b) l bs.
Proof.
  induction l as [|x l IH]; intros H.
  - exists []. split; [reflexivity|constructor].
  - destruct (H x) as [b E]; [now left|]. destruct IH as (bs & E' & F).
    { intros y Hy. apply H. now right. }
    exists (b :: bs). cbn [mapM]. rewrite E. cbn [bind]. rewrite E'. split; [reflexivity|now constructor].
Qed.

Lemma Forall2_in_r {A B} (R : A -> B -> Prop) l k : Forall2 R l k ->
  forall b, In b k -> exists a, In a l /\ R a b.
Proof.
  induction 1 as [|a b l k Hab F IH]; cbn; [tauto|].
  intros c [<-|Hc]; [exists a; auto|]. destruct (IH c Hc) as (a' & Ha & Hr). exists a'; auto.
Qed.

Lemma null_vector (a b c d : C) : (a * d - b * c = RtoC 0)%C ->
  exists t : v2 C, (f0 t <> RtoC 0 \/ f1 t <> RtoC 0)
    /\ (a * f0 t + b * f1 t = RtoC 0)%C /\ (c * f0 t + d * f1 t = RtoC 0)%C.
Proof.
  intros H.
  assert (H' : (a * d = b * c)%C).
  { transitivity ((a * d - b * c) + b * c)%C; [ring|]. rewrite H. ring. }
  destruct (Ceq_dec d (RtoC 0)) as [Hd|Hd].
  - destruct (Ceq_dec c (RtoC 0)) as [Hc|Hc].
    + destruct (Ceq_dec b (RtoC 0)) as [Hb|Hb].
      * exists (V2 (RtoC 0) (RtoC 1)). mcbn. subst. split; [|split; ring].
        right. intros E. apply RtoC_inj in E. lra.
      * exists (V2 (- b)%C a). mcbn. split; [|split].
        -- left. intros E. apply Hb. transitivity (- - b)%C; [ring|]. rewrite E. ring.
        -- ring.
        -- rewrite Hc, Hd. ring.
    + exists (V2 (- d)%C c). mcbn. split; [right; assumption|]. split; [|ring].
      transitivity (- (a * d) + b * c)%C; [ring|]. rewrite H'. ring.
  - exists (V2 (- d)%C c). mcbn. split; [|split; [|ring]].
    + left. intros E. apply Hd. transitivity (- - d)%C; [ring|]. rewrite E. ring.
    + transitivity (- (a * d) + b * c)%C; [ring|]. rewrite H'. ring.
Qed.

Lemma Cnorm2_pos z : z <> RtoC 0 -> 0 < Cnorm2 z.
Proof. intros H. pose proof (Cnorm2_neq z H). pose proof (Cnorm2_nonneg z). lra. Qed.

(** Without a denominator, the stack emits light by itself. *)
Lemma denominator_emits (x : stackTransfer) th3 :
  st_inputIndex x <> 0 -> cos (st_incidenceAngle x) <> 0 -> jones_denominator x th3 = RtoC 0 ->
  exists t r, t <> no_wave
    /\ scatters (st_total x) (st_inputIndex x) (st_incidenceAngle x) (st_exitIndex x) th3 no_wave t r.
Proof.
  intros N1 C1 D. unfold jones_denominator in D. cbv zeta in D.
  destruct (null_vector _ _ _ _ D) as (t & NZ & E1 & E2).
  set (m := st_total x) in *. set (n1 := st_inputIndex x) in *. set (n3 := st_exitIndex x) in *.
  set (th1 := st_incidenceAngle x) in *.
  pose (half := RtoC (/ 2)).
  assert (HF : forall z : C, (half * z + half * z = z)%C).
  { intros z. unfold half. apply C_eq; cexpand; field. }
  assert (HS : forall p q, (half * (p - q) + half * (p + q) = p)%C).
  { intros p q. rewrite <- (HF p) at 3. ring. }
  set (r := V2
    (half * (((e0 (e1 m) * RtoC (cos th3) + e1 (e1 m) * RtoC n3) / RtoC n1 * f0 t
              + (e2 (e1 m) + e3 (e1 m) * RtoC n3 * RtoC (cos th3)) / RtoC n1 * f1 t)
             - ((e0 (e0 m) * RtoC (cos th3) + e1 (e0 m) * RtoC n3) / RtoC (cos th1) * f0 t
              + (e2 (e0 m) + e3 (e0 m) * RtoC n3 * RtoC (cos th3)) / RtoC (cos th1) * f1 t)))%C
    (half * (((e0 (e2 m) * RtoC (cos th3) + e1 (e2 m) * RtoC n3) * f0 t
              + (e2 (e2 m) + e3 (e2 m) * RtoC n3 * RtoC (cos th3)) * f1 t)
             - ((e0 (e3 m) * RtoC (cos th3) + e1 (e3 m) * RtoC n3) / (RtoC n1 * RtoC (cos th1)) * f0 t
              + (e2 (e3 m) + e3 (e3 m) * RtoC n3 * RtoC (cos th3)) / (RtoC n1 * RtoC (cos th1)) * f1 t)))%C).
  assert (SC : scatters m n1 th1 n3 th3 no_wave t r).
  { apply scatters_system; try lra. cbv zeta. unfold r, no_wave. cbn [Mat.f0 Mat.f1].
    match type of E1 with ((?A + ?Cc) * ?t0 + (?B + ?D) * ?t1 = _)%C =>
      set (a := (A * t0 + B * t1)%C); set (c := (Cc * t0 + D * t1)%C) end.
    match type of E2 with ((?A + ?Cc) * ?t0 + (?B + ?D) * ?t1 = _)%C =>
      set (n := (A * t0 + B * t1)%C); set (p := (Cc * t0 + D * t1)%C) end.
    assert (F1 : (a + c = RtoC 0)%C) by (unfold a, c; rewrite <- E1; ring).
    assert (F2 : (n + p = RtoC 0)%C) by (unfold n, p; rewrite <- E2; ring).
    assert (G1 : c = (- a)%C) by (transitivity ((a + c) - a)%C; [ring|]; rewrite F1; ring).
    assert (G2 : p = (- n)%C) by (transitivity ((n + p) - n)%C; [ring|]; rewrite F2; ring).
    fold a c n p.
    repeat split.
    - transitivity (half * (a - c))%C; [ring|]. rewrite G1. transitivity (half * a + half * a)%C; [ring|]. apply HF.
    - transitivity (half * (c - a))%C; [ring|]. rewrite G1. transitivity (- (half * a + half * a))%C; [ring|]. rewrite HF. reflexivity.
    - transitivity (half * (n - p))%C; [ring|]. rewrite G2. transitivity (half * n + half * n)%C; [ring|]. apply HF.
    - transitivity (half * (p - n))%C; [ring|]. rewrite G2. transitivity (- (half * n + half * n))%C; [ring|]. rewrite HF. reflexivity. }
  exists t, r. split; [|exact SC]. intros ->. cbn in NZ. tauto.
Qed.

Lemma intensity_pos t : t <> no_wave -> 0 < intensity t.
Proof.
  intros H. unfold intensity. pose proof (Cnorm2_nonneg (f0 t)). pose proof (Cnorm2_nonneg (f1 t)).
  destruct (Ceq_dec (f0 t) (RtoC 0)) as [E|E]; [destruct (Ceq_dec (f1 t) (RtoC 0)) as [E'|E']|].
  - elim H. destruct t as [a b]. cbn in E, E'. now subst.
  - apply Cnorm2_pos in E'. lra.
  - apply Cnorm2_pos in E. lra.
Qed.

Lemma denominator_neq (x : stackTransfer) th3 :
  0 < st_inputIndex x -> 0 < cos (st_incidenceAngle x) -> 0 < st_exitIndex x -> 0 < cos th3 ->
  (forall v, flux v <= flux (mvec4 (st_total x) v)) ->
  jones_denominator x th3 <> RtoC 0.
Proof.
  intros N1 C1 N3 C3 FL D. destruct (denominator_emits x th3) as (t & r & NZ & SC); try lra; try assumption.
  set (m := st_total x) in *. set (n1 := st_inputIndex x) in *. set (n3 := st_exitIndex x) in *.
  set (th1 := st_incidenceAngle x) in *.
  unfold scatters in SC.
  pose proof (FL (fields n3 th3 t no_wave)) as P. rewrite <- SC, !flux_fields, !intensity_no_wave in P.
  pose proof (intensity_nonneg r) as R0. apply intensity_pos in NZ.
  assert (0 < n1 * cos th1) by nra. assert (0 < n3 * cos th3) by nra. nra.
Qed.

(** Light passes the stack [l]. *)
Definition good (nsin rot : R) (x : layer) : Prop :=
  transparent nsin (snd (fst x)) /\ aligned nsin (snd (fst x)) (snd x + rot).

Lemma stack_matrices f nsin rot l : (forall x, In x l -> transparent nsin (snd (fst x))) ->
  exists ts, mapM (layer_matrix f nsin rot) l = Ok ts
    /\ Forall2 (fun x b => layer_matrix f nsin rot x = Ok b) l ts.
Proof.
  intros H. apply mapM_ok. intros x Hx. unfold layer_matrix.
  rewrite layer_form by now apply H. now eexists.
Qed.

Lemma stack_power l f th rot n1 n3 :
  l <> [] -> 0 <= f -> 0 < n1 -> 0 < n3 -> 0 < cos th -> Rabs (sin th * n1) < n3 ->
  (forall x, In x l -> good (sin th * n1) rot x /\ passive (snd (fst x)) /\ 0 <= fst (fst x)) ->
  exists x J K, let th3 := asin (sin th * n1 / n3) in
    stackTransferMatrix (stack_of l) f th rot n1 n3 = Ok x /\ TranToJones x = Ok (J, K)
    /\ (forall e t r, scatters (st_total x) n1 th n3 th3 e t r <-> t = mvec2 J e /\ r = mvec2 K e)
    /\ (forall e, n3 * cos th3 * intensity (mvec2 J e) + n1 * cos th * intensity (mvec2 K e)
                  <= n1 * cos th * intensity e)
    /\ ((forall x, In x l -> lossless (snd (fst x))) ->
        forall e, n3 * cos th3 * intensity (mvec2 J e) + n1 * cos th * intensity (mvec2 K e)
                  = n1 * cos th * intensity e).
Proof.
  intros NE Hf N1 N3 CT CR HL. set (nsin := sin th * n1) in *. cbv zeta. set (th3 := asin (nsin / n3)).
  destruct (stack_matrices f nsin rot l) as (ts & ET & F2).
  { intros x Hx. apply HL. assumption. }
  set (x := StackTransfer n1 n3 th ts (product ts)
         (match l with [] => None | _ => Some (asin (nsin / n3)) end)).
  assert (EX : stackTransferMatrix (stack_of l) f th rot n1 n3 = Ok x).
  { rewrite stack_spec. fold nsin. rewrite ET. reflexivity. }
  assert (C3 : 0 < cos th3) by (apply angle_facts; assumption).
  assert (LE : forall v, flux v <= flux (mvec4 (product ts) v)).
  { apply product_le. intros y Hy. destruct (Forall2_in_r _ _ _ F2 y Hy) as (z & Hz & E).
    destruct (HL z Hz) as ((T & AL) & PA & TH).
    destruct (layer_power _ _ _ _ _ _ T AL E) as [Q _]. now apply Q. }
  assert (EA : st_exitAngle x = Some th3) by (destruct l; [now elim NE|reflexivity]).
  assert (DN : jones_denominator x th3 <> RtoC 0) by now apply denominator_neq.
  destruct (jones_solves x th3 EA) as (J & K & EJ & SOL); try (cbn; lra); try assumption.
  exists x, J, K. split; [exact EX|]. split; [exact EJ|]. split; [exact SOL|].
  assert (PW : forall e, flux (fields n1 th e (mvec2 K e)) = flux (mvec4 (product ts) (fields n3 th3 (mvec2 J e) no_wave))).
  { intros e. f_equal. apply (SOL e (mvec2 J e) (mvec2 K e)). auto. }
  split.
  - intros e. specialize (PW e). specialize (LE (fields n3 th3 (mvec2 J e) no_wave)).
    rewrite <- PW, !flux_fields, intensity_no_wave in LE. nra.
  - intros LL e. specialize (PW e). rewrite product_eq in PW.
    + rewrite !flux_fields, intensity_no_wave in PW. lra.
    + intros y Hy. destruct (Forall2_in_r _ _ _ F2 y Hy) as (z & Hz & E).
      destruct (HL z Hz) as ((T & AL) & PA & TH).
      destruct (layer_power _ _ _ _ _ _ T AL E) as [_ Q]. apply Q. now apply LL.
Qed.

(** ** Mueller matrices *)
Definition ex : v2 C := V2 (RtoC 1) (RtoC 0).
Definition ey : v2 C := V2 (RtoC 0) (RtoC 1).

(** Any light is a mixture of two polarised waves. *)
Lemma mixture (s : stokes) : physical s -> exists a b, forall m : rmat4,
  rmvec4 m s = V4 (e0 (rmvec4 m (stokes_of a)) + e0 (rmvec4 m (stokes_of b)))
                  (e1 (rmvec4 m (stokes_of a)) + e1 (rmvec4 m (stokes_of b)))
                  (e2 (rmvec4 m (stokes_of a)) + e2 (rmvec4 m (stokes_of b)))
                  (e3 (rmvec4 m (stokes_of a)) + e3 (rmvec4 m (stokes_of b)))
  /\ e0 s = intensity a + intensity b.
Proof.
  destruct s as [i q u v]. unfold physical. cbn [e0 e1 e2 e3]. intros [I0 P].
  assert (Q : exists a b, V4 i q u v = V4 (e0 (stokes_of a) + e0 (stokes_of b)) (e1 (stokes_of a) + e1 (stokes_of b))
                  (e2 (stokes_of a) + e2 (stokes_of b)) (e3 (stokes_of a) + e3 (stokes_of b))).
  { destruct (Req_dec (i + q) 0) as [Z|Z].
    - assert (u = 0 /\ v = 0) as [-> ->] by (split; nra).
      exists (V2 (RtoC 0) (RtoC (sqrt i))), no_wave. unfold stokes_of, no_wave, Cnorm2. mcbn.
      apply v4_eq; mcbn; cexpand; try ring; rewrite ?sqrt_sqrt by assumption; lra.
    - assert (PQ : 0 < i + q) by nra.
      pose (al := sqrt ((i + q) / 2)). assert (A0 : 0 < al) by (apply sqrt_lt_R0; lra).
      assert (AA : al * al = (i + q) / 2) by (apply sqrt_sqrt; lra).
      pose (y2 := u / (2 * al) * (u / (2 * al)) + v / (2 * al) * (v / (2 * al))).
      assert (Y2 : y2 = (u ^ 2 + v ^ 2) / (2 * (i + q))).
      { unfold y2. transitivity ((u ^ 2 + v ^ 2) / (4 * (al * al))); [field; lra|]. rewrite AA. field. lra. }
      assert (B0 : 0 <= (i - q) / 2 - y2).
      { rewrite Y2. apply (Rmult_le_reg_r (2 * (i + q))); [lra|]. rewrite Rmult_0_l. field_simplify; [|lra]. nra. }
      exists (V2 (RtoC al) (u / (2 * al), v / (2 * al))), (V2 (RtoC 0) (RtoC (sqrt ((i - q) / 2 - y2)))).
      unfold stokes_of, Cnorm2. mcbn. clearbody al.
      apply v4_eq; mcbn; cexpand; rewrite ?(sqrt_sqrt _ B0); fold y2; rewrite ?AA; try lra; try (field; lra).
      all: unfold y2; field_simplify_eq; lra. }
  destruct Q as (a & b & E). exists a, b. intros m. rewrite E. split.
  - apply v4_eq; mcbn; ring.
  - injection E as -> _ _ _. unfold stokes_of, intensity. mcbn. ring.
Qed.

Lemma mueller_II J : e0 (e0 (JonesToMueller J)) = (intensity (mvec2 J ex) + intensity (mvec2 J ey)) / 2.
Proof.
  destruct J as [[[a a'] [b b']] [[c c'] [d d']]].
  rewrite jones_twice. unfold twice, intensity, Cnorm2, ex, ey. mcbn. cexpand. field.
Qed.

Lemma mueller_power J e : e0 (rmvec4 (JonesToMueller J) (stokes_of e)) = intensity (mvec2 J e).
Proof. rewrite jones_stokes. reflexivity. Qed.

Lemma stack_mueller l f th rot n1 n3 :
  l <> [] -> 0 <= f -> 0 < n1 -> 0 < n3 -> 0 < cos th -> Rabs (sin th * n1) < n3 ->
  (forall x, In x l -> good (sin th * n1) rot x /\ passive (snd (fst x)) /\ 0 <= fst (fst x)) ->
  exists T R, let th3 := asin (sin th * n1 / n3) in
    Mueller (stack_of l) f th rot n1 n3 false = Ok T
    /\ Mueller (stack_of l) f th rot n1 n3 true = Ok R
    /\ (forall s, physical s -> physical (rmvec4 T s) /\ physical (rmvec4 R s)
         /\ n3 * cos th3 * e0 (rmvec4 T s) + n1 * cos th * e0 (rmvec4 R s) <= n1 * cos th * e0 s)
    /\ ((forall x, In x l -> lossless (snd (fst x))) -> forall s, physical s ->
        n3 * cos th3 * e0 (rmvec4 T s) + n1 * cos th * e0 (rmvec4 R s) = n1 * cos th * e0 s)
    /\ (forall (i : rmat4 -> v4 Rdefinitions.R) (j : v4 Rdefinitions.R -> Rdefinitions.R),
        In i [e0; e1; e2; e3] -> In j [e0; e1; e2; e3] ->
        Rabs (j (i T)) <= e0 (e0 T) /\ Rabs (j (i R)) <= e0 (e0 R)).
Proof.
  intros NE Hf N1 N3 CT CR HL.
  destruct (stack_power l f th rot n1 n3 NE Hf N1 N3 CT CR HL) as (x & J & K & EX & EJ & _ & LE & EQ).
  exists (JonesToMueller J), (JonesToMueller K). cbv zeta.
  unfold Mueller. rewrite EX. cbn [bind]. rewrite EJ. cbn [bind].
  split; [reflexivity|]. split; [reflexivity|].
  split; [|split].
  - intros s Hs. split; [now apply jones_physical|]. split; [now apply jones_physical|].
    destruct (mixture s Hs) as (a & b & M). destruct (M (JonesToMueller J)) as [MJ MI]. destruct (M (JonesToMueller K)) as [MK _].
    rewrite MJ, MK, MI. cbn [e0]. rewrite !mueller_power. pose proof (LE a) as A. pose proof (LE b) as B. lra.
  - intros LL s Hs.
    destruct (mixture s Hs) as (a & b & M). destruct (M (JonesToMueller J)) as [MJ MI]. destruct (M (JonesToMueller K)) as [MK _].
    rewrite MJ, MK, MI. cbn [e0]. rewrite !mueller_power. pose proof (EQ LL a) as A. pose proof (EQ LL b) as B. lra.
  - intros i j Hi Hj.
    split; [exact (proj2 (jones_dominates J) i j Hi Hj)|exact (proj2 (jones_dominates K) i j Hi Hj)].
Qed.

Lemma empty_stack f th rot n1 n3 rfl : Mueller (stack_of []) f th rot n1 n3 rfl = Err AttributeError.
Proof. unfold Mueller. rewrite stack_spec. reflexivity. Qed.
