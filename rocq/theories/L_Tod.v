(** * Lemmas about the timestream *)
From Coq Require Import Reals String Lra Lia FunctionalExtensionality.
From Verif Require Import Common Cplx LibList M_Alm M_Blm M_Mueller M_Tod S_Tod.
Open Scope R_scope.

(** Arrays as functions of the sample number. *)
Definition arr {A} (n : nat) (f : nat -> A) : list A := map f (seq 0 n).

Lemma arr_len {A} n (f : nat -> A) : List.length (arr n f) = n.
Proof. unfold arr. rewrite map_length, seq_length. reflexivity. Qed.

Lemma arr_nth {A} n (f : nat -> A) i d : (i < n)%nat -> nth i (arr n f) d = f i.
Proof. intros H. unfold arr. rewrite nth_map_seq; auto. Qed.

Lemma arr_of {A} (l : list A) d : l = arr (List.length l) (fun i => nth i l d).
Proof. unfold arr. symmetry. apply map_nth_seq. Qed.

Lemma arr_ext {A} n (f g : nat -> A) : (forall i, (i < n)%nat -> f i = g i) -> arr n f = arr n g.
Proof.
  intros H. unfold arr. apply map_ext_in. intros i Hi. apply H. apply in_seq in Hi. lia.
Qed.

Lemma map_arr {A B} (h : A -> B) n f : map h (arr n f) = arr n (fun i => h (f i)).
Proof. unfold arr. rewrite map_map. reflexivity. Qed.

Lemma zipwith_map {A B D E} (h : A -> B -> D) (f : E -> A) (g : E -> B) l :
  zipwith h (map f l) (map g l) = map (fun i => h (f i) (g i)) l.
Proof.
  unfold zipwith. induction l as [|x l IH]; cbn; [reflexivity|]. rewrite IH. reflexivity.
Qed.

Lemma zip_arr {A B D} (h : A -> B -> D) n f g :
  zipwith h (arr n f) (arr n g) = arr n (fun i => h (f i) (g i)).
Proof. apply zipwith_map. Qed.

Lemma add_arr_arr n f g : add_arr (arr n f) (arr n g) = Ok (arr n (fun i => f i + g i)%C).
Proof. unfold add_arr. rewrite !arr_len, Nat.eqb_refl, zip_arr. reflexivity. Qed.

Lemma mul_arr_arr n f g : mul_arr (arr n f) (arr n g) = Ok (arr n (fun i => f i * g i)%C).
Proof. unfold mul_arr. rewrite !arr_len, Nat.eqb_refl, zip_arr. reflexivity. Qed.

Lemma radd_arr_arr n f g : radd_arr (arr n f) (arr n g) = Ok (arr n (fun i => f i + g i)).
Proof. unfold radd_arr. rewrite !arr_len, Nat.eqb_refl, zip_arr. reflexivity. Qed.

Lemma mapr_ok {A B} (f : A -> res B) (g : A -> B) l :
  Forall (fun a => f a = Ok (g a)) l -> mapr f l = Ok (map g l).
Proof.
  induction 1 as [|a l H _ IH]; cbn; [reflexivity|]. rewrite H. cbn. rewrite IH. reflexivity.
Qed.

Lemma zeros_arr n : zeros n = arr n (fun _ => RtoC 0).
Proof.
  unfold zeros, arr. generalize 0%nat. induction n; intros s; cbn; [reflexivity|].
  rewrite <- IHn. reflexivity.
Qed.

Lemma repeat_arr {A} (x : A) n : repeat x n = arr n (fun _ => x).
Proof.
  unfold arr. generalize 0%nat. induction n; intros s; cbn; [reflexivity|].
  rewrite <- IHn. reflexivity.
Qed.

(** ** cross_talk *)
Lemma cross_talk_arr n f g x :
  cross_talk (arr n f) (arr n g) x
  = Ok (arr n (fun i => f i + x * g i), arr n (fun i => g i + x * f i)).
Proof.
  unfold cross_talk, rscale. rewrite radd_arr_arr. cbn [bind].
  rewrite !map_arr, !radd_arr_arr. cbn [bind].
  f_equal. f_equal; apply arr_ext; intros; ring.
Qed.

Lemma cross_talk_ok (a b : list R) x :
  List.length a = List.length b ->
  exists a' b', cross_talk a b x = Ok (a', b')
  /\ List.length a' = List.length a /\ List.length b' = List.length b
  /\ forall i, nth i a' 0 = nth i a 0 + x * nth i b 0
            /\ nth i b' 0 = nth i b 0 + x * nth i a 0.
Proof.
  intros E. rewrite (arr_of a 0), (arr_of b 0), <- E, cross_talk_arr.
  do 2 eexists. split; [reflexivity|]. rewrite !arr_len. split; [reflexivity|].
  split; [congruence|]. intros i. destruct (lt_dec i (List.length a)) as [H|H].
  - rewrite !arr_nth; auto.
  - rewrite !(nth_overflow (arr _ _)) by (rewrite arr_len; lia). split; ring.
Qed.

Lemma cross_talk_err (a b : list R) x :
  List.length a <> List.length b -> cross_talk a b x = Err ValueError.
Proof.
  intros E. unfold cross_talk, radd_arr. apply Nat.eqb_neq in E. rewrite E. reflexivity.
Qed.

(** ** Values *)
Lemma csum_cons x l : csum (x :: l) = (x + csum l)%C.
Proof. reflexivity. Qed.
Lemma rsum_cons x l : rsum (x :: l) = x + rsum l.
Proof. reflexivity. Qed.

Lemma index_ok (m : list C) i : (i < List.length m)%nat -> index m i = Ok (nth i m (RtoC 0)).
Proof. intros H. unfold index. rewrite (nth_error_nth_iff m i (RtoC 0)) by exact H. reflexivity. Qed.

Lemma lookup_ok m p : on_map (List.length m) p -> lookup m p = Ok (value m p).
Proof.
  destruct p as [i|w]; cbn; intros H; [apply index_ok; exact H|].
  induction H as [|[x i] w Hi _ IH]; cbn; [reflexivity|]. cbn in Hi.
  rewrite index_ok by exact Hi. cbn. rewrite IH. reflexivity.
Qed.

Definition term (reality : bool) (s : Z) (v : C) (psi : R) : C :=
  if reality then RtoC ((if (s =? 0)%Z then 1 else 2) * Re (v * cis (- (IZR s * psi)))%C)
  else (v * cis (- (IZR s * psi)))%C.

Lemma term_0 reality v psi :
  term reality 0 v psi = if reality then RtoC (Re v) else v.
Proof.
  unfold term. rewrite Rmult_0_l, Ropp_0, cis_0. cbn [Z.eqb].
  assert ((v * RtoC 1)%C = v) as -> by (ceq; ring).
  destruct reality; [f_equal; ring|reflexivity].
Qed.

Lemma skipn_nth_error {A} (l : list A) : forall k m,
  nth_error l k = Some m -> skipn k l = m :: skipn (S k) l.
Proof.
  induction l as [|a l IH]; intros [|k] m H; try discriminate.
  - injection H as <-. reflexivity.
  - apply IH in H. exact H.
Qed.

Section Loop.
Variables (n npix : nat) (P : nat -> point) (A : nat -> R) (maps : list (list C)).
Hypothesis HP : forall i, (i < n)%nat -> on_map npix (P i).
Hypothesis HM : Forall (fun m => List.length m = npix) maps.

Lemma lookup_arr m : In m maps -> mapr (lookup m) (arr n P) = Ok (arr n (fun i => value m (P i))).
Proof.
  intros Hm. rewrite <- (map_arr (value m)). apply mapr_ok. apply Forall_forall.
  intros p Hp. unfold arr in Hp. apply in_map_iff in Hp. destruct Hp as (i & <- & Hi).
  apply in_seq in Hi. apply lookup_ok. rewrite Forall_forall in HM. rewrite (HM m Hm).
  apply HP. lia.
Qed.

Definition total (reality : bool) (svs : list Z) (ms : list (list C)) (i : nat) : C :=
  csum (map (fun sm => term reality (fst sm) (value (snd sm) (P i)) (A i)) (combine svs ms)).

Lemma loop_ok reality recursion (base : Z) : forall svs k E T,
  (k + List.length svs <= List.length maps)%nat ->
  (recursion = true -> forall j, (j < List.length svs)%nat ->
      nth j svs 0%Z = (base + Z.of_nat (k + j))%Z) ->
  (recursion = true -> k <> 0%nat ->
      forall i, E i = cis (- (A i * IZR (base + Z.of_nat k - 1)))) ->
  modulate_loop reality recursion (arr n P) (arr n A) maps k svs (arr n E) (arr n T)
  = Ok (arr n (fun i => T i + total reality svs (skipn k maps) i)%C).
Proof.
  induction svs as [|s svs IH]; intros k E T HL HC HE.
  - cbn. f_equal. apply arr_ext. intros. unfold total. cbn. ceq; ring.
  - cbn [modulate_loop]. cbn [List.length] in HL.
    assert (Ks : (k < List.length maps)%nat) by lia.
    destruct (nth_error maps k) as [m|] eqn:Em;
      [|apply nth_error_None in Em; lia].
    assert (Sk : skipn k maps = m :: skipn (S k) maps).
    { apply skipn_nth_error. exact Em. }
    set (E' := fun i => cis (- (A i * IZR s))).
    assert (HE' : (if (recursion && negb (k =? 0)%nat)%bool
                   then zipwith Cmul (arr n E) (map (fun p => cis (- p)) (arr n A))
                   else map (fun p => cis (- (p * IZR s))) (arr n A)) = arr n E').
    { rewrite !map_arr, zip_arr. destruct recursion; cbn [andb]; [|reflexivity].
      destruct (Nat.eqb_spec k 0) as [Z0|Z0]; cbn [negb]; [reflexivity|].
      apply arr_ext. intros i Hi. unfold E'. rewrite (HE eq_refl Z0), <- cis_add. f_equal.
      specialize (HC eq_refl 0%nat ltac:(cbn; lia)). cbn [nth] in HC. rewrite HC, Nat.add_0_r.
      rewrite !minus_IZR. ring. }
    cbv zeta. rewrite HE'. unfold index at 1. rewrite Em. cbn [bind].
    rewrite lookup_arr by (eapply nth_error_In; exact Em). cbn [bind].
    assert (HS : (if (s =? 0)%Z then Ok (arr n (fun i => value m (P i)))
                  else mul_arr (arr n (fun i => value m (P i))) (arr n E'))
                 = Ok (arr n (fun i => if (s =? 0)%Z then value m (P i)
                                       else (value m (P i) * E' i)%C))).
    { destruct (s =? 0)%Z; [reflexivity|]. apply mul_arr_arr. }
    rewrite HS. cbn [bind].
    assert (HT : (if reality
        then map (fun z => RtoC (if (s =? 0)%Z then Re z else Re z * 2))
               (arr n (fun i => if (s =? 0)%Z then value m (P i) else (value m (P i) * E' i)%C))
        else arr n (fun i => if (s =? 0)%Z then value m (P i) else (value m (P i) * E' i)%C))
        = arr n (fun i => term reality s (value m (P i)) (A i))).
    { rewrite map_arr. destruct (Z.eqb_spec s 0) as [->|S0].
      - destruct reality; apply arr_ext; intros; rewrite term_0; reflexivity.
      - unfold term, E'. apply Z.eqb_neq in S0.
        destruct reality; apply arr_ext; intros; rewrite ?S0, (Rmult_comm (IZR s)); [|reflexivity].
        f_equal. ring. }
    rewrite HT, add_arr_arr. cbn [bind].
    rewrite IH.
    + f_equal. apply arr_ext. intros i Hi. unfold total. rewrite Sk. cbn [combine map fst snd].
      rewrite csum_cons. ring.
    + lia.
    + intros R j Hj. specialize (HC R (S j) ltac:(cbn; lia)). cbn [nth] in HC. rewrite HC. f_equal. lia.
    + intros R _ i. unfold E'. specialize (HC R 0%nat ltac:(cbn; lia)). cbn [nth] in HC.
      rewrite HC. do 3 f_equal. f_equal. lia.
Qed.

Lemma arange_nth a b j : (j < Z.to_nat (b - a))%nat -> nth j (arange a b) 0%Z = (a + Z.of_nat j)%Z.
Proof. intros H. unfold arange. rewrite nth_map_seq by exact H. reflexivity. Qed.

Lemma modulate_ok reality svs T :
  svs <> [] -> List.length maps = List.length svs ->
  (reality = true -> Forall (fun s => 0 <= s)%Z svs) ->
  scan_modulate_pa (arr n T) (arr n P) (arr n A) maps svs reality
  = Ok (arr n (fun i => T i + total reality svs maps i)%C).
Proof.
  intros NE HL HN. destruct svs as [|s0 svs]; [congruence|].
  set (l := s0 :: svs) in *. unfold scan_modulate_pa. unfold l at 1.
  assert (X : (reality && existsb (fun s => s <? 0)%Z l)%bool = false).
  { destruct reality; [|reflexivity]. specialize (HN eq_refl). cbn [andb].
    apply not_true_is_false. intros X. apply existsb_exists in X. destruct X as (s & Hs & Ls).
    rewrite Forall_forall in HN. specialize (HN s Hs). apply Z.ltb_lt in Ls. lia. }
  rewrite X. cbv zeta. rewrite map_arr.
  destruct (list_eq_dec Z.eq_dec l (arange s0 (last_or s0 l + 1))) as [EL|NL].
  - rewrite (loop_ok _ _ s0).
    + reflexivity.
    + rewrite HL. apply Nat.le_refl.
    + intros _ j Hj. rewrite EL. rewrite arange_nth; [f_equal; lia|].
      rewrite EL in Hj. unfold arange in Hj at 1. rewrite map_length, seq_length in Hj. exact Hj.
    + intros _ H. congruence.
  - rewrite (loop_ok _ _ 0%Z); try (intros; discriminate); [reflexivity|rewrite HL; apply Nat.le_refl].
Qed.
End Loop.

(** ** Statement with lists *)
Lemma csum_map_eq {A} (f g : A -> C) l : (forall x, In x l -> f x = g x) -> csum (map f l) = csum (map g l).
Proof. intros H. f_equal. apply map_ext_in. exact H. Qed.

Lemma rsum_csum {A} (f : A -> R) l : csum (map (fun x => RtoC (f x)) l) = RtoC (rsum (map f l)).
Proof.
  induction l as [|x l IH]; cbn; [reflexivity|]. change (csum (map (fun x => RtoC (f x)) l) = RtoC (rsum (map f l))) in IH.
  fold (csum (map (fun x => RtoC (f x)) l)). rewrite IH, <- RtoC_add. reflexivity.
Qed.

Lemma total_complex P A svs ms i :
  total P A false svs ms i = spin_sum ms svs (P i) (A i).
Proof. reflexivity. Qed.

Lemma total_real P A svs ms i :
  total P A true svs ms i = RtoC (two_sided_sum ms svs (P i) (A i)).
Proof.
  unfold total, two_sided_sum, term.
  rewrite <- rsum_csum. reflexivity.
Qed.

Lemma nth_in_range npix pix i :
  Forall (on_map npix) pix -> (i < List.length pix)%nat -> on_map npix (nth i pix (Pix 0)).
Proof. intros H L. rewrite Forall_forall in H. apply H. apply nth_In. exact L. Qed.

Lemma modulate_complex npix tod pix pa e :
  List.length pix = List.length tod -> List.length pa = List.length tod ->
  Forall (on_map npix) pix -> well_sized npix e ->
  exists r, scan_modulate_pa tod pix pa (ss_maps e) (ss_svals e) false = Ok r
  /\ List.length r = List.length tod
  /\ forall i, (i < List.length tod)%nat ->
       nth i r (RtoC 0)
       = (nth i tod (RtoC 0) + spin_sum (ss_maps e) (ss_svals e) (nth i pix (Pix 0)) (nth i pa 0%R))%C.
Proof.
  intros Lp La HP (NE & HL & HM).
  assert (HQ : forall i, (i < List.length tod)%nat -> on_map npix (nth i pix (Pix 0)))
    by (intros; apply nth_in_range; [exact HP|lia]).
  pose proof (modulate_ok (List.length tod) npix (fun i => nth i pix (Pix 0)) (fun i => nth i pa 0)
    (ss_maps e) HQ HM false (ss_svals e) (fun i => nth i tod (RtoC 0)) NE HL ltac:(discriminate)) as X.
  rewrite <- arr_of in X. rewrite <- Lp in X at 1. rewrite <- arr_of in X.
  rewrite <- La in X at 1. rewrite <- arr_of in X. rewrite X.
  eexists. split; [reflexivity|]. split; [apply arr_len|].
  intros i Hi. rewrite arr_nth by exact Hi. rewrite total_complex. reflexivity.
Qed.

Lemma modulate_real npix (tod : list R) pix pa e :
  List.length pix = List.length tod -> List.length pa = List.length tod ->
  Forall (on_map npix) pix -> well_sized npix e ->
  Forall (fun s => 0 <= s)%Z (ss_svals e) ->
  exists r, scan_modulate_pa (map RtoC tod) pix pa (ss_maps e) (ss_svals e) true = Ok (map RtoC r)
  /\ List.length r = List.length tod
  /\ forall i, (i < List.length tod)%nat ->
       nth i r 0
       = nth i tod 0 + two_sided_sum (ss_maps e) (ss_svals e) (nth i pix (Pix 0)) (nth i pa 0).
Proof.
  intros Lp La HP (NE & HL & HM) HS.
  assert (HQ : forall i, (i < List.length tod)%nat -> on_map npix (nth i pix (Pix 0)))
    by (intros; apply nth_in_range; [exact HP|lia]).
  pose proof (modulate_ok (List.length tod) npix (fun i => nth i pix (Pix 0)) (fun i => nth i pa 0)
    (ss_maps e) HQ HM true (ss_svals e) (fun i => RtoC (nth i tod 0)) NE HL (fun _ => HS)) as X.
  rewrite <- (map_arr RtoC), <- arr_of in X. rewrite <- Lp in X at 1. rewrite <- arr_of in X.
  rewrite <- La in X at 1. rewrite <- arr_of in X. rewrite X.
  exists (arr (List.length tod) (fun i => nth i tod 0 + two_sided_sum (ss_maps e) (ss_svals e) (nth i pix (Pix 0)) (nth i pa 0))).
  split; [|split; [apply arr_len|intros; rewrite arr_nth; auto]].
  rewrite map_arr. f_equal. apply arr_ext. intros i Hi. rewrite total_real, <- RtoC_add. reflexivity.
Qed.

Lemma modulate_negative tod pix pa maps svs :
  Exists (fun s => s < 0)%Z svs ->
  scan_modulate_pa tod pix pa maps svs true = Err ValueError.
Proof.
  intros H. destruct svs as [|s0 svs]; [inversion H|]. unfold scan_modulate_pa.
  assert (existsb (fun s => s <? 0)%Z (s0 :: svs) = true) as ->.
  { apply existsb_exists. apply Exists_exists in H. destruct H as (s & I & L). exists s.
    split; [exact I|]. apply Z.ltb_lt. exact L. }
  reflexivity.
Qed.
