(** * Lemmas: superposition of spin maps and timestreams (C89) *)
From Coq Require Import Reals String Lra.
From Verif Require Import Common Cplx Mat M_Alm M_Blm M_Mueller M_Tod M_Spin S_Linear.
Open Scope R_scope.
Local Notation length := List.length.

(** ** Three lists, element by element *)

Inductive F3 {A B D} (P : A -> B -> D -> Prop) : list A -> list B -> list D -> Prop :=
| F3_nil : F3 P [] [] []
| F3_cons a b d l m n : P a b d -> F3 P l m n -> F3 P (a :: l) (b :: m) (d :: n).
Local Hint Constructors F3 : core.

Definition R3 {A B D} (P : A -> B -> D -> Prop) (x : res A) (y : res B) (z : res D) : Prop :=
  match x, y, z with
  | Ok a, Ok b, Ok d => P a b d
  | Err e, Err f, Err g => e = f /\ e = g
  | _, _, _ => False
  end.

Lemma R3_bind {A B D A' B' D'} (P : A -> B -> D -> Prop) (Q : A' -> B' -> D' -> Prop) x y z f g h :
  R3 P x y z -> (forall a b d, P a b d -> R3 Q (f a) (g b) (h d)) -> R3 Q (bind x f) (bind y g) (bind z h).
Proof.
  intros H K. destruct x, y, z; cbn in *; try contradiction; auto.
Qed.
Lemma R3_err {A B D} (P : A -> B -> D -> Prop) e : R3 P (Err e) (Err e) (Err e).
Proof. now split. Qed.
Lemma R3_ok {A B D} (P : A -> B -> D -> Prop) a b d : P a b d -> R3 P (Ok a) (Ok b) (Ok d).
Proof. auto. Qed.
(** A fixed result, used by all three. *)
Lemma R3_same {A} (x : res A) : R3 (fun a b d => a = b /\ a = d) x x x.
Proof. destruct x; cbn; auto. Qed.

Section Poly.
  Context {A B D : Type} (P : A -> B -> D -> Prop).
  Notation L := (F3 P).

  Lemma F3_length l m n : L l m n -> length l = length m /\ length l = length n.
  Proof. induction 1; cbn; lia. Qed.
  Lemma F3_app l m n l' m' n' : L l m n -> L l' m' n' -> L (l ++ l') (m ++ m') (n ++ n').
  Proof. induction 1; cbn; auto. Qed.
  Lemma F3_firstn k : forall l m n, L l m n -> L (firstn k l) (firstn k m) (firstn k n).
  Proof. induction k; intros l m n []; cbn; auto. Qed.
  Lemma F3_skipn k : forall l m n, L l m n -> L (skipn k l) (skipn k m) (skipn k n).
  Proof. induction k; intros l m n []; cbn; auto. Qed.
  Lemma F3_slice l m n i j : L l m n -> L (slice l i j) (slice m i j) (slice n i j).
  Proof. intros H. unfold slice. now apply F3_firstn, F3_skipn. Qed.
  Lemma F3_repeat a b d k : P a b d -> L (repeat a k) (repeat b k) (repeat d k).
  Proof. induction k; cbn; auto. Qed.
  Lemma F3_index l m n i : L l m n -> R3 P (index l i) (index m i) (index n i).
  Proof.
    intros H. revert i. induction H; intros [|i]; unfold index in *; cbn; auto.
  Qed.
  Lemma F3_nth l m n i a b d : L l m n -> P a b d -> P (nth i l a) (nth i m b) (nth i n d).
  Proof. intros H K. revert i. induction H; intros [|i]; cbn; auto. Qed.

  Lemma F3_assign l m n i j v w x : L l m n -> L v w x ->
    R3 L (assign l i j v) (assign m i j w) (assign n i j x).
  Proof.
    intros H K. unfold assign. destruct (F3_length _ _ _ H) as [E1 E2], (F3_length _ _ _ K) as [E3 E4].
    rewrite <- E1, <- E2, <- E3, <- E4. destruct (_ =? _)%nat; cbn; auto.
    auto using F3_app, F3_firstn, F3_skipn.
  Qed.
  Lemma F3_pyslice l m n i j : L l m n -> L (pyslice l i j) (pyslice m i j) (pyslice n i j).
  Proof.
    intros H. unfold pyslice. destruct (F3_length _ _ _ H) as [E1 E2]. rewrite <- E1, <- E2. now apply F3_slice.
  Qed.
  Lemma F3_take l m n idx : L l m n -> R3 L (take l idx) (take m idx) (take n idx).
  Proof.
    intros H. induction idx as [|i r IH]; [cbn; auto|]. cbn [take].
    eapply R3_bind; [exact (F3_index _ _ _ i H)|]. intros a b d Hab. eapply R3_bind; [exact IH|].
    intros; cbn; auto.
  Qed.
  Lemma F3_trunc l m n k o : L l m n -> R3 L (trunc_alm l k o) (trunc_alm m k o) (trunc_alm n k o).
  Proof.
    intros H. unfold trunc_alm. destruct (F3_length _ _ _ H) as [E1 E2]. rewrite <- E1, <- E2.
    destruct (getlmax _ _); [|apply R3_err]. destruct (_ <? _)%nat; [apply R3_err|].
    eapply R3_bind; [apply R3_same|]. intros a b d [-> ->]. now apply F3_take.
  Qed.
  Lemma F3_truncs l m n k o : F3 L l m n -> R3 (F3 L) (trunc_alms l k o) (trunc_alms m k o) (trunc_alms n k o).
  Proof.
    intros H. unfold trunc_alms. destruct H as [|a b d l m n H H']; [apply R3_err|].
    destruct (F3_length _ _ _ H) as [E1 E2]. rewrite <- E1, <- E2.
    destruct (getlmax _ _); [|apply R3_err]. destruct (_ <? _)%nat; [apply R3_err|].
    eapply R3_bind; [apply R3_same|]. intros i i' i'' [<- <-].
    eapply R3_bind; [apply F3_take; exact H|]. intros x y z K.
    eapply R3_bind; [|intros; cbn; eauto]. clear - H'.
    induction H'; [cbn; auto|]. eapply R3_bind; [apply F3_take; eassumption|]. intros. eapply R3_bind; [exact IHH'|]. intros; cbn; auto.
  Qed.
  Lemma F3_for_each {X S1 S2 S3} (T : S1 -> S2 -> S3 -> Prop) (l : list X) f g h :
    (forall x a b d, T a b d -> R3 T (f x a) (g x b) (h x d)) ->
    forall a b d, T a b d -> R3 T (for_each l f a) (for_each l g b) (for_each l h d).
  Proof.
    intros K. induction l as [|x r IH]; cbn [for_each]; [auto|]. intros a b d H.
    eapply R3_bind; [now apply K|]. intros; now apply IH.
  Qed.
  Lemma F3_map {A' B' D'} (Q : A' -> B' -> D' -> Prop) f g h l m n :
    (forall a b d, P a b d -> Q (f a) (g b) (h d)) -> L l m n -> F3 Q (map f l) (map g m) (map h n).
  Proof. induction 2; cbn; auto. Qed.
  Lemma F3_map_fixed {X} f g h (l : list X) : (forall x, P (f x) (g x) (h x)) -> L (map f l) (map g l) (map h l).
  Proof. intros K. induction l; cbn; auto. Qed.
  Lemma F3_mapr {X} f g h (l : list X) : (forall x, R3 P (f x) (g x) (h x)) -> R3 L (mapr f l) (mapr g l) (mapr h l).
  Proof.
    intros K. induction l as [|x r IH]; [cbn; auto|]. cbn [mapr]. eapply R3_bind; [apply K|]. intros.
    eapply R3_bind; [exact IH|]. intros; cbn; auto.
  Qed.
  Lemma F3_mapr_rel {A' B' D'} (Q : A' -> B' -> D' -> Prop) f g h l m n : (forall a b d, P a b d -> R3 Q (f a) (g b) (h d)) ->
    L l m n -> R3 (F3 Q) (mapr f l) (mapr g m) (mapr h n).
  Proof.
    intros K. induction 1; [cbn; auto|]. cbn [mapr]. eapply R3_bind; [now apply K|]. intros.
    eapply R3_bind; [exact IHF3|]. intros; cbn; auto.
  Qed.
  Lemma F3_zipwith {A' B' D' A'' B'' D''} (Q : A' -> B' -> D' -> Prop) (T : A'' -> B'' -> D'' -> Prop) f g h l m n l' m' n' :
    (forall a b d a' b' d', P a b d -> Q a' b' d' -> T (f a a') (g b b') (h d d')) ->
    L l m n -> F3 Q l' m' n' -> F3 T (zipwith f l l') (zipwith g m m') (zipwith h n n').
  Proof.
    intros K H. revert l' m' n'. unfold zipwith. induction H; intros l' m' n' []; cbn; auto.
  Qed.
  Lemma F3_zipwith_r {X A' B' D'} (T : A' -> B' -> D' -> Prop) f g h l m n (x : list X) :
    (forall a b d y, P a b d -> T (f a y) (g b y) (h d y)) ->
    L l m n -> F3 T (zipwith f l x) (zipwith g m x) (zipwith h n x).
  Proof.
    intros K H. revert x. unfold zipwith. induction H; intros [|y x]; cbn; auto.
  Qed.
  Lemma F3_zipwith_l {X A' B' D'} (T : A' -> B' -> D' -> Prop) f g h l m n (x : list X) :
    (forall a b d y, P a b d -> T (f y a) (g y b) (h y d)) ->
    L l m n -> F3 T (zipwith f x l) (zipwith g x m) (zipwith h x n).
  Proof.
    intros K H. revert x. unfold zipwith. induction H; intros [|y x]; cbn; auto.
  Qed.
  Lemma F3_combine {A' B' D'} (Q : A' -> B' -> D' -> Prop) l m n l' m' n' :
    L l m n -> F3 Q l' m' n' ->
    F3 (fun x y z => P (fst x) (fst y) (fst z) /\ Q (snd x) (snd y) (snd z)) (combine l l') (combine m m') (combine n n').
  Proof. intros H. revert l' m' n'. induction H; intros l' m' n' []; cbn; auto. Qed.
End Poly.

Lemma F3_same {A} (l : list A) : F3 (fun a b d => a = b /\ a = d) l l l.
Proof. induction l; auto. Qed.

(** ** Complex arithmetic *)

Section Mix.
Variables a b : R.
Definition E (x y z : C) : Prop := z = mix1 a b x y.
Notation V := (F3 E).

Ltac e_solve := intros; unfold E, mix1 in *; subst;
  repeat match goal with z : C |- _ => destruct z end; unfold Cdiv, Cinv;
  ceq; ring.

Lemma E_zero : E (RtoC 0) (RtoC 0) (RtoC 0). Proof. e_solve. Qed.
Lemma E_add x y z x' y' z' : E x y z -> E x' y' z' -> E (x + x')%C (y + y')%C (z + z')%C. Proof. e_solve. Qed.
Lemma E_sub x y z x' y' z' : E x y z -> E x' y' z' -> E (x - x')%C (y - y')%C (z - z')%C. Proof. e_solve. Qed.
Lemma E_opp x y z : E x y z -> E (- x)%C (- y)%C (- z)%C. Proof. e_solve. Qed.
Lemma E_conj x y z : E x y z -> E (Cconj x) (Cconj y) (Cconj z). Proof. e_solve. Qed.
Lemma E_mulr k x y z : E x y z -> E (x * k)%C (y * k)%C (z * k)%C. Proof. e_solve. Qed.
Lemma E_mull k x y z : E x y z -> E (k * x)%C (k * y)%C (k * z)%C. Proof. e_solve. Qed.
Lemma E_div k x y z : E x y z -> E (x / k)%C (y / k)%C (z / k)%C. Proof. intros. now apply E_mulr. Qed.
Lemma E_re x y z k : E x y z -> E (RtoC (Re x * k)) (RtoC (Re y * k)) (RtoC (Re z * k)). Proof. e_solve. Qed.
Lemma E_re1 x y z : E x y z -> E (RtoC (Re x)) (RtoC (Re y)) (RtoC (Re z)). Proof. e_solve. Qed.
Local Hint Resolve E_zero E_add E_sub E_opp E_conj E_mulr E_mull E_div E_re E_re1 : core.

Lemma V_mix x y : length x = length y -> V x y (mix a b x y).
Proof.
  revert y. induction x as [|u x IH]; intros [|v y] H; try discriminate; [constructor|].
  cbn. constructor; [reflexivity|]. apply IH. now injection H.
Qed.
Lemma V_eq x y z : V x y z -> z = mix a b x y.
Proof. induction 1; cbn; [reflexivity|]. rewrite IHF3, H. reflexivity. Qed.

Lemma V_times k x y z : V x y z -> V (times x k) (times y k) (times z k).
Proof. apply F3_map. auto. Qed.
Lemma V_negs x y z : V x y z -> V (negs x) (negs y) (negs z).
Proof. apply F3_map. auto. Qed.
Lemma V_conjs x y z : V x y z -> V (conjs x) (conjs y) (conjs z).
Proof. apply F3_map. auto. Qed.
Lemma V_add x y z x' y' z' : V x y z -> V x' y' z' -> R3 V (add_arr x x') (add_arr y y') (add_arr z z').
Proof.
  intros H K. unfold add_arr. destruct (F3_length _ _ _ _ H) as [E1 E2], (F3_length _ _ _ _ K) as [E3 E4].
  rewrite <- E1, <- E2, <- E3, <- E4. destruct (_ =? _)%nat; cbn; auto. eapply F3_zipwith; eauto.
Qed.
Lemma V_mul x y z k : V x y z -> R3 V (mul_arr x k) (mul_arr y k) (mul_arr z k).
Proof.
  intros H. unfold mul_arr. destruct (F3_length _ _ _ _ H) as [E1 E2]. rewrite <- E1, <- E2.
  destruct (_ =? _)%nat; cbn; auto. eapply F3_zipwith_r; eauto.
Qed.

Lemma V_spin2eb x y z x' y' z' s : V x y z -> V x' y' z' ->
  V (fst (spin2eb x x' s)) (fst (spin2eb y y' s)) (fst (spin2eb z z' s))
  /\ V (snd (spin2eb x x' s)) (snd (spin2eb y y' s)) (snd (spin2eb z z' s)).
Proof.
  intros H K. cbn [spin2eb fst snd]. split; eapply F3_zipwith; eauto; intros; cbn [spin2eb1 fst snd]; auto.
Qed.
Lemma V_eb2spin x y z x' y' z' : V x y z -> V x' y' z' ->
  V (fst (eb2spin x x')) (fst (eb2spin y y')) (fst (eb2spin z z'))
  /\ V (snd (eb2spin x x')) (snd (eb2spin y y')) (snd (eb2spin z z')).
Proof.
  intros H K. cbn [eb2spin fst snd]. split; eapply F3_zipwith; eauto; intros; cbn [eb2spin1 fst snd]; auto.
Qed.

(** *** Coefficients *)

Lemma V_blm2bl x y z m full : V x y z ->
  R3 V (blm2bl (RtoC 0) x m full) (blm2bl (RtoC 0) y m full) (blm2bl (RtoC 0) z m full).
Proof.
  intros H. unfold blm2bl. destruct (F3_length _ _ _ _ H) as [E1 E2]. rewrite <- E1, <- E2.
  destruct (_ <? _)%Z; [apply R3_err|]. destruct (getlmax _ _); [|apply R3_err].
  destruct full; [|cbn; now apply F3_pyslice]. apply F3_assign; [now apply F3_repeat|now apply F3_pyslice].
Qed.
Lemma V_shift_loop lmax s x y z x' y' z' : V x y z -> V x' y' z' ->
  R3 V (shift_loop (RtoC 0) Cconj Copp lmax s x x') (shift_loop (RtoC 0) Cconj Copp lmax s y y')
    (shift_loop (RtoC 0) Cconj Copp lmax s z z').
Proof.
  intros H K. unfold shift_loop. destruct (F3_length _ _ _ _ H) as [E1 E2]. rewrite <- E1, <- E2.
  apply F3_for_each; [|now apply F3_repeat]. intros m u v w U. destruct (_ <? _)%Z; [exact U|].
  apply R3_bind with V.
  - destruct (_ <=? _)%Z; [now apply V_blm2bl|]. eapply R3_bind; [apply V_blm2bl; exact K|].
    intros p q r Q. cbn. apply F3_map with E; [|exact Q]. intros. unfold M_Alm.signed. destruct (Z.even _); auto.
  - intros p q r Q. apply F3_assign; [exact U|]. now apply F3_skipn.
Qed.
Lemma V_shift x y z x' y' z' s : V x y z -> V x' y' z' ->
  R3 (fun p q r => V (fst p) (fst q) (fst r) /\ V (snd p) (snd q) (snd r))
    (shift_blm (RtoC 0) Cconj Copp x x' s) (shift_blm (RtoC 0) Cconj Copp y y' s) (shift_blm (RtoC 0) Cconj Copp z z' s).
Proof.
  intros H K. unfold shift_blm. destruct (F3_length _ _ _ _ H) as [E1 E2], (F3_length _ _ _ _ K) as [E3 E4].
  rewrite <- E1, <- E2, <- E3, <- E4. destruct (negb _); [apply R3_err|]. destruct (getlmax _ _); [|apply R3_err].
  destruct (_ >? _)%Z; [apply R3_err|]. eapply R3_bind; [now apply V_shift_loop|]. intros p q r Q.
  eapply R3_bind; [now apply V_shift_loop|]. intros p' q' r' Q'. cbn. auto.
Qed.

(** [hp.almxfl]: linear in the coefficients and in the factors. *)
Lemma V_almxfl_sky x y z f : V x y z -> R3 V (hp_almxfl x f) (hp_almxfl y f) (hp_almxfl z f).
Proof.
  intros H. unfold hp_almxfl. destruct (F3_length _ _ _ _ H) as [E1 E2]. rewrite <- E1, <- E2.
  destruct (getlmax _ _); [|apply R3_err]. cbn. eapply F3_zipwith_r; eauto.
Qed.
Lemma V_almxfl_beam x f g h : V f g h -> R3 V (hp_almxfl x f) (hp_almxfl x g) (hp_almxfl x h).
Proof.
  intros H. unfold hp_almxfl. destruct (getlmax _ _); [|apply R3_err]. cbn. unfold almxfl, zipwith.
  apply F3_map_fixed. intros [u l]. cbn. apply E_mull. apply F3_nth; [exact H|exact E_zero].
Qed.

(** *** Plate *)
Lemma V_blmxhwp x y z h mode bv : F3 V x y z -> R3 (F3 V) (blmxhwp x h mode bv) (blmxhwp y h mode bv) (blmxhwp z h mode bv).
Proof.
  intros H. unfold blmxhwp.
  repeat match goal with |- context [if is mode ?m then _ else _] => destruct (is mode m) end;
  try apply R3_err;
  repeat first
    [ destruct bv
    | eapply R3_bind; [first [ apply F3_index; exact H | apply V_shift; eassumption | apply V_add; eauto using V_times ]|];
      intros ? ? ? ?; cbn beta in *; repeat match goal with p : (_ * _)%type |- _ => destruct p | H : _ /\ _ |- _ => destruct H end; cbn [fst snd] in *
    | apply R3_ok; auto 10 using V_times ].
Qed.

(** ** Spin maps *)

Definition ER (x y z : R) : Prop := z = a * x + b * y.
Notation VR := (F3 ER).

Lemma VR_eq x y z : length x = length y -> z = rmix a b x y -> VR x y z.
Proof.
  intros H ->. revert y H. induction x as [|u x IH]; intros [|v y] H; try discriminate; [constructor|].
  cbn. constructor; [reflexivity|]. apply IH. now injection H.
Qed.
Lemma VR_complex p p' p'' q q' q'' : VR p p' p'' -> VR q q' q'' ->
  V (to_complex (p, q)) (to_complex (p', q')) (to_complex (p'', q'')).
Proof.
  intros H. revert q q' q''. unfold to_complex. cbn [fst snd].
  induction H; intros q q' q'' K; destruct K; cbn; constructor; auto.
  unfold E, mix1, ER in *. subst. ceq; ring.
Qed.
Lemma VR_complex_minus p p' p'' q q' q'' : VR p p' p'' -> VR q q' q'' ->
  V (to_complex_minus (p, q)) (to_complex_minus (p', q')) (to_complex_minus (p'', q'')).
Proof.
  intros H K. apply (VR_complex p p' p'' (map Ropp q) (map Ropp q') (map Ropp q'')); [exact H|].
  apply F3_map with ER; [|exact K]. unfold ER. intros; subst; ring.
Qed.
Lemma VR_RtoC x y z : VR x y z -> V (map RtoC x) (map RtoC y) (map RtoC z).
Proof. apply F3_map. unfold ER, E, mix1. intros; subst; ceq; ring. Qed.

Variable alm2map : list C -> list R.
Variable alm2map_spin : list C -> list C -> Z -> list R * list R.
Hypothesis LT : linear_transforms alm2map alm2map_spin.

Lemma T1 x y z : V x y z -> VR (alm2map x) (alm2map y) (alm2map z).
Proof.
  intros H. rewrite (V_eq _ _ _ H). destruct (F3_length _ _ _ _ H) as [L1 _].
  destruct (proj1 LT a b x y L1) as [L2 E2]. now apply VR_eq.
Qed.
Lemma T2 x y z x' y' z' s : V x y z -> V x' y' z' ->
  VR (fst (alm2map_spin x x' s)) (fst (alm2map_spin y y' s)) (fst (alm2map_spin z z' s))
  /\ VR (snd (alm2map_spin x x' s)) (snd (alm2map_spin y y' s)) (snd (alm2map_spin z z' s)).
Proof.
  intros H K. rewrite (V_eq _ _ _ H), (V_eq _ _ _ K).
  destruct (F3_length _ _ _ _ H) as [L1 _], (F3_length _ _ _ _ K) as [L2 _].
  assert (X := proj2 LT a b x y x' y' s L1 L2).
  destruct (alm2map_spin x x' s), (alm2map_spin y y' s). destruct X as (A1 & A2 & ->). cbn [fst snd].
  split; now apply VR_eq.
Qed.
Lemma T2c x y z x' y' z' s : V x y z -> V x' y' z' ->
  V (to_complex (alm2map_spin x x' s)) (to_complex (alm2map_spin y y' s)) (to_complex (alm2map_spin z z' s))
  /\ V (to_complex_minus (alm2map_spin x x' s)) (to_complex_minus (alm2map_spin y y' s)) (to_complex_minus (alm2map_spin z z' s)).
Proof.
  intros H K. destruct (T2 x y z x' y' z' s H K) as [A B].
  rewrite (surjective_pairing (alm2map_spin x x' s)), (surjective_pairing (alm2map_spin y y' s)), (surjective_pairing (alm2map_spin z z' s)).
  split; [now apply VR_complex|now apply VR_complex_minus].
Qed.

(** One argument varies: the sky, or the beam. *)
Definition SkyV (x y z : list C) (u v w : list C) : Prop := V x y z /\ u = v /\ u = w.
Definition BeamV (x y z : list C) (u v w : list C) : Prop := x = y /\ x = z /\ V u v w.

Definition Either (x y z u v w : list C) : Prop := SkyV x y z u v w \/ BeamV x y z u v w.

Lemma almxfl_either x y z u v w : Either x y z u v w -> R3 V (hp_almxfl x u) (hp_almxfl y v) (hp_almxfl z w).
Proof.
  intros [(H & <- & <-)|(<- & <- & H)]; [now apply V_almxfl_sky|now apply V_almxfl_beam].
Qed.
Lemma either_map x y z u v w f : (forall p q r, E p q r -> E (f p) (f q) (f r)) ->
  Either x y z u v w -> Either x y z (map f u) (map f v) (map f w).
Proof.
  intros F [(H & <- & <-)|(<- & <- & H)]; [left|right]; repeat split; auto. now apply F3_map with E.
Qed.
Lemma either_bl x y z u v w s full : Either x y z u v w ->
  R3 (Either x y z) (blm2bl (RtoC 0) u s full) (blm2bl (RtoC 0) v s full) (blm2bl (RtoC 0) w s full).
Proof.
  intros [(H & <- & <-)|(<- & <- & H)].
  - destruct (blm2bl (RtoC 0) u s full); cbn; [left; repeat split; auto|split; reflexivity].
  - assert (X := V_blm2bl u v w s full H). unfold R3 in *. destruct (blm2bl (RtoC 0) u s full), (blm2bl (RtoC 0) v s full), (blm2bl (RtoC 0) w s full); auto.
    right; repeat split; auto.
Qed.

Lemma real1_either x y z u v w s : Either x y z u v w ->
  R3 V (spinmap_real1 alm2map alm2map_spin x u s) (spinmap_real1 alm2map alm2map_spin y v s) (spinmap_real1 alm2map alm2map_spin z w s).
Proof.
  intros H. unfold spinmap_real1. eapply R3_bind; [apply either_bl; exact H|]. intros p q r K.
  destruct (s =? 0)%Z.
  - eapply R3_bind; [apply almxfl_either; exact K|]. intros p' q' r' K'. apply R3_ok. now apply VR_RtoC, T1.
  - eapply R3_bind; [apply almxfl_either; exact K|]. intros p' q' r' K'.
    eapply R3_bind; [apply almxfl_either; apply either_map; [auto|]; unfold conjs; apply either_map; [auto|exact K]|]. intros p'' q'' r'' K''.
    destruct (V_spin2eb _ _ _ _ _ _ s K'' K') as [A B].
    destruct (spin2eb p'' p' s), (spin2eb q'' q' s), (spin2eb r'' r' s). cbn [fst snd] in *. apply R3_ok. now apply T2c.
Qed.
Lemma real_either x y z u v w sp : Either x y z u v w ->
  R3 (F3 V) (spinmaps_real alm2map alm2map_spin x u sp) (spinmaps_real alm2map alm2map_spin y v sp) (spinmaps_real alm2map alm2map_spin z w sp).
Proof.
  intros H. unfold spinmaps_real. destruct sp; [apply R3_err|]. destruct (existsb _ _); [apply R3_err|].
  apply F3_mapr. intros. now apply real1_either.
Qed.

(** Sky (E, B) and beam (-2, +2). *)
Definition Either2 (x y z x' y' z' u v w u' v' w' : list C) : Prop :=
  (V x y z /\ V x' y' z' /\ u = v /\ u = w /\ u' = v' /\ u' = w')
  \/ (x = y /\ x = z /\ x' = y' /\ x' = z' /\ V u v w /\ V u' v' w').
Lemma Either2_split x y z x' y' z' u v w u' v' w' : Either2 x y z x' y' z' u v w u' v' w' ->
  Either x y z u v w /\ Either x y z u' v' w' /\ Either x' y' z' u v w /\ Either x' y' z' u' v' w'.
Proof. unfold Either2, Either, SkyV, BeamV. intuition auto. Qed.

Lemma complex1_either x y z x' y' z' u v w u' v' w' s : Either2 x y z x' y' z' u v w u' v' w' ->
  R3 V (spinmap_complex1 alm2map alm2map_spin x x' u u' s) (spinmap_complex1 alm2map alm2map_spin y y' v v' s)
    (spinmap_complex1 alm2map alm2map_spin z z' w w' s).
Proof.
  intros H. unfold spinmap_complex1.
  assert (X : R3 (fun p q r => Either x y z p q r /\ Either x' y' z' p q r) (blm2bl (RtoC 0) u' (Z.abs s) true) (blm2bl (RtoC 0) v' (Z.abs s) true) (blm2bl (RtoC 0) w' (Z.abs s) true)).
  { destruct (Either2_split _ _ _ _ _ _ _ _ _ _ _ _ H) as (_ & A & _ & B).
    assert (A' := either_bl _ _ _ _ _ _ (Z.abs s) true A). assert (B' := either_bl _ _ _ _ _ _ (Z.abs s) true B).
    unfold R3 in *. destruct (blm2bl (RtoC 0) u' (Z.abs s) true), (blm2bl (RtoC 0) v' (Z.abs s) true), (blm2bl (RtoC 0) w' (Z.abs s) true); tauto. }
  assert (Y : R3 (fun p q r => Either x y z p q r /\ Either x' y' z' p q r) (blm2bl (RtoC 0) u (Z.abs s) true) (blm2bl (RtoC 0) v (Z.abs s) true) (blm2bl (RtoC 0) w (Z.abs s) true)).
  { destruct (Either2_split _ _ _ _ _ _ _ _ _ _ _ _ H) as (A & _ & B & _).
    assert (A' := either_bl _ _ _ _ _ _ (Z.abs s) true A). assert (B' := either_bl _ _ _ _ _ _ (Z.abs s) true B).
    unfold R3 in *. destruct (blm2bl (RtoC 0) u (Z.abs s) true), (blm2bl (RtoC 0) v (Z.abs s) true), (blm2bl (RtoC 0) w (Z.abs s) true); tauto. }
  eapply R3_bind; [exact X|]. intros p q r [K1 K2]. eapply R3_bind; [exact Y|]. intros p' q' r' [K3 K4].
  assert (Two : forall x y z x' y' z' g g' g'', Either x y z g g' g'' -> Either x' y' z' g g' g'' ->
    R3 (fun p q r => V (fst p) (fst q) (fst r) /\ V (snd p) (snd q) (snd r))
      (do x0 <- hp_almxfl x (map (fun b => Cconj b * parity (Z.abs s))%C g); do y0 <- hp_almxfl x' g; Ok (spin2eb x0 y0 (Z.abs s)))
      (do x0 <- hp_almxfl y (map (fun b => Cconj b * parity (Z.abs s))%C g'); do y0 <- hp_almxfl y' g'; Ok (spin2eb x0 y0 (Z.abs s)))
      (do x0 <- hp_almxfl z (map (fun b => Cconj b * parity (Z.abs s))%C g''); do y0 <- hp_almxfl z' g''; Ok (spin2eb x0 y0 (Z.abs s)))).
  { clear. intros x y z x' y' z' g g' g'' H1 H2.
    eapply R3_bind; [apply almxfl_either; apply either_map; [|exact H1]; intros; auto|]. intros a1 a2 a3 A.
    eapply R3_bind; [apply almxfl_either; exact H2|]. intros b1 b2 b3 B. apply R3_ok. now apply V_spin2eb. }
  eapply R3_bind; [apply Two; [exact K3|exact K4]|]. intros f1 f2 f3 [F1 F2].
  eapply R3_bind; [apply Two; [exact K2|exact K1]|]. intros g1 g2 g3 [G1 G2].
  apply R3_ok. destruct (s =? 0)%Z; [|destruct (0 <? s)%Z].
  - apply VR_complex; apply T1; [now apply V_negs|exact G2].
  - now apply T2c.
  - now apply T2c.
Qed.

(** Sky (E, B) and beam (E, B). *)
Lemma complex_either x y z x' y' z' u v w u' v' w' sp : Either2 x y z x' y' z' u v w u' v' w' ->
  R3 (F3 V) (spinmaps_complex alm2map alm2map_spin x x' u u' sp) (spinmaps_complex alm2map alm2map_spin y y' v v' sp)
    (spinmaps_complex alm2map alm2map_spin z z' w w' sp).
Proof.
  intros H. unfold spinmaps_complex.
  assert (K : Either2 (fst (eb2spin x x')) (fst (eb2spin y y')) (fst (eb2spin z z')) (snd (eb2spin x x')) (snd (eb2spin y y')) (snd (eb2spin z z'))
                (fst (eb2spin u u')) (fst (eb2spin v v')) (fst (eb2spin w w')) (snd (eb2spin u u')) (snd (eb2spin v v')) (snd (eb2spin w w'))).
  { destruct H as [(A & B & <- & <- & <- & <-)|(<- & <- & <- & <- & A & B)]; [left|right]; repeat split; now apply V_eb2spin. }
  destruct (eb2spin x x'), (eb2spin y y'), (eb2spin z z'), (eb2spin u u'), (eb2spin v v'), (eb2spin w w'). cbn [fst snd] in K.
  apply F3_mapr. intros. now apply complex1_either.
Qed.

Lemma add_maps_mix x y z x' y' z' : F3 V x y z -> F3 V x' y' z' -> R3 (F3 V) (add_maps x x') (add_maps y y') (add_maps z z').
Proof.
  intros H K. unfold add_maps. destruct (F3_length _ _ _ _ H) as [E1 E2], (F3_length _ _ _ _ K) as [E3 E4].
  rewrite <- E1, <- E2, <- E3, <- E4. destruct (_ =? _)%nat; [|apply R3_err].
  eapply F3_mapr_rel; [|eapply F3_combine; eassumption]. intros ? ? ? [A B]. now apply V_add.
Qed.

(** *** The dictionary *)

Definition same3 {A} (x y z : A) : Prop := x = y /\ x = z.
(** [side]: the sky varies; otherwise the beam does. *)
Definition Sk (side : bool) : list C -> list C -> list C -> Prop := if side then V else same3.
Definition Bm (side : bool) : list C -> list C -> list C -> Prop := if side then same3 else V.

Lemma same3_list {A} (l m n : list A) : F3 same3 l m n -> same3 l m n.
Proof. induction 1; [split; reflexivity|]. destruct H as [-> ->], IHF3 as [-> ->]. split; reflexivity. Qed.
Lemma list_same3 {A} (l m n : list A) : same3 l m n -> F3 same3 l m n.
Proof. intros [<- <-]. apply F3_same. Qed.
Lemma R3_imp {A B D} (P Q : A -> B -> D -> Prop) x y z : (forall a b d, P a b d -> Q a b d) -> R3 P x y z -> R3 Q x y z.
Proof. intros H. destruct x, y, z; cbn; auto. Qed.

Lemma sides x y z u v w side : Sk side x y z -> Bm side u v w -> Either x y z u v w.
Proof. destruct side; cbn; intros H [H1 H2] || intros [H1 H2] H; [left|right]; repeat split; auto. Qed.
Lemma sides2 x y z x' y' z' u v w u' v' w' side : Sk side x y z -> Sk side x' y' z' -> Bm side u v w -> Bm side u' v' w' ->
  Either2 x y z x' y' z' u v w u' v' w'.
Proof.
  destruct side; cbn.
  - intros H K [<- <-] [<- <-]. left. auto 10.
  - intros [<- <-] [<- <-] H K. right. auto 10.
Qed.

Lemma Bm_pair side u v w u' v' w' s : Bm side u v w -> Bm side u' v' w' ->
  Bm side (fst (spin2eb u u' s)) (fst (spin2eb v v' s)) (fst (spin2eb w w' s))
  /\ Bm side (snd (spin2eb u u' s)) (snd (spin2eb v v' s)) (snd (spin2eb w w' s)).
Proof.
  destruct side; cbn [Bm].
  - intros [<- <-] [<- <-]. repeat split.
  - apply V_spin2eb.
Qed.
Lemma Bm_blmxhwp side x y z h mode bv : F3 (Bm side) x y z ->
  R3 (F3 (Bm side)) (blmxhwp x h mode bv) (blmxhwp y h mode bv) (blmxhwp z h mode bv).
Proof.
  destruct side; [|exact (V_blmxhwp x y z h mode bv)]. intros H. apply same3_list in H. destruct H as [<- <-].
  apply R3_imp with same3; [intros; now apply list_same3|]. destruct (blmxhwp x h mode bv); cbn; split; reflexivity.
Qed.
Lemma Sk_neg side x y z : Sk side x y z -> Sk side (negs x) (negs y) (negs z).
Proof. destruct side; cbn; [apply V_negs|]. intros [<- <-]. split; reflexivity. Qed.
Lemma Sk_zero side x y z : Sk side x y z -> Sk side (times x (RtoC 0)) (times y (RtoC 0)) (times z (RtoC 0)).
Proof. destruct side; cbn; [apply V_times|]. intros [<- <-]. split; reflexivity. Qed.
Lemma F3_one {P : list C -> list C -> list C -> Prop} x y z : F3 P x y z -> R3 P (one x) (one y) (one z).
Proof. intros [|? ? ? ? ? ? ? []]; cbn; auto. Qed.
Lemma F3_two {P : list C -> list C -> list C -> Prop} x y z : F3 P x y z ->
  R3 (fun p q r => P (fst p) (fst q) (fst r) /\ P (snd p) (snd q) (snd r)) (two x) (two y) (two z).
Proof. intros [|? ? ? ? ? ? ? [|? ? ? ? ? ? ? []]]; cbn; auto. Qed.

Definition DV (d d' d'' : spindict) : Prop :=
  F3 (fun kv kv' kv'' => fst kv = fst kv' /\ fst kv = fst kv''
     /\ ss_svals (snd kv) = ss_svals (snd kv') /\ ss_svals (snd kv) = ss_svals (snd kv'')
     /\ F3 V (ss_maps (snd kv)) (ss_maps (snd kv')) (ss_maps (snd kv''))) d d' d''.

Ltac tidy := repeat match goal with
  | H : _ /\ _ |- _ => destruct H
  | p : (list C * list C)%type |- _ => destruct p
  end; cbn [fst snd] in *.

Lemma make_mix side X Y Z U V' W max_spin symmetric hwp input_v beam_v :
  F3 (Sk side) X Y Z -> F3 (Bm side) U V' W ->
  R3 DV (make_spinmaps alm2map alm2map_spin X U max_spin symmetric hwp input_v beam_v)
        (make_spinmaps alm2map alm2map_spin Y V' max_spin symmetric hwp input_v beam_v)
        (make_spinmaps alm2map alm2map_spin Z W max_spin symmetric hwp input_v beam_v).
Proof.
  intros HS HB. unfold make_spinmaps. destruct (spin_values symmetric max_spin) as [[unpol pol] sa2].
  eapply R3_bind; [apply F3_index; exact HS|]. intros i1 i2 i3 SI.
  eapply R3_bind; [apply F3_index; exact HS|]. intros e1' e2' e3' SE.
  eapply R3_bind; [apply F3_index; exact HS|]. intros b1' b2' b3' SB.
  assert (Eb : forall u v w u' v' w' sp, Bm side u v w -> Bm side u' v' w' ->
    R3 (F3 V) (let '(blmE, blmB) := spin2eb u u' 2 in spinmaps_complex alm2map alm2map_spin e1' b1' blmE blmB sp)
      (let '(blmE, blmB) := spin2eb v v' 2 in spinmaps_complex alm2map alm2map_spin e2' b2' blmE blmB sp)
      (let '(blmE, blmB) := spin2eb w w' 2 in spinmaps_complex alm2map alm2map_spin e3' b3' blmE blmB sp)).
  { intros u v w u' v' w' sp H K. destruct (Bm_pair side _ _ _ _ _ _ 2 H K) as [A B].
    destruct (spin2eb u u' 2), (spin2eb v v' 2), (spin2eb w w' 2). cbn [fst snd] in *.
    apply complex_either. now apply sides2 with side. }
  assert (Ei : forall t1 t2 t3, Sk side t1 t2 t3 -> forall u v w u' v' w' sp, Bm side u v w -> Bm side u' v' w' ->
    R3 (F3 V) (let '(blmE, blmB) := spin2eb u u' 2 in spinmaps_complex alm2map alm2map_spin (negs t1) (times t1 (RtoC 0)) blmE blmB sp)
      (let '(blmE, blmB) := spin2eb v v' 2 in spinmaps_complex alm2map alm2map_spin (negs t2) (times t2 (RtoC 0)) blmE blmB sp)
      (let '(blmE, blmB) := spin2eb w w' 2 in spinmaps_complex alm2map alm2map_spin (negs t3) (times t3 (RtoC 0)) blmE blmB sp)).
  { intros t1 t2 t3 HT u v w u' v' w' sp H K. destruct (Bm_pair side _ _ _ _ _ _ 2 H K) as [A B].
    destruct (spin2eb u u' 2), (spin2eb v v' 2), (spin2eb w w' 2). cbn [fst snd] in *.
    apply complex_either. apply sides2 with side; auto using Sk_neg, Sk_zero. }
  destruct hwp as [m|].
  - (* s0a0 *)
    eapply R3_bind; [apply Bm_blmxhwp; exact HB|]. intros ? ? ? H.
    eapply R3_bind; [exact (F3_one _ _ _ H)|]. clear H. intros ? ? ? H.
    eapply R3_bind; [apply real_either; apply (sides _ _ _ _ _ _ side); [exact SI|exact H]|]. clear H. intros n1 n2 n3 N.
    apply R3_bind with (F3 V).
    { destruct input_v; [|exact N].
      eapply R3_bind; [apply Bm_blmxhwp; exact HB|]. intros ? ? ? H.
      eapply R3_bind; [exact (F3_one _ _ _ H)|]. clear H. intros ? ? ? H.
      eapply R3_bind; [apply F3_index; exact HS|]. intros ? ? ? SV.
      eapply R3_bind; [apply real_either; apply (sides _ _ _ _ _ _ side); [exact SV|exact H]|]. intros ? ? ? K. now apply add_maps_mix. }
    clear N n1 n2 n3. intros n1 n2 n3 N.
    (* s2a4 *)
    eapply R3_bind; [apply Bm_blmxhwp; exact HB|]. intros ? ? ? H.
    eapply R3_bind; [exact (F3_two _ _ _ H)|]. clear H. intros [p p'] [q q'] [r r'] [H H']. cbn [fst snd] in *.
    assert (X1 := Eb _ _ _ _ _ _ pol H H'). clear H H'.
    destruct (spin2eb p p' 2), (spin2eb q q' 2), (spin2eb r r' 2). cbv iota beta in X1.
    eapply R3_bind; [exact X1|]. clear X1. intros ? ? ? N24.
    (* s0a2 *)
    eapply R3_bind; [apply Bm_blmxhwp; exact HB|]. intros ? ? ? H. clear p p' q q' r r'.
    eapply R3_bind; [exact (F3_two _ _ _ H)|]. clear H. intros [p p'] [q q'] [r r'] [H H']. cbn [fst snd] in *.
    assert (X1 := Ei _ _ _ SI _ _ _ _ _ _ sa2 H' H). clear H H'.
    destruct (spin2eb p' p 2), (spin2eb q' q 2), (spin2eb r' r 2). cbv iota beta in X1.
    eapply R3_bind; [exact X1|]. clear X1. intros k1 k2 k3 K.
    apply R3_bind with (F3 V).
    { destruct input_v; [|exact K].
      eapply R3_bind; [apply Bm_blmxhwp; exact HB|]. intros ? ? ? H.
      eapply R3_bind; [exact (F3_two _ _ _ H)|]. clear H. intros [u u'] [v v'] [w w'] [H H']. cbn [fst snd] in *.
      assert (X1 := fun t1 t2 t3 HT => Ei t1 t2 t3 HT _ _ _ _ _ _ sa2 H' H). clear H H'.
      destruct (spin2eb u' u 2), (spin2eb v' v 2), (spin2eb w' w 2). cbv iota beta in X1.
      eapply R3_bind; [apply F3_index; exact HS|]. intros ? ? ? SV.
      eapply R3_bind; [apply X1; exact SV|]. intros. now apply add_maps_mix. }
    clear K k1 k2 k3 p p' q q' r r'. intros ? ? ? N02.
    (* s2a2 *)
    eapply R3_bind; [apply Bm_blmxhwp; exact HB|]. intros ? ? ? H.
    eapply R3_bind; [exact (F3_two _ _ _ H)|]. clear H. intros [p p'] [q q'] [r r'] [H H']. cbn [fst snd] in *.
    assert (X1 := Eb _ _ _ _ _ _ pol H H'). clear H H'.
    destruct (spin2eb p p' 2), (spin2eb q q' 2), (spin2eb r r' 2). cbv iota beta in X1.
    eapply R3_bind; [exact X1|]. clear X1. intros ? ? ? N22.
    (* s2a0 *)
    eapply R3_bind; [apply Bm_blmxhwp; exact HB|]. intros ? ? ? H. clear p p' q q' r r'.
    eapply R3_bind; [exact (F3_two _ _ _ H)|]. clear H. intros [p p'] [q q'] [r r'] [H H']. cbn [fst snd] in *.
    assert (X1 := Eb _ _ _ _ _ _ pol H H'). clear H H'.
    destruct (spin2eb p p' 2), (spin2eb q q' 2), (spin2eb r r' 2). cbv iota beta in X1.
    eapply R3_bind; [exact X1|]. clear X1. intros ? ? ? N20.
    apply R3_ok. unfold DV. repeat constructor; auto.
  - eapply R3_bind; [apply F3_index; exact HB|]. intros p q r H.
    eapply R3_bind; [apply F3_index; exact HB|]. intros p' q' r' H'.
    assert (X1 := Eb _ _ _ _ _ _ pol H H'). clear H H'.
    destruct (spin2eb p p' 2), (spin2eb q q' 2), (spin2eb r r' 2). cbv iota beta in X1.
    eapply R3_bind; [apply F3_index; exact HB|]. intros ? ? ? H.
    eapply R3_bind; [apply real_either; apply (sides _ _ _ _ _ _ side); [exact SI|exact H]|]. clear H. intros n1 n2 n3 N.
    apply R3_bind with (F3 V).
    { destruct (beam_v && input_v)%bool; [|exact N].
      eapply R3_bind; [apply F3_index; exact HS|]. intros ? ? ? SV.
      eapply R3_bind; [apply F3_index; exact HB|]. intros ? ? ? H.
      eapply R3_bind; [apply real_either; apply (sides _ _ _ _ _ _ side); [exact SV|exact H]|]. intros. now apply add_maps_mix. }
    intros ? ? ? N00. eapply R3_bind; [exact X1|]. intros ? ? ? N24. apply R3_ok. unfold DV. repeat constructor; auto.
Qed.

(** ** The timestream *)

Lemma interp_mix x y z w : V x y z -> R3 E (interp_val x w) (interp_val y w) (interp_val z w).
Proof.
  intros H. induction w as [|[k i] w IH]; cbn [interp_val]; [apply E_zero|].
  eapply R3_bind; [apply F3_index; exact H|]. intros. eapply R3_bind; [exact IH|]. intros. apply R3_ok. auto.
Qed.
Lemma lookup_mix x y z p : V x y z -> R3 E (lookup x p) (lookup y p) (lookup z p).
Proof. intros H. destruct p; cbn; [now apply F3_index|now apply interp_mix]. Qed.

Lemma loop_mix reality recursion pix pa M M' M'' : F3 V M M' M'' -> forall s_vals sidx ex t t' t'', V t t' t'' ->
  R3 V (modulate_loop reality recursion pix pa M sidx s_vals ex t) (modulate_loop reality recursion pix pa M' sidx s_vals ex t')
    (modulate_loop reality recursion pix pa M'' sidx s_vals ex t'').
Proof.
  intros HM. induction s_vals as [|s s_vals IH]; intros sidx ex t t' t'' H; cbn [modulate_loop]; [exact H|].
  eapply R3_bind; [apply F3_index; exact HM|]. intros m m' m'' Hm.
  eapply R3_bind; [apply F3_mapr; intros; apply lookup_mix; exact Hm|]. intros x y z K.
  apply R3_bind with V.
  { destruct (s =? 0)%Z; [exact K|now apply V_mul]. }
  clear K x y z. intros x y z K. eapply R3_bind.
  { apply V_add; [exact H|]. destruct reality; [|exact K]. destruct (s =? 0)%Z; eapply F3_map; eauto. }
  intros. now apply IH.
Qed.
Lemma modulate_mix t t' t'' pix pa M M' M'' s_vals reality : F3 V M M' M'' -> V t t' t'' ->
  R3 V (scan_modulate_pa t pix pa M s_vals reality) (scan_modulate_pa t' pix pa M' s_vals reality)
    (scan_modulate_pa t'' pix pa M'' s_vals reality).
Proof.
  intros HM H. unfold scan_modulate_pa. destruct s_vals; [destruct reality; apply R3_err|].
  destruct (_ && _)%bool; [apply R3_err|]. now apply loop_mix.
Qed.
Lemma phase_mix t t' t'' f h : V t t' t'' -> R3 V (times_phase t f h) (times_phase t' f h) (times_phase t'' f h).
Proof.
  intros H. unfold times_phase. destruct (F3_length _ _ _ _ H) as [E1 E2]. rewrite <- E1, <- E2.
  eapply R3_bind; [apply R3_same|]. intros ? ? ? [<- <-]. now apply V_mul.
Qed.
Lemma treal_mix t t' t'' f h : V t t' t'' -> R3 V (times_real t f h) (times_real t' f h) (times_real t'' f h).
Proof.
  intros H. unfold times_real. destruct (F3_length _ _ _ _ H) as [E1 E2]. rewrite <- E1, <- E2.
  eapply R3_bind; [apply R3_same|]. intros ? ? ? [<- <-]. now apply V_mul.
Qed.
Lemma real_mix t t' t'' : V t t' t'' -> V (real t) (real t') (real t'').
Proof. apply F3_map. auto. Qed.
Lemma zeros_mix n : V (zeros n) (zeros n) (zeros n).
Proof. apply F3_repeat. auto. Qed.

Definition SV (e e' e'' : spinset) : Prop :=
  ss_svals e = ss_svals e' /\ ss_svals e = ss_svals e'' /\ F3 V (ss_maps e) (ss_maps e') (ss_maps e'').

Lemma getitem_mix d d' d'' key : DV d d' d'' -> R3 SV (getitem d key) (getitem d' key) (getitem d'' key).
Proof.
  induction 1 as [|[k e] [k' e'] [k'' e''] ? ? ? (E1 & E2 & K)]; cbn in *; [split; reflexivity|]. subst k' k''.
  destruct (is k key); [exact K|assumption].
Qed.
Lemma keys_mix d d' d'' : DV d d' d'' -> map fst d = map fst d' /\ map fst d = map fst d''.
Proof. induction 1 as [|? ? ? ? ? ? (E1 & E2 & K) ? [IH1 IH2]]; cbn; [auto|]. split; congruence. Qed.
Lemma only_ideal_keys d d' : map fst d = map fst d' -> only_ideal d = only_ideal d'.
Proof.
  intros H. unfold only_ideal.
  assert (F : forall (f : string -> bool) (l : spindict), forallb (fun kv => f (fst kv)) l = forallb f (map fst l)).
  { intros f l. induction l; cbn; congruence. }
  assert (G : forall (f : string -> bool) (l : spindict), existsb (fun kv => f (fst kv)) l = existsb f (map fst l)).
  { intros f l. induction l; cbn; congruence. }
  rewrite !(F (fun k => is k "s0a0" || is k "s2a4")%bool), !(G (fun k => is k "s0a0")), !(G (fun k => is k "s2a4")), H. reflexivity.
Qed.
Lemma s0a2_mix e e' e'' pol i : SV e e' e'' ->
  R3 (fun p q r => V (fst p) (fst q) (fst r) /\ V (snd p) (snd q) (snd r)) (s0a2_pair e pol i) (s0a2_pair e' pol i) (s0a2_pair e'' pol i).
Proof.
  intros (E1 & E2 & HM). unfold s0a2_pair. rewrite <- E1, <- E2.
  eapply R3_bind; [apply R3_same|]. intros j ? ? [<- <-].
  eapply R3_bind; [apply F3_index; exact HM|]. intros. eapply R3_bind; [apply F3_index; exact HM|]. intros.
  eapply R3_bind; [apply V_add; [now apply V_times|]; eapply F3_map; [|now apply V_times; eassumption]; auto|]. intros.
  eapply R3_bind; [apply V_add; [apply V_times; eassumption|]; eapply F3_map; [|apply V_times; eassumption]; cbn beta; auto|]. intros.
  apply R3_ok. split; eapply F3_map; eauto.
Qed.

Lemma scan_mix n d d' d'' pix pa pol h : DV d d' d'' ->
  R3 V (scan_tod n d pix pa pol h) (scan_tod n d' pix pa pol h) (scan_tod n d'' pix pa pol h).
Proof.
  intros H. unfold scan_tod. destruct (keys_mix _ _ _ H) as [K1 K2].
  rewrite <- (only_ideal_keys _ _ K1), <- (only_ideal_keys _ _ K2). destruct (only_ideal d).
  - eapply R3_bind; [apply getitem_mix; exact H|]. intros e e' e'' (<- & <- & HM).
    eapply R3_bind; [apply modulate_mix; [exact HM|apply zeros_mix]|]. intros.
    eapply R3_bind; [apply phase_mix; eassumption|]. intros.
    eapply R3_bind; [apply getitem_mix; exact H|]. intros g g' g'' (<- & <- & GM).
    apply modulate_mix; [exact GM|now apply real_mix].
  - eapply R3_bind; [apply getitem_mix; exact H|]. intros e e' e'' (<- & <- & HM).
    eapply R3_bind; [apply modulate_mix; [exact HM|apply zeros_mix]|]. intros.
    eapply R3_bind; [apply phase_mix; eassumption|]. intros.
    eapply R3_bind; [apply getitem_mix; exact H|]. intros f f' f'' (<- & <- & HM2).
    eapply R3_bind; [apply modulate_mix; [exact HM2|apply zeros_mix]|]. intros.
    eapply R3_bind; [apply phase_mix; eassumption|]. intros.
    eapply R3_bind; [apply V_add; apply real_mix; eassumption|]. intros.
    eapply R3_bind; [apply getitem_mix; exact H|]. intros g g' g'' (<- & <- & HM3).
    eapply R3_bind; [apply modulate_mix; [exact HM3|apply zeros_mix]|]. intros.
    eapply R3_bind; [apply V_add; [eassumption|apply real_mix; eassumption]|]. intros.
    eapply R3_bind; [apply getitem_mix; exact H|]. intros k k' k'' SK. assert (SK' := SK). destruct SK' as (<- & <- & HM4).
    eapply R3_bind; [apply F3_index; exact HM4|]. intros _ _ _ _.
    eapply R3_bind; [apply F3_mapr; intros; apply s0a2_mix; exact SK|]. intros p p' p'' HP.
    assert (P1 : F3 V (map fst p) (map fst p') (map fst p'')) by (eapply F3_map; [|exact HP]; intros ? ? ? []; assumption).
    assert (P2 : F3 V (map snd p) (map snd p') (map snd p'')) by (eapply F3_map; [|exact HP]; intros ? ? ? []; assumption).
    eapply R3_bind; [apply modulate_mix; [exact P1|apply zeros_mix]|]. intros.
    eapply R3_bind; [apply treal_mix; eassumption|]. intros.
    eapply R3_bind; [apply V_add; eassumption|]. intros.
    eapply R3_bind; [apply modulate_mix; [exact P2|apply zeros_mix]|]. intros.
    eapply R3_bind; [apply treal_mix; eassumption|]. intros.
    eapply R3_bind; [apply V_add; eassumption|]. intros.
    eapply R3_bind; [apply getitem_mix; exact H|]. intros m m' m'' (<- & <- & HM5).
    apply modulate_mix; eassumption.
Qed.

(** ** From the coefficients given *)

Lemma Sk_length side l m n : Sk side l m n -> length l = length m /\ length l = length n.
Proof. destruct side; cbn; [apply F3_length|]. intros [<- <-]. auto. Qed.
Lemma Bm_length side l m n : Bm side l m n -> length l = length m /\ length l = length n.
Proof. destruct side; cbn; [|apply F3_length]. intros [<- <-]. auto. Qed.
Lemma same3_R3 {A B} (f : A -> res B) x y z : same3 x y z -> R3 same3 (f x) (f y) (f z).
Proof. intros [<- <-]. destruct (f x); cbn; split; reflexivity. Qed.
Lemma Sk_trunc side x y z k : Sk side x y z -> R3 (Sk side) (trunc_alm x k None) (trunc_alm y k None) (trunc_alm z k None).
Proof. destruct side; cbn [Sk]; [apply F3_trunc|apply (same3_R3 (fun x => trunc_alm x k None))]. Qed.
Lemma Bm_trunc side x y z k : Bm side x y z -> R3 (Bm side) (trunc_alm x k None) (trunc_alm y k None) (trunc_alm z k None).
Proof. destruct side; cbn [Bm]; [apply (same3_R3 (fun x => trunc_alm x k None))|apply F3_trunc]. Qed.
Lemma same3_truncs (x y z : list (list C)) k : F3 same3 x y z -> R3 (F3 same3) (trunc_alms x k None) (trunc_alms y k None) (trunc_alms z k None).
Proof.
  intros H. apply same3_list in H. apply R3_imp with same3; [intros; now apply list_same3|].
  now apply (same3_R3 (fun x => trunc_alms x k None)).
Qed.
Lemma Sk_truncs side x y z k : F3 (Sk side) x y z -> R3 (F3 (Sk side)) (trunc_alms x k None) (trunc_alms y k None) (trunc_alms z k None).
Proof. destruct side; cbn [Sk]; [apply F3_truncs|apply same3_truncs]. Qed.
Lemma Bm_truncs side x y z k : F3 (Bm side) x y z -> R3 (F3 (Bm side)) (trunc_alms x k None) (trunc_alms y k None) (trunc_alms z k None).
Proof. destruct side; cbn [Bm]; [apply same3_truncs|apply F3_truncs]. Qed.

Lemma limits_mix side X Y Z U V' W iv bv : F3 (Sk side) X Y Z -> F3 (Bm side) U V' W ->
  R3 (fun p q r => F3 (Sk side) (fst p) (fst q) (fst r) /\ F3 (Bm side) (snd p) (snd q) (snd r))
    (match_bandlimits X U iv bv) (match_bandlimits Y V' iv bv) (match_bandlimits Z W iv bv).
Proof.
  intros HS HB. unfold match_bandlimits.
  eapply R3_bind; [apply F3_index; exact HS|]. intros x y z S0. eapply R3_bind; [apply F3_index; exact HB|]. intros u v w B0.
  destruct (Sk_length _ _ _ _ S0) as [E1 E2], (Bm_length _ _ _ _ B0) as [E3 E4]. rewrite <- E1, <- E2, <- E3, <- E4.
  destruct (getlmax (length x) None) as [ls|], (getlmax (length u) None) as [lb|]; try apply R3_err.
  destruct (lb <? ls)%nat; [|destruct (ls <? lb)%nat].
  - eapply R3_bind; [apply F3_index; exact HS|]. intros ? ? ? S1. eapply R3_bind; [apply F3_index; exact HS|]. intros ? ? ? S2.
    eapply R3_bind; [apply (Sk_truncs side); repeat constructor; eassumption|]. intros ? ? ? T. destruct iv; [|apply R3_ok; auto].
    eapply R3_bind; [apply F3_index; exact HS|]. intros ? ? ? S3. eapply R3_bind; [apply Sk_trunc; exact S3|]. intros ? ? ? T3.
    apply R3_ok. cbn. split; [|exact HB]. apply F3_app; auto.
  - eapply R3_bind; [apply F3_index; exact HB|]. intros ? ? ? S1. eapply R3_bind; [apply F3_index; exact HB|]. intros ? ? ? S2.
    eapply R3_bind; [apply (Bm_truncs side); repeat constructor; eassumption|]. intros ? ? ? T. destruct bv; [|apply R3_ok; auto].
    eapply R3_bind; [apply F3_index; exact HB|]. intros ? ? ? S3. eapply R3_bind; [apply Bm_trunc; exact S3|]. intros ? ? ? T3.
    apply R3_ok. cbn. split; [exact HS|]. apply F3_app; auto.
  - apply R3_ok. auto.
Qed.
End Mix.
