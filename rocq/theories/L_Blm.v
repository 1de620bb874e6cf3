(** * Proofs about beam-coefficient conversions *)
From Verif Require Import Common LibList Cplx M_Alm S_Alm L_Alm M_Blm.
From Coq Require Import Lra Field ZifyBool.
Open Scope R_scope.

(** ** Arrays as maps over the list of modes *)

Definition modes (L M : nat) : list (nat * nat) :=
  concat (map (fun m => map (fun l => (l, m)) (seq m (L + 1 - m))) (seq 0 (M + 1))).

Lemma of_modes_map {A} L M (f : nat -> nat -> A) :
  of_modes L M f = map (fun p => f (fst p) (snd p)) (modes L M).
Proof.
  unfold of_modes, modes. rewrite concat_map, map_map. f_equal. apply map_ext. intros m.
  unfold row. rewrite map_map. reflexivity.
Qed.

Lemma map_modes {A B} (g : A -> B) L M f :
  map g (of_modes L M f) = of_modes L M (fun l m => g (f l m)).
Proof. rewrite !of_modes_map, map_map. reflexivity. Qed.

Lemma zipwith_map {X A B D} (f : A -> B -> D) (a : X -> A) (b : X -> B) l :
  zipwith f (map a l) (map b l) = map (fun x => f (a x) (b x)) l.
Proof. unfold zipwith. induction l; cbn; auto. f_equal; auto. Qed.

Lemma zipwith_modes {A B D} (f : A -> B -> D) L M a b :
  zipwith f (of_modes L M a) (of_modes L M b) = of_modes L M (fun l m => f (a l m) (b l m)).
Proof. rewrite !of_modes_map. apply zipwith_map. Qed.

Lemma ells_modes L : ells L = of_modes L L (fun l _ => l).
Proof.
  unfold ells, of_modes. f_equal. apply map_ext. intros m. unfold row. now rewrite map_id.
Qed.

Lemma almxfl_modes L f fl :
  almxfl L (of_modes L L f) fl = of_modes L L (fun l m => Cmul (f l m) (fl l)).
Proof.
  unfold almxfl. rewrite ells_modes.
  exact (zipwith_modes (fun a l => Cmul a (fl l)) L L f (fun l _ => l)).
Qed.

Lemma of_modes_head {A} L M (f : nat -> nat -> A) :
  exists rest, of_modes L M f = f 0%nat 0%nat :: rest.
Proof.
  unfold of_modes. rewrite Nat.add_1_r. cbn [seq map concat]. unfold row at 1.
  rewrite Nat.sub_0_r, Nat.add_1_r. cbn [seq map app]. eexists; reflexivity.
Qed.

(** ** E/B and spin *)

Lemma m2_neq : RtoC (-2) <> RtoC 0. Proof. intros H. apply RtoC_inj in H. lra. Qed.
Lemma two_neq : RtoC 2 <> RtoC 0. Proof. intros H. apply RtoC_inj in H. lra. Qed.

Lemma eb2spin_spin2eb1 s m p :
  eb2spin1 (fst (spin2eb1 s m p)) (snd (spin2eb1 s m p)) = (Cmul (parity s) m, p).
Proof.
  unfold eb2spin1, spin2eb1, parity. cbn [fst snd].
  destruct m as [m1 m2], p as [p1 p2].
  destruct (Z.even s); f_equal; apply C_eq; unfold Cdiv, Cinv, Cnorm2; cbn; field.
Qed.

Lemma spin2eb_eb2spin1 s e b : Z.even s = true ->
  spin2eb1 s (fst (eb2spin1 e b)) (snd (eb2spin1 e b)) = (e, b).
Proof.
  intros Hs. unfold eb2spin1, spin2eb1, parity. rewrite Hs. cbn [fst snd].
  destruct e as [m1 m2], b as [p1 p2].
  f_equal; apply C_eq; unfold Cdiv, Cinv, Cnorm2; cbn; field.
Qed.

Lemma zipwith_length {A B D} (f : A -> B -> D) a b : length a = length b ->
  length (zipwith f a b) = length a.
Proof. intros H. unfold zipwith. rewrite map_length, combine_length. lia. Qed.

Lemma zipwith2_id {A B} (f1 f2 : A -> B -> C) (g : C -> C -> C) (k : A -> B -> C) a b :
  (forall x y, g (f1 x y) (f2 x y) = k x y) ->
  zipwith g (zipwith f1 a b) (zipwith f2 a b) = zipwith k a b.
Proof.
  intros H. unfold zipwith. revert b; induction a as [|x a IH]; intros [|y b]; cbn; auto.
  rewrite H. f_equal. apply IH.
Qed.

Lemma zipwith_fst {A B D} (f : A -> D) (a : list A) (b : list B) : length a = length b ->
  zipwith (fun x _ => f x) a b = map f a.
Proof.
  unfold zipwith. revert b; induction a as [|x a IH]; intros [|y b] H; cbn in *; try lia; auto.
  f_equal. apply IH. lia.
Qed.

Lemma zipwith_snd {A B D} (f : B -> D) (a : list A) (b : list B) : length a = length b ->
  zipwith (fun _ y => f y) a b = map f b.
Proof.
  unfold zipwith. revert b; induction a as [|x a IH]; intros [|y b] H; cbn in *; try lia; auto.
  f_equal. apply IH. lia.
Qed.

Lemma eb_roundtrip_any m p s : length m = length p ->
  (let '(e, b) := spin2eb m p s in eb2spin e b) = (map (Cmul (parity s)) m, p).
Proof.
  intros H. unfold spin2eb, eb2spin. f_equal.
  - rewrite (zipwith2_id _ _ _ (fun m _ => Cmul (parity s) m)).
    + now apply zipwith_fst.
    + intros x y. now rewrite eb2spin_spin2eb1.
  - rewrite (zipwith2_id _ _ _ (fun _ p => p)).
    + rewrite (zipwith_snd (fun p => p)) by auto. apply map_id.
    + intros x y. now rewrite eb2spin_spin2eb1.
Qed.

Lemma eb_roundtrip m p s : length m = length p -> Z.even s = true ->
  (let '(e, b) := spin2eb m p s in eb2spin e b) = (m, p).
Proof.
  intros H Hs. rewrite eb_roundtrip_any by auto. unfold parity. rewrite Hs. f_equal.
  rewrite <- (map_id m) at 2. apply map_ext. intros. ring.
Qed.

Lemma spin_roundtrip e b s : length e = length b -> Z.even s = true ->
  (let '(m, p) := eb2spin e b in spin2eb m p s) = (e, b).
Proof.
  intros H Hs. unfold spin2eb, eb2spin. f_equal.
  - rewrite (zipwith2_id _ _ _ (fun e _ => e)).
    + rewrite (zipwith_fst (fun e => e)) by auto. apply map_id.
    + intros x y. now rewrite spin2eb_eb2spin1.
  - rewrite (zipwith2_id _ _ _ (fun _ p => p)).
    + rewrite (zipwith_snd (fun p => p)) by auto. apply map_id.
    + intros x y. now rewrite spin2eb_eb2spin1.
Qed.

(** ** [shift_blm] with E/B arrays *)

Lemma Cconj0 : Cconj (RtoC 0) = RtoC 0. Proof. apply Cconj_R. Qed.
Lemma Copp0 : Copp (RtoC 0) = RtoC 0. Proof. apply C_eq; cbn; ring. Qed.

Lemma real_head_modes L M f :
  real_head (L + 1) (of_modes L M f)
  = of_modes L M (fun l m => if (m =? 0)%nat then RtoC (Re (f l m)) else f l m).
Proof.
  unfold real_head, of_modes. rewrite Nat.add_1_r with (n := M). cbn [seq map concat].
  assert (H : length (row L f 0) = (L + 1)%nat) by (rewrite length_row; lia).
  rewrite <- H at 1 2. rewrite firstn_app, firstn_all, Nat.sub_diag. cbn [firstn].
  rewrite app_nil_r, skipn_app, skipn_all, Nat.sub_diag. cbn [skipn app].
  f_equal.
  - unfold row. rewrite map_map. reflexivity.
  - f_equal. apply map_ext_in. intros m Hm. apply in_seq in Hm. unfold row.
    apply map_ext. intros l. destruct (Nat.eqb_spec m 0); [lia|reflexivity].
Qed.

(** The spin coefficients of E/B coefficient functions. *)
Definition m2_of (e b : nat -> nat -> C) (l m : nat) : C := fst (eb2spin1 (e l m) (b l m)).
Definition p2_of (e b : nat -> nat -> C) (l m : nat) : C := snd (eb2spin1 (e l m) (b l m)).

Definition shifted_m2 e b s l m :=
  coef (RtoC 0) Cconj Copp (m2_of e b) (p2_of e b) l (Z.of_nat m + s).
Definition shifted_p2 e b s l m :=
  coef (RtoC 0) Cconj Copp (p2_of e b) (m2_of e b) l (Z.of_nat m - s).

Lemma shift_eb_raw L e b s : (s <= Z.of_nat L)%Z ->
  shift_blm_eb (of_modes L L e) (of_modes L L b) s
  = Ok (of_modes L L (fun l m =>
          let x := fst (spin2eb1 2 (shifted_m2 e b s l m) (shifted_p2 e b s l m)) in
          if (m =? 0)%nat then RtoC (Re x) else x),
        of_modes L L (fun l m =>
          let x := snd (spin2eb1 2 (shifted_m2 e b s l m) (shifted_p2 e b s l m)) in
          if (m =? 0)%nat then RtoC (Re x) else x)).
Proof.
  intros Hs. unfold shift_blm_eb. rewrite !length_of_modes, Nat.eqb_refl, getlmax_full. cbn [negb].
  destruct (Z.gtb_spec s (Z.of_nat L)); [lia|].
  unfold eb2spin. rewrite !zipwith_modes.
  change (fun l m => fst (eb2spin1 (e l m) (b l m))) with (m2_of e b).
  change (fun l m => snd (eb2spin1 (e l m) (b l m))) with (p2_of e b).
  rewrite (shift_blm_spec (RtoC 0) Cconj Copp Cconj0 Copp0) by lia. cbn [bind].
  unfold spin2eb. rewrite !zipwith_modes, !real_head_modes. reflexivity.
Qed.

Lemma pair_swap_even e b s l : Z.even s = true ->
  (s = 0%Z -> Im (e l 0%nat) = 0 /\ Im (b l 0%nat) = 0) ->
  shifted_p2 e b s l 0 = Cconj (shifted_m2 e b s l 0).
Proof.
  intros Hs H0. unfold shifted_p2, shifted_m2, coef.
  cbn [Z.of_nat]. rewrite Z.add_0_l, Z.sub_0_l, Z.abs_opp.
  destruct (Z.ltb_spec (Z.of_nat l) (Z.abs s)); [now rewrite Cconj0|].
  destruct (Z.leb_spec 0 s), (Z.leb_spec 0 (- s)); try lia.
  - assert (s = 0%Z) by lia. subst s. specialize (H0 eq_refl) as [He Hb].
    cbn [Z.opp Z.to_nat]. unfold p2_of, m2_of, eb2spin1. cbn [fst snd].
    destruct (e l 0%nat) as [e1 e2], (b l 0%nat) as [b1 b2]. cbn in He, Hb. subst.
    apply C_eq; cbn; ring.
  - rewrite Z.even_opp, Hs. now rewrite Z.opp_involutive.
  - rewrite Hs. now rewrite Cconj_conj.
Qed.

Lemma pair_swap_odd e b s l : Z.odd s = true ->
  shifted_p2 e b s l 0 = Copp (Cconj (shifted_m2 e b s l 0)).
Proof.
  intros Hs. unfold shifted_p2, shifted_m2, coef.
  assert (He : Z.even s = false) by (rewrite <- Z.negb_odd, Hs; reflexivity).
  cbn [Z.of_nat]. rewrite Z.add_0_l, Z.sub_0_l, Z.abs_opp.
  destruct (Z.ltb_spec (Z.of_nat l) (Z.abs s)); [now rewrite Cconj0, Copp0|].
  destruct (Z.leb_spec 0 s), (Z.leb_spec 0 (- s)); try lia.
  - assert (s = 0%Z) by lia. subst s. discriminate.
  - rewrite Z.even_opp, He. now rewrite Z.opp_involutive.
  - rewrite He. rewrite Cconj_opp, Cconj_conj. apply C_eq; cbn; ring.
Qed.

Lemma shift_eb_even L e b s : (s <= Z.of_nat L)%Z -> Z.even s = true ->
  (s = 0%Z -> forall l, (l <= L)%nat -> Im (e l 0%nat) = 0 /\ Im (b l 0%nat) = 0) ->
  exists e' b', shift_blm_eb (of_modes L L e) (of_modes L L b) s = Ok (e', b')
    /\ (let '(m2, p2) := eb2spin (of_modes L L e) (of_modes L L b) in
        shift_blm (RtoC 0) Cconj Copp m2 p2 s) = Ok (eb2spin e' b').
Proof.
  intros Hs He H0.
  exists (of_modes L L (fun l m => fst (spin2eb1 2 (shifted_m2 e b s l m) (shifted_p2 e b s l m)))),
         (of_modes L L (fun l m => snd (spin2eb1 2 (shifted_m2 e b s l m) (shifted_p2 e b s l m)))).
  split.
  - rewrite shift_eb_raw by auto. do 2 f_equal; apply of_modes_ext; intros l m _ Hl; cbv zeta;
      (destruct (Nat.eqb_spec m 0) as [->|]; [|reflexivity]);
      rewrite (pair_swap_even e b s l He) by (intros; apply H0; auto; lia);
      destruct (shifted_m2 e b s l 0) as [x y]; unfold spin2eb1, parity; cbn [Z.even fst snd];
      apply C_eq; unfold Cdiv, Cinv, Cnorm2; cbn; field.
  - unfold eb2spin at 1. rewrite !zipwith_modes.
    change (fun l m => fst (eb2spin1 (e l m) (b l m))) with (m2_of e b).
    change (fun l m => snd (eb2spin1 (e l m) (b l m))) with (p2_of e b).
    rewrite (shift_blm_spec (RtoC 0) Cconj Copp Cconj0 Copp0) by lia. unfold eb2spin.
    rewrite !zipwith_modes. do 2 f_equal; apply of_modes_ext; intros l m _ _;
      rewrite eb2spin_spin2eb1; cbn [fst snd]; unfold parity; cbn [Z.even].
    + unfold shifted_m2. ring.
    + reflexivity.
Qed.

Lemma shift_eb_odd L e b s l : (s <= Z.of_nat L)%Z -> Z.odd s = true -> (l <= L)%nat ->
  exists e' b', shift_blm_eb (of_modes L L e) (of_modes L L b) s = Ok (e', b')
    /\ nth_error e' l = Some (RtoC 0) /\ nth_error b' l = Some (RtoC 0).
Proof.
  intros Hs Ho Hl. rewrite shift_eb_raw by auto. eexists _, _. split; [reflexivity|].
  assert (N : forall f : nat -> nat -> C, nth_error (of_modes L L f) l = Some (f l 0%nat)).
  { intros f. pose proof (nth_modes L L f l 0 ltac:(lia) ltac:(lia)) as N. cbn [off] in N.
    now rewrite Nat.sub_0_r in N. }
  rewrite !N. cbv zeta. cbn [Nat.eqb].
  rewrite (pair_swap_odd e b s l Ho).
  destruct (shifted_m2 e b s l 0) as [x y]. unfold spin2eb1, parity. cbn [Z.even fst snd].
  split; f_equal; apply C_eq; unfold Cdiv, Cinv, Cnorm2; cbn; field.
Qed.

(** ** [scale_blm] *)

Definition qfac (dq : bool) (l : nat) : C := if dq then qell l else RtoC 1.

Lemma PI_2l_pos l : 0 < PI / (2 * INR l + 1).
Proof.
  apply Rdiv_lt_0_compat; [apply PI_RGT_0|]. pose proof (pos_INR l). lra.
Qed.

Lemma qell_neq l : qell l <> RtoC 0.
Proof.
  unfold qell. intros H. apply RtoC_inj in H.
  pose proof (sqrt_lt_R0 _ (PI_2l_pos l)). lra.
Qed.

Lemma qfac_neq dq l : qfac dq l <> RtoC 0.
Proof. destruct dq; cbn; [apply qell_neq|]. intros H. apply RtoC_inj in H. lra. Qed.

Lemma Cmul_neq a b : a <> RtoC 0 -> b <> RtoC 0 -> Cmul a b <> RtoC 0.
Proof.
  intros Ha Hb H. apply Ha.
  transitivity (Cmul (Cmul a b) (Cinv b)).
  - field. exact Hb.
  - rewrite H. ring.
Qed.

Lemma scale_blm_norm L f0 fs dq :
  scale_blm (map (of_modes L L) (f0 :: fs)) true dq
  = Ok (map (fun f => of_modes L L (fun l m =>
             (f l m * qfac dq l) / (f0 0%nat 0%nat * qfac dq 0))%C) (f0 :: fs)).
Proof.
  unfold scale_blm. cbn [negb andb map]. rewrite length_of_modes, getlmax_full.
  assert (E : (if dq then map (fun b => almxfl L b qell) (of_modes L L f0 :: map (of_modes L L) fs)
               else of_modes L L f0 :: map (of_modes L L) fs)
              = map (fun f => of_modes L L (fun l m => Cmul (f l m) (qfac dq l))) (f0 :: fs)).
  { destruct dq; cbn [map].
    - rewrite almxfl_modes, map_map. f_equal. apply map_ext. intros f. apply almxfl_modes.
    - f_equal; [|apply map_ext; intros f]; apply of_modes_ext; intros; cbn; ring. }
  cbn [map] in E |- *. rewrite E. clear E.
  destruct (of_modes_head L L (fun l m => Cmul (f0 l m) (qfac dq l))) as [rest Er].
  rewrite Er. rewrite <- Er. cbn [map]. rewrite map_modes. f_equal. f_equal.
  rewrite map_map. apply map_ext. intros f. apply map_modes.
Qed.

Lemma scale_blm_deconv L fs : fs <> [] ->
  scale_blm (map (of_modes L L) fs) false true
  = Ok (map (fun f => of_modes L L (fun l m => (f l m * qell l)%C)) fs).
Proof.
  intros H. destruct fs as [|f0 fs]; [congruence|].
  unfold scale_blm. cbn [negb andb map]. rewrite length_of_modes, getlmax_full.
  rewrite almxfl_modes, map_map. f_equal. f_equal. apply map_ext. intros f. apply almxfl_modes.
Qed.

Lemma scale_blm_off rows : scale_blm rows false false = Ok rows.
Proof. reflexivity. Qed.

Lemma scale_blm_monopole L f0 fs dq : f0 0%nat 0%nat <> RtoC 0 ->
  exists b0 rest, scale_blm (map (of_modes L L) (f0 :: fs)) true dq = Ok ((RtoC 1 :: b0) :: rest).
Proof.
  intros H. rewrite scale_blm_norm. cbn [map].
  destruct (of_modes_head L L (fun l m => ((f0 l m * qfac dq l) / (f0 0%nat 0%nat * qfac dq 0))%C))
    as [r Er].
  rewrite Er. eexists _, _. do 3 f_equal.
  field. split; [apply qfac_neq|exact H].
Qed.

Lemma scale_norm_factor L k f0 fs dq : k <> RtoC 0 -> f0 0%nat 0%nat <> RtoC 0 ->
  scale_blm (map (scale_all k) (map (of_modes L L) (f0 :: fs))) true dq
  = scale_blm (map (of_modes L L) (f0 :: fs)) true dq.
Proof.
  intros Hk H0.
  assert (E : map (scale_all k) (map (of_modes L L) (f0 :: fs))
              = map (of_modes L L) (map (fun f l m => Cmul k (f l m)) (f0 :: fs))).
  { rewrite !map_map. apply map_ext. intros f. unfold scale_all. apply map_modes. }
  rewrite E. cbn [map].
  pose proof (scale_blm_norm L f0 fs dq) as E1.
  pose proof (scale_blm_norm L (fun l m => Cmul k (f0 l m))
                (map (fun f l m => Cmul k (f l m)) fs) dq) as E2.
  cbn [map] in E1, E2. rewrite E1, E2. f_equal. f_equal.
  - apply of_modes_ext. intros l m _ _. field. split; [apply qfac_neq|split; assumption].
  - rewrite map_map. apply map_ext. intros f. apply of_modes_ext. intros l m _ _.
    field. split; [apply qfac_neq|split; assumption].
Qed.

Lemma scale_norm_idem L f0 fs dq : f0 0%nat 0%nat <> RtoC 0 ->
  (do r <- scale_blm (map (of_modes L L) (f0 :: fs)) true dq; scale_blm r true false)
  = scale_blm (map (of_modes L L) (f0 :: fs)) true dq.
Proof.
  intros H0. rewrite scale_blm_norm. cbn [bind map].
  rewrite <- (map_map (fun f l m => ((f l m * qfac dq l) / (f0 0%nat 0%nat * qfac dq 0))%C)
                (of_modes L L)).
  pose proof (scale_blm_norm L
     (fun l m => ((f0 l m * qfac dq l) / (f0 0%nat 0%nat * qfac dq 0))%C)
     (map (fun f l m => ((f l m * qfac dq l) / (f0 0%nat 0%nat * qfac dq 0))%C) fs) false) as E.
  cbn [map] in E. rewrite E. clear E. f_equal. f_equal.
  - apply of_modes_ext. intros l m _ _. cbn [qfac]. field.
    split; [apply qfac_neq|split; [exact H0|intros X; injection X; lra]].
  - rewrite !map_map. apply map_ext. intros f. apply of_modes_ext. intros l m _ _. cbn [qfac]. field.
    split; [apply qfac_neq|split; [exact H0|intros X; injection X; lra]].
Qed.

(** ** Amplitudes *)

Lemma times_amp_scale amp x : times_amp amp x = scale_all (RtoC amp) x.
Proof.
  unfold times_amp. destruct (Req_EM_T amp 1) as [->|]; auto.
  unfold scale_all. rewrite <- (map_id x) at 1. apply map_ext. intros. ring.
Qed.

Lemma scale_all_modes k L M f : scale_all k (of_modes L M f) = of_modes L M (fun l m => Cmul k (f l m)).
Proof. apply map_modes. Qed.

Lemma coef_scale k own other l m :
  coef (RtoC 0) Cconj Copp (fun l m => Cmul (RtoC k) (own l m)) (fun l m => Cmul (RtoC k) (other l m)) l m
  = Cmul (RtoC k) (coef (RtoC 0) Cconj Copp own other l m).
Proof.
  unfold coef. destruct (_ <? _)%Z; [ring|]. destruct (_ <=? _)%Z; [ring|].
  destruct (Z.even m); rewrite Cconj_mul, Cconj_R; ring.
Qed.

Lemma coef_ext own other own' other' l m :
  (forall l m, own l m = own' l m) -> (forall l m, other l m = other' l m) ->
  coef (RtoC 0) Cconj Copp own other l m = coef (RtoC 0) Cconj Copp own' other' l m.
Proof. intros H1 H2. unfold coef. now rewrite H1, H2. Qed.

Lemma unpol_scale L k b : (1 <= L)%nat ->
  unpol2pol (RtoC 0) Cconj Copp (scale_all (RtoC k) (of_modes L L b))
  = do (m2, p2) <- unpol2pol (RtoC 0) Cconj Copp (of_modes L L b);
    Ok (scale_all (RtoC k) m2, scale_all (RtoC k) p2).
Proof.
  intros HL. rewrite scale_all_modes.
  rewrite !(unpol2pol_spec (RtoC 0) Cconj Copp) by exact HL.
  cbn [bind]. rewrite !scale_all_modes.
  do 2 f_equal; apply of_modes_ext; intros l m _ _; unfold pol_m2, pol_p2;
    (destruct (l <? 2)%nat; [ring|apply coef_scale]).
Qed.

Lemma scale_one_modes L b dq :
  scale_blm [of_modes L L b] false dq = Ok [of_modes L L (fun l m => Cmul (b l m) (qfac dq l))].
Proof.
  destruct dq.
  - exact (scale_blm_deconv L [b] ltac:(discriminate)).
  - rewrite scale_blm_off. do 2 f_equal. apply of_modes_ext. intros; cbn; ring.
Qed.

Definition amplified (amp : R) (r : res (list (list C) * nat)) : res (list (list C) * nat) :=
  do (rows, mmax) <- r; Ok (map (scale_all (RtoC amp)) rows, mmax).

Lemma load_amp_polarised f amp cp norm dq mm rows mm' :
  read_file f mm = Ok (rows, mm') ->
  (length rows = 3%nat \/ length rows = 4%nat /\ cp = true) ->
  load_blm f amp cp norm dq mm = amplified amp (load_blm f 1 cp norm dq mm).
Proof.
  intros Hr Hn. unfold load_blm, amplified. rewrite Hr. cbn [bind].
  assert (E : ((length rows =? 3)%nat || (length rows =? 4)%nat && cp) = true).
  { destruct Hn as [->|[-> ->]]; reflexivity. }
  rewrite E. destruct (scale_blm rows norm dq) as [rs|e]; cbn [bind]; [|reflexivity].
  do 2 f_equal. rewrite map_map. apply map_ext. intros x. rewrite !times_amp_scale.
  unfold scale_all. rewrite map_map. apply map_ext. intros. ring.
Qed.

Lemma load_copol f amp cp norm dq mm rows b mm' :
  read_file f mm = Ok (b :: rows, mm') ->
  (length (b :: rows) <> 3%nat) -> (length (b :: rows) = 4%nat -> cp = false) ->
  load_blm f amp cp norm dq mm
  = do (r, p2) <- get_copol_blm (scale_all (RtoC amp) b) None norm dq;
    let '(b, m2) := r in Ok ([b; m2; p2], mm').
Proof.
  intros Hr H3 H4. unfold load_blm. rewrite Hr. cbn [bind].
  assert (E : ((length (b :: rows) =? 3)%nat || (length (b :: rows) =? 4)%nat && cp) = false).
  { destruct (Nat.eqb_spec (length (b :: rows)) 3); [contradiction|].
    destruct (Nat.eqb_spec (length (b :: rows)) 4) as [e|]; [|reflexivity].
    rewrite (H4 e). reflexivity. }
  rewrite E. rewrite times_amp_scale. reflexivity.
Qed.

Lemma load_amp_copol L f amp cp dq mm rows b mm' : (1 <= L)%nat ->
  read_file f mm = Ok (of_modes L L b :: rows, mm') ->
  (length rows <> 2%nat) -> (length rows = 3%nat -> cp = false) ->
  load_blm f amp cp false dq mm = amplified amp (load_blm f 1 cp false dq mm).
Proof.
  intros HL Hr H3 H4.
  rewrite !(load_copol f _ cp false dq mm rows (of_modes L L b) mm') by (auto; cbn; intros; try lia; apply H4; lia).
  unfold amplified, get_copol_blm. rewrite !scale_all_modes, !scale_one_modes. cbn [bind].
  rewrite !(unpol2pol_spec (RtoC 0) Cconj Copp) by exact HL. cbn [bind map].
  rewrite !scale_all_modes.
  f_equal. f_equal. f_equal; [|f_equal; [|f_equal]]; apply of_modes_ext; intros l m _ _.
  - ring.
  - unfold pol_m2. destruct (l <? 2)%nat; [ring|]. rewrite <- coef_scale.
    apply coef_ext; intros; ring.
  - unfold pol_p2. destruct (l <? 2)%nat; [ring|]. rewrite <- coef_scale.
    apply coef_ext; intros; ring.
Qed.

Lemma load_amp_lost L f amp cp dq mm rows b mm' : (1 <= L)%nat -> amp <> 0 ->
  b 0%nat 0%nat <> RtoC 0 ->
  read_file f mm = Ok (of_modes L L b :: rows, mm') ->
  (length rows <> 2%nat) -> (length rows = 3%nat -> cp = false) ->
  load_blm f amp cp true dq mm = load_blm f 1 cp true dq mm.
Proof.
  intros HL Ha Hb Hr H3 H4.
  rewrite !(load_copol f _ cp true dq mm rows (of_modes L L b) mm') by (auto; cbn; intros; try lia; apply H4; lia).
  unfold get_copol_blm.
  assert (H1 : forall k, k <> 0 -> scale_blm [scale_all (RtoC k) (of_modes L L b)] true dq
                               = scale_blm [of_modes L L b] true dq).
  { intros k Hk. apply (scale_norm_factor L (RtoC k) b [] dq); auto.
    intros H. apply RtoC_inj in H. auto. }
  rewrite !H1 by (auto; lra). reflexivity.
Qed.

(** ** Cross-polar response *)

(** [cross_pol=False] with three components keeps the components of the file. *)
Lemma load_three_ignores_cross_pol f amp cp norm dq mm rows mm' :
  read_file f mm = Ok (rows, mm') -> length rows = 3%nat ->
  load_blm f amp cp norm dq mm = load_blm f amp (negb cp) norm dq mm.
Proof. intros Hr Hn. unfold load_blm. rewrite Hr. cbn [bind]. rewrite Hn. reflexivity. Qed.

Lemma load_four_copol f amp norm dq mm b r1 r2 r3 mm' :
  read_file f mm = Ok ([b; r1; r2; r3], mm') ->
  load_blm f amp false norm dq mm
  = do (rows, _) <- load_blm (Npy [b]) amp false norm dq mm; Ok (rows, mm').
Proof.
  intros Hr. rewrite (load_copol f amp false norm dq mm [r1; r2; r3] b mm') by (auto; discriminate).
  rewrite (load_copol (Npy [b]) amp false norm dq mm [] b mm) by (reflexivity || discriminate).
  destruct (get_copol_blm (scale_all (RtoC amp) b) None norm dq) as [[[x y] z]|]; reflexivity.
Qed.

(** ** Files with limited azimuthal modes *)

Definition limited (M : nat) (f : nat -> nat -> C) (l m : nat) : C :=
  if (m <=? M)%nat then f l m else RtoC 0.

Lemma expand_like_spec L M f g : (M <= L)%nat ->
  expand_like (of_modes L L g) (of_modes L M f) = Ok (of_modes L L (limited M f)).
Proof.
  intros H. unfold expand_like. rewrite length_of_modes.
  pose proof (expand_blm_spec (RtoC 0) L M f H) as E. unfold expand_blm in E.
  rewrite length_of_modes, getlmax_part, getsize_off in E by lia.
  rewrite length_of_modes. exact E.
Qed.

Lemma read_fits_1 L M f mm : (M <= L)%nat ->
  read_file (Fits [(of_modes L M f, M)]) mm
  = Ok ([of_modes L L (limited M f)], Nat.min M mm).
Proof.
  intros H. unfold read_file. rewrite expand_blm_spec by exact H. cbn [bind].
  f_equal. f_equal. destruct (Nat.ltb_spec M mm); lia.
Qed.

Lemma read_fits_3 L M f g h mm : (M <= L)%nat ->
  read_file (Fits [(of_modes L M f, M); (of_modes L M g, M); (of_modes L M h, M)]) mm
  = Ok ([of_modes L L (limited M f); of_modes L L (limited M g); of_modes L L (limited M h)],
        Nat.min M mm).
Proof.
  intros H. unfold read_file. rewrite expand_blm_spec by exact H. cbn [bind].
  rewrite !Nat.eqb_refl. cbn [andb negb].
  rewrite !(expand_like_spec L M) by exact H. cbn [bind].
  f_equal. f_equal. destruct (Nat.ltb_spec M mm); lia.
Qed.

Lemma read_fits_4 L M f g h v mm : (M <= L)%nat ->
  read_file (Fits [(of_modes L M f, M); (of_modes L M g, M); (of_modes L M h, M);
                   (of_modes L M v, M)]) mm
  = Ok ([of_modes L L (limited M f); of_modes L L (limited M g); of_modes L L (limited M h);
         of_modes L L (limited M v)], Nat.min M mm).
Proof.
  intros H. unfold read_file. rewrite expand_blm_spec by exact H. cbn [bind].
  rewrite !Nat.eqb_refl. cbn [andb negb].
  rewrite !(expand_like_spec L M) by exact H. cbn [bind].
  f_equal. f_equal. destruct (Nat.ltb_spec M mm); lia.
Qed.

Lemma read_fits_mmax_differ b m2 p2 rest M M2 Mp L mm : getlmax (length b) (Some M) = Some L ->
  (M <= L)%nat -> ~ (M = M2 /\ M2 = Mp) -> length b = off L (M + 1) ->
  read_file (Fits ((b, M) :: (m2, M2) :: (p2, Mp) :: rest)) mm = Err ValueError.
Proof.
  intros Hl HM Hd Hb. unfold read_file.
  rewrite (array_of_modes (RtoC 0) L M b HM Hb), expand_blm_spec by exact HM. cbn [bind].
  destruct (Nat.eqb_spec M M2), (Nat.eqb_spec M2 Mp); cbn; try reflexivity. exfalso. auto.
Qed.

(** The V component is not checked: its mmax may differ, and its modes are then
    misplaced. *)
Definition vrow : nat -> nat -> C := fun l m => RtoC (INR (10 * l + m)).
Lemma read_fits_v_misplaced :
  exists rows mm', read_file (Fits [(of_modes 2 2 vrow, 2%nat); (of_modes 2 2 vrow, 2%nat);
                     (of_modes 2 2 vrow, 2%nat); (of_modes 1 1 vrow, 1%nat)]) 2 = Ok (rows, mm')
  /\ nth_error rows 3 = Some [vrow 0 0; vrow 1 0; vrow 1 1; RtoC 0; RtoC 0; RtoC 0]%nat
  /\ of_modes 2 2 (fun l m => if (l <=? 1)%nat then vrow l m else RtoC 0)
     = [vrow 0 0; vrow 1 0; RtoC 0; vrow 1 1; RtoC 0; RtoC 0]%nat.
Proof. eexists _, _. split; [reflexivity|]. split; reflexivity. Qed.

(** ** Co-polar beams and Gaussians *)

Lemma pol_beam_no_u L b : (1 <= L)%nat ->
  get_pol_beam (of_modes L L b) (of_modes L L (fun _ _ => RtoC 0)) false false
  = unpol2pol (RtoC 0) Cconj Copp (of_modes L L b).
Proof.
  intros HL. unfold get_pol_beam. rewrite !scale_blm_off. cbn [bind].
  rewrite !(unpol2pol_spec (RtoC 0) Cconj Copp) by exact HL. cbn [bind].
  rewrite !zipwith_modes.
  assert (Z0 : forall l m, coef (RtoC 0) Cconj Copp (fun _ _ => RtoC 0) (fun _ _ => RtoC 0) l m = RtoC 0).
  { intros l m. unfold coef. repeat destruct (_ <? _)%Z; auto. destruct (_ <=? _)%Z; auto.
    destruct (Z.even m); rewrite Cconj0; auto using Copp0. }
  do 2 f_equal; apply of_modes_ext; intros l m _ _; unfold pol_m2, pol_p2; rewrite Z0;
    destruct (l <? 2)%nat; ring.
Qed.

Lemma pol_beam_spec L q u : (1 <= L)%nat ->
  get_pol_beam (of_modes L L q) (of_modes L L u) false false
  = Ok (of_modes L L (fun l m => (pol_m2 (RtoC 0) Cconj Copp q l m
                                  + Ci * pol_m2 (RtoC 0) Cconj Copp u l m)%C),
        of_modes L L (fun l m => (pol_p2 (RtoC 0) Cconj Copp q l m
                                  - Ci * pol_p2 (RtoC 0) Cconj Copp u l m)%C)).
Proof.
  intros HL. unfold get_pol_beam. rewrite !scale_blm_off. cbn [bind].
  rewrite !(unpol2pol_spec (RtoC 0) Cconj Copp) by exact HL. cbn [bind].
  rewrite !zipwith_modes. reflexivity.
Qed.

Lemma gauss_copol L bell : (1 <= L)%nat -> length bell = (L + 1)%nat ->
  exists b m2, gauss_blm (RtoC 0) L (map RtoC bell) = Ok (b, m2)
    /\ unpol2pol (RtoC 0) Cconj Copp b = Ok (m2, of_modes L L (fun _ _ => RtoC 0)).
Proof.
  intros HL Hb. rewrite gauss_blm_spec by (rewrite map_length; exact Hb).
  eexists _, _. split; [reflexivity|].
  rewrite (unpol2pol_spec (RtoC 0) Cconj Copp) by exact HL.
  do 2 f_equal; apply of_modes_ext; intros l m Hm Hl; unfold pol_m2, pol_p2.
  - destruct (Nat.ltb_spec l 2).
    { destruct (Nat.eqb_spec m 2); [lia|reflexivity]. }
    unfold coef. destruct (Z.ltb_spec (Z.of_nat l) (Z.abs (Z.of_nat m - 2))).
    { destruct (Nat.eqb_spec m 2); [lia|reflexivity]. }
    destruct (Z.leb_spec 0 (Z.of_nat m - 2)).
    + destruct (Nat.eqb_spec (Z.to_nat (Z.of_nat m - 2)) 0), (Nat.eqb_spec m 2); auto; lia.
    + destruct (Nat.eqb_spec (Z.to_nat (- (Z.of_nat m - 2))) 0), (Nat.eqb_spec m 2); try lia.
      rewrite Cconj0. destruct (Z.even _); auto using Copp0.
  - destruct (Nat.ltb_spec l 2); [reflexivity|].
    unfold coef. destruct (Z.ltb_spec (Z.of_nat l) (Z.abs (Z.of_nat m + 2))); [reflexivity|].
    destruct (Z.leb_spec 0 (Z.of_nat m + 2)); [|lia].
    destruct (Nat.eqb_spec (Z.to_nat (Z.of_nat m + 2)) 0); auto; lia.
Qed.

(** ** Arguments are not preserved by [scale_blm] *)

Lemma scale_blm_mutates :
  scale_blm_arg [of_modes 1 1 (fun _ _ => RtoC 2)] true false
  <> [of_modes 1 1 (fun _ _ => RtoC 2)].
Proof.
  unfold scale_blm_arg. pose proof (scale_blm_norm 1 (fun _ _ => RtoC 2) [] false) as E.
  cbn [map] in E. rewrite E. intros H.
  apply (f_equal (fun x => match x with (z :: _) :: _ => Re z | _ => 0 end)) in H.
  cbn in H. unfold Cnorm2 in H. cbn in H. field_simplify in H. lra.
Qed.

(** ** Remaining facts used by the property file *)

Lemma odd_witness : exists e b : nat -> nat -> C,
  coef (RtoC 0) Cconj Copp (m2_of e b) (p2_of e b) 1 (0 + 1) <> RtoC 0.
Proof.
  exists (fun _ _ => RtoC 1), (fun _ _ => RtoC 0). cbn. intros H.
  apply (f_equal Re) in H. cbn in H. lra.
Qed.

Lemma pol_beam_full L q : (1 <= L)%nat ->
  get_pol_beam (of_modes L L q) (of_modes L L (fun _ _ => RtoC 0)) false false
  = unpol2pol (RtoC 0) Cconj Copp (of_modes L L q)
  /\ forall u, exists mq pq mu pu mr pr,
     unpol2pol (RtoC 0) Cconj Copp (of_modes L L q) = Ok (of_modes L L mq, of_modes L L pq)
     /\ unpol2pol (RtoC 0) Cconj Copp (of_modes L L u) = Ok (of_modes L L mu, of_modes L L pu)
     /\ get_pol_beam (of_modes L L q) (of_modes L L u) false false
        = Ok (of_modes L L mr, of_modes L L pr)
     /\ (forall l m, mr l m = mq l m + Ci * mu l m)%C
     /\ (forall l m, pr l m = pq l m - Ci * pu l m)%C.
Proof.
  intros HL. split; [now apply pol_beam_no_u|]. intros u.
  do 6 eexists. repeat split;
    [apply (unpol2pol_spec (RtoC 0) Cconj Copp L q HL)
    |apply (unpol2pol_spec (RtoC 0) Cconj Copp L u HL)|now apply pol_beam_spec].
Qed.

Lemma eb_roundtrip_odd m p s : length m = length p -> Z.odd s = true ->
  (let '(e, b) := spin2eb m p s in eb2spin e b) = (map Copp m, p).
Proof.
  intros H Hs. rewrite eb_roundtrip_any by auto. unfold parity.
  rewrite <- Z.negb_odd, Hs. cbn [negb]. f_equal. apply map_ext. intros [x y].
  apply C_eq; cbn; ring.
Qed.

Lemma eb2spin_example : eb2spin [RtoC 1] [RtoC 2] = ([(-1, 2)], [(-1, -2)]).
Proof. unfold eb2spin, zipwith; cbn. do 2 f_equal; apply C_eq; cbn; ring. Qed.

Lemma read_fits_mmax_differ' L M M2 Mp f m2 p2 rest mm : (M <= L)%nat ->
  ~ (M = M2 /\ M2 = Mp) ->
  read_file (Fits ((of_modes L M f, M) :: (m2, M2) :: (p2, Mp) :: rest)) mm = Err ValueError.
Proof.
  intros HM Hd. apply (read_fits_mmax_differ _ _ _ _ _ _ _ L); auto.
  - rewrite length_of_modes. now apply getlmax_part.
  - apply length_of_modes.
Qed.

Lemma blm2bl_row L (f : nat -> nat -> C) m : (m <= L)%nat ->
  blm2bl (RtoC 0) (of_modes L L f) (Z.of_nat m) false
  = Ok (map (fun l => f l m) (seq m (L + 1 - m)))
  /\ blm2bl (RtoC 0) (of_modes L L f) (Z.of_nat m) true
  = Ok (map (fun l => if (l <? m)%nat then RtoC 0 else f l m) (seq 0 (L + 1))).
Proof.
  intros H. rewrite !blm2bl_spec by exact H. split; [reflexivity|]. f_equal.
  replace (L + 1)%nat with (m + (L + 1 - m))%nat at 2 by lia.
  rewrite seq_app, map_app. f_equal.
  - rewrite <- (map_const_seq (RtoC 0) 0 m). apply map_ext_in. intros l Hl. apply in_seq in Hl.
    destruct (Nat.ltb_spec l m); [reflexivity|lia].
  - apply map_ext_in. intros l Hl. apply in_seq in Hl.
    destruct (Nat.ltb_spec l m); [lia|reflexivity].
Qed.

Lemma cross_polar_kept : exists f copolar kept,
    read_file (Npy f) 2 = Ok (f, 2%nat)
    /\ load_blm (Npy (firstn 1 f)) 1 false false false 2 = Ok (copolar, 2%nat)
    /\ load_blm (Npy f) 1 false false false 2 = Ok (kept, 2%nat)
    /\ copolar <> kept.
Proof.
  exists [of_modes 2 2 (fun _ _ => RtoC 1); of_modes 2 2 (fun _ _ => RtoC 5);
          of_modes 2 2 (fun _ _ => RtoC 5)].
  set (f := [_; _; _]).
  pose proof (load_copol (Npy (firstn 1 f)) 1 false false false 2 [] _ 2 eq_refl
                ltac:(discriminate) ltac:(discriminate)) as E.
  unfold get_copol_blm in E. rewrite scale_blm_off in E. cbn [bind] in E.
  rewrite scale_all_modes in E.
  rewrite (unpol2pol_spec (RtoC 0) Cconj Copp 2) in E by lia. cbn [bind] in E.
  eexists _, _. split; [reflexivity|]. split; [exact E|]. split.
  - unfold load_blm, f. cbn [read_file bind length Nat.eqb orb]. rewrite scale_blm_off. cbn [bind].
    reflexivity.
  - intros H. apply (f_equal (fun x => match x with _ :: (z :: _) :: _ => Re z | _ => 0 end)) in H.
    cbn [map] in H. rewrite !times_amp_scale, !scale_all_modes in H. cbn in H. lra.
Qed.

Lemma gauss_profile L bell : length bell = (L + 1)%nat ->
  gauss_blm (RtoC 0) L (map RtoC bell)
  = Ok (of_modes L L (fun l m => if (m =? 0)%nat then RtoC (nth l bell 0) else RtoC 0),
        of_modes L L (fun l m => if (m =? 2)%nat then RtoC (nth l bell 0) else RtoC 0)).
Proof.
  intros H. rewrite gauss_blm_spec by (rewrite map_length; exact H).
  do 2 f_equal; apply of_modes_ext; intros; now rewrite map_nth.
Qed.
