(** * Random deviations of detector properties *)
From Coq Require Import Reals String Lra Bool.
From Verif Require Import Common LibList M_Beam M_Focal S_Focal L_Beam L_Ghost L_Focal L_FocalOps L_FocalThm L_FocalRef M_Random S_Random.
Local Notation length := List.length.
Open Scope R_scope.

Lemma setattr_ok h r k v : plain k = true -> k <> "dead"%string -> (r < length h)%nat ->
  exists h', setattr h r k v = Ok h' /\ same_meta h h'
    /\ forall r' k', getattr h' r' k' = if (Nat.eqb r' r && (k' =? k)%string)%bool then Some v else getattr h r' k'.
Proof.
  intros P D L. assert (X : exists h', setattr h r k v = Ok h').
  { unfold setattr. destruct (String.eqb_spec k "dead"); [congruence|]. unfold set_obj, index.
    destruct (nth_error h r) as [b|] eqn:E; [|apply nth_error_None in E; lia]. cbn [bind].
    unfold plain in P. apply negb_true_iff in P. cbn [existsb] in P.
    repeat (apply orb_false_iff in P as [? P]). unfold set1, read_only.
    rewrite !(String.eqb_sym k). repeat match goal with H : (_ =? _)%string = false |- _ => rewrite H; clear H end.
    cbn [orb bind]. eauto. }
  destruct X as [h' E]. exists h'. split; [exact E|]. split; [eapply setattr_meta; eauto|].
  intros. eapply setattr_plain; eauto.
Qed.

Lemma getattr_lt h r k v : getattr h r k = Some v -> (r < length h)%nat.
Proof. unfold getattr. destruct (nth_error h r) eqn:E; [|discriminate]. intros _. apply nth_error_Some. congruence. Qed.
Lemma getattr_beam h r k v : getattr h r k = Some v -> exists b, index h r = Ok b /\ attrs b k = Some v.
Proof. unfold getattr, index. destruct (nth_error h r); [|discriminate]. eauto. Qed.

Definition numbered_at (h : heap) (r : nat) (prop : list (string * R)) : Prop :=
  forall k, In k (map fst prop) -> plain k = true /\ k <> "dead"%string /\ exists v, getattr h r k = Some (VNum v).

Lemma shift_props_ok mean z prop : forall h n r, NoDup (map fst prop) -> numbered_at h r prop ->
  exists h', shift_props mean z h n r prop = Ok (h', (n + length prop)%nat) /\ same_meta h h'
    /\ (forall r' k, r' <> r \/ ~ In k (map fst prop) -> getattr h' r' k = getattr h r' k)
    /\ (forall j k s v, nth_error prop j = Some (k, s) -> getattr h r k = Some (VNum v) ->
         getattr h' r k = Some (VNum (v + (mean + z (n + j)%nat) * s))).
Proof.
  induction prop as [|[key s] prop IH]; intros h n r ND NA.
  - exists h. cbn [shift_props length]. rewrite Nat.add_0_r. split; [reflexivity|]. split; [apply same_meta_refl|].
    split; [auto|]. intros [|j]; discriminate.
  - inversion ND as [|? ? Nk ND']; subst. destruct (NA key (or_introl eq_refl)) as (P & D & v & Hv).
    destruct (getattr_beam _ _ _ _ Hv) as (b & Hb & Ab).
    cbn [shift_props]. rewrite Hb. cbn [bind]. unfold aget. rewrite Ab. cbn [bind vnum].
    destruct (setattr_ok h r key (VNum (v + (mean + z n) * s)) P D (getattr_lt _ _ _ _ Hv)) as (h1 & E1 & M1 & G1).
    rewrite E1. cbn [bind].
    assert (G1k : forall k, In k (map fst prop) -> getattr h1 r k = getattr h r k).
    { intros k Hk. rewrite G1, Nat.eqb_refl. destruct (String.eqb_spec k key) as [->|]; [tauto|reflexivity]. }
    destruct (IH h1 (S n) r ND') as (h' & E & M & A & B).
    { intros k Hk. destruct (NA k (or_intror Hk)) as (P' & D' & v' & Hv'). split; auto. split; auto.
      exists v'. rewrite G1k; auto. }
    exists h'. rewrite E. split; [do 2 f_equal; cbn; lia|]. split; [eapply same_meta_trans; eauto|]. split.
    + intros r' k Hn. rewrite A, G1.
      * destruct (Nat.eqb_spec r' r), (String.eqb_spec k key); cbn; auto. destruct Hn as [Hn|Hn]; [tauto|].
        exfalso. apply Hn. now left.
      * destruct Hn as [Hn|Hn]; auto. right. intros H. apply Hn. now right.
    + intros [|j] k s' v' Hj Hv'; cbn in Hj.
      * injection Hj as <- <-. rewrite A by (right; exact Nk). rewrite G1, Nat.eqb_refl, String.eqb_refl. cbn.
        rewrite Hv in Hv'. injection Hv' as ->. now rewrite Nat.add_0_r.
      * assert (Ik : In k (map fst prop)) by (apply nth_error_In in Hj; apply (in_map fst) in Hj; exact Hj).
        replace (n + S j)%nat with (S n + j)%nat by lia. apply (B j k s' v' Hj). rewrite G1k; auto.
Qed.

Fixpoint shift_items (z : nat -> R) (prop : list (string * R)) (h : heap) (n : nat) (l : list (nat * R)) : res (heap * nat) :=
  match l with
  | [] => Ok (h, n)
  | (r, mean) :: l => do (h, n) <- shift_props mean z h n r prop; shift_items z prop h n l
  end.

Lemma shift_items_app z prop l1 : forall h n l2,
  shift_items z prop h n (l1 ++ l2)%list = do (h, n) <- shift_items z prop h n l1; shift_items z prop h n l2.
Proof.
  induction l1 as [|[r m] l1 IH]; intros; cbn [app shift_items bind]; [reflexivity|].
  destruct (shift_props m z h n r prop) as [[h1 n1]|]; cbn [bind]; [apply IH|reflexivity].
Qed.

Lemma shift_items_ok z prop l : forall h n, NoDup (map fst prop) -> NoDup (map fst l) ->
  (forall r, In r (map fst l) -> numbered_at h r prop) ->
  exists h', shift_items z prop h n l = Ok (h', (n + length l * length prop)%nat) /\ same_meta h h'
    /\ (forall r k, ~ In r (map fst l) \/ ~ In k (map fst prop) -> getattr h' r k = getattr h r k)
    /\ (forall i r mean j k s v, nth_error l i = Some (r, mean) -> nth_error prop j = Some (k, s) ->
         getattr h r k = Some (VNum v) ->
         getattr h' r k = Some (VNum (v + (mean + z (n + (i * length prop + j))%nat) * s))).
Proof.
  induction l as [|[r mean] l IH]; intros h n ND NR NA.
  - exists h. cbn [shift_items length Nat.mul]. rewrite Nat.add_0_r. split; [reflexivity|]. split; [apply same_meta_refl|].
    split; [auto|]. intros [|i]; discriminate.
  - cbn [map fst] in NR. inversion NR as [|? ? Nr NR']; subst. cbn [shift_items].
    destruct (shift_props_ok mean z prop h n r ND (NA r (or_introl eq_refl))) as (h1 & E1 & M1 & A1 & B1).
    rewrite E1. cbn [bind].
    assert (G1 : forall r', In r' (map fst l) -> forall k, getattr h1 r' k = getattr h r' k).
    { intros r' Hr' k. apply A1. left. intros ->. tauto. }
    destruct (IH h1 (n + length prop)%nat ND NR') as (h' & E & M & A & B).
    { intros r' Hr' k Hk. destruct (NA r' (or_intror Hr') k Hk) as (P & D & v & Hv). split; auto. split; auto.
      exists v. rewrite G1; auto. }
    exists h'. rewrite E. split; [do 2 f_equal; cbn [length]; lia|]. split; [eapply same_meta_trans; eauto|]. split.
    + intros r' k Hn. rewrite A, A1; auto.
      * destruct Hn as [Hn|Hn]; auto. left. intros ->. apply Hn. now left.
      * destruct Hn as [Hn|Hn]; auto. left. intros H. apply Hn. now right.
    + intros [|i] r' m j k s v Hi Hj Hv; cbn in Hi.
      * injection Hi as <- <-. rewrite A by (left; exact Nr). rewrite (B1 j k s v Hj Hv). reflexivity.
      * assert (Ir : In r' (map fst l)) by (apply nth_error_In in Hi; apply (in_map fst) in Hi; exact Hi).
        replace (n + (S i * length prop + j))%nat with (n + length prop + (i * length prop + j))%nat by (cbn; lia). apply (B i r' m j k s v Hi Hj). rewrite G1; auto.
Qed.

Definition items_of (h : heap) (ig : bool) (rs : list nat) : list (nat * R) :=
  flat_map (fun r => (r, 1) :: map (fun g => (g, 0)) (if ig then ghosts_of h r else [])) rs.

Lemma shift_ghosts_items z prop gs : forall h n,
  shift_ghosts z prop h n gs = shift_items z prop h n (map (fun g => (g, 0)) gs).
Proof.
  induction gs as [|g gs IH]; intros; cbn; [reflexivity|].
  destruct (shift_props 0 z h n g prop) as [[h1 n1]|]; cbn [bind]; auto.
Qed.

Lemma shift_props_meta mean z prop : forall h n r h' n',
  shift_props mean z h n r prop = Ok (h', n') -> same_meta h h'.
Proof.
  induction prop as [|[k s] prop IH]; intros h n r h' n' H; cbn [shift_props] in H.
  - injection H as <- <-. apply same_meta_refl.
  - apply bind_ok in H as (b & _ & H). apply bind_ok in H as (v & _ & H). apply bind_ok in H as (w & _ & H).
    apply bind_ok in H as (h1 & H1 & H). apply setattr_meta in H1. eapply same_meta_trans; eauto.
Qed.
Lemma shift_items_meta z prop l : forall h n h' n',
  shift_items z prop h n l = Ok (h', n') -> same_meta h h'.
Proof.
  induction l as [|[r m] l IH]; intros h n h' n' H; cbn [shift_items] in H.
  - injection H as <- <-. apply same_meta_refl.
  - destruct (shift_props m z h n r prop) as [[h1 n1]|] eqn:E; [|discriminate]. cbn [bind] in H.
    eapply same_meta_trans; [eapply shift_props_meta; eauto|eauto].
Qed.

Lemma shift_beams_items z prop ig h0 rs : forall h n, same_meta h0 h -> (forall r, In r rs -> (r < length h0)%nat) ->
  shift_beams z prop ig h n rs = shift_items z prop h n (items_of h0 ig rs).
Proof.
  induction rs as [|r rs IH]; intros h n M L; [reflexivity|].
  cbn [shift_beams items_of flat_map app shift_items].
  destruct (shift_props 1 z h n r prop) as [[h1 n1]|] eqn:E; [|reflexivity]. cbn [bind].
  pose proof (same_meta_trans _ _ _ M (shift_props_meta _ _ _ _ _ _ _ _ E)) as M1.
  rewrite shift_items_app. fold (items_of h0 ig rs).
  assert (X : (if ig then do b <- index h1 r; shift_ghosts z prop h1 n1 (ghosts b) else Ok (h1, n1))
    = shift_items z prop h1 n1 (map (fun g => (g, 0)) (if ig then ghosts_of h0 r else []))).
  { destruct ig; [|reflexivity]. rewrite <- (ghosts_of_meta _ _ r M1). unfold ghosts_of, index.
    destruct (nth_error h1 r) eqn:E1; [cbn [bind]; apply shift_ghosts_items|].
    apply nth_error_None in E1. destruct M1 as [Hl _]. specialize (L r (or_introl eq_refl)). lia. }
  rewrite X. destruct (shift_items z prop h1 n1 _) as [[h2 n2]|] eqn:E2; [|reflexivity]. cbn [bind].
  apply IH; [|intros; apply L; now right].
  eapply same_meta_trans; [exact M1|]. eapply shift_items_meta; eauto.
Qed.

Lemma items_refs st ig rs : map fst (items_of (objs st) ig rs) = with_ghosts st ig rs.
Proof.
  unfold items_of, with_ghosts. induction rs as [|r rs IH]; [reflexivity|]. cbn [flat_map map fst app].
  rewrite map_app, map_map. cbn [fst]. rewrite map_id, IH. reflexivity.
Qed.

Lemma items_mean st ig rs i r : NoDup (with_ghosts st ig rs) -> nth_error (with_ghosts st ig rs) i = Some r ->
  nth_error (items_of (objs st) ig rs) i = Some (r, if existsb (Nat.eqb r) rs then 1 else 0).
Proof.
  intros ND H. rewrite <- items_refs, nth_error_map in H.
  destruct (nth_error (items_of (objs st) ig rs) i) as [[r' m]|] eqn:E; [|discriminate]. cbn in H. injection H as ->.
  f_equal. f_equal.
  assert (K : forall rs, NoDup (with_ghosts st ig rs) -> forall r m, In (r, m) (items_of (objs st) ig rs) ->
    m = if existsb (Nat.eqb r) rs then 1 else 0).
  { clear. induction rs as [|a rs IH]; intros ND r m H; [destruct H|].
    cbn [items_of flat_map] in H. cbn [with_ghosts flat_map] in ND.
    assert (Sub : forall x, In x rs -> In x (with_ghosts st ig rs)).
    { intros x Hx. unfold with_ghosts. apply in_flat_map. exists x. split; auto. now left. }
    apply in_app_or in H. cbn [existsb]. destruct H as [[H|H]|H].
    - injection H as <- <-. now rewrite Nat.eqb_refl.
    - apply in_map_iff in H as (g & Hg & Hin). injection Hg as <- <-.
      cbn [app] in ND. inversion ND as [|? ? Na ND']; subst.
      destruct (Nat.eqb_spec g a) as [->|]; [exfalso; apply Na, in_or_app; now left|]. cbn [orb].
      destruct (existsb (Nat.eqb g) rs) eqn:X; auto. apply existsb_exists in X as (y & Hy & Ey). apply Nat.eqb_eq in Ey. subst y.
      exfalso. revert ND' Hin Hy Sub. clear. generalize (if ig then ghosts_of (objs st) a else []) as gs.
      intros gs ND Hin Hy Sub. apply Sub in Hy. fold (with_ghosts st ig rs) in ND. revert ND Hin.
      induction gs as [|c gs IHg]; [intros _ []|]. cbn. intros ND [->|Hin].
      + inversion ND as [|? ? Nx _]; subst. apply Nx, in_or_app. now right.
      + inversion ND; subst. auto.
    - fold (with_ghosts st ig rs) in ND. rewrite (IH (NoDup_app_right _ _ ND) r m H).
      assert (Ir : In r (with_ghosts st ig rs)).
      { rewrite <- items_refs. apply (in_map fst) in H. exact H. }
      destruct (Nat.eqb_spec r a) as [->|]; [|reflexivity].
      exfalso. cbn [app] in ND. inversion ND as [|? ? Na _]; subst. apply Na, in_or_app. now right. }
  apply K; auto. eapply nth_error_In; eauto.
Qed.

Lemma random_spec z st prop ig : let rs := with_ghosts st ig (present st) in
  prop <> [] -> NoDup rs -> NoDup (map fst prop) -> (forall k, In k (map fst prop) -> numeric st rs k) ->
  exists st', set_global_prop_random z st prop ig = Ok st' /\ fp st' = fp st /\ ndet st' = ndet st
    /\ (forall r k, ~ In r rs \/ ~ In k (map fst prop) -> getattr (objs st') r k = getattr (objs st) r k)
    /\ (forall i r j k s v, nth_error rs i = Some r -> nth_error prop j = Some (k, s) ->
         getattr (objs st) r k = Some (VNum v) ->
         getattr (objs st') r k
         = Some (VNum (v + ((if existsb (Nat.eqb r) (present st) then 1 else 0) + z (i * length prop + j)%nat) * s))).
Proof.
  intros rs NE ND NK NA. unfold set_global_prop_random. rewrite refs_concat. change (refs (fp st)) with (present st).
  rewrite (shift_beams_items z prop ig (objs st)).
  2:{ apply same_meta_refl. }
  2:{ intros r Hr. destruct prop as [|[k s] prop]; [congruence|].
      destruct (NA k (or_introl eq_refl)) as (_ & _ & H). destruct (H r) as [v Hv].
      - unfold rs, with_ghosts. apply in_flat_map. exists r. split; auto. now left.
      - eapply getattr_lt; eauto. }
  destruct (shift_items_ok z prop (items_of (objs st) ig (present st)) (objs st) 0 NK) as (h' & E & M & A & B).
  { rewrite items_refs. exact ND. }
  { rewrite items_refs. intros r Hr k Hk. destruct (NA k Hk) as (P & D & H). auto. }
  rewrite E. cbn [bind]. eexists. split; [reflexivity|]. cbn [fp ndet objs]. split; [reflexivity|]. split; [reflexivity|].
  rewrite items_refs in A. split; [exact A|].
  intros i r j k s v Hi Hj Hv. apply (B i r _ j k s v (items_mean _ _ _ _ _ ND Hi) Hj Hv).
Qed.

(** ** Adding to one property *)

Lemma add_beam_ok key val ig h r v : plain key = true -> key <> "dead"%string ->
  getattr h r key = Some (VNum v) ->
  (forall g, ig = true -> In g (ghosts_of h r) -> g <> r /\ (g < length h)%nat) ->
  exists h', add_beam key val ig h r = Ok h' /\ same_meta h h'
    /\ (forall r' k, (r' <> r /\ ~ (ig = true /\ In r' (ghosts_of h r))) \/ k <> key -> getattr h' r' k = getattr h r' k)
    /\ getattr h' r key = Some (VNum (v + val))
    /\ (ig = true -> forall g, In g (ghosts_of h r) -> getattr h' g key = Some (VNum val)).
Proof.
  intros P D Hv Lg. destruct (getattr_beam _ _ _ _ Hv) as (b & Hb & Ab). unfold add_beam. rewrite Hb. cbn [bind].
  rewrite Ab. cbn [vnum bind].
  destruct (setattr_ok h r key (VNum (v + val)) P D (getattr_lt _ _ _ _ Hv)) as (h1 & E1 & M1 & G1).
  rewrite E1. cbn [bind].
  assert (Gb : ghosts_of h r = ghosts b). { unfold ghosts_of. apply index_ok in Hb. now rewrite Hb. }
  rewrite Gb in *. destruct ig.
  - assert (K : forall gs h1, (forall g, In g gs -> (g < length h1)%nat) ->
      exists h', fold_left (fun h g => do h <- h; setattr h g key (VNum val)) gs (Ok h1) = Ok h' /\ same_meta h1 h'
        /\ (forall r' k, ~ In r' gs \/ k <> key -> getattr h' r' k = getattr h1 r' k)
        /\ (forall g, In g gs -> getattr h' g key = Some (VNum val))).
    { clear - P D. induction gs as [|g gs IH]; intros h1 L.
      - exists h1. split; [reflexivity|]. split; [apply same_meta_refl|]. split; [auto|]. intros g [].
      - cbn [fold_left bind]. destruct (setattr_ok h1 g key (VNum val) P D (L g (or_introl eq_refl))) as (h2 & E2 & M2 & G2).
        rewrite E2. destruct (IH h2) as (h' & E & M & A & B).
        { intros x Hx. destruct M2 as [-> _]. apply L. now right. }
        exists h'. split; [exact E|]. split; [eapply same_meta_trans; eauto|]. split.
        + intros r' k Hn. rewrite A, G2.
          * destruct (Nat.eqb_spec r' g), (String.eqb_spec k key); cbn; auto. destruct Hn as [Hn|Hn]; [|tauto].
            exfalso. apply Hn. now left.
          * destruct Hn as [Hn|Hn]; auto. left. intros H. apply Hn. now right.
        + intros x Hx. destruct (in_dec Nat.eq_dec x gs) as [I|I]; [auto|]. destruct Hx as [<-|Hx]; [|tauto].
          rewrite A by auto. rewrite G2, Nat.eqb_refl, String.eqb_refl. reflexivity. }
    destruct (K (ghosts b) h1) as (h' & E & M & A & B).
    { intros g Hg. destruct M1 as [-> _]. apply Lg; auto. }
    exists h'. split; [exact E|]. split; [eapply same_meta_trans; eauto|]. split; [|split].
    + intros r' k Hn. rewrite A, G1.
      * destruct (Nat.eqb_spec r' r), (String.eqb_spec k key); cbn; auto; exfalso; tauto.
      * tauto.
    + rewrite A by (left; intros H; destruct (Lg r eq_refl H); congruence). rewrite G1, Nat.eqb_refl, String.eqb_refl. reflexivity.
    + auto.
  - exists h1. split; [reflexivity|]. split; [exact M1|]. split; [|split].
    + intros r' k Hn. rewrite G1. destruct (Nat.eqb_spec r' r), (String.eqb_spec k key); cbn; auto; exfalso; tauto.
    + rewrite G1, Nat.eqb_refl, String.eqb_refl. reflexivity.
    + discriminate.
Qed.

Fixpoint add_items (key : string) (ig : bool) (h : heap) (l : list (nat * R)) : res heap :=
  match l with
  | [] => Ok h
  | (r, val) :: l => do h <- add_beam key val ig h r; add_items key ig h l
  end.

Lemma add_items_app key ig l1 : forall h l2,
  add_items key ig h (l1 ++ l2)%list = do h <- add_items key ig h l1; add_items key ig h l2.
Proof.
  induction l1 as [|[r m] l1 IH]; intros; cbn [app add_items bind]; [reflexivity|].
  destruct (add_beam key m ig h r) as [h1|]; cbn [bind]; [apply IH|reflexivity].
Qed.

Definition one_slot (f : nat -> R) (no : nat) (part : bool) (s : slot) : list (nat * R) :=
  if part then match s with Some r => [(r, f no)] | None => [] end else [].
Fixpoint pair_items (f : nat -> R) (pp nB nA : bool) (i : nat) (ps : list pair) : list (nat * R) :=
  match ps with
  | [] => []
  | p :: ps => (one_slot f (draw_no pp nB nA i 0) (negb nA) (fst p)
                ++ one_slot f (draw_no pp nB nA i 1) (negb nB) (snd p) ++ pair_items f pp nB nA (S i) ps)%list
  end.
Definition cnt (pp nB nA : bool) (i : nat) : nat :=
  if pp then i else if (nA && nB)%bool then 0%nat else if (nA || nB)%bool then i else (2 * i)%nat.

Lemma rnd_pairs_items z key x s pp ig nB nA : s <> 0 -> forall ps h i,
  rnd_pairs z key x s pp ig nB nA h (cnt pp nB nA i) ps
  = do h <- add_items key ig h (pair_items (fun n => x + s * z n) pp nB nA i ps); Ok (h, cnt pp nB nA (i + length ps)).
Proof.
  intros S0. induction ps as [|[a b] ps IH]; intros h i.
  - cbn [rnd_pairs pair_items add_items bind length]. now rewrite Nat.add_0_r.
  - cbn [rnd_pairs pair_items fst snd length]. rewrite !add_items_app.
    specialize (fun h => IH h (S i)). replace (S i + length ps)%nat with (i + S (length ps))%nat in IH by lia.
    unfold rnd_slot. destruct (Req_EM_T s 0) as [|_]; [tauto|]. cbn [andb negb].
    assert (Q : forall n, (2 * n + 0 = 2 * n)%nat) by (intros; lia).
    assert (Q1 : forall n, S (2 * n) = (2 * n + 1)%nat) by (intros; lia).
    assert (Q2 : forall n, S (2 * n + 1) = (2 * S n)%nat) by (intros; lia).
    assert (Q3 : S (S (2 * i)) = (2 * S i)%nat) by lia.
    destruct pp, nA, nB; cbn [cnt andb orb negb draw_no one_slot] in *; rewrite ?Q, ?Q1, ?Q2;
      destruct a as [a|], b as [b|]; cbn [one_slot add_items bind];
      repeat match goal with
      | |- context [add_beam ?k ?v ?g ?h ?r] => destruct (add_beam k v g h r); cbn [bind app add_items]; [|reflexivity]
      end; cbn [app add_items]; repeat match goal with
      | |- context [add_beam ?k ?v ?g ?h ?r] => destruct (add_beam k v g h r); cbn [bind app add_items]; [|reflexivity]
      end; rewrite ?Q2; try apply IH; auto.
Qed.

Definition touched (h : heap) (ig : bool) (rs : list nat) : list nat :=
  flat_map (fun r => r :: (if ig then ghosts_of h r else [])) rs.
Lemma touched_meta h h' ig rs : same_meta h h' -> touched h' ig rs = touched h ig rs.
Proof. intros M. unfold touched. apply flat_map_ext. intros r. now rewrite (ghosts_of_meta _ _ r M). Qed.

Lemma add_items_ok key ig l : forall h, plain key = true -> key <> "dead"%string ->
  NoDup (touched h ig (map fst l)) -> (forall r, In r (map fst l) -> exists v, getattr h r key = Some (VNum v)) ->
  (forall g, In g (touched h ig (map fst l)) -> (g < length h)%nat) ->
  exists h', add_items key ig h l = Ok h' /\ same_meta h h'
    /\ (forall r k, ~ In r (touched h ig (map fst l)) \/ k <> key -> getattr h' r k = getattr h r k)
    /\ (forall r val, In (r, val) l ->
         (forall v, getattr h r key = Some (VNum v) -> getattr h' r key = Some (VNum (v + val)))
         /\ (ig = true -> forall g, In g (ghosts_of h r) -> getattr h' g key = Some (VNum val))).
Proof.
  induction l as [|[r val] l IH]; intros h P D ND NA L.
  - exists h. split; [reflexivity|]. split; [apply same_meta_refl|]. split; [auto|]. intros r v [].
  - cbn [map fst touched flat_map] in ND, L. cbn [add_items]. fold (touched h ig (map fst l)) in *.
    destruct (NA r (or_introl eq_refl)) as [v Hv].
    cbn [app] in ND. inversion ND as [|? ? Nr ND1]; subst.
    destruct (add_beam_ok key val ig h r v P D Hv) as (h1 & E1 & M1 & A1 & B1 & C1).
    { intros g -> Hg. split; [intros ->; apply Nr, in_or_app; now left|]. apply L. right. apply in_or_app. now left. }
    rewrite E1. cbn [bind].
    assert (Out : forall x, In x (touched h ig (map fst l)) -> forall k, getattr h1 x k = getattr h x k).
    { intros x Hx k. apply A1. left. split; [intros ->; apply Nr, in_or_app; now right|]. intros [-> Hg].
      revert ND1 Hg Hx. clear. intros ND Hg Hx. induction (ghosts_of h r) as [|c gs IHg]; [destruct Hg|].
      cbn in ND. inversion ND as [|? ? Nc ND']; subst. destruct Hg as [->|Hg]; [|auto]. apply Nc, in_or_app. now right. }
    assert (Sub : forall x, In x (map fst l) -> In x (touched h ig (map fst l))).
    { intros x Hx. unfold touched. apply in_flat_map. exists x. split; auto. now left. }
    pose proof (touched_meta _ _ ig (map fst l) M1) as T1.
    destruct (IH h1 P D) as (h' & E & M & A & B).
    { rewrite T1. eapply NoDup_app_right; eauto. }
    { intros x Hx. destruct (NA x (or_intror Hx)) as [w Hw]. exists w. rewrite Out; auto. }
    { intros g Hg. rewrite T1 in Hg. destruct M1 as [-> _]. apply L. right. apply in_or_app. now right. }
    rewrite T1 in A. exists h'. split; [exact E|]. split; [eapply same_meta_trans; eauto|]. split.
    + intros x k Hn. cbn [map fst touched flat_map] in Hn. fold (touched h ig (map fst l)) in Hn.
      rewrite A, A1; auto.
      * destruct Hn as [Hn|Hn]; auto. left. split; [intros ->; apply Hn; now left|]. intros [-> Hg]. apply Hn.
        right. apply in_or_app. now left.
      * destruct Hn as [Hn|Hn]; auto. left. intros Hx. apply Hn. right. apply in_or_app. now right.
    + intros x val' [Hx|Hx].
      * injection Hx as <- <-.
        assert (Nx : ~ In r (touched h ig (map fst l))) by (intros Hx; apply Nr, in_or_app; now right).
        split.
        -- intros w Hw. rewrite A by auto. rewrite Hv in Hw. injection Hw as <-. exact B1.
        -- intros -> g Hg. rewrite A; [apply C1; auto|]. left. intros Hx.
           revert ND1 Hg Hx. clear. intros ND Hg Hx. induction (ghosts_of h r) as [|c gs IHg]; [destruct Hg|].
           cbn in ND. inversion ND as [|? ? Nc ND']; subst. destruct Hg as [->|Hg]; [|auto]. apply Nc, in_or_app. now right.
      * destruct (B x val' Hx) as [B2 B3]. apply (in_map fst) in Hx. cbn in Hx. split.
        -- intros w Hw. apply B2. rewrite Out; auto.
        -- intros Hig g Hg. apply B3; auto. now rewrite (ghosts_of_meta _ _ x M1).
Qed.

Lemma pair_items_refs f pp nB nA st : forall i,
  map fst (pair_items f pp nB nA i (fp st)) = chosen st nB nA.
Proof.
  unfold chosen. induction (fp st) as [|[a b] ps IH]; intros i; [reflexivity|]. cbn [pair_items map flat_map fst snd].
  rewrite !map_app, IH, app_assoc. f_equal. destruct a, b, nA, nB; reflexivity.
Qed.

Lemma pair_items_in f pp nB nA ps : forall i0 i p b r, nth_error ps i = Some p -> (b < 2)%nat ->
  member p b = Some r -> takes_part nB nA b = true ->
  In (r, f (draw_no pp nB nA (i0 + i) b)) (pair_items f pp nB nA i0 ps).
Proof.
  induction ps as [|q ps IH]; intros i0 [|i] p b r Hi Hb Hr Ht; try discriminate; cbn in Hi.
  - injection Hi as ->. rewrite Nat.add_0_r. cbn [pair_items]. destruct b as [|[|b]]; [| |lia]; cbn in Hr, Ht; unfold one_slot; rewrite Ht, Hr.
    + apply in_or_app. left. now left.
    + apply in_or_app. right. apply in_or_app. left. now left.
  - cbn [pair_items]. apply in_or_app. right. apply in_or_app. right.
    replace (i0 + S i)%nat with (S i0 + i)%nat by lia. eapply IH; eauto.
Qed.

Lemma add_random_spec z st key x ig s pp nB nA : let rs := with_ghosts st ig (chosen st nB nA) in
  s <> 0 -> NoDup rs -> numeric st (chosen st nB nA) key ->
  (forall r, In r rs -> (r < length (objs st))%nat) ->
  exists st', add_to_prop_random z st [(key, x)] ig s pp nB nA = Ok st' /\ fp st' = fp st /\ ndet st' = ndet st
    /\ (forall r k, ~ In r rs \/ k <> key -> getattr (objs st') r k = getattr (objs st) r k)
    /\ (forall i b p r v, nth_error (fp st) i = Some p -> (b < 2)%nat -> member p b = Some r ->
         takes_part nB nA b = true -> getattr (objs st) r key = Some (VNum v) ->
         getattr (objs st') r key = Some (VNum (v + (x + s * z (draw_no pp nB nA i b))))
         /\ (ig = true -> forall g, In g (ghosts_of (objs st) r) ->
              getattr (objs st') g key = Some (VNum (x + s * z (draw_no pp nB nA i b))))).
Proof.
  intros rs S0 ND (P & D & NA) L. unfold add_to_prop_random.
  assert (C0 : cnt pp nB nA 0 = 0%nat) by (destruct pp, nA, nB; reflexivity).
  pose proof (rnd_pairs_items z key x s pp ig nB nA S0 (fp st) (objs st) 0) as RP. rewrite C0 in RP. rewrite RP.
  pose proof (pair_items_refs (fun n => x + s * z n) pp nB nA st 0) as PR.
  destruct (add_items_ok key ig (pair_items (fun n => x + s * z n) pp nB nA 0 (fp st)) (objs st) P D) as (h' & E & M & A & B);
    rewrite ?PR; auto.
  rewrite E. cbn [bind]. eexists. split; [reflexivity|]. cbn [fp ndet objs]. split; [reflexivity|]. split; [reflexivity|].
  rewrite PR in A. split; [exact A|].
  intros i b p r v Hi Hb Hr Ht Hv.
  destruct (B _ _ (pair_items_in (fun n => x + s * z n) pp nB nA (fp st) 0 i p b r Hi Hb Hr Ht)) as [B1 B2].
  rewrite Nat.add_0_l in B1, B2. auto.
Qed.

Lemma add_random_zero z st prop ig pp nB nA : 
  add_to_prop_random z st prop ig 0 pp nB nA = add_to_prop st prop ig nB nA.
Proof.
  unfold add_to_prop_random, add_to_prop. destruct prop as [|[key x] [|? ?]]; auto.
  assert (K : forall ps h n, rnd_pairs z key x 0 pp ig nB nA h n ps
    = do h <- fold_left (fun h r => do h <- h; add_beam key x ig h r) (concat (map (selected nA nB) ps)) (Ok h); Ok (h, n)).
  { induction ps as [|[a b] ps IH]; intros h n; [reflexivity|]. cbn [rnd_pairs map concat]. unfold rnd_slot.
    destruct (Req_EM_T 0 0) as [_|]; [|tauto]. cbn [andb]. rewrite fold_left_app. unfold selected at 2. cbn [fst snd].
    rewrite fold_left_app.
    destruct nA, nB, a as [a|], b as [b|]; cbn [slot_list fold_left bind];
      repeat (match goal with |- context [add_beam ?k ?v ?g ?h ?r] => destruct (add_beam k v g h r) eqn:?; cbn [bind] end);
      rewrite ?fold_res_err; try apply IH; try reflexivity. }
  rewrite K. destruct (fold_left _ _ _); reflexivity.
Qed.

Lemma draws_differ (n i j i' j' : nat) : (j < n)%nat -> (j' < n)%nat ->
  (i * n + j = i' * n + j')%nat -> i = i' /\ j = j'.
Proof. intros. assert (i = i') by nia. subst. lia. Qed.

Lemma shared_draws pp nB nA i b i' b' :
  (b < 2)%nat -> (b' < 2)%nat -> takes_part nB nA b = true -> takes_part nB nA b' = true ->
  (draw_no pp nB nA i b = draw_no pp nB nA i' b' <-> i = i' /\ (b = b' \/ pp = true)).
Proof.
  intros Hb Hb' T T'. unfold draw_no. assert (B : b = 0%nat \/ b = 1%nat) by lia. assert (B' : b' = 0%nat \/ b' = 1%nat) by lia.
  destruct pp, nA, nB, B as [-> | ->], B' as [-> | ->]; cbn in T, T'; try discriminate; cbn [orb];
    (split; [intros H; split; [lia|]; auto; try (left; lia)|intros [H1 H2]; try lia; destruct H2; try discriminate; lia]).
Qed.

(** ** Cases *)
Definition rnd_history : list op :=
  [Create 1 1 10 false 90 true []; Reflect "r" false [] []; Create 1 1 10 false 90 true []].
Definition rnd_state : inst := get (run empty_inst rnd_history).

Lemma rnd_reached : history (fun _ _ => True) empty_inst rnd_history rnd_state.
Proof. apply run_history; [apply get_ok|]; vm_compute; reflexivity. Qed.

Lemma rnd_case : history (fun _ _ => True) empty_inst rnd_history rnd_state
  /\ with_ghosts rnd_state true (present rnd_state) = [0; 2; 1; 3; 4; 5]%nat
  /\ present rnd_state = [0; 1; 4; 5]%nat
  /\ (forall k, In k ["polang"; "az"]%string -> numeric rnd_state [0; 2; 1; 3; 4; 5]%nat k).
Proof.
  split; [exact rnd_reached|]. split; [vm_compute; reflexivity|]. split; [vm_compute; reflexivity|].
  intros k Hk. split; [|split].
  - destruct Hk as [<-|[<-|[]]]; reflexivity.
  - destruct Hk as [<-|[<-|[]]]; discriminate.
  - intros r Hr. destruct Hk as [<-|[<-|[]]], Hr as [<-|[<-|[<-|[<-|[<-|[<-|[]]]]]]]; eexists; vm_compute; reflexivity.
Qed.

Lemma rnd_add_case :
  with_ghosts rnd_state true (chosen rnd_state false true) = [1; 3; 5]%nat
  /\ numeric rnd_state (chosen rnd_state false true) "polang"
  /\ draw_no false false true 1 1 = 1%nat /\ draw_no false false false 1 1 = 3%nat /\ draw_no true false false 1 1 = 1%nat.
Proof.
  assert (E : chosen rnd_state false true = [1; 5]%nat) by (vm_compute; reflexivity).
  split; [vm_compute; reflexivity|]. split; [|repeat split].
  rewrite E. split; [reflexivity|]. split; [discriminate|]. intros r [<-|[<-|[]]]; eexists; vm_compute; reflexivity.
Qed.

Definition lone : list op := [NewBeam []; Add (One 0) true].
Lemma not_centred : exists os st, history (fun _ _ => True) empty_inst os st
  /\ present st = [0%nat] /\ getattr (objs st) 0 "polang_error" = Some (VNum 0)
  /\ forall z s, exists st', set_global_prop_random z st [("polang_error"%string, s)] true = Ok st'
     /\ getattr (objs st') 0 "polang_error" = Some (VNum ((1 + z 0%nat) * s)).
Proof.
  exists lone, (get (run empty_inst lone)).
  split; [apply run_history; [apply get_ok|]; vm_compute; reflexivity|].
  assert (P : present (get (run empty_inst lone)) = [0%nat]) by (vm_compute; reflexivity).
  assert (G : getattr (objs (get (run empty_inst lone))) 0 "polang_error" = Some (VNum 0)) by (vm_compute; reflexivity).
  assert (W : with_ghosts (get (run empty_inst lone)) true [0%nat] = [0%nat]) by (vm_compute; reflexivity).
  split; [exact P|]. split; [exact G|]. intros z s.
  destruct (random_spec z (get (run empty_inst lone)) [("polang_error"%string, s)] true) as (st' & E & _ & _ & _ & V);
    rewrite ?P, ?W.
  - discriminate.
  - repeat constructor. intros [].
  - repeat constructor. intros [].
  - intros k [<-|[]]. split; [reflexivity|]. split; [discriminate|]. intros r [<-|[]]. eauto.
  - exists st'. split; [exact E|]. rewrite (V 0%nat 0%nat 0%nat "polang_error"%string s 0); [|rewrite P, W; reflexivity|reflexivity|exact G].
    rewrite P. cbn [existsb Nat.eqb orb List.length Nat.mul Nat.add]. do 2 f_equal. lra.
Qed.

Lemma documented_call : exists st,
  history (fun _ _ => True) empty_inst [Create 1 1 10 false 90 true []] st
  /\ forall z, set_global_prop_random z st [("polang_err"%string, 1 / 100)] true = Err AttributeError.
Proof.
  exists (get (run empty_inst [Create 1 1 10 false 90 true []])).
  split; [apply run_history; [apply get_ok|]; vm_compute; reflexivity|].
  intros z. unfold set_global_prop_random.
  assert (F : concat (map pair_list (fp (get (run empty_inst [Create 1 1 10 false 90 true []])))) = [0; 1]%nat) by (vm_compute; reflexivity).
  rewrite F. cbn [shift_beams shift_props].
  assert (X : exists b, index (objs (get (run empty_inst [Create 1 1 10 false 90 true []]))) 0 = Ok b /\ attrs b "polang_err" = None).
  { eexists. split; vm_compute; reflexivity. }
  destruct X as (b & -> & A). cbn [bind]. unfold aget. rewrite A. reflexivity.
Qed.
