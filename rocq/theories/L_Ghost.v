(** * Lemmas about ghosts and keyword dictionaries *)
From Coq Require Import Reals String Lra.
From Verif Require Import Common M_Beam M_Focal S_Focal L_Beam.
Open Scope string_scope.

Lemma dget_dset d k v k' : dget (dset d k v) k' = if k =? k' then Some v else dget d k'.
Proof.
  induction d as [|[a w] d IH]; cbn; [reflexivity|].
  destruct (String.eqb_spec a k) as [->|Ha]; cbn.
  - destruct (k =? k'); reflexivity.
  - rewrite IH. destruct (String.eqb_spec a k') as [->|]; [|reflexivity].
    destruct (String.eqb_spec k k'); [congruence|reflexivity].
Qed.

Lemma dget_notin d k : ~ In k (map fst d) -> dget d k = None.
Proof.
  induction d as [|[a w] d IH]; cbn; intros H; [reflexivity|].
  destruct (String.eqb_spec a k); [tauto|]. apply IH. tauto.
Qed.

Lemma dget_dupdate d e k : NoDup (map fst e) ->
  dget (dupdate d e) k = match dget e k with Some v => Some v | None => dget d k end.
Proof.
  unfold dupdate. revert d; induction e as [|[a w] e IH]; intros d H; cbn [fold_left dget]; [reflexivity|].
  cbn [map fst] in H. inversion H as [|? ? Hn Hd]; subst. rewrite IH by exact Hd. cbn [fst snd].
  rewrite dget_dset. destruct (String.eqb_spec a k) as [->|].
  - now rewrite dget_notin.
  - reflexivity.
Qed.

Lemma dget_dpop d k k' : dget (dpop d k) k' = if k =? k' then None else dget d k'.
Proof.
  unfold dpop. induction d as [|[a w] d IH]; cbn; [now destruct (k =? k')|].
  destruct (String.eqb_spec a k) as [->|Ha]; cbn.
  - rewrite IH. destruct (k =? k'); reflexivity.
  - rewrite IH. destruct (String.eqb_spec a k') as [->|]; [|reflexivity].
    destruct (String.eqb_spec k k'); [congruence|reflexivity].
Qed.

Lemma NoDup_dpop d k : NoDup (map fst d) -> NoDup (map fst (dpop d k)).
Proof.
  induction d as [|[a w] d IH]; cbn; intros H; [constructor|].
  inversion H as [|? ? Hn Hd]; subst. destruct (a =? k); cbn; [auto|].
  constructor; auto. intros X. apply Hn. apply in_map_iff in X as ([x y] & E & X).
  apply filter_In in X as [X _]. apply in_map_iff. exists (x, y). auto.
Qed.

Lemma parent_opts_get a d : parent_opts a = Ok d ->
  forall k, dget d k = if existsb (fun k' => k' =? k) inherited then a k else None.
Proof.
  unfold parent_opts.
  assert (G : forall l d0 d, fold_left (fun d k => do d <- d; do v <- aget a k; Ok (dset d k v)) l (Ok d0) = Ok d ->
    forall k, dget d k = if existsb (fun k' => k' =? k) l then a k else dget d0 k).
  { induction l as [|x l IH]; intros d0 d1 H k; cbn [fold_left] in H.
    - now inversion H.
    - cbn [bind] in H. unfold aget at 2 in H. destruct (a x) as [v|] eqn:E.
      + cbn [bind] in H. rewrite (IH _ _ H k). cbn [existsb].
        rewrite dget_dset. destruct (String.eqb_spec x k) as [->|]; cbn [orb]; [|reflexivity].
        destruct (existsb _ l); congruence.
      + cbn [bind] in H. rewrite fold_res_err in H. discriminate. }
  intros H k. rewrite (G _ _ _ H k). reflexivity.
Qed.

Lemma parent_opts_some a d k : parent_opts a = Ok d -> In k inherited -> exists v, a k = Some v.
Proof.
  unfold parent_opts.
  assert (G : forall l d0 d, fold_left (fun d k => do d <- d; do v <- aget a k; Ok (dset d k v)) l (Ok d0) = Ok d ->
    In k l -> exists v, a k = Some v).
  { induction l as [|x l IH]; intros d0 d1 H Hin; [destruct Hin|]. cbn [fold_left] in H.
    cbn [bind] in H. unfold aget at 2 in H. destruct (a x) as [v|] eqn:E.
    - cbn [bind] in H. destruct Hin as [->|Hin]; [eauto|]. eapply IH; eauto.
    - cbn [bind] in H. rewrite fold_res_err in H. discriminate. }
  intros H Hin. eapply G; eauto.
Qed.

(** The dictionary handed to the constructor of a ghost. *)
Definition ghost_opts (a : string -> option val) (nm : val) (kw : dict) (k : string) : option val :=
  if k =? "ghost" then Some (VBool true)
  else if k =? "name" then Some nm
  else match dget kw k with
       | Some v => Some v
       | None => if existsb (fun k' => k' =? k) inherited then a k else None
       end.

Lemma create_ghost_spec h r tag kw h' b : create_ghost h r tag kw = Ok h' ->
  nth_error h r = Some b -> NoDup (map fst kw) ->
  exists g opts parent,
    ghost b = false
    /\ (match attrs b "name" with Some VNone => parent = None
                               | Some (VStr s) => parent = Some s | _ => False end)
    /\ (forall k, dget opts k = ghost_opts (attrs b) (ghost_name parent tag) kw k)
    /\ (forall k, In k inherited -> exists v, attrs b k = Some v)
    /\ beam_init opts = Ok g
    /\ h' = hset (h ++ [with_ghost_idx g (Some (ghost_count b))])%list r
              (with_ghosts b (ghosts b ++ [List.length h])%list (ghost_count b + 1)).
Proof.
  intros H Hb Hnd. unfold create_ghost in H. rewrite (proj2 (index_ok h r b) Hb) in H.
  cbn [bind] in H. destruct (ghost b) eqn:Eg; [discriminate|].
  apply bind_ok in H as (nm & Hnm & H). apply bind_ok in H as (parent & Hp & H).
  apply bind_ok in H as (po & Hpo & H). apply bind_ok in H as (g & Hg & H).
  unfold alloc in H. inversion H; subst h'; clear H.
  exists g, (dset (dupdate (dset po "name" (ghost_name parent tag)) (dpop kw "name")) "ghost" (VBool true)), parent.
  split; [reflexivity|]. split.
  { unfold aget in Hnm. destruct (attrs b "name") as [v|]; [|discriminate]. inversion Hnm; subst.
    destruct nm; try discriminate; now inversion Hp. }
  split.
  { intros k. rewrite dget_dset. unfold ghost_opts. rewrite (String.eqb_sym "ghost" k).
    destruct (k =? "ghost"); [reflexivity|].
    rewrite dget_dupdate by now apply NoDup_dpop. rewrite dget_dpop, dget_dset.
    rewrite (String.eqb_sym "name" k). destruct (k =? "name"); [reflexivity|].
    destruct (dget kw k); [reflexivity|]. apply (parent_opts_get _ _ Hpo). }
  split; [intros k Hk; exact (parent_opts_some _ _ _ Hpo Hk)|]. split; [exact Hg|reflexivity].
Qed.

Lemma app_new {A} (l : list A) x : nth_error (l ++ [x])%list (List.length l) = Some x.
Proof. rewrite nth_error_app2 by lia. now rewrite Nat.sub_diag. Qed.

(** What the heap looks like after the creation of a ghost. *)
Lemma create_ghost_heap h r tag kw h' b : create_ghost h r tag kw = Ok h' ->
  nth_error h r = Some b -> NoDup (map fst kw) ->
  exists g, nth_error h' (List.length h) = Some g
    /\ ghost g = true /\ ghosts g = [] /\ ghost_count g = 0%nat /\ ghost_idx g = Some (ghost_count b)
    /\ List.length h' = S (List.length h)
    /\ nth_error h' r = Some (with_ghosts b (ghosts b ++ [List.length h])%list (ghost_count b + 1))
    /\ (forall r', r' <> r -> r' <> List.length h -> nth_error h' r' = nth_error h r').
Proof.
  intros H Hb Hnd.
  destruct (create_ghost_spec _ _ _ _ _ _ H Hb Hnd) as (g & opts & par & Eg & _ & Ho & _ & Hg & ->).
  assert (Hr : (r < List.length h)%nat) by (apply nth_error_Some; congruence).
  exists (with_ghost_idx g (Some (ghost_count b))).
  apply beam_init_fold in Hg as (_ & _ & G1 & G2 & G3 & _ & G5).
  rewrite Ho in G5. cbn in G5.
  split. { rewrite hset_other by lia. apply app_new. }
  cbn. repeat split; auto.
  - rewrite hset_length, app_length. cbn. lia.
  - rewrite hset_same; [reflexivity|]. rewrite app_length. cbn; lia.
  - intros r' Hn Hn2. rewrite hset_other by auto.
    destruct (Nat.lt_ge_cases r' (List.length h)) as [Hl|Hl].
    + now rewrite nth_error_app1.
    + assert (E1 : nth_error h r' = None) by (apply nth_error_None; lia). rewrite E1.
      apply nth_error_None. rewrite app_length. cbn. lia.
Qed.

(** A created ghost has the given options, and its parent's for the others. *)
Lemma ghost_plain h r tag kw h' b k d : create_ghost h r tag kw = Ok h' ->
  nth_error h r = Some b -> NoDup (map fst kw) ->
  In (k, d) beam_defaults -> plain k = true -> k <> "name" ->
  getattr h' (List.length h) k
  = match dget kw k with
    | Some v => Some v
    | None => if existsb (fun k' => k' =? k) inherited then attrs b k else Some d
    end.
Proof.
  intros H Hb Hnd Hk Hp Hn.
  destruct (create_ghost_spec _ _ _ _ _ _ H Hb Hnd) as (g & opts & par & Eg & _ & Ho & Hi & Hg & ->).
  assert (Hr : (r < List.length h)%nat) by (apply nth_error_Some; congruence).
  unfold getattr. rewrite hset_other, app_new by lia. cbn [attrs with_ghost_idx].
  rewrite (beam_init_plain _ _ _ _ Hg Hk Hp). unfold kwval. rewrite Ho. unfold ghost_opts.
  assert (Hg' : k <> "ghost").
  { intros ->. discriminate Hp. }
  apply String.eqb_neq in Hn, Hg'. rewrite Hn, Hg'.
  destruct (dget kw k); [reflexivity|].
  destruct (existsb (fun k' => k' =? k) inherited) eqn:E; [|reflexivity].
  destruct (Hi k) as [v Hv].
  { apply existsb_exists in E as (x & Hx & Ex). apply String.eqb_eq in Ex. now subst. }
  now rewrite Hv.
Qed.

Lemma ghost_tag h r tag kw h' b : create_ghost h r tag kw = Ok h' ->
  nth_error h r = Some b -> NoDup (map fst kw) ->
  exists parent,
    (match attrs b "name" with Some VNone => parent = None
                             | Some (VStr s) => parent = Some s | _ => False end)
    /\ getattr h' (List.length h) "name" = Some (ghost_name parent tag).
Proof.
  intros H Hb Hnd.
  destruct (create_ghost_spec _ _ _ _ _ _ H Hb Hnd) as (g & opts & par & Eg & Hpar & Ho & Hi & Hg & ->).
  assert (Hr : (r < List.length h)%nat) by (apply nth_error_Some; congruence).
  exists par. split; [exact Hpar|].
  unfold getattr. rewrite hset_other, app_new by lia. cbn [attrs with_ghost_idx].
  rewrite (beam_init_plain _ _ "name" VNone Hg); [| |reflexivity].
  2:{ cbn. tauto. }
  unfold kwval. rewrite Ho. reflexivity.
Qed.

Lemma ghost_limits h r tag kw h' b l m f : create_ghost h r tag kw = Ok h' ->
  nth_error h r = Some b -> NoDup (map fst kw) ->
  attrs b "lmax" = Some (VInt l) -> (0 <= l)%Z ->
  attrs b "mmax" = Some (VInt m) -> attrs b "fwhm" = Some (VNum f) -> (0 <= f)%R ->
  dget kw "lmax" = None ->
  getattr h' (List.length h) "lmax" = Some (VInt l)
  /\ (dget kw "mmax" = None -> getattr h' (List.length h) "mmax" = Some (VInt (Z.min m l)))
  /\ (dget kw "fwhm" = None -> getattr h' (List.length h) "fwhm" = Some (VNum f)).
Proof.
  intros H Hb Hnd Hl Hl0 Hm Hf Hf0 Kl.
  destruct (create_ghost_spec _ _ _ _ _ _ H Hb Hnd) as (g & opts & par & Eg & Hpar & Ho & Hi & Hg & ->).
  assert (Hr : (r < List.length h)%nat) by (apply nth_error_Some; congruence).
  unfold getattr. rewrite hset_other, app_new by lia. cbn [attrs with_ghost_idx].
  destruct (beam_init_lmax _ _ Hg) as (z & Ez & Lg).
  unfold kwval in Ez. rewrite Ho in Ez. unfold ghost_opts in Ez. cbn in Ez. rewrite Kl, Hl in Ez.
  inversion Ez; subst z. rewrite Z.max_l in Lg by lia.
  split; [exact Lg|]. split; intros K.
  - pose proof (beam_init_mmax _ _ _ Hg Lg) as M. unfold kwval in M. rewrite Ho in M.
    unfold ghost_opts in M. cbn in M. rewrite K, Hm in M. exact M.
  - pose proof (beam_init_fwhm _ _ _ Hg Lg) as M. unfold kwval in M. rewrite Ho in M.
    unfold ghost_opts in M. cbn in M. rewrite K, Hf in M. rewrite M. do 2 f_equal. now apply Rabs_pos_eq.
Qed.

Lemma ghost_of_ghost h r tag kw b : nth_error h r = Some b -> ghost b = true ->
  create_ghost h r tag kw = Err RuntimeError.
Proof.
  intros Hb Hg. unfold create_ghost. rewrite (proj2 (index_ok h r b) Hb). cbn [bind].
  now rewrite Hg.
Qed.

(** ** Band limits *)

(** Band limits and width of a beam are valid. *)
Definition valid_limits (a : string -> option val) : Prop :=
  exists l m f, a "lmax" = Some (VInt l) /\ a "mmax" = Some (VInt m) /\ a "fwhm" = Some (VNum f)
    /\ (0 <= l)%Z /\ (0 <= f)%R.

Lemma IZR_pos_PI l : (0 < l)%Z -> (0 <= degrees (14 / 10 * 2 * PI / IZR l) * 60)%R.
Proof.
  intros H. apply IZR_lt in H. unfold degrees. pose proof PI_RGT_0.
  assert (0 < 14 / 10 * 2 * PI / IZR l)%R by (apply Rdiv_lt_0_compat; lra).
  assert (0 < 14 / 10 * 2 * PI / IZR l * 180 / PI)%R by (apply Rdiv_lt_0_compat; lra). lra.
Qed.

Lemma beam_init_limits kw b : beam_init kw = Ok b ->
  valid_limits (attrs b)
  /\ exists l m, attrs b "lmax" = Some (VInt l) /\ attrs b "mmax" = Some (VInt m) /\ (m <= l)%Z.
Proof.
  intros H. destruct (beam_init_lmax _ _ H) as (z & _ & L).
  pose proof (beam_init_mmax _ _ _ H L) as M. pose proof (beam_init_fwhm _ _ _ H L) as F.
  assert (EM : exists m, attrs b "mmax" = Some (VInt m) /\ (m <= Z.max z 0)%Z).
  { destruct (kwval kw "mmax" VNone); try contradiction; eexists; split; try exact M; lia. }
  assert (EF : exists f, attrs b "fwhm" = Some (VNum f) /\ (0 <= f)%R).
  { destruct (kwval kw "fwhm" VNone); try contradiction.
    - destruct F as [Hn F]. eexists; split; [exact F|]. apply IZR_pos_PI. lia.
    - eexists; split; [exact F|]. apply Rabs_pos. }
  destruct EM as (m & Em & Hm), EF as (f & Ef & Hf). split.
  - exists (Z.max z 0), m, f. repeat split; auto. lia.
  - exists (Z.max z 0), m. auto.
Qed.

Lemma Int_part_nonneg x : (0 <= x)%R -> (0 <= Int_part x)%Z.
Proof.
  intros H. pose proof (base_Int_part x) as [_ H2]. apply le_IZR.
  assert (-1 < IZR (Int_part x))%R by lra.
  apply lt_IZR in H0. apply IZR_le. lia.
Qed.

Lemma set1_limits a k v a' : valid_limits a -> set1 a k v = Ok a' -> valid_limits a'.
Proof.
  intros (l & m & f & Hl & Hm & Hf & Hl0 & Hf0) H.
  assert (O : forall k', k' <> k -> a' k' = a k') by (intros; eapply set1_other; eauto).
  destruct (String.eqb_spec k "lmax") as [->|N1].
  { unfold set1 in H. cbn in H. unfold set_lmax in H. destruct v; try discriminate.
    - unfold aget in H. rewrite Hf in H. cbn [bind] in H.
      destruct (Req_EM_T f 0); [discriminate|]. inversion H; subst a'.
      exists (Int_part (2 * PI / radians (f / 60) * (14 / 10))), m, f.
      rewrite aset_same, !aset_other by discriminate. repeat split; auto.
      apply Int_part_nonneg. unfold radians. pose proof PI_RGT_0.
      assert (0 < f / 60 * PI / 180)%R.
      { apply Rdiv_lt_0_compat; [|lra]. apply Rmult_lt_0_compat; [|assumption].
        apply Rdiv_lt_0_compat; lra. }
      assert (0 < 2 * PI / (f / 60 * PI / 180))%R by (apply Rdiv_lt_0_compat; lra). lra.
    - inversion H; subst a'. exists (Z.max z 0), m, f.
      rewrite aset_same, !aset_other by discriminate. repeat split; auto. lia. }
  destruct (String.eqb_spec k "mmax") as [->|N2].
  { unfold set1 in H. cbn in H. unfold set_mmax, aget in H. rewrite Hl in H. cbn [bind] in H.
    destruct v; try discriminate; inversion H; subst a'; eexists l, _, f;
      rewrite aset_same, !aset_other by discriminate; repeat split; auto. }
  destruct (String.eqb_spec k "fwhm") as [->|N3].
  { unfold set1 in H. cbn in H. unfold set_fwhm in H. destruct v; try discriminate.
    - unfold aget in H. rewrite Hl in H. cbn [bind] in H.
      destruct (Z.eqb_spec l 0); [discriminate|]. inversion H; subst a'. eexists l, m, _.
      rewrite aset_same, !aset_other by discriminate. repeat split; auto.
      apply IZR_pos_PI; lia.
    - inversion H; subst a'. eexists l, m, _.
      rewrite aset_same, !aset_other by discriminate. repeat split; auto. apply Rabs_pos. }
  exists l, m, f. rewrite !O by auto. auto.
Qed.

Definition mmax_ok (a : string -> option val) : Prop :=
  exists l m, a "lmax" = Some (VInt l) /\ a "mmax" = Some (VInt m) /\ (m <= l)%Z.

(** mmax <= lmax is kept by every assignment except one that lowers lmax. *)
Lemma set1_mmax a k v a' : mmax_ok a -> set1 a k v = Ok a' ->
  (k = "lmax" -> forall l l', a "lmax" = Some (VInt l) -> a' "lmax" = Some (VInt l') -> (l <= l')%Z) ->
  mmax_ok a'.
Proof.
  intros (l & m & Hl & Hm & Hml) H Hup.
  assert (O : forall k', k' <> k -> a' k' = a k') by (intros; eapply set1_other; eauto).
  destruct (String.eqb_spec k "lmax") as [->|N1].
  { assert (exists l', a' "lmax" = Some (VInt l')) as [l' Hl'].
    { unfold set1 in H. cbn in H. unfold set_lmax in H. destruct v; try discriminate.
      - destruct (aget a "fwhm") as [[]|]; cbn [bind] in H; try discriminate.
        destruct (Req_EM_T r 0); [discriminate|]. inversion H. eexists; apply aset_same.
      - inversion H. eexists; apply aset_same. }
    exists l', m. rewrite (O "mmax") by discriminate. repeat split; auto.
    specialize (Hup eq_refl _ _ Hl Hl'). lia. }
  destruct (String.eqb_spec k "mmax") as [->|N2].
  { unfold set1 in H. cbn in H. unfold set_mmax, aget in H. rewrite Hl in H. cbn [bind] in H.
    destruct v; try discriminate; inversion H; subst a'; eexists l, _;
      rewrite aset_same, !aset_other by discriminate; repeat split; auto; lia. }
  exists l, m. rewrite !O by auto. auto.
Qed.
