(** * Invariants of focal plane histories *)
From Coq Require Import Reals String Lra FinFun.
From Verif Require Import Common LibList M_Beam M_Focal S_Focal L_Beam L_Ghost L_Focal.
Open Scope string_scope.

Lemma cells_length nrow ncol : List.length (cells nrow ncol) = (nrow * ncol)%nat.
Proof.
  unfold cells.
  assert (G : forall l : list nat, List.length (concat (map (fun azi => map (fun eli => (azi, eli)) (seq 0 nrow)) l))
                        = (nrow * List.length l)%nat).
  { induction l as [|x l IH]; cbn; [lia|]. rewrite app_length, IH, map_length, seq_length. lia. }
  rewrite G, seq_length. reflexivity.
Qed.

(** ** Removal *)
Definition struck (bad : list slot) (ps : list pair) : list pair :=
  filter (fun p => negb (both_none p)) (map fst (map (strike_pair bad) ps)).

Lemma refs_struck bad ps :
  refs (struck bad ps) = filter (fun r => negb (slot_in (Some r) bad)) (refs ps).
Proof.
  induction ps as [|[a b] ps IH]; [reflexivity|].
  rewrite refs_cons, !filter_app. unfold struck. cbn [map filter fst snd].
  fold (struck bad ps).
  assert (E : forall s, slot_list (fst (strike bad s))
                        = filter (fun r => negb (slot_in (Some r) bad)) (slot_list s)).
  { intros [r|]; unfold strike.
    - cbn [slot_list filter]. destruct (slot_in (Some r) bad); reflexivity.
    - destruct (slot_in None bad); reflexivity. }
  rewrite <- !E. unfold strike_pair at 1 2. cbn [fst snd].
  destruct (strike bad a) as [a' n] eqn:Ea, (strike bad b) as [b' m] eqn:Eb. cbn [fst snd].
  rewrite <- IH. destruct a', b'; cbn [both_none negb]; rewrite ?refs_cons; reflexivity.
Qed.

Lemma strike_count bad ps : slot_in None bad = false ->
  fold_right Z.add 0%Z (map snd (map (strike_pair bad) ps))
  = (Z.of_nat (List.length (refs ps)) - Z.of_nat (List.length (refs (struck bad ps))))%Z.
Proof.
  intros Hn. rewrite refs_struck. induction ps as [|[a b] ps IH]; [reflexivity|].
  rewrite refs_cons, !filter_app, !app_length. cbn [map fold_right fst snd].
  assert (E : forall s, snd (strike bad s)
    = (Z.of_nat (List.length (slot_list s))
       - Z.of_nat (List.length (filter (fun r => negb (slot_in (Some r) bad)) (slot_list s))))%Z).
  { intros [r|]; unfold strike.
    - cbn [slot_list filter]. destruct (slot_in (Some r) bad); reflexivity.
    - rewrite Hn. reflexivity. }
  unfold strike_pair at 1. cbn [fst snd].
  pose proof (E a) as Ea. pose proof (E b) as Eb.
  destruct (strike bad a), (strike bad b). cbn [snd] in *. lia.
Qed.

Lemma flatten_in a bad r : flatten_arg a = Ok bad ->
  slot_in (Some r) bad = true <-> In r (arg_refs a).
Proof.
  assert (S : forall s l, slot_in s l = true <-> In s l).
  { intros s l. unfold slot_in. rewrite existsb_exists. split.
    - intros (x & Hx & E). destruct s, x; cbn in E; try discriminate; auto.
      apply Nat.eqb_eq in E. now subst.
    - intros H. exists s. split; auto. destruct s; cbn; auto. apply Nat.eqb_refl. }
  intros H. rewrite S. destruct a as [x|[|x l]|[|p ps]]; cbn in H; inversion H; subst.
  - cbn. intuition congruence.
  - cbn [arg_refs]. split.
    + intros [E|E]; [left; congruence|]. apply in_map_iff in E as (y & E & Hy).
      inversion E; subst. now right.
    + intros [->|E]; [now left|]. right. now apply in_map.
  - cbn [arg_refs]. change (concat (map (fun p0 => [fst p0; snd p0]) (p :: ps)))
      with (fst p :: snd p :: concat (map (fun p0 => [fst p0; snd p0]) ps)) in *.
    assert (G : forall ps, In (Some r) (concat (map (fun p0 : pair => [fst p0; snd p0]) ps)) <-> In r (refs ps)).
    { clear. induction ps as [|[[a|] [b|]] ps IH]; [reflexivity| | | |];
        rewrite refs_cons; cbn in *; rewrite IH; intuition congruence. }
    change (fst p :: snd p :: concat (map (fun p0 => [fst p0; snd p0]) ps))
      with (concat (map (fun p0 : pair => [fst p0; snd p0]) (p :: ps))).
    apply (G (p :: ps)).
Qed.

Lemma flatten_none a bad : flatten_arg a = Ok bad -> well_counted (Remove a) ->
  slot_in None bad = false.
Proof.
  intros H R. destruct a as [x|[|x l]|[|p ps]]; cbn in H; try discriminate.
  - inversion H; subst. reflexivity.
  - inversion H; subst. clear. cbn. induction l; auto.
  - assert (E : bad = concat (map (fun p : pair => [fst p; snd p]) (p :: ps))) by (now inversion H).
    subst bad. clear H. cbn [well_counted] in R.
    induction (p :: ps) as [|q l IH]; [reflexivity|]. cbn.
    destruct (R q (or_introl eq_refl)) as [R1 R2]. destruct (fst q), (snd q); try congruence.
    cbn. apply IH. intros; apply R. now right.
Qed.

Lemma remove_spec st a st' : remove_from_focal_plane st a = Ok st' ->
  exists bad, flatten_arg a = Ok bad /\ st' = mkinst (objs st) (struck bad (fp st))
    (ndet st - fold_right Z.add 0%Z (map snd (map (strike_pair bad) (fp st)))).
Proof.
  unfold remove_from_focal_plane. intros H. apply bind_ok in H as (bad & Hb & H). inversion H.
  exists bad. split; [exact Hb|reflexivity].
Qed.

Lemma remove_present st a st' : remove_from_focal_plane st a = Ok st' ->
  objs st' = objs st
  /\ present st' = filter (fun r => negb (existsb (Nat.eqb r) (arg_refs a))) (present st).
Proof.
  intros H. apply remove_spec in H as (bad & Hb & ->). split; [reflexivity|].
  rewrite !present_refs. cbn [fp]. rewrite refs_struck. apply filter_ext.
  intros r. f_equal. pose proof (flatten_in a bad r Hb) as F.
  destruct (slot_in (Some r) bad), (existsb (Nat.eqb r) (arg_refs a)) eqn:E; auto.
  - assert (X : In r (arg_refs a)) by tauto.
    assert (Y : existsb (Nat.eqb r) (arg_refs a) = true)
      by (apply existsb_exists; exists r; split; auto; apply Nat.eqb_refl). congruence.
  - apply existsb_exists in E as (x & Hx & Ex). apply Nat.eqb_eq in Ex. subst. now apply F.
Qed.

Lemma remove_pairs st a st' r s : remove_from_focal_plane st a = Ok st' ->
  In (Some r, Some s) (fp st') <->
  In (Some r, Some s) (fp st) /\ ~ In r (arg_refs a) /\ ~ In s (arg_refs a).
Proof.
  intros H. apply remove_spec in H as (bad & Hb & ->). cbn [fp]. unfold struck.
  rewrite filter_In, map_map, in_map_iff. split.
  - intros [(p & E & Hp) _]. destruct p as [a0 b0]. unfold strike_pair in E. cbn [fst snd] in E.
    unfold strike in E.
    destruct (slot_in a0 bad) eqn:E1, (slot_in b0 bad) eqn:E2; cbn in E; try discriminate.
    inversion E; subst. split; auto.
    rewrite <- !(flatten_in a bad _ Hb), E1, E2. split; discriminate.
  - intros (Hp & N1 & N2). rewrite <- (flatten_in a bad r Hb) in N1; rewrite <- (flatten_in a bad s Hb) in N2. split; [|reflexivity].
    exists (Some r, Some s). split; auto. unfold strike_pair. cbn [fst snd]. unfold strike.
    destruct (slot_in (Some r) bad); [congruence|]. destruct (slot_in (Some s) bad); [congruence|]. reflexivity.
Qed.

(** ** Classification of the steps *)
Definition quiet (o : op) : bool :=
  match o with
  | Add _ _ | Remove _ | Create _ _ _ _ _ _ _ | Input _ _ _ _ _ _ | Load _ _ _ _ _ _ _ _ => false
  | _ => true
  end.

Lemma quiet_step st o st' : quiet o = true -> NoDup (map fst (keywords o)) -> step st o = Ok st' ->
  fp st' = fp st /\ ndet st' = ndet st /\ keeps_idx (objs st) (objs st').
Proof.
  intros Q N H. destruct o; try discriminate Q; cbn [step keywords] in H, N.
  - apply bind_ok in H as (b & Hb & H). inversion H; subst. cbn. repeat split; try apply app_keeps.
  - apply bind_ok in H as (h & Hh & H). inversion H; subst. cbn [fp ndet objs].
    repeat split; eapply create_ghost_keeps; eauto.
  - unfold create_reflected_ghosts in H. apply bind_ok in H as (h & Hh & H). inversion H; subst.
    cbn [fp ndet objs]. split; [auto|split; [auto|]]. revert Hh.
    eapply (reflected_P keeps_idx keeps_refl keeps_trans create_ghost_keeps); eauto.
  - unfold create_crosstalk_ghosts in H. apply bind_ok in H as (h & Hh & H). inversion H; subst.
    cbn [fp ndet objs]. split; [auto|split; [auto|]]. revert Hh.
    eapply (crosstalk_P keeps_idx keeps_refl keeps_trans create_ghost_keeps); eauto.
  - apply bind_ok in H as (h & Hh & H). inversion H; subst. cbn [fp ndet objs].
    split; [auto|split; [auto|]]. apply same_meta_keeps. eapply setattr_meta; eauto.
  - unfold set_global_prop in H. apply bind_ok in H as (h & Hh & H). inversion H; subst.
    cbn [fp ndet objs]. split; [auto|split; [auto|]]. apply same_meta_keeps. revert Hh.
    apply (fold_res_inv _ same_meta); [apply same_meta_refl|apply same_meta_trans|].
    intros s x s'. apply set_beam_meta.
  - unfold add_to_prop in H. destruct prop as [|[key x] [|]]; try discriminate.
    apply bind_ok in H as (h & Hh & H). inversion H; subst.
    cbn [fp ndet objs]. split; [auto|split; [auto|]]. apply same_meta_keeps. revert Hh.
    apply (fold_res_inv _ same_meta); [apply same_meta_refl|apply same_meta_trans|].
    intros s y s'. apply add_beam_meta.
  - unfold set_btypes in H. apply bind_ok in H as (h & Hh & H). inversion H; subst.
    cbn [fp ndet objs]. split; [auto|split; [auto|]]. apply same_meta_keeps. revert Hh.
    apply (fold_res_inv _ same_meta); [apply same_meta_refl|apply same_meta_trans|].
    intros s y s'. apply setattr_meta.
  - unfold kill_channels in H. apply bind_ok in H as (h & Hh & H). inversion H; subst.
    cbn [fp ndet objs]. split; [auto|split; [auto|]]. apply same_meta_keeps. revert Hh.
    apply (fold_res_inv _ same_meta); [apply same_meta_refl|apply same_meta_trans|].
    intros s y s'. apply kill_one_meta.
Qed.

(** Steps that put beams on the focal plane: [new] is added to (or replaces)
    the beams that are there. *)
Definition combined (o : op) : bool :=
  match o with
  | Add _ c | Create _ _ _ _ _ c _ | Input _ _ _ _ c _ | Load _ _ _ _ c _ _ _ => c
  | _ => true
  end.

Definition adds (o : op) : bool :=
  match o with
  | Add _ _ | Create _ _ _ _ _ _ _ | Input _ _ _ _ _ _ | Load _ _ _ _ _ _ _ _ => true
  | _ => false
  end.

Lemma adding_step st o st' : adds o = true -> step st o = Ok st' ->
  exists h new n i, next_idx st (combined o) = Ok i
    /\ st' = put st h new n (combined o) /\ (well_counted o -> n = Z.of_nat (List.length (refs new)))
    /\ ((exists a, o = Add a (combined o) /\ refs new = arg_refs a /\ assign (objs st) (refs new) i = Ok h)
        \/ exists bs, grown (objs st) bs h new
             /\ (is_input o = false ->
                 (forall d tag nm np c pA pB kw x, o = Load d tag nm np c pA pB kw -> ~ In (Shared x) (map snd d)) ->
                 map idx bs = map Some (zseq i (List.length bs)))).
Proof.
  intros Ha H.
  assert (IDX : forall (bs : list beam) i,
    (forall k, (2 * k < List.length bs)%nat -> exists a b, nth_error bs (2 * k) = Some a /\
        nth_error bs (2 * k + 1) = Some b /\ idx a = Some (i + 2 * Z.of_nat k)%Z
        /\ idx b = Some (i + 2 * Z.of_nat k + 1)%Z) ->
    map idx bs = map Some (zseq i (List.length bs))).
  { clear. intros bs i Hk. apply nth_error_ext. intros n. rewrite !nth_error_map.
    destruct (Nat.lt_ge_cases n (List.length bs)) as [L|L].
    - rewrite zseq_nth by exact L. cbn [option_map].
      destruct (Nat.even n) eqn:Ev.
      + apply Nat.even_spec in Ev as [k ->]. destruct (Hk k) as (a & b & Na & _ & Ia & _); [lia|].
        rewrite Na. cbn. rewrite Ia. do 2 f_equal. lia.
      + assert (Od : Nat.odd n = true) by (unfold Nat.odd; now rewrite Ev).
        apply Nat.odd_spec in Od as [k ->]. destruct (Hk k) as (a & b & _ & Nb & _ & Ib); [lia|].
        rewrite Nb. cbn. rewrite Ib. do 2 f_equal. lia.
    - rewrite (proj2 (nth_error_None bs n)) by exact L.
      rewrite (proj2 (nth_error_None (zseq i _) n)) by (rewrite zseq_length; exact L). reflexivity. }
  destruct o; try discriminate Ha; cbn [step combined] in *.
  - (* Add *)
    unfold add_to_focal_plane in H. destruct a as [r|[|r rs]|[|p ps]]; try discriminate.
    + apply bind_ok in H as (i & Hi & H). apply bind_ok in H as (h & Hh & H). inversion H; subst.
      exists h, [(Some r, None)], 1%Z, i. split; [exact Hi|]. split; [reflexivity|]. split; [reflexivity|].
      left. eexists; split; [reflexivity|]. split; [reflexivity|].
      change (refs [(Some r, None)]) with [r]. cbn [assign]. rewrite Hh. reflexivity.
    + apply bind_ok in H as (i & Hi & H). apply bind_ok in H as ([h ps] & Hh & H). inversion H; subst.
      apply add_many_spec in Hh as [Hh E].
      exists h, ps, (Z.of_nat (List.length (r :: rs))), i. split; [exact Hi|]. split; [reflexivity|].
      split; [intros _; now rewrite E|]. left. eexists; split; [reflexivity|]. rewrite E. split; [reflexivity|exact Hh].
    + apply bind_ok in H as (i & Hi & H). apply bind_ok in H as ([h qs] & Hh & H).
      apply add_pairs_spec in Hh as (Hh & -> & L). inversion H; subst.
      exists h, (p :: ps), (2 * Z.of_nat (List.length (p :: ps)))%Z, i.
      split; [exact Hi|]. split; [reflexivity|]. split; [intros _; rewrite L; lia|].
      left. eexists; split; [reflexivity|]. split; [reflexivity|exact Hh].
  - (* Create *)
    unfold create_focal_plane in H. cbv zeta in H.
    apply bind_ok in H as (pa & _ & H). apply bind_ok in H as (dd & _ & H).
    apply bind_ok in H as (i & Hi & H). apply bind_ok in H as ([h ps] & Hh & H). inversion H; subst; clear H.
    eapply (create_cells_grown _ (fun _ _ i a b => idx a = Some i /\ idx b = Some (i + 1)%Z)) in Hh
      as (bs & G & L & N).
    2:{ clear. intros azi eli i a b H. unfold grid_beams in H. cbv zeta in H.
        apply bind_ok in H as (a' & Ha & H). apply bind_ok in H as (b' & Hb & H). inversion H; subst.
        split; [eauto using beam_init_fresh|]. split; [eauto using beam_init_fresh|]. split.
        - eapply beam_init_idx; eauto. rewrite dget_dupdate; [reflexivity|].
          cbn. repeat constructor; cbn; intuition discriminate.
        - eapply beam_init_idx; eauto. rewrite dget_dupdate; [reflexivity|].
          cbn. repeat constructor; cbn; intuition discriminate. }
    destruct (G) as (_ & E & _ & L2 & _).
    exists h, ps, (2 * Z.of_nat (nrow * ncol))%Z, i. split; [exact Hi|]. split; [reflexivity|].
    split. { intros _. rewrite E, seq_length, L2, L, cells_length. lia. }
    right. exists bs. split; [exact G|]. intros _ _. apply IDX. intros k Hk.
    destruct (nth_error (cells nrow ncol) k) as [[azi eli]|] eqn:Ek.
    + destruct (N _ _ _ Ek) as (a & b & Na & Nb & Ia & Ib). eauto 8.
    + apply nth_error_None in Ek. lia.
  - (* Input *)
    unfold input_focal_plane in H. cbv zeta in H. destruct combine; [|discriminate].
    apply bind_ok in H as (i & Hi & H). apply bind_ok in H as ([h ps] & Hh & H). inversion H; subst; clear H.
    apply input_cells_grown in Hh as (bs & G & L & N).
    destruct (G) as (_ & E & _ & L2 & _).
    exists h, ps, (2 * Z.of_nat (List.length azs))%Z, i. split; [exact Hi|]. split; [reflexivity|].
    split.
    { cbn [well_counted]. intros (L3 & L4 & L5). rewrite E, seq_length, L2, L, !combine_length.
      destruct deads as [d|]; [rewrite (L5 d eq_refl)|rewrite map_length]; lia. }
    right. exists bs. split; [exact G|]. discriminate.
  - (* Load *)
    unfold load_focal_plane in H. cbv zeta in H.
    apply bind_ok in H as (i & Hi & H). apply bind_ok in H as (fs & Hf & H).
    apply bind_ok in H as ([h ps] & Hh & H). inversion H; subst; clear H.
    apply load_files_grown in Hh as (bs & G & L & N).
    destruct (G) as (_ & E & _ & L2 & _).
    exists h, ps, (2 * Z.of_nat (List.length ps))%Z, i. split; [exact Hi|]. split; [reflexivity|].
    split. { intros _. rewrite E, seq_length, L2. lia. }
    right. exists bs. split; [exact G|]. intros _ NS. apply IDX. intros k Hk.
    destruct (nth_error fs k) as [f|] eqn:Ek.
    2:{ apply nth_error_None in Ek. lia. }
    destruct (N _ _ Ek) as (a & b & Na & Nb & Hl). exists a, b. split; [exact Na|]. split; [exact Nb|].
    assert (FP : forall da db kw i np pA pB a b, finish_pair da db kw i np pA pB = Ok (a, b) ->
        idx a = Some i /\ idx b = Some (i + 1)%Z).
    { clear. intros da db kw i np pA pB a b H. unfold finish_pair in H. cbv zeta in H.
      apply bind_ok in H as (d1 & H1 & H). apply bind_ok in H as (d2 & H2 & H).
      apply bind_ok in H as (? & Ha & H). apply bind_ok in H as (? & Hb & H).
      inversion H; subst.
      assert (PL : forall d p d', add_polang d p = Ok d' -> dget d' "idx" = dget d "idx").
      { clear. intros d p d' H. unfold add_polang in H. apply bind_ok in H as (x & _ & H).
        inversion H; subst. now rewrite dget_dset. }
      apply PL in H1, H2. rewrite dget_dset in H1, H2. cbn in H1, H2. split.
      - eapply beam_init_idx; eauto. rewrite dget_dset, dget_dpop. cbn. exact H1.
      - eapply beam_init_idx; eauto. rewrite dget_dset, dget_dpop. cbn.
        destruct np; [rewrite dget_dset; cbn|]; exact H2. }
    destruct f as [d0|[|d1 [|d2 [|]]]|d0]; cbn [load_file] in Hl; try discriminate.
    + apply bind_ok in Hl as (? & _ & Hl). apply bind_ok in Hl as (? & _ & Hl). eauto.
    + eauto.
    + exfalso. refine (NS d tag names no_pairs combine pA pB kw d0 eq_refl _).
      clear - Hf Ek. unfold file_list in Hf. apply bind_ok in Hf as (nms & _ & Hf).
      destruct (all_some (map (lookup_file d) (sort_names nms))) as [fs'|] eqn:Es; [|discriminate].
      inversion Hf; subst.
      assert (X : In (Some (Shared d0)) (map (lookup_file d) (sort_names nms))).
      { apply nth_error_In in Ek. revert Es Ek. clear. generalize (map (lookup_file d) (sort_names nms)).
        intros l; revert fs. induction l as [|[f|] l IH]; intros fs H Hin; cbn in H.
        - inversion H; subst. destruct Hin.
        - destruct (all_some l) as [s|]; [|discriminate]. inversion H; subst.
          destruct Hin as [->|Hin]; [now left|]. right. eapply IH; eauto.
        - discriminate. }
      apply in_map_iff in X as (n & En & _). revert En. clear. induction d as [|[m f] d IH]; cbn; [discriminate|].
      destruct (m =? n); [intros X; inversion X; auto|]. auto.
Qed.

(** ** The count *)
Definition count_ok (st : inst) : Prop := ndet st = Z.of_nat (List.length (present st)).

Lemma step_count st o st' : well_counted o -> NoDup (map fst (keywords o)) -> step st o = Ok st' ->
  count_ok st -> count_ok st'.
Proof.
  unfold count_ok. intros R N H C.
  destruct (quiet o) eqn:Q.
  { destruct (quiet_step _ _ _ Q N H) as (E1 & E2 & _). rewrite E2, present_refs, E1. exact C. }
  destruct (adds o) eqn:A.
  { destruct (adding_step _ _ _ A H) as (h & new & n & i & _ & -> & En & _).
    rewrite present_refs. unfold put. destruct (combined o); cbn [fp ndet].
    - rewrite refs_app, app_length, C, present_refs, (En R). lia.
    - exact (En R). }
  destruct o; try discriminate. cbn [step] in H.
  apply remove_spec in H as (bad & Hb & ->). rewrite present_refs. cbn [fp ndet].
  rewrite (strike_count _ _ (flatten_none _ _ Hb R)). rewrite C, present_refs. lia.
Qed.

Lemma history_count st os st' : history (fun _ o => well_counted o) st os st' ->
  count_ok st -> count_ok st'.
Proof.
  induction 1 as [|st o st' os st'' R N H _ IH]; auto. intros C. apply IH. eapply step_count; eauto.
Qed.

(** ** The indices *)
Definition idx_ok (st : inst) : Prop :=
  exists is_, map (hidx (objs st)) (present st) = map Some is_ /\ NoDup is_.

Lemma idxs_of_spec h rs l : idxs_of h rs = Ok l -> map (hidx h) rs = map Some l.
Proof.
  revert l; induction rs as [|r rs IH]; intros l H; cbn [idxs_of] in H.
  - inversion H; reflexivity.
  - apply bind_ok in H as (b & Hb & H). destruct (idx b) as [i|] eqn:Ei; [|discriminate].
    apply bind_ok in H as (l' & Hl & H). inversion H; subst. cbn [map]. rewrite (IH _ Hl).
    apply index_ok in Hb. unfold hidx. now rewrite Hb, Ei.
Qed.

Lemma fold_max l : forall x, (x <= fold_left Z.max l x)%Z /\ forall y, In y l -> (y <= fold_left Z.max l x)%Z.
Proof.
  induction l as [|a l IH]; intros x; cbn; [split; [lia|tauto]|].
  destruct (IH (Z.max x a)) as [H1 H2]. split; [lia|]. intros y [->|Hy]; [lia|auto].
Qed.

Lemma map_Some_inj {A} (l l' : list A) : map Some l = map Some l' -> l = l'.
Proof.
  revert l'; induction l as [|x l IH]; intros [|y l'] H; cbn in H; try discriminate; auto.
  inversion H. f_equal; auto.
Qed.

Lemma next_idx_bound st i is_ : next_idx st true = Ok i ->
  map (hidx (objs st)) (present st) = map Some is_ -> forall j, In j is_ -> (j < i)%Z.
Proof.
  unfold next_idx. intros H E. apply bind_ok in H as (l & Hl & H).
  unfold beams_idxs in Hl. rewrite refs_concat in Hl. apply idxs_of_spec in Hl.
  rewrite present_refs, Hl in E. apply map_Some_inj in E. subst l.
  intros j Hj. destruct is_ as [|x is_]; [destruct Hj|]. inversion H; subst.
  destruct (fold_max is_ x) as [H1 H2]. destruct Hj as [->|Hj]; [lia|]. apply H2 in Hj. lia.
Qed.

Lemma hidx_some_lt h r i : hidx h r = Some i -> (r < List.length h)%nat.
Proof.
  unfold hidx. intros H. apply nth_error_Some. destruct (nth_error h r); congruence.
Qed.

Lemma idx_ok_lt st r : idx_ok st -> In r (present st) -> (r < List.length (objs st))%nat.
Proof.
  intros (is_ & E & _) Hr. apply (in_map (hidx (objs st))) in Hr. rewrite E in Hr.
  apply in_map_iff in Hr as (i & Ei & _). symmetry in Ei. now apply hidx_some_lt in Ei.
Qed.

Lemma map_filter_some {A} (f : nat -> option A) p l is_ : map f l = map Some is_ -> NoDup is_ ->
  exists js, map f (filter p l) = map Some js /\ NoDup js /\ incl js is_.
Proof.
  revert is_; induction l as [|r l IH]; intros [|i is_] H ND; cbn in H; try discriminate.
  - exists []. repeat split; auto. intros x [].
  - inversion H. inversion ND; subst. destruct (IH _ H2 H5) as (js & E & N & I).
    cbn [filter]. destruct (p r).
    + exists (i :: js). cbn. rewrite E, H1. repeat split; auto.
      * constructor; auto.
      * intros x [->|X]; [now left|]. right; auto.
    + exists js. repeat split; auto. intros x X. right; auto.
Qed.

Lemma NoDup_app_lt (l l' : list Z) i : NoDup l -> NoDup l' -> (forall j, In j l -> (j < i)%Z) ->
  (forall j, In j l' -> (i <= j)%Z) -> NoDup (l ++ l').
Proof.
  intros H1 H2 H3 H4. induction l as [|x l IH]; auto. inversion H1; subst. cbn. constructor.
  - rewrite in_app_iff. intros [X|X]; auto. apply H4 in X. specialize (H3 x (or_introl eq_refl)). lia.
  - apply IH; auto. intros; apply H3. now right.
Qed.

Lemma step_idx st o st' : adds_once st o -> is_input o = false -> loads_separate o ->
  NoDup (map fst (keywords o)) -> step st o = Ok st' -> idx_ok st -> idx_ok st'.
Proof.
  intros AO NI LS N H C.
  destruct (quiet o) eqn:Q.
  { destruct (quiet_step _ _ _ Q N H) as (E1 & E2 & K1 & K2).
    assert (L : forall r, In r (present st) -> (r < List.length (objs st))%nat)
      by (intros; now apply idx_ok_lt).
    destruct C as (is_ & E & ND). exists is_. split; auto.
    rewrite present_refs, E1, <- present_refs, <- E. apply map_ext_in. intros r Hr. apply K2. auto. }
  destruct (adds o) eqn:A.
  { destruct (adding_step _ _ _ A H) as (h & new & n & i & Hi & -> & _ & W).
    assert (X : map (hidx h) (refs new) = map Some (zseq i (List.length (refs new)))
      /\ (combined o = true -> forall r, In r (present st) -> hidx h r = hidx (objs st) r)).
    { destruct W as [(a & Eo & Er & Ha)|(bs & G & GI)].
      - rewrite Er in *. rewrite Eo in AO. cbn [adds_once] in AO. destruct AO as [ND AO].
        destruct (assign_hidx _ _ _ _ Ha ND) as [E1 E2]. split; auto.
        intros Hc r Hr. apply E2. intros X. exact (AO Hc _ X Hr).
      - destruct G as (-> & Er & _). split.
        + rewrite Er, seq_length, <- (GI NI).
          2:{ intros d tag nm np c pA pB kw x ->. apply LS. }
          apply nth_error_ext. intros k. rewrite !nth_error_map.
          destruct (Nat.lt_ge_cases k (List.length bs)) as [L|L].
          * rewrite (nth_error_nth' (seq _ _) 0) by (rewrite seq_length; exact L).
            rewrite seq_nth by exact L. cbn [option_map]. unfold hidx.
            rewrite nth_error_app2 by lia.
            replace (List.length (objs st) + k - List.length (objs st))%nat with k by lia.
            destruct (nth_error bs k) eqn:Ek; [reflexivity|]. apply nth_error_None in Ek. lia.
          * rewrite (proj2 (nth_error_None bs k)) by exact L.
            rewrite (proj2 (nth_error_None (seq _ _) k)) by (rewrite seq_length; exact L). reflexivity.
        + intros _ r Hr. apply (app_keeps (objs st) bs). now apply idx_ok_lt. }
    destruct X as [X1 X2]. unfold idx_ok. rewrite present_refs. unfold put.
    destruct (combined o) eqn:Ec; cbn [fp objs].
    - destruct C as (is_ & E & ND). exists (is_ ++ zseq i (List.length (refs new)))%list. split.
      + rewrite refs_app, !map_app, X1, <- E. f_equal. rewrite present_refs.
        apply map_ext_in. intros r Hr. apply X2; auto.
      + eapply NoDup_app_lt; eauto using zseq_nodup.
        * eapply next_idx_bound; eauto.
        * intros j Hj. apply zseq_in in Hj. lia.
    - eexists; split; [exact X1|]. apply zseq_nodup. }
  destruct o; try discriminate. cbn [step] in H.
  destruct (remove_present _ _ _ H) as [E1 E2]. destruct C as (is_ & E & ND).
  destruct (map_filter_some (hidx (objs st)) (fun r => negb (existsb (Nat.eqb r) (arg_refs a))) _ _ E ND)
    as (js & Ej & Nj & _).
  exists js. rewrite E1, E2. auto.
Qed.

Definition idx_history := history (fun st o => adds_once st o /\ is_input o = false /\ loads_separate o).

Lemma history_idx st os st' : idx_history st os st' -> idx_ok st -> idx_ok st'.
Proof.
  induction 1 as [|st o st' os st'' (R & I & L) N H _ IH]; auto. intros C. apply IH.
  eapply step_idx; eauto.
Qed.

Lemma idx_ok_distinct st : idx_ok st -> forall r s, In r (present st) -> In s (present st) -> r <> s ->
  exists i j, idx_of st r = Some i /\ idx_of st s = Some j /\ i <> j.
Proof.
  intros (is_ & E & ND) r s Hr Hs Hn.
  change (idx_of st) with (hidx (objs st)).
  revert is_ E ND. induction (present st) as [|x l IH]; intros [|i is_] E ND; cbn in E; try discriminate;
    [destruct Hr|]. inversion E; inversion ND; subst.
  assert (IN : forall y, In y l -> exists j, hidx (objs st) y = Some j /\ In j is_).
  { intros y Hy. apply (in_map (hidx (objs st))) in Hy. rewrite H1 in Hy.
    apply in_map_iff in Hy as (j & Ej & Hj). eauto. }
  destruct Hr as [->|Hr], Hs as [->|Hs].
  - congruence.
  - destruct (IN _ Hs) as (j & Ej & Hj). exists i, j. repeat split; auto. intros ->. auto.
  - destruct (IN _ Hr) as (j & Ej & Hj). exists j, i. repeat split; auto. intros ->. auto.
  - eapply IH; eauto.
Qed.

Lemma idx_ok_nodup st : idx_ok st -> NoDup (present st).
Proof.
  intros (is_ & E & ND). apply (NoDup_map_inv (hidx (objs st))). rewrite E.
  apply Injective_map_NoDup; auto. intros x y H. now inversion H.
Qed.

(** ** The ghosts *)
Definition ghosts_ok (h : heap) : Prop :=
  (forall r b, nth_error h r = Some b ->
     ghost_count b = List.length (ghosts b)
     /\ (ghost b = true -> ghosts b = [])
     /\ forall i g, nth_error (ghosts b) i = Some g ->
          exists gb, nth_error h g = Some gb /\ ghost gb = true /\ ghost_idx gb = Some i)
  /\ (forall r r' b b' i i' g, nth_error h r = Some b -> nth_error h r' = Some b' ->
        nth_error (ghosts b) i = Some g -> nth_error (ghosts b') i' = Some g -> r = r' /\ i = i').

Definition gmeta (b : beam) := (ghost b, ghosts b, ghost_count b, ghost_idx b).

Lemma ghosts_ok_same h h' : (forall r, option_map gmeta (nth_error h' r) = option_map gmeta (nth_error h r)) ->
  ghosts_ok h -> ghosts_ok h'.
Proof.
  intros E [G1 G2].
  assert (B : forall r b', nth_error h' r = Some b' -> exists b, nth_error h r = Some b /\
    ghost b' = ghost b /\ ghosts b' = ghosts b /\ ghost_count b' = ghost_count b /\ ghost_idx b' = ghost_idx b).
  { intros r b' Hb. specialize (E r). rewrite Hb in E. destruct (nth_error h r) as [b|]; cbn in E; [|discriminate].
    exists b. unfold gmeta in E. split; auto. inversion E. repeat split; auto. }
  split.
  - intros r b' Hb. destruct (B _ _ Hb) as (b & H & E1 & E2 & E3 & E4).
    destruct (G1 _ _ H) as (A1 & A2 & A3). rewrite E1, E2, E3. repeat split; auto.
    intros i g Hi. destruct (A3 _ _ Hi) as (gb & Hg & Q1 & Q2).
    specialize (E g). rewrite Hg in E. destruct (nth_error h' g) as [gb'|]; [|discriminate].
    exists gb'. unfold gmeta in E. cbn in E. inversion E. split; auto. split; congruence.
  - intros r r' b b' i i' g H H' Hi Hi'. destruct (B _ _ H) as (c & Hc & _ & Ec & _).
    destruct (B _ _ H') as (c' & Hc' & _ & Ec' & _). rewrite Ec in Hi. rewrite Ec' in Hi'. eapply G2; eauto.
Qed.

Lemma same_meta_ghosts h h' : same_meta h h' -> ghosts_ok h -> ghosts_ok h'.
Proof.
  intros [_ E]. apply ghosts_ok_same. intros r. specialize (E r). unfold hmeta in E.
  destruct (nth_error h' r), (nth_error h r); cbn in *; try discriminate; auto.
  unfold meta in E. unfold gmeta. inversion E. reflexivity.
Qed.

Lemma same_but_idx_ghosts h h' : same_but_idx h h' -> ghosts_ok h -> ghosts_ok h'.
Proof.
  intros [_ E]. apply ghosts_ok_same. intros r. specialize (E r).
  destruct (nth_error h r), (nth_error h' r); try tauto. destruct E as [i ->]. reflexivity.
Qed.

Lemma app_ghosts bs : forall h, Forall fresh_beam bs -> ghosts_ok h -> ghosts_ok (h ++ bs)%list.
Proof.
  intros h F [G1 G2].
  assert (B : forall r b, nth_error (h ++ bs)%list r = Some b -> nth_error h r = Some b \/ fresh_beam b).
  { intros r b H. destruct (Nat.lt_ge_cases r (List.length h)) as [L|L].
    - rewrite nth_error_app1 in H by exact L. auto.
    - rewrite nth_error_app2 in H by exact L. apply nth_error_In in H. right.
      rewrite Forall_forall in F. auto. }
  split.
  - intros r b H. apply B in H as [H|(F1 & F2 & F3)].
    + destruct (G1 _ _ H) as (A1 & A2 & A3). repeat split; auto. intros i g Hi.
      destruct (A3 _ _ Hi) as (gb & Hg & Q). exists gb. split; auto.
      rewrite nth_error_app1; auto. apply nth_error_Some. congruence.
    + rewrite F1, F2. repeat split; auto. intros [|i] g; discriminate.
  - intros r r' b b' i i' g H H' Hi Hi'.
    apply B in H as [H|(F1 & _)]; [|rewrite F1 in Hi; destruct i; discriminate].
    apply B in H' as [H'|(F1 & _)]; [|rewrite F1 in Hi'; destruct i'; discriminate].
    eapply G2; eauto.
Qed.

Lemma create_ghost_ghosts h r tag kw h' : NoDup (map fst kw) ->
  create_ghost h r tag kw = Ok h' -> ghosts_ok h -> ghosts_ok h'.
Proof.
  intros Hnd H [G1 G2]. destruct (nth_error h r) as [b|] eqn:Eb.
  2:{ unfold create_ghost, index in H. rewrite Eb in H. discriminate. }
  assert (Gf : ghost b = false).
  { destruct (ghost b) eqn:Eg; auto. rewrite (ghost_of_ghost _ _ tag kw _ Eb Eg) in H. discriminate. }
  destruct (create_ghost_heap _ _ _ _ _ _ H Eb Hnd) as (g & Hg & B1 & B2 & B3 & B4 & Hl & Hr & Ho).
  assert (Lr : (r < List.length h)%nat) by (apply nth_error_Some; congruence).
  assert (OLD : forall q qb i x, nth_error h q = Some qb -> nth_error (ghosts qb) i = Some x ->
    (x < List.length h)%nat).
  { intros q qb i x Hq Hi. destruct (G1 _ _ Hq) as (_ & _ & A3). destruct (A3 _ _ Hi) as (gb & Hgb & _).
    apply nth_error_Some. congruence. }
  assert (C : forall q qb, nth_error h' q = Some qb ->
    (q = r /\ qb = with_ghosts b (ghosts b ++ [List.length h])%list (ghost_count b + 1))
    \/ (q = List.length h /\ qb = g) \/ (q <> r /\ (q < List.length h)%nat /\ nth_error h q = Some qb)).
  { intros q qb Hq. destruct (Nat.eq_dec q r) as [->|N1]; [left; split; congruence|].
    destruct (Nat.eq_dec q (List.length h)) as [->|N2]; [right; left; split; congruence|].
    right; right. rewrite Ho in Hq by auto. repeat split; auto. apply nth_error_Some. congruence. }
  (* ghosts stay ghosts *)
  assert (ST : forall x gb i, nth_error h x = Some gb -> ghost gb = true -> ghost_idx gb = Some i ->
    exists gb', nth_error h' x = Some gb' /\ ghost gb' = true /\ ghost_idx gb' = Some i).
  { intros x gb i Hx Q1 Q2. destruct (Nat.eq_dec x r) as [->|N1].
    - rewrite Eb in Hx. inversion Hx; subst. congruence.
    - exists gb. rewrite Ho; auto. assert (x < List.length h)%nat by (apply nth_error_Some; congruence). lia. }
  destruct (G1 _ _ Eb) as (A1 & A2 & A3).
  split.
  - intros q qb Hq. destruct (C _ _ Hq) as [[-> ->]|[[-> ->]|(N & L & Hq')]].
    + cbn [ghost_count ghosts ghost with_ghosts]. rewrite app_length. cbn. split; [lia|].
      split; [congruence|]. intros i x Hi.
      destruct (Nat.lt_ge_cases i (List.length (ghosts b))) as [Li|Li].
      * rewrite nth_error_app1 in Hi by exact Li. destruct (A3 _ _ Hi) as (gb & Hgb & Q1 & Q2). eauto.
      * rewrite nth_error_app2 in Hi by exact Li.
        destruct (i - List.length (ghosts b))%nat as [|k] eqn:Ei; [|destruct k; discriminate].
        cbn in Hi. inversion Hi; subst x. exists g. repeat split; auto. rewrite B4. f_equal. lia.
    + rewrite B2, B3. repeat split; auto. intros [|i] x; discriminate.
    + destruct (G1 _ _ Hq') as (D1 & D2 & D3). repeat split; auto. intros i x Hi.
      destruct (D3 _ _ Hi) as (gb & Hgb & Q1 & Q2). eauto.
  - assert (CH : forall q qb i x, nth_error h' q = Some qb -> nth_error (ghosts qb) i = Some x ->
      (exists qb0, nth_error h q = Some qb0 /\ nth_error (ghosts qb0) i = Some x /\ (x < List.length h)%nat)
      \/ (q = r /\ i = List.length (ghosts b) /\ x = List.length h)).
    { intros q qb i x Hq Hi. destruct (C _ _ Hq) as [[-> ->]|[[-> ->]|(N & L & Hq')]].
      - cbn [ghosts with_ghosts] in Hi.
        destruct (Nat.lt_ge_cases i (List.length (ghosts b))) as [Li|Li].
        + rewrite nth_error_app1 in Hi by exact Li. left. exists b. eauto.
        + rewrite nth_error_app2 in Hi by exact Li.
          destruct (i - List.length (ghosts b))%nat as [|k] eqn:Ei; [|destruct k; discriminate].
          cbn in Hi. inversion Hi; subst x. right. repeat split; auto. lia.
      - rewrite B2 in Hi. destruct i; discriminate.
      - left. exists qb. eauto. }
    intros q q' qb qb' i i' x Hq Hq' Hi Hi'.
    destruct (CH _ _ _ _ Hq Hi) as [(c & K1 & K2 & K3)|(-> & -> & ->)];
    destruct (CH _ _ _ _ Hq' Hi') as [(c' & K1' & K2' & K3')|(-> & -> & K)]; try lia.
    all: first [eapply G2; eassumption | auto].
Qed.

Lemma step_ghosts st o st' : NoDup (map fst (keywords o)) -> step st o = Ok st' ->
  ghosts_ok (objs st) -> ghosts_ok (objs st').
Proof.
  intros N H. destruct (adds o) eqn:A.
  { destruct (adding_step _ _ _ A H) as (h & new & n & i & _ & -> & _ & W).
    assert (E : objs (put st h new n (combined o)) = h) by (unfold put; now destruct (combined o)).
    rewrite E. destruct W as [(a & _ & _ & Ha)|(bs & (-> & _ & F & _) & _)].
    - apply same_but_idx_ghosts. eapply assign_same; eauto.
    - now apply app_ghosts. }
  assert (PG : forall h r tag kw h', NoDup (map fst kw) -> create_ghost h r tag kw = Ok h' ->
    ghosts_ok h -> ghosts_ok h') by (intros; eapply create_ghost_ghosts; eauto).
  destruct o; try discriminate A; cbn [step keywords] in H, N.
  - apply bind_ok in H as (b & Hb & H). inversion H; subst. cbn [objs alloc fst].
    apply app_ghosts. repeat constructor; apply beam_init_fresh in Hb; apply Hb.
  - destruct (remove_present _ _ _ H) as [-> _]. auto.
  - apply bind_ok in H as (h & Hh & H). inversion H; subst. cbn [objs]. eapply PG; eauto.
  - unfold create_reflected_ghosts in H. apply bind_ok in H as (h & Hh & H). inversion H; subst. cbn [objs].
    refine (reflected_P (fun h h' => ghosts_ok h -> ghosts_ok h') _ _ PG _ _ _ _ _ _ _ N Hh); auto.
  - unfold create_crosstalk_ghosts in H. apply bind_ok in H as (h & Hh & H). inversion H; subst. cbn [objs].
    refine (crosstalk_P (fun h h' => ghosts_ok h -> ghosts_ok h') _ _ PG _ _ _ _ _ _ _ N Hh); auto.
  - apply bind_ok in H as (h & Hh & H). inversion H; subst. cbn [objs]. apply same_meta_ghosts.
    eapply setattr_meta; eauto.
  - unfold set_global_prop in H. apply bind_ok in H as (h & Hh & H). inversion H; subst.
    cbn [objs]. apply same_meta_ghosts. revert Hh.
    apply (fold_res_inv _ same_meta); [apply same_meta_refl|apply same_meta_trans|].
    intros s x s'. apply set_beam_meta.
  - unfold add_to_prop in H. destruct prop as [|[key x] [|]]; try discriminate.
    apply bind_ok in H as (h & Hh & H). inversion H; subst.
    cbn [objs]. apply same_meta_ghosts. revert Hh.
    apply (fold_res_inv _ same_meta); [apply same_meta_refl|apply same_meta_trans|].
    intros s y s'. apply add_beam_meta.
  - unfold set_btypes in H. apply bind_ok in H as (h & Hh & H). inversion H; subst.
    cbn [objs]. apply same_meta_ghosts. revert Hh.
    apply (fold_res_inv _ same_meta); [apply same_meta_refl|apply same_meta_trans|].
    intros s y s'. apply setattr_meta.
  - unfold kill_channels in H. apply bind_ok in H as (h & Hh & H). inversion H; subst.
    cbn [objs]. apply same_meta_ghosts. revert Hh.
    apply (fold_res_inv _ same_meta); [apply same_meta_refl|apply same_meta_trans|].
    intros s y s'. apply kill_one_meta.
Qed.

Lemma history_ghosts st os st' : history (fun _ _ => True) st os st' ->
  ghosts_ok (objs st) -> ghosts_ok (objs st').
Proof.
  induction 1 as [|st o st' os st'' R N H _ IH]; auto. intros C. apply IH. eapply step_ghosts; eauto.
Qed.

Lemma empty_ghosts : ghosts_ok (objs empty_inst).
Proof. split; intros [|r]; discriminate. Qed.
