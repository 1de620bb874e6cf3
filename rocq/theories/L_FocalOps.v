(** * Lemmas about focal plane operations: dead channels, properties, ghosts *)
From Coq Require Import Reals String Lra.
From Verif Require Import Common LibList M_Beam M_Focal S_Focal L_Beam L_Ghost L_Focal L_FocalInv.
Open Scope string_scope.

Lemma existsb_fext {A} (f g : A -> bool) l : (forall x, f x = g x) -> existsb f l = existsb g l.
Proof. intros H. induction l; cbn; congruence. Qed.

(** ** Killing channels *)
Lemma ghosts_of_meta h h' r : same_meta h h' -> ghosts_of h' r = ghosts_of h r.
Proof.
  intros [_ E]. specialize (E r). unfold hmeta in E. unfold ghosts_of.
  destruct (nth_error h' r), (nth_error h r); cbn in E; try discriminate; auto.
  unfold meta in E. now inversion E.
Qed.

(** All of [ts] are marked dead, with their ghosts. *)
Definition kill_refs (h : heap) (ts : list nat) : res heap :=
  fold_left (fun h t => do h <- h; setattr h t "dead" (VBool true)) ts (Ok h).

Definition closed (h : heap) (ts : list nat) : Prop :=
  forall t, In t ts -> (t < List.length h)%nat /\ forall g, In g (ghosts_of h t) -> (g < List.length h)%nat.

Lemma closed_meta h h' ts : same_meta h h' -> closed h ts -> closed h' ts.
Proof.
  intros M C t Ht. rewrite (ghosts_of_meta _ _ t M). destruct M as [L _]. rewrite L. auto.
Qed.

Lemma set_dead_ok h gs v : (forall g, In g gs -> (g < List.length h)%nat) ->
  exists h', fold_left (fun h g => do h <- h; set_obj h g "dead" v) gs (Ok h) = Ok h'.
Proof.
  revert h; induction gs as [|g gs IH]; intros h H; cbn [fold_left].
  - eauto.
  - cbn [bind]. destruct (set_obj_ok h g "dead" v) as [h1 H1]; [reflexivity|apply H; now left|].
    rewrite H1. apply IH. intros x Hx. rewrite (proj1 (set_obj_meta _ _ _ _ _ H1)). apply H. now right.
Qed.

Lemma setattr_dead_ok h r v : closed h [r] -> exists h', setattr h r "dead" v = Ok h'.
Proof.
  intros C. destruct (C r (or_introl eq_refl)) as [L G]. unfold setattr. cbn [String.eqb].
  destruct (nth_error h r) as [b|] eqn:Eb; [|apply nth_error_None in Eb; lia].
  cbn. rewrite (proj2 (index_ok h r b) Eb). cbn [bind].
  destruct (set_obj_ok h r "dead" v) as [h1 H1]; [reflexivity|exact L|]. rewrite H1. cbn [bind].
  apply set_dead_ok. intros g Hg. rewrite (proj1 (set_obj_meta _ _ _ _ _ H1)). apply G.
  unfold ghosts_of. now rewrite Eb.
Qed.

Lemma kill_refs_ok ts : forall h, closed h ts -> exists h', kill_refs h ts = Ok h'.
Proof.
  induction ts as [|t ts IH]; intros h C; unfold kill_refs; cbn [fold_left].
  - eauto.
  - cbn [bind]. destruct (setattr_dead_ok h t (VBool true)) as [h1 H1].
    { intros x [<-|[]]. apply C. now left. }
    rewrite H1. apply IH. apply (closed_meta _ _ _ (setattr_meta _ _ _ _ _ H1)).
    intros x Hx. apply C. now right.
Qed.

Lemma kill_refs_spec ts : forall h h', kill_refs h ts = Ok h' ->
  same_meta h h'
  /\ forall r key, getattr h' r key
     = if (existsb (fun t => existsb (Nat.eqb r) (t :: ghosts_of h t)) ts && (key =? "dead"))%bool
       then Some (VBool true) else getattr h r key.
Proof.
  induction ts as [|t ts IH]; intros h h' H; unfold kill_refs in H; cbn [fold_left] in H.
  - inversion H; subst. split; [apply same_meta_refl|]. reflexivity.
  - cbn [bind] in H. destruct (setattr h t "dead" (VBool true)) as [h1|e] eqn:E1;
      [|rewrite fold_res_err in H; discriminate].
    pose proof (setattr_meta _ _ _ _ _ E1) as M1. destruct (IH _ _ H) as [M2 E2].
    split; [eapply same_meta_trans; eauto|]. intros r key. rewrite E2.
    assert (EG : existsb (fun t => existsb (Nat.eqb r) (t :: ghosts_of h1 t)) ts
                 = existsb (fun t => existsb (Nat.eqb r) (t :: ghosts_of h t)) ts).
    { apply existsb_fext. intros x. now rewrite (ghosts_of_meta _ _ x M1). }
    rewrite EG. cbn [existsb].
    destruct (nth_error h t) as [b|] eqn:Eb.
    2:{ unfold setattr, index in E1. cbn in E1. rewrite Eb in E1. discriminate. }
    rewrite (setattr_dead _ _ _ _ _ E1 Eb). unfold ghosts_of. rewrite Eb.
    destruct (existsb (fun t => existsb (Nat.eqb r) (t :: match nth_error h t with Some b => ghosts b | None => [] end)) ts) eqn:EX;
      cbn [existsb] in EX |- *; rewrite ?EX, ?orb_true_r, ?orb_false_r; cbn [andb].
    + destruct (key =? "dead"); cbn [andb]; [reflexivity|]. now rewrite andb_false_r.
    + reflexivity.
Qed.

(** Positions in a focal plane of complete pairs. *)
Definition complete (ps : list pair) : Prop := forall p, In p ps -> fst p <> None /\ snd p <> None.

Lemma complete_nth ps k : complete ps -> (k < List.length ps)%nat ->
  exists a b, nth_error ps k = Some (Some a, Some b)
    /\ nth_error (refs ps) (2 * k) = Some a /\ nth_error (refs ps) (2 * k + 1) = Some b.
Proof.
  revert k; induction ps as [|p ps IH]; intros k C L; cbn in L; [lia|].
  destruct (C p (or_introl eq_refl)) as [N1 N2]. destruct p as [[a|] [b|]]; cbn in N1, N2; try congruence.
  rewrite refs_cons. cbn [fst snd slot_list app]. destruct k as [|k].
  - exists a, b. auto.
  - destruct (IH k) as (x & y & E1 & E2 & E3); [intros q Hq; apply C; now right|lia|].
    exists x, y. replace (2 * S k)%nat with (S (S (2 * k))) by lia. auto.
Qed.

Lemma complete_length ps : complete ps -> List.length (refs ps) = (2 * List.length ps)%nat.
Proof.
  induction ps as [|p ps IH]; intros C; [reflexivity|]. rewrite refs_cons.
  destruct (C p (or_introl eq_refl)) as [N1 N2]. destruct p as [[a|] [b|]]; cbn in N1, N2; try congruence.
  cbn. rewrite IH; [lia|]. intros q Hq; apply C; now right.
Qed.

(** The detectors that the drawn numbers stand for. *)
Definition targets (st : inst) (pairs : bool) (draw : list nat) : list nat :=
  flat_map (fun k : nat => if pairs then [nth (2 * k) (present st) 0%nat; nth (2 * k + 1) (present st) 0%nat]
                     else [nth k (present st) 0%nat]) draw.

Lemma kill_fold st (pairs : bool) (draw : list nat) : complete (fp st) ->
  (forall k, In k draw -> (k < if pairs then List.length (fp st) else List.length (present st))%nat) ->
  forall h, fold_left (fun h k => do h <- h; kill_one (fp st) pairs h k) draw (Ok h)
  = kill_refs h (targets st pairs draw).
Proof.
  intros C. induction draw as [|k draw IH]; intros H h; cbn [fold_left]; [reflexivity|].
  assert (FE : forall e, fold_left (fun h t => do h <- h; setattr h t "dead" (VBool true)) (targets st pairs draw) (Err e) = Err e)
    by (intros; apply fold_res_err).
  assert (Hk := H k (or_introl eq_refl)).
  assert (IH' := IH (fun x Hx => H x (or_intror Hx))). clear IH.
  cbn [bind]. unfold kill_one, targets. cbn [flat_map]. destruct pairs.
  - destruct (complete_nth _ k C Hk) as (a & b & E1 & E2 & E3).
    rewrite (proj2 (index_ok _ _ _) E1). cbn [bind fst snd kill_slot].
    rewrite (nth_error_nth _ _ _ E2), (nth_error_nth _ _ _ E3). unfold kill_refs. cbn [app fold_left bind].
    destruct (setattr h a "dead" (VBool true)) as [h1|e]; cbn [bind]; [|now rewrite fold_res_err, FE].
    destruct (setattr h1 b "dead" (VBool true)) as [h2|e]; [|now rewrite fold_res_err, FE].
    apply IH'.
  - assert (L := complete_length _ C). rewrite present_refs in Hk.
    pose proof (Nat.div_mod k 2) as D. pose proof (Nat.mod_upper_bound k 2) as U.
    destruct (complete_nth _ (k / 2) C) as (a & b & E1 & E2 & E3); [lia|].
    rewrite (proj2 (index_ok _ _ _) E1). cbn [bind fst snd].
    unfold kill_refs. cbn [app fold_left bind].
    assert (ES : (match (k mod 2 =? 0)%nat return slot with true => Some a | false => Some b end) = Some (nth k (present st) 0%nat)).
    { rewrite present_refs. destruct (Nat.eqb_spec (k mod 2) 0) as [Z|Z].
      - replace k with (2 * (k / 2))%nat at 1 by lia. now rewrite (nth_error_nth _ _ _ E2).
      - replace k with (2 * (k / 2) + 1)%nat at 1 by lia. now rewrite (nth_error_nth _ _ _ E3). }
    rewrite ES. cbn [kill_slot].
    destruct (setattr h (nth k (present st) 0%nat) "dead" (VBool true)) as [h1|e]; [|now rewrite fold_res_err, FE].
    apply IH'.
Qed.

Lemma Int_part_bound n f : (0 <= n)%Z -> (0 <= f <= 1)%R -> (0 <= Int_part (IZR n * f) <= n)%Z.
Proof.
  intros Hn Hf. apply IZR_le in Hn.
  assert (0 <= IZR n * f <= IZR n)%R.
  { split; [apply Rmult_le_pos; lra|]. rewrite <- (Rmult_1_r (IZR n)) at 2. apply Rmult_le_compat_l; lra. }
  split; [apply Int_part_nonneg; lra|]. apply le_IZR.
  pose proof (base_Int_part (IZR n * f)). lra.
Qed.

Lemma kill_channels_spec st f pairs choice :
  complete (fp st) -> count_ok st -> closed (objs st) (present st) ->
  (0 <= f <= 1)%R -> draws_distinct choice ->
  exists st' draw,
    kill_channels st f pairs choice = Ok st'
    /\ fp st' = fp st /\ ndet st' = ndet st
    /\ NoDup draw
    /\ (let n := if pairs then (Z.of_nat (List.length (present st)) / 2)%Z else Z.of_nat (List.length (present st)) in
        Z.of_nat (List.length draw) = Int_part (IZR n * f) /\ forall k, In k draw -> (Z.of_nat k < n)%Z)
    /\ forall r key, getattr (objs st') r key
       = if (existsb (fun t => existsb (Nat.eqb r) (t :: ghosts_of (objs st) t)) (targets st pairs draw)
             && (key =? "dead"))%bool
         then Some (VBool true) else getattr (objs st) r key.
Proof.
  intros C N CL Hf D. unfold kill_channels. cbv zeta. rewrite N.
  set (n := if pairs then (Z.of_nat (List.length (present st)) / 2)%Z else Z.of_nat (List.length (present st))).
  set (m := Int_part (IZR n * f)).
  assert (Hn : (0 <= n)%Z) by (unfold n; destruct pairs; [apply Z.div_pos|]; lia).
  assert (Hm := Int_part_bound n f Hn Hf). fold m in Hm.
  destruct (D (Z.to_nat n) (Z.to_nat m)) as (D1 & D2 & D3); [lia|].
  set (draw := choice (Z.to_nat n) (Z.to_nat m)) in *.
  assert (HB : forall k, In k draw -> (k < if pairs then List.length (fp st) else List.length (present st))%nat).
  { intros k Hk. apply D3 in Hk. unfold n in Hk. rewrite present_refs in *.
    destruct pairs; [|lia]. rewrite complete_length in Hk by exact C.
    rewrite Nat2Z.inj_mul in Hk. change (Z.of_nat 2) with 2%Z in Hk. rewrite Z.mul_comm, Z.div_mul in Hk by lia. lia. }
  rewrite (kill_fold st pairs draw C HB (objs st)).
  assert (TP : forall t, In t (targets st pairs draw) -> In t (present st)).
  { unfold targets. intros t Ht. apply in_flat_map in Ht as (k & Hk & Ht). specialize (HB k Hk).
    rewrite present_refs in *. pose proof (complete_length _ C).
    destruct pairs; cbn in Ht; intuition subst; apply nth_In; lia. }
  destruct (kill_refs_ok (targets st pairs draw) (objs st)) as [h' Hh']; [intros t Ht; apply CL; auto|].
  rewrite Hh'. cbn [bind]. eexists; exists draw. split; [reflexivity|]. cbn [fp ndet objs].
  split; [reflexivity|]. split; [congruence|]. split; [exact D2|]. split.
  { split; [rewrite D1; lia|]. intros k Hk. apply D3 in Hk. lia. }
  apply (kill_refs_spec _ _ _ Hh').
Qed.

(** ** Setting properties *)
Lemma set_props_other h r prop h' : set_props h r prop = Ok h' ->
  forall r' k, ~ In k (map fst prop) -> getattr h' r' k = getattr h r' k.
Proof.
  unfold set_props. revert h; induction prop as [|[a v] prop IH]; intros h H r' k Hk; cbn [fold_left] in H.
  - now inversion H.
  - cbn [bind fst snd] in H. destruct (setattr h r a v) as [h1|] eqn:E; [|rewrite fold_res_err in H; discriminate].
    rewrite (IH _ H) by (intros X; apply Hk; now right). eapply setattr_other; eauto.
    intros ->. apply Hk. now left.
Qed.

(** Effect of the assignments to one beam; [dead] also reaches its ghosts. *)
Lemma set_props_plain prop : forall h r h' b, set_props h r prop = Ok h' -> nth_error h r = Some b ->
  plain_prop prop -> NoDup (map fst prop) ->
  forall r' k, getattr h' r' k
    = match dget prop k with
      | Some v => if (Nat.eqb r' r || (existsb (Nat.eqb r') (ghosts b) && (k =? "dead")))%bool
                  then Some v else getattr h r' k
      | None => getattr h r' k
      end.
Proof.
  unfold set_props. induction prop as [|[a v] prop IH]; intros h r h' b H Hb PP ND r' k; cbn [fold_left] in H.
  - now inversion H.
  - cbn [bind fst snd] in H. destruct (setattr h r a v) as [h1|] eqn:E; [|rewrite fold_res_err in H; discriminate].
    inversion ND as [|? ? Hn Hd]; subst.
    assert (M := setattr_meta _ _ _ _ _ E).
    assert (exists b1, nth_error h1 r = Some b1 /\ ghosts b1 = ghosts b) as (b1 & Hb1 & Eg).
    { pose proof (ghosts_of_meta _ _ r M) as G. destruct M as [L _]. unfold ghosts_of in G. rewrite Hb in G.
      destruct (nth_error h1 r) as [b1|] eqn:E1; [eauto|]. apply nth_error_None in E1.
      assert (r < List.length h)%nat by (apply nth_error_Some; congruence). lia. }
    assert (PP' : plain_prop prop) by (intros x Hx; apply PP; now right).
    rewrite (IH _ _ _ _ H Hb1 PP' Hd). rewrite Eg. cbn [dget].
    assert (X : getattr h1 r' k = if (a =? k) then
      (if (Nat.eqb r' r || (existsb (Nat.eqb r') (ghosts b) && (k =? "dead")))%bool then Some v else getattr h r' k)
      else getattr h r' k).
    { destruct (String.eqb_spec a "dead") as [->|Na].
      - rewrite (setattr_dead _ _ _ _ _ E Hb). cbn [existsb].
        destruct (String.eqb_spec k "dead") as [->|Nk].
        + cbn. rewrite !andb_true_r. reflexivity.
        + rewrite andb_false_r. destruct (String.eqb_spec "dead" k); [congruence|reflexivity].
      - rewrite (setattr_plain _ _ _ _ _ _ _ E (PP a (or_introl eq_refl)) Na).
        rewrite (String.eqb_sym k a). destruct (String.eqb_spec a k) as [->|Nk].
        + apply String.eqb_neq in Na. rewrite Na, !andb_false_r, orb_false_r, andb_true_r. reflexivity.
        + now rewrite andb_false_r. }
    rewrite X. destruct (String.eqb_spec a k) as [->|Nk].
    + rewrite (dget_notin prop k) by exact Hn. reflexivity.
    + reflexivity.
Qed.

Lemma chosen_selected st no_B no_A :
  concat (map (selected no_A no_B) (fp st)) = chosen st no_B no_A.
Proof. unfold chosen. rewrite flat_map_concat_map. reflexivity. Qed.

Definition ghosts_leaf (h : heap) : Prop := forall r g, In g (ghosts_of h r) -> ghosts_of h g = [].

Lemma set_list_props gs prop : forall h h', 
  fold_left (fun h g => do h <- h; set_props h g prop) gs (Ok h) = Ok h' ->
  plain_prop prop -> NoDup (map fst prop) -> (forall g, In g gs -> ghosts_of h g = []) ->
  forall r' k, getattr h' r' k
    = match dget prop k with
      | Some v => if existsb (Nat.eqb r') gs then Some v else getattr h r' k
      | None => getattr h r' k
      end.
Proof.
  induction gs as [|g gs IH]; intros h h' H PP ND LF r' k; cbn [fold_left] in H.
  - inversion H; subst. now destruct (dget prop k).
  - cbn [bind] in H. destruct (set_props h g prop) as [h1|] eqn:E; [|rewrite fold_res_err in H; discriminate].
    pose proof (set_props_meta _ _ _ _ E) as M.
    rewrite (IH _ _ H PP ND).
    2:{ intros x Hx. rewrite (ghosts_of_meta _ _ x M). apply LF. now right. }
    destruct (nth_error h g) as [b|] eqn:Eb.
    + pose proof (LF g (or_introl eq_refl)) as Lg. unfold ghosts_of in Lg. rewrite Eb in Lg.
      rewrite (set_props_plain _ _ _ _ _ E Eb PP ND). rewrite Lg. cbn [existsb andb].
      rewrite orb_false_r. destruct (dget prop k); [|reflexivity].
      destruct (Nat.eqb r' g), (existsb (Nat.eqb r') gs); reflexivity.
    + (* no such object: nothing was assigned *)
      destruct prop as [|[a v] prop].
      { unfold set_props in E. cbn in E. inversion E; subst. reflexivity. }
      unfold set_props in E. cbn [fold_left bind fst snd] in E.
      assert (X : setattr h g a v = Err IndexError).
      { unfold setattr, set_obj, index. rewrite Eb. destruct (a =? "dead"); reflexivity. }
      rewrite X in E. rewrite fold_res_err in E. discriminate.
Qed.

Lemma set_beam_spec prop ig h r h' : set_beam prop ig h r = Ok h' -> plain_prop prop ->
  NoDup (map fst prop) -> ghosts_leaf h -> (r < List.length h)%nat ->
  forall r' k, getattr h' r' k
    = match dget prop k with
      | Some v => if (Nat.eqb r' r || (existsb (Nat.eqb r') (ghosts_of h r) && (ig || (k =? "dead"))))%bool
                  then Some v else getattr h r' k
      | None => getattr h r' k
      end.
Proof.
  intros H PP ND LF L r' k. unfold set_beam in H. apply bind_ok in H as (h1 & H1 & H).
  destruct (nth_error h r) as [b|] eqn:Eb; [|apply nth_error_None in Eb; lia].
  assert (Gb : ghosts_of h r = ghosts b) by (unfold ghosts_of; now rewrite Eb).
  pose proof (set_props_plain _ _ _ _ _ H1 Eb PP ND) as E1. pose proof (set_props_meta _ _ _ _ H1) as M.
  rewrite Gb. destruct ig.
  - apply bind_ok in H as (b1 & Hb1 & H).
    assert (Eg : ghosts b1 = ghosts b).
    { pose proof (ghosts_of_meta _ _ r M) as G. unfold ghosts_of in G. apply index_ok in Hb1. now rewrite Hb1, Eb in G. }
    rewrite Eg in H.
    rewrite (set_list_props _ _ _ _ H PP ND).
    2:{ intros g Hg. rewrite (ghosts_of_meta _ _ g M). apply (LF r). now rewrite Gb. }
    rewrite E1. destruct (dget prop k); [|reflexivity]. cbn [orb]. rewrite andb_true_r.
    destruct (Nat.eqb r' r), (existsb (Nat.eqb r') (ghosts b)); cbn; reflexivity.
  - inversion H; subst. rewrite E1. destruct (dget prop k); reflexivity.
Qed.

Lemma ghosts_leaf_meta h h' : same_meta h h' -> ghosts_leaf h -> ghosts_leaf h'.
Proof.
  intros M L r g Hg. rewrite (ghosts_of_meta _ _ r M) in Hg. rewrite (ghosts_of_meta _ _ g M). eauto.
Qed.

Lemma set_beams_spec prop ig rs : forall h h',
  fold_left (fun h r => do h <- h; set_beam prop ig h r) rs (Ok h) = Ok h' ->
  plain_prop prop -> NoDup (map fst prop) -> ghosts_leaf h -> (forall r, In r rs -> (r < List.length h)%nat) ->
  forall r' k, getattr h' r' k
    = match dget prop k with
      | Some v => if existsb (fun r => (Nat.eqb r' r || (existsb (Nat.eqb r') (ghosts_of h r) && (ig || (k =? "dead"))))%bool) rs
                  then Some v else getattr h r' k
      | None => getattr h r' k
      end.
Proof.
  induction rs as [|r rs IH]; intros h h' H PP ND LF B r' k; cbn [fold_left] in H.
  - inversion H; subst. now destruct (dget prop k).
  - cbn [bind] in H. destruct (set_beam prop ig h r) as [h1|] eqn:E; [|rewrite fold_res_err in H; discriminate].
    pose proof (set_beam_meta _ _ _ _ _ E) as M.
    rewrite (IH _ _ H PP ND (ghosts_leaf_meta _ _ M LF)).
    2:{ intros x Hx. destruct M as [L _]. rewrite L. apply B. now right. }
    rewrite (set_beam_spec _ _ _ _ _ E PP ND LF (B r (or_introl eq_refl))).
    destruct (dget prop k); [|reflexivity].
    assert (EX : forall rs, existsb (fun r => (Nat.eqb r' r || (existsb (Nat.eqb r') (ghosts_of h1 r) && (ig || (k =? "dead"))))%bool) rs
      = existsb (fun r => (Nat.eqb r' r || (existsb (Nat.eqb r') (ghosts_of h r) && (ig || (k =? "dead"))))%bool) rs).
    { intros l. apply existsb_fext. intros x. now rewrite (ghosts_of_meta _ _ x M). }
    rewrite EX. cbn [existsb].
    destruct (existsb (fun r => (Nat.eqb r' r || (existsb (Nat.eqb r') (ghosts_of h r) && (ig || (k =? "dead"))))%bool) rs).
    + now rewrite orb_true_r.
    + now rewrite orb_false_r.
Qed.

Lemma set_global_prop_spec st prop ig nb na st' : set_global_prop st prop ig nb na = Ok st' ->
  plain_prop prop -> NoDup (map fst prop) -> ghosts_leaf (objs st) ->
  (forall r, In r (present st) -> (r < List.length (objs st))%nat) ->
  fp st' = fp st /\ ndet st' = ndet st
  /\ forall r k, getattr (objs st') r k
     = match dget prop k with
       | Some v =>
           if existsb (fun b => (Nat.eqb r b || (existsb (Nat.eqb r) (ghosts_of (objs st) b)
                                                 && (ig || (k =? "dead"))))%bool) (chosen st nb na)
           then Some v else getattr (objs st) r k
       | None => getattr (objs st) r k
       end.
Proof.
  intros H PP ND LF B. unfold set_global_prop in H. apply bind_ok in H as (h & Hh & H).
  inversion H; subst. cbn [fp ndet objs]. split; [reflexivity|]. split; [reflexivity|].
  rewrite chosen_selected in Hh. eapply set_beams_spec; eauto.
  intros r Hr. apply B. unfold chosen in Hr. unfold present. apply in_flat_map in Hr as (p & Hp & Hr).
  apply in_flat_map. exists p. split; auto.
  destruct p as [[a|] [b|]], nb, na; cbn in *; tauto.
Qed.

(** Adding to a numerical property, main beams. *)
Lemma add_beam_main key x h r h' b v0 : add_beam key x false h r = Ok h' -> plain key = true ->
  key <> "dead" -> nth_error h r = Some b -> attrs b key = Some (VNum v0) ->
  forall r' k, getattr h' r' k = if (Nat.eqb r' r && (k =? key))%bool then Some (VNum (v0 + x)) else getattr h r' k.
Proof.
  intros H P D Hb Hv. unfold add_beam in H. rewrite (proj2 (index_ok _ _ _) Hb) in H. cbn [bind] in H.
  rewrite Hv in H. cbn [vnum bind] in H. apply bind_ok in H as (h1 & H1 & H). inversion H; subst.
  intros r' k. eapply setattr_plain; eauto.
Qed.

Definition num_at (h : heap) (r : nat) (key : string) : Prop :=
  exists v, getattr h r key = Some (VNum v).

Lemma add_beams_main key x rs : forall h h',
  fold_left (fun h r => do h <- h; add_beam key x false h r) rs (Ok h) = Ok h' ->
  plain key = true -> key <> "dead" -> NoDup rs -> (forall r, In r rs -> num_at h r key) ->
  forall r k, getattr h' r k
    = if (existsb (Nat.eqb r) rs && (k =? key))%bool
      then match getattr h r key with Some (VNum v) => Some (VNum (v + x)) | o => o end
      else getattr h r k.
Proof.
  induction rs as [|a rs IH]; intros h h' H P D ND NA r k; cbn [fold_left] in H.
  - now inversion H.
  - cbn [bind] in H. destruct (add_beam key x false h a) as [h1|] eqn:E; [|rewrite fold_res_err in H; discriminate].
    inversion ND as [|? ? Hn Hd]; subst.
    destruct (NA a (or_introl eq_refl)) as [v Hv]. unfold getattr in Hv.
    destruct (nth_error h a) as [b|] eqn:Eb; [|discriminate].
    pose proof (add_beam_main _ _ _ _ _ _ _ E P D Eb Hv) as E1.
    rewrite (IH _ _ H P D Hd).
    2:{ intros y Hy. destruct (NA y (or_intror Hy)) as [w Hw]. exists w. rewrite E1.
        destruct (Nat.eqb_spec y a) as [->|]; [tauto|]. exact Hw. }
    cbn [existsb]. rewrite !E1. destruct (Nat.eqb_spec r a) as [->|Nr]; cbn [andb orb].
    + assert (EX : existsb (Nat.eqb a) rs = false).
      { destruct (existsb (Nat.eqb a) rs) eqn:X; auto. apply existsb_exists in X as (y & Hy & Ey).
        apply Nat.eqb_eq in Ey. subst. tauto. }
      rewrite EX. cbn [andb]. destruct (String.eqb_spec k key) as [->|]; [|reflexivity].
      unfold getattr. rewrite Eb, Hv. reflexivity.
    + reflexivity.
Qed.

Lemma add_to_prop_spec st key x nb na st' : add_to_prop st [(key, x)] false nb na = Ok st' ->
  plain key = true -> key <> "dead" -> NoDup (chosen st nb na) ->
  (forall r, In r (chosen st nb na) -> num_at (objs st) r key) ->
  fp st' = fp st /\ ndet st' = ndet st
  /\ forall r k, getattr (objs st') r k
     = if (existsb (Nat.eqb r) (chosen st nb na) && (k =? key))%bool
       then match getattr (objs st) r key with Some (VNum v) => Some (VNum (v + x)) | o => o end
       else getattr (objs st) r k.
Proof.
  intros H P D ND NA. unfold add_to_prop in H. apply bind_ok in H as (h & Hh & H).
  inversion H; subst. cbn [fp ndet objs]. split; [reflexivity|]. split; [reflexivity|].
  rewrite chosen_selected in Hh. eapply add_beams_main; eauto.
Qed.

(** ** Ghosts of a whole focal plane *)
Lemma perturb_get kw rand rnd kw' rnd' : perturb kw rand rnd = Ok (kw', rnd') ->
  (forall k, k <> "amplitude" -> dget kw' k = dget kw k)
  /\ (if rand then exists x a, rnd = x :: rnd' /\ vnum (dget kw "amplitude") 1%R = Ok a
                              /\ dget kw' "amplitude" = Some (VNum (a + x))
      else kw' = kw /\ rnd' = rnd).
Proof.
  unfold perturb. destruct rand; [|now inversion 1; subst].
  destruct rnd as [|x rnd]; [discriminate|]. intros H. apply bind_ok in H as (a & Ha & H).
  inversion H; subst. split.
  - intros k Hk. rewrite dget_dset. destruct (String.eqb_spec "amplitude" k); congruence.
  - exists x, a. repeat split; auto. now rewrite dget_dset.
Qed.

Lemma reflected_other rs : forall h tag rand rnd kw h', reflected h rs tag rand rnd kw = Ok h' ->
  NoDup (map fst kw) ->
  (List.length h <= List.length h')%nat /\
  forall x, (x < List.length h)%nat -> ~ In x rs -> nth_error h' x = nth_error h x.
Proof.
  induction rs as [|r rs IH]; intros h tag rand rnd kw h' H ND; cbn [reflected] in H.
  - inversion H; subst; auto.
  - apply bind_ok in H as (b & Hb & H). apply bind_ok in H as (az & _ & H).
    apply bind_ok in H as (el & _ & H). apply bind_ok in H as ([kw' rnd'] & Hp & H).
    apply bind_ok in H as (h1 & H1 & H). apply index_ok in Hb.
    assert (N : NoDup (map fst kw')) by (eapply perturb_nodup; eauto using NoDup_dupdate).
    destruct (create_ghost_heap _ _ _ _ _ _ H1 Hb N) as (g & _ & _ & _ & _ & _ & Hl & _ & Ho).
    destruct (IH _ _ _ _ _ _ H N) as [L O]. split; [lia|]. intros x Hx Hn. cbn in Hn.
    rewrite O by (try lia; tauto). apply Ho; [intuition|lia].
Qed.

(** A ghost is never among the beams for which ghosts are created. *)
Lemma reflected_no_ghost rs : forall h tag rand rnd kw h' n g, NoDup (map fst kw) ->
  nth_error h n = Some g -> ghost g = true ->
  reflected h rs tag rand rnd kw = Ok h' -> ~ In n rs.
Proof.
  induction rs as [|q rs IH]; intros h1 tag rand rnd' kw' h' n g N Hg GG H X; [destruct X|].
  cbn [reflected] in H.
  apply bind_ok in H as (b0 & Hb0 & H). apply bind_ok in H as (az0 & Haz0 & H).
  apply bind_ok in H as (el0 & Hel0 & H). apply bind_ok in H as ([kw2 rnd2] & Hp & H).
  apply bind_ok in H as (h2 & H2 & H). apply index_ok in Hb0.
  assert (N' : NoDup (map fst kw2)) by (eapply perturb_nodup; eauto using NoDup_dupdate).
  destruct (Nat.eq_dec q n) as [->|Nq].
  - rewrite (ghost_of_ghost _ _ _ _ _ Hg GG) in H2. discriminate.
  - destruct X as [X|X]; [congruence|]. revert X. eapply IH; [exact N'| |exact GG|exact H].
    destruct (create_ghost_heap _ _ _ _ _ _ H2 Hb0 N') as (_ & _ & _ & _ & _ & _ & _ & _ & Ho).
    rewrite Ho; auto. assert (n < List.length h1)%nat by (apply nth_error_Some; congruence). lia.
Qed.

(** Ghost number [j]: its parent, and its options. *)
Lemma reflected_spec rs : forall h tag rand rnd kw h', reflected h rs tag rand rnd kw = Ok h' ->
  NoDup (map fst kw) -> NoDup rs -> 
  forall j r b az el, nth_error rs j = Some r -> nth_error h r = Some b ->
  attrs b "az" = Some (VNum az) -> attrs b "el" = Some (VNum el) ->
  (exists b', nth_error h' r = Some b' /\ ghosts b' = (ghosts b ++ [List.length h + j])%list%nat)
  /\ getattr h' (List.length h + j) "az" = Some (VNum (- az))
  /\ getattr h' (List.length h + j) "el" = Some (VNum (- el))
  /\ (rand = true -> forall a0, vnum (dget kw "amplitude") 1%R = Ok a0 ->
        getattr h' (List.length h + j) "amplitude" = Some (VNum (a0 + prefix_sum rnd (S j))))
  /\ forall k d, In (k, d) beam_defaults -> plain k = true -> k <> "name" -> k <> "az" -> k <> "el" ->
       (rand = true -> k <> "amplitude") ->
       getattr h' (List.length h + j) k
       = match dget kw k with
         | Some v => Some v
         | None => if existsb (fun k' => k' =? k) inherited then attrs b k else Some d
         end.
Proof.
  induction rs as [|r0 rs IH]; intros h tag rand rnd kw h' H ND NR j r b az el Hj Hb Haz Hel;
    [destruct j; discriminate|].
  cbn [reflected] in H.
  apply bind_ok in H as (b0 & Hb0 & H). apply bind_ok in H as (az0 & Haz0 & H).
  apply bind_ok in H as (el0 & Hel0 & H). apply bind_ok in H as ([kw' rnd'] & Hp & H).
  apply bind_ok in H as (h1 & H1 & H). apply index_ok in Hb0.
  set (kw1 := dupdate kw [("az", VNum (- az0)); ("el", VNum (- el0))]) in *.
  assert (N1 : NoDup (map fst kw1)) by (now apply NoDup_dupdate).
  assert (N : NoDup (map fst kw')) by (eapply perturb_nodup; eauto).
  destruct (create_ghost_heap _ _ _ _ _ _ H1 Hb0 N) as (g & Hg & _ & _ & _ & _ & Hl & Hr & Ho).
  destruct (perturb_get _ _ _ _ _ Hp) as [PG PR].
  assert (KG : forall k, dget kw1 k = if k =? "az" then Some (VNum (- az0)) else if k =? "el" then Some (VNum (- el0)) else dget kw k).
  { intros k. unfold kw1. rewrite dget_dupdate.
    - cbn [dget]. rewrite (String.eqb_sym k "az"), (String.eqb_sym k "el").
      destruct ("az" =? k), ("el" =? k); reflexivity.
    - cbn. repeat constructor; cbn; intuition discriminate. }
  inversion NR as [|? ? Hnr Hdr]; subst.
  assert (LR0 : (r0 < List.length h)%nat) by (apply nth_error_Some; congruence).
  destruct j as [|j].
  - cbn in Hj. inversion Hj; subst r0. rewrite Hb in Hb0. inversion Hb0; subst b0.
    rewrite Haz in Haz0. rewrite Hel in Hel0. cbn in Haz0, Hel0. inversion Haz0; inversion Hel0; subst az0 el0.
    rewrite Nat.add_0_r.
    destruct (reflected_other _ _ _ _ _ _ _ H N) as [L O].
    assert (FR : forall x, (x < List.length h1)%nat -> ~ In x rs -> nth_error h' x = nth_error h1 x) by exact O.
    assert (PL : forall k d, In (k, d) beam_defaults -> plain k = true -> k <> "name" ->
      getattr h' (List.length h) k = match dget kw' k with Some v => Some v
        | None => if existsb (fun k' => k' =? k) inherited then attrs b k else Some d end).
    { intros k d Hk Pk Nk. rewrite <- (ghost_plain _ _ _ _ _ _ _ _ H1 Hb N Hk Pk Nk).
      unfold getattr. 
      assert (X : ~ In (List.length h) rs \/ In (List.length h) rs) by (destruct (in_dec Nat.eq_dec (List.length h) rs); auto).
      destruct X as [X|X]; [now rewrite FR by (try lia; auto)|].
      (* creating a ghost of the new ghost would have raised *)
      exfalso. destruct (create_ghost_heap _ _ _ _ _ _ H1 Hb N) as (g' & Hg' & G & _).
      exact (reflected_no_ghost _ _ _ _ _ _ _ _ _ N Hg' G H X). }
    split.
    { eexists. split; [rewrite FR by (try lia; auto); exact Hr|reflexivity]. }
    split. { rewrite (PL "az" (VNum 0)); [|cbn; tauto|reflexivity|discriminate].
             rewrite PG by discriminate. rewrite KG. reflexivity. }
    split. { rewrite (PL "el" (VNum 0)); [|cbn; tauto|reflexivity|discriminate].
             rewrite PG by discriminate. rewrite KG. reflexivity. }
    split.
    { intros -> a0 Ha0. rewrite (PL "amplitude" (VNum 1)); [|cbn; tauto|reflexivity|discriminate].
      destruct PR as (x & a & -> & Ha & Hk). rewrite Hk. rewrite KG in Ha. cbn [String.eqb] in Ha. cbn in Ha.
      rewrite Ha0 in Ha. inversion Ha; subst. cbn [prefix_sum]. replace (prefix_sum rnd' 0) with 0%R by (destruct rnd'; reflexivity).
      do 2 f_equal. lra. }
    intros k d Hk Pk N2 N3 N4 N5. rewrite (PL k d Hk Pk N2).
    assert (E : dget kw' k = dget kw k).
    { assert (E2 : dget kw1 k = dget kw k).
      { rewrite KG. apply String.eqb_neq in N3, N4. now rewrite N3, N4. }
      destruct rand.
      - rewrite PG by auto. exact E2.
      - destruct PR as [-> _]. exact E2. }
    now rewrite E.
  - cbn [nth_error] in Hj.
    assert (Nr : r <> r0) by (intros ->; apply nth_error_In in Hj; tauto).
    assert (Lr : (r < List.length h)%nat) by (apply nth_error_Some; congruence).
    assert (Hb1 : nth_error h1 r = Some b) by (rewrite Ho by lia; exact Hb).
    destruct (IH _ _ _ _ _ _ H N Hdr j r b az el Hj Hb1 Haz Hel) as (A1 & A2 & A3 & A4 & A5).
    rewrite Hl in A1, A2, A3, A4, A5. replace (List.length h + S j)%nat with (S (List.length h) + j)%nat by lia.
    split; [exact A1|]. split; [exact A2|]. split; [exact A3|]. split.
    { intros Er a0 Ha0. subst rand. destruct PR as (x & a & -> & Ha & Hk).
      rewrite KG in Ha. cbn in Ha. rewrite Ha0 in Ha. inversion Ha; subst a.
      rewrite (A4 eq_refl (a0 + x)%R) by (rewrite Hk; reflexivity).
      do 2 f_equal. change (prefix_sum (x :: rnd') (S (S j))) with (x + prefix_sum rnd' (S j))%R. lra. }
    intros k d Hk Pk N2 N3 N4 N5. rewrite (A5 k d Hk Pk N2 N3 N4 N5).
    assert (E : dget kw' k = dget kw k).
    { assert (E2 : dget kw1 k = dget kw k).
      { rewrite KG. apply String.eqb_neq in N3, N4. now rewrite N3, N4. }
      destruct rand.
      - rewrite PG by auto. exact E2.
      - destruct PR as [-> _]. exact E2. }
    now rewrite E.
Qed.
