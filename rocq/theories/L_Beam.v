(** * Lemmas about the heap of beams *)
From Coq Require Import Reals String Lra.
From Verif Require Import Common M_Beam M_Focal S_Focal.
Open Scope string_scope.

(** ** Heap update *)

Lemma hset_length h r b : List.length (hset h r b) = List.length h.
Proof. revert r; induction h; intros [|r]; cbn; auto. Qed.

Lemma hset_same h r b : (r < List.length h)%nat -> nth_error (hset h r b) r = Some b.
Proof.
  revert r; induction h; intros [|r] H; cbn in *; try lia; auto. apply IHh. lia.
Qed.

Lemma hset_other h r b r' : r' <> r -> nth_error (hset h r b) r' = nth_error h r'.
Proof.
  revert r r'; induction h as [|x h IH]; intros [|r] [|r'] H; cbn; auto; try congruence.
Qed.

Lemma index_ok {A} (l : list A) i a : index l i = Ok a <-> nth_error l i = Some a.
Proof. unfold index. destruct (nth_error l i); split; intros H; inversion H; auto. Qed.

Lemma index_lt {A} (l : list A) i a : index l i = Ok a -> (i < List.length l)%nat.
Proof. intros H. apply index_ok in H. apply nth_error_Some. congruence. Qed.

(** What is not changed by attribute assignment. *)
Definition meta (b : beam) := (idx b, ghost b, ghosts b, ghost_count b, ghost_idx b).
Definition hmeta (h : heap) (r : nat) := option_map meta (nth_error h r).

Lemma meta_with_attrs b a : meta (with_attrs b a) = meta b.
Proof. destruct b; reflexivity. Qed.

Lemma bind_ok {A B} (e : res A) (f : A -> res B) b : bind e f = Ok b ->
  exists a, e = Ok a /\ f a = Ok b.
Proof. destruct e; cbn; intros H; [eauto|discriminate]. Qed.

Ltac inv_do H :=
  repeat match type of H with
  | bind _ _ = Ok _ => let a := fresh "a" in let E := fresh "E" in
      apply bind_ok in H; destruct H as (a & E & H)
  end.

Lemma set_obj_spec h r k v h' : set_obj h r k v = Ok h' ->
  exists b a, nth_error h r = Some b /\ set1 (attrs b) k v = Ok a
              /\ h' = hset h r (with_attrs b a).
Proof.
  unfold set_obj. intros H. apply bind_ok in H as (b & Hb & H).
  apply bind_ok in H as (a & Ha & H). inversion H. exists b, a. split; [|split; auto].
  now apply index_ok.
Qed.

Lemma set_obj_meta h r k v h' : set_obj h r k v = Ok h' ->
  List.length h' = List.length h /\ forall r', hmeta h' r' = hmeta h r'.
Proof.
  intros H. apply set_obj_spec in H as (b & a & Hb & Ha & ->). split; [apply hset_length|].
  intros r'. unfold hmeta. destruct (Nat.eq_dec r' r) as [->|Hn].
  - rewrite hset_same by (apply nth_error_Some; congruence). rewrite Hb. cbn.
    now rewrite meta_with_attrs.
  - now rewrite hset_other.
Qed.

Lemma fold_res_inv {X S} (f : S -> X -> res S) (P : S -> S -> Prop) l s s' :
  (forall s, P s s) -> (forall a b c, P a b -> P b c -> P a c) ->
  (forall s x s', f s x = Ok s' -> P s s') ->
  fold_left (fun s x => do s <- s; f s x) l (Ok s) = Ok s' -> P s s'.
Proof.
  intros Hr Ht Hf. revert s; induction l as [|x l IH]; intros s H; cbn in H.
  - inversion H. apply Hr.
  - destruct (f s x) as [s1|e] eqn:E.
    + eapply Ht; [eapply Hf; eauto|]. apply IH. exact H.
    + exfalso. clear -H. induction l; cbn in H; [discriminate|auto].
Qed.

Lemma fold_res_err {X S} (f : S -> X -> res S) l e :
  fold_left (fun s x => do s <- s; f s x) l (Err e) = Err e.
Proof. induction l; cbn; auto. Qed.

Definition same_meta (h h' : heap) :=
  List.length h' = List.length h /\ forall r, hmeta h' r = hmeta h r.

Lemma same_meta_refl h : same_meta h h. Proof. split; auto. Qed.
Lemma same_meta_trans a b c : same_meta a b -> same_meta b c -> same_meta a c.
Proof. intros [H1 H2] [H3 H4]. split; [congruence|]. intros r. now rewrite H4. Qed.

Lemma setattr_meta h r k v h' : setattr h r k v = Ok h' -> same_meta h h'.
Proof.
  unfold setattr. destruct (k =? "dead").
  - intros H. apply bind_ok in H as (b & Hb & H). apply bind_ok in H as (h1 & H1 & H).
    apply (same_meta_trans _ h1); [exact (set_obj_meta _ _ _ _ _ H1)|].
    revert H. apply (fold_res_inv _ same_meta).
    + apply same_meta_refl.
    + apply same_meta_trans.
    + intros. eapply set_obj_meta; eauto.
  - apply set_obj_meta.
Qed.

(** ** Single assignments *)

Lemma aset_same a k v : aset a k v k = Some v.
Proof. unfold aset. now rewrite String.eqb_refl. Qed.
Lemma aset_other a k v k' : k' <> k -> aset a k v k' = a k'.
Proof. intros H. unfold aset. apply String.eqb_neq in H. now rewrite H. Qed.

Lemma set1_other a k v a' k' : set1 a k v = Ok a' -> k' <> k -> a' k' = a k'.
Proof.
  intros H Hk. unfold set1 in H.
  destruct (read_only k); [discriminate|].
  destruct (String.eqb_spec k "lmax") as [->|].
  { unfold set_lmax in H. destruct v; try discriminate.
    - unfold bind in H. destruct (aget a "fwhm") as [[]|]; try discriminate.
      destruct (Req_EM_T r 0); [discriminate|]. inversion H. now apply aset_other.
    - inversion H. now apply aset_other. }
  destruct (String.eqb_spec k "fwhm") as [->|].
  { unfold set_fwhm in H. destruct v; try discriminate.
    - unfold bind in H. destruct (aget a "lmax") as [[]|]; try discriminate.
      destruct (_ =? _)%Z; [discriminate|]. inversion H. now apply aset_other.
    - inversion H. now apply aset_other. }
  destruct (String.eqb_spec k "mmax") as [->|].
  { unfold set_mmax in H. apply bind_ok in H as (l & _ & H).
    destruct v, l; try discriminate; inversion H; now apply aset_other. }
  inversion H. now apply aset_other.
Qed.

Lemma set1_plain a k v : plain k = true -> set1 a k v = Ok (aset a k v).
Proof.
  unfold plain, set1, read_only. cbn [existsb]. rewrite !(String.eqb_sym k).
  destruct ("idx" =? k), ("ghost" =? k), ("ghosts" =? k), ("polang_truth" =? k), ("lmax" =? k), ("fwhm" =? k), ("mmax" =? k);
    cbn; intros H; try discriminate; reflexivity.
Qed.

Lemma set_obj_other h r k v h' r' k' : set_obj h r k v = Ok h' -> (r', k') <> (r, k) ->
  getattr h' r' k' = getattr h r' k'.
Proof.
  intros H Hn. apply set_obj_spec in H as (b & a & Hb & Ha & ->). unfold getattr.
  destruct (Nat.eq_dec r' r) as [->|Hr].
  - rewrite hset_same by (apply nth_error_Some; congruence). rewrite Hb. cbn.
    eapply set1_other; eauto. congruence.
  - now rewrite hset_other.
Qed.

Lemma set_obj_plain_same h r k v h' : set_obj h r k v = Ok h' -> plain k = true ->
  getattr h' r k = Some v.
Proof.
  intros H Hp. apply set_obj_spec in H as (b & a & Hb & Ha & ->). unfold getattr.
  rewrite hset_same by (apply nth_error_Some; congruence). cbn.
  rewrite (set1_plain _ _ _ Hp) in Ha. inversion Ha. apply aset_same.
Qed.

(** Effect of the setter of [dead] (and of any other attribute). *)
Lemma set_list_dead gs h h' v :
  fold_left (fun h g => do h <- h; set_obj h g "dead" v) gs (Ok h) = Ok h' ->
  forall r k, getattr h' r k
              = if (existsb (Nat.eqb r) gs && (k =? "dead"))%bool then Some v else getattr h r k.
Proof.
  revert h; induction gs as [|g gs IH]; intros h H r k; cbn [fold_left] in H.
  - inversion H. reflexivity.
  - cbn [bind] in H. destruct (set_obj h g "dead" v) as [h1|e] eqn:E;
      [|rewrite fold_res_err in H; discriminate].
    rewrite (IH _ H). cbn [existsb].
    destruct (Nat.eqb_spec r g) as [->|Hr]; cbn [orb andb].
    + destruct (String.eqb_spec k "dead") as [->|Hk].
      * rewrite !Bool.andb_true_r. cbn [orb].
        destruct (existsb (Nat.eqb g) gs); [reflexivity|].
        eapply set_obj_plain_same; eauto.
      * rewrite !Bool.andb_false_r. eapply set_obj_other; eauto. congruence.
    + rewrite (set_obj_other _ _ _ _ _ _ _ E) by congruence. reflexivity.
Qed.

Lemma setattr_dead h r v h' b : setattr h r "dead" v = Ok h' -> nth_error h r = Some b ->
  forall r' k, getattr h' r' k
    = if ((existsb (Nat.eqb r') (r :: ghosts b)) && (k =? "dead"))%bool then Some v
      else getattr h r' k.
Proof.
  unfold setattr. cbn [String.eqb]. intros H Hb. cbn in H.
  rewrite (proj2 (index_ok h r b) Hb) in H. cbn [bind] in H.
  apply bind_ok in H as (h1 & H1 & H). intros r' k.
  rewrite (set_list_dead _ _ _ _ H). cbn [existsb].
  destruct (Nat.eqb_spec r' r) as [->|Hr]; cbn [orb].
  - destruct (String.eqb_spec k "dead") as [->|Hk].
    + rewrite !Bool.andb_true_r. destruct (existsb _ _); [reflexivity|].
      eapply set_obj_plain_same; eauto.
    + rewrite !Bool.andb_false_r. eapply set_obj_other; eauto. congruence.
  - rewrite (set_obj_other _ _ _ _ _ _ _ H1) by congruence. reflexivity.
Qed.

Lemma setattr_other h r k v h' r' k' : setattr h r k v = Ok h' -> k' <> k ->
  getattr h' r' k' = getattr h r' k'.
Proof.
  intros H Hk. unfold setattr in H. destruct (k =? "dead").
  - apply bind_ok in H as (b & Hb & H). apply bind_ok in H as (h1 & H1 & H).
    transitivity (getattr h1 r' k').
    + revert H. apply (fold_res_inv _ (fun a b => getattr b r' k' = getattr a r' k')); auto.
      * intros; congruence.
      * intros. eapply set_obj_other; eauto. congruence.
    + eapply set_obj_other; eauto. congruence.
  - eapply set_obj_other; eauto. congruence.
Qed.

Lemma setattr_plain h r k v h' r' k' : setattr h r k v = Ok h' -> plain k = true -> k <> "dead" ->
  getattr h' r' k' = if (Nat.eqb r' r && (k' =? k))%bool then Some v else getattr h r' k'.
Proof.
  intros H Hp Hd. unfold setattr in H. rewrite (proj2 (String.eqb_neq k "dead") Hd) in H.
  destruct (Nat.eqb_spec r' r) as [->|Hr]; cbn [andb].
  - destruct (String.eqb_spec k' k) as [->|Hk].
    + eapply set_obj_plain_same; eauto.
    + eapply set_obj_other; eauto. congruence.
  - eapply set_obj_other; eauto. congruence.
Qed.

Lemma set_obj_ok h r k v : plain k = true -> (r < List.length h)%nat ->
  exists h', set_obj h r k v = Ok h'.
Proof.
  intros Hp Hr. unfold set_obj, index.
  destruct (nth_error h r) eqn:E; [|apply nth_error_None in E; lia]. cbn [bind].
  rewrite (set1_plain _ _ _ Hp). eexists; reflexivity.
Qed.

(** ** Construction *)

Definition init_step (kw : dict) (a : string -> option val) (kd : string * val) :=
  set1 a (fst kd) (match dget kw (fst kd) with Some v => v | None => snd kd end).

Lemma init_fold_other kw l a a' k :
  fold_left (fun a kd => do a <- a; init_step kw a kd) l (Ok a) = Ok a' ->
  ~ In k (map fst l) -> a' k = a k.
Proof.
  revert a; induction l as [|kd l IH]; intros a H Hk; cbn [fold_left] in H.
  - now inversion H.
  - cbn [bind] in H. destruct (init_step kw a kd) as [a1|e] eqn:E;
      [|rewrite fold_res_err in H; discriminate].
    rewrite (IH _ H) by (cbn in Hk; tauto).
    eapply set1_other; eauto. cbn in Hk. intros ->. tauto.
Qed.

Lemma init_split kw pre kd post a a' :
  fold_left (fun a kd => do a <- a; init_step kw a kd) (pre ++ kd :: post) (Ok a) = Ok a' ->
  exists a1 a2,
    fold_left (fun a kd => do a <- a; init_step kw a kd) pre (Ok a) = Ok a1
    /\ init_step kw a1 kd = Ok a2
    /\ fold_left (fun a kd => do a <- a; init_step kw a kd) post (Ok a2) = Ok a'.
Proof.
  rewrite fold_left_app. intros H.
  destruct (fold_left _ pre (Ok a)) as [a1|e] eqn:E.
  - cbn [fold_left bind] in H. destruct (init_step kw a1 kd) as [a2|e] eqn:E2;
      [|rewrite fold_res_err in H; discriminate].
    exists a1, a2. auto.
  - rewrite fold_res_err in H. discriminate.
Qed.

(** The value of a keyword: the given one or the default. *)
Definition kwval (kw : dict) (k : string) (d : val) : val :=
  match dget kw k with Some v => v | None => d end.

Lemma NoDup_keys : NoDup (map fst beam_defaults).
Proof.
  unfold beam_defaults. cbn [map fst].
  repeat constructor; cbn [In]; intros H;
    repeat (destruct H as [H|H]; [discriminate|]); exact H.
Qed.

Lemma beam_init_fold kw b : beam_init kw = Ok b ->
  fold_left (fun a kd => do a <- a; init_step kw a kd) beam_defaults (Ok (fun _ => None))
  = Ok (attrs b)
  /\ (forall k v, In (k, v) kw -> is_key k beam_keys = true)
  /\ ghosts b = [] /\ ghost_count b = 0%nat /\ ghost_idx b = None
  /\ match dget kw "idx" with
     | None | Some VNone => idx b = None
     | Some (VInt z) => idx b = Some z
     | _ => False
     end
  /\ match dget kw "ghost" with
     | None => ghost b = false
     | Some (VBool g) => ghost b = g
     | _ => False
     end.
Proof.
  unfold beam_init. destruct (forallb _ kw) eqn:F; [|discriminate]. cbn [negb]. intros H.
  apply bind_ok in H as (a & Ha & H). apply bind_ok in H as (i & Hi & H).
  apply bind_ok in H as (g & Hg & H). inversion H; subst b; cbn.
  split; [exact Ha|]. split.
  { intros k v Hin. rewrite forallb_forall in F. exact (F _ Hin). }
  repeat split; auto.
  - destruct (dget kw "idx") as [[]|]; try discriminate; now inversion Hi.
  - destruct (dget kw "ghost") as [[]|]; try discriminate; now inversion Hg.
Qed.

Lemma beam_init_plain kw b k d : beam_init kw = Ok b -> In (k, d) beam_defaults ->
  plain k = true -> attrs b k = Some (kwval kw k d).
Proof.
  intros H Hin Hp. apply beam_init_fold in H as [H _].
  destruct (in_split _ _ Hin) as (pre & post & E). rewrite E in H.
  apply init_split in H as (a1 & a2 & _ & H2 & H3).
  pose proof NoDup_keys as ND. rewrite E, map_app in ND. cbn [map fst] in ND.
  apply NoDup_remove_2 in ND.
  rewrite (init_fold_other _ _ _ _ _ H3) by (intros X; apply ND; apply in_app_iff; tauto).
  unfold init_step in H2. cbn [fst snd] in H2. rewrite (set1_plain _ _ _ Hp) in H2.
  inversion H2. unfold kwval. apply aset_same.
Qed.

Lemma beam_init_lmax kw b : beam_init kw = Ok b ->
  exists z, kwval kw "lmax" (VInt 700) = VInt z /\ attrs b "lmax" = Some (VInt (Z.max z 0)).
Proof.
  intros H. apply beam_init_fold in H as [H _].
  change beam_defaults with (firstn 11 beam_defaults ++ ("lmax", VInt 700) :: skipn 12 beam_defaults)%list in H.
  apply init_split in H as (a1 & a2 & H1 & H2 & H3).
  rewrite (init_fold_other _ _ _ _ _ H3).
  2:{ cbn. intros X. repeat (destruct X as [X|X]; [discriminate|]). exact X. }
  assert (N : a1 "fwhm" = None).
  { rewrite (init_fold_other _ _ _ _ "fwhm" H1); [reflexivity|].
    cbn. intros X. repeat (destruct X as [X|X]; [discriminate|]). exact X. }
  unfold init_step in H2. cbn [fst snd] in H2. fold (kwval kw "lmax" (VInt 700)) in H2.
  unfold set1, set_lmax in H2. cbn [read_only String.eqb orb] in H2.
  destruct (kwval kw "lmax" (VInt 700)) as [| |z| | |]; cbn in H2; try discriminate.
  - unfold aget in H2. rewrite N in H2. discriminate.
  - inversion H2. exists z. split; [reflexivity|]. apply aset_same.
Qed.

Lemma beam_init_mmax kw b l : beam_init kw = Ok b -> attrs b "lmax" = Some (VInt l) ->
  match kwval kw "mmax" VNone with
  | VNone => attrs b "mmax" = Some (VInt l)
  | VInt m => attrs b "mmax" = Some (VInt (Z.min m l))
  | _ => False
  end.
Proof.
  intros H Hl. apply beam_init_fold in H as [H _].
  change beam_defaults with (firstn 12 beam_defaults ++ ("mmax", VNone) :: skipn 13 beam_defaults)%list in H.
  apply init_split in H as (a1 & a2 & H1 & H2 & H3).
  assert (NI : forall k, k = "lmax" \/ k = "mmax" -> ~ In k (map fst (skipn 13 beam_defaults))).
  { cbn. intros k Hk X. destruct Hk as [-> | ->];
      repeat (destruct X as [X|X]; [discriminate|]); exact X. }
  rewrite (init_fold_other _ _ _ _ _ H3) by (apply NI; tauto).
  rewrite (init_fold_other _ _ _ _ _ H3) in Hl by (apply NI; tauto).
  rewrite (set1_other _ _ _ _ "lmax" H2) in Hl by discriminate.
  unfold init_step in H2. cbn [fst snd] in H2. fold (kwval kw "mmax" VNone) in H2.
  unfold set1, set_mmax in H2. cbn in H2. unfold aget in H2. rewrite Hl in H2. cbn [bind] in H2.
  destruct (kwval kw "mmax" VNone); try discriminate; inversion H2; apply aset_same.
Qed.

Lemma beam_init_fwhm kw b l : beam_init kw = Ok b -> attrs b "lmax" = Some (VInt l) ->
  match kwval kw "fwhm" VNone with
  | VNone => l <> 0%Z /\ attrs b "fwhm" = Some (VNum (degrees ((14 / 10 * 2 * PI) / IZR l) * 60))
  | VNum x => attrs b "fwhm" = Some (VNum (Rabs x))
  | _ => False
  end.
Proof.
  intros H Hl. apply beam_init_fold in H as [H _].
  change beam_defaults with (firstn 14 beam_defaults ++ ("fwhm", VNone) :: skipn 15 beam_defaults)%list in H.
  apply init_split in H as (a1 & a2 & H1 & H2 & H3).
  assert (NI : forall k, k = "lmax" \/ k = "fwhm" -> ~ In k (map fst (skipn 15 beam_defaults))).
  { cbn. intros k Hk X. destruct Hk as [-> | ->];
      repeat (destruct X as [X|X]; [discriminate|]); exact X. }
  rewrite (init_fold_other _ _ _ _ _ H3) by (apply NI; tauto).
  rewrite (init_fold_other _ _ _ _ _ H3) in Hl by (apply NI; tauto).
  rewrite (set1_other _ _ _ _ "lmax" H2) in Hl by discriminate.
  unfold init_step in H2. cbn [fst snd] in H2. fold (kwval kw "fwhm" VNone) in H2.
  unfold set1, set_fwhm in H2. cbn in H2.
  destruct (kwval kw "fwhm" VNone); try discriminate.
  - unfold aget in H2. rewrite Hl in H2. cbn [bind] in H2.
    destruct (Z.eqb_spec l 0); [discriminate|]. inversion H2. split; [assumption|]. apply aset_same.
  - inversion H2. apply aset_same.
Qed.
