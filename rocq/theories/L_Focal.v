(** * Lemmas about focal planes: counts, indices, ghosts *)
From Coq Require Import Reals String Lra.
From Verif Require Import Common LibList M_Beam M_Focal S_Focal L_Beam L_Ghost.
Open Scope string_scope.

Definition hidx (h : heap) (r : nat) : option Z :=
  match nth_error h r with Some b => idx b | None => None end.

Lemma present_refs st : present st = refs (fp st). Proof. reflexivity. Qed.

Lemma refs_cons p ps : refs (p :: ps) = (slot_list (fst p) ++ slot_list (snd p) ++ refs ps)%list.
Proof.
  destruct p as [[a|] [b|]]; reflexivity.
Qed.

Lemma refs_app ps qs : refs (ps ++ qs) = (refs ps ++ refs qs)%list.
Proof. unfold refs. apply flat_map_app. Qed.

Lemma refs_concat ps : concat (map pair_list ps) = refs ps.
Proof.
  induction ps as [|p ps IH]; [reflexivity|]. rewrite refs_cons. cbn [map concat].
  rewrite IH. unfold pair_list. now rewrite app_assoc.
Qed.

(** ** Heaps that keep the indices of existing objects *)
Definition keeps_idx (h h' : heap) : Prop :=
  (List.length h <= List.length h')%nat
  /\ forall r, (r < List.length h)%nat -> hidx h' r = hidx h r.

Lemma keeps_refl h : keeps_idx h h. Proof. split; auto. Qed.
Lemma keeps_trans a b c : keeps_idx a b -> keeps_idx b c -> keeps_idx a c.
Proof. intros [H1 H2] [H3 H4]. split; [lia|]. intros r Hr. rewrite H4 by lia. auto. Qed.

Lemma same_meta_keeps h h' : same_meta h h' -> keeps_idx h h'.
Proof.
  intros [H1 H2]. split; [lia|]. intros r _. specialize (H2 r). unfold hmeta in H2. unfold hidx.
  destruct (nth_error h r), (nth_error h' r); cbn in H2; try discriminate; [|reflexivity].
  unfold meta in H2. congruence.
Qed.

Lemma app_keeps h bs : keeps_idx h (h ++ bs)%list.
Proof.
  split; [rewrite app_length; lia|]. intros r Hr. unfold hidx. now rewrite nth_error_app1.
Qed.

Lemma create_ghost_keeps h r tag kw h' : NoDup (map fst kw) ->
  create_ghost h r tag kw = Ok h' -> keeps_idx h h'.
Proof.
  intros Hnd H. destruct (nth_error h r) as [b|] eqn:Eb.
  - destruct (create_ghost_heap _ _ _ _ _ _ H Eb Hnd) as (g & _ & _ & _ & _ & _ & Hl & Hr & Ho).
    split; [lia|]. intros r' Hr'. unfold hidx. destruct (Nat.eq_dec r' r) as [->|Hn].
    + now rewrite Hr, Eb.
    + rewrite Ho by lia. reflexivity.
  - unfold create_ghost, index in H. rewrite Eb in H. discriminate.
Qed.

Lemma NoDup_dset d k v : NoDup (map fst d) -> NoDup (map fst (dset d k v)).
Proof.
  assert (G : forall d x, In x (map fst (dset d k v)) -> x = k \/ In x (map fst d)).
  { clear. induction d as [|[a w] d IH]; cbn; intros x.
    - intuition.
    - destruct (String.eqb_spec a k); cbn; [subst; intuition|].
      intros [<-|H]; [intuition|]. apply IH in H. intuition. }
  induction d as [|[a w] d IH]; cbn; intros H.
  - repeat constructor. auto.
  - inversion H as [|? ? Hn Hd]; subst. destruct (String.eqb_spec a k); cbn.
    + subst. now constructor.
    + constructor; auto. intros X. apply G in X as [->|X]; auto.
Qed.

Lemma NoDup_dupdate d e : NoDup (map fst d) -> NoDup (map fst (dupdate d e)).
Proof.
  unfold dupdate. revert d; induction e as [|[a w] e IH]; intros d H; cbn; auto.
  apply IH. now apply NoDup_dset.
Qed.

Lemma perturb_nodup kw rand rnd kw' rnd' : perturb kw rand rnd = Ok (kw', rnd') ->
  NoDup (map fst kw) -> NoDup (map fst kw').
Proof.
  unfold perturb. destruct rand; [|now inversion 1; subst].
  destruct rnd as [|x rnd]; [discriminate|]. intros H. apply bind_ok in H as (a & _ & H).
  inversion H; subst. apply NoDup_dset.
Qed.

(** A property of the heap kept by every creation of a ghost is kept by the
    two bulk creations. *)
Section Ghosting.
  Variable P : heap -> heap -> Prop.
  Hypothesis P_refl : forall h, P h h.
  Hypothesis P_trans : forall a b c, P a b -> P b c -> P a c.
  Hypothesis P_ghost : forall h r tag kw h', NoDup (map fst kw) ->
    create_ghost h r tag kw = Ok h' -> P h h'.

  Lemma reflected_P rs : forall h tag rand rnd kw h', NoDup (map fst kw) ->
    reflected h rs tag rand rnd kw = Ok h' -> P h h'.
  Proof.
    induction rs as [|r rs IH]; intros h tag rand rnd kw h' Hn H; cbn [reflected] in H.
    - inversion H; subst. apply P_refl.
    - apply bind_ok in H as (b & _ & H). apply bind_ok in H as (az & _ & H).
      apply bind_ok in H as (el & _ & H). apply bind_ok in H as ([kw' rnd'] & Hp & H).
      apply bind_ok in H as (h1 & H1 & H).
      assert (N : NoDup (map fst kw')) by (eapply perturb_nodup; eauto using NoDup_dupdate).
      eapply P_trans; [eapply P_ghost; eauto|eapply IH; eauto].
  Qed.

  Lemma crosstalk_P l : forall h tag rand rnd kw h', NoDup (map fst kw) ->
    crosstalk h l tag rand rnd kw = Ok h' -> P h h'.
  Proof.
    induction l as [|[[r|] [az el]] l IH]; intros h tag rand rnd kw h' Hn H; cbn [crosstalk] in H.
    - inversion H; subst. apply P_refl.
    - apply bind_ok in H as (b & _ & H). apply bind_ok in H as (p & _ & H).
      apply bind_ok in H as ([kw' rnd'] & Hp & H).
      apply bind_ok in H as (h1 & H1 & H).
      assert (N : NoDup (map fst kw')) by (eapply perturb_nodup; eauto using NoDup_dupdate).
      eapply P_trans; [eapply P_ghost; eauto|eapply IH; eauto].
    - discriminate.
  Qed.
End Ghosting.

(** ** Bulk attribute assignments *)
Lemma set_props_meta h r prop h' : set_props h r prop = Ok h' -> same_meta h h'.
Proof.
  unfold set_props. apply (fold_res_inv _ same_meta); try apply same_meta_refl.
  - apply same_meta_trans.
  - intros s [k v] s'. apply setattr_meta.
Qed.

Lemma set_beam_meta prop ig h r h' : set_beam prop ig h r = Ok h' -> same_meta h h'.
Proof.
  unfold set_beam. intros H. apply bind_ok in H as (h1 & H1 & H). apply set_props_meta in H1.
  destruct ig; [|now inversion H; subst]. apply bind_ok in H as (b & _ & H).
  eapply same_meta_trans; [exact H1|]. revert H.
  apply (fold_res_inv _ same_meta); try apply same_meta_refl.
  - apply same_meta_trans.
  - intros s g s'. apply set_props_meta.
Qed.

Lemma add_beam_meta key x ig h r h' : add_beam key x ig h r = Ok h' -> same_meta h h'.
Proof.
  unfold add_beam. intros H. apply bind_ok in H as (b & _ & H). apply bind_ok in H as (v & _ & H).
  apply bind_ok in H as (h1 & H1 & H). apply setattr_meta in H1.
  destruct ig; [|now inversion H; subst].
  eapply same_meta_trans; [exact H1|]. revert H.
  apply (fold_res_inv _ same_meta); try apply same_meta_refl.
  - apply same_meta_trans.
  - intros s g s'. apply setattr_meta.
Qed.

Lemma kill_slot_meta h s h' : kill_slot h s = Ok h' -> same_meta h h'.
Proof. destruct s; [apply setattr_meta|discriminate]. Qed.

Lemma kill_one_meta fp pairs h k h' : kill_one fp pairs h k = Ok h' -> same_meta h h'.
Proof.
  unfold kill_one. destruct pairs; intros H; apply bind_ok in H as (p & _ & H).
  - apply bind_ok in H as (h1 & H1 & H). apply kill_slot_meta in H1, H.
    eapply same_meta_trans; eauto.
  - now apply kill_slot_meta in H.
Qed.

(** ** Consecutive numbers *)
Fixpoint zseq (i : Z) (n : nat) : list Z :=
  match n with O => [] | S n => i :: zseq (i + 1) n end.

Lemma zseq_length n : forall i, List.length (zseq i n) = n.
Proof. induction n; cbn; auto. Qed.
Lemma zseq_in n : forall i z, In z (zseq i n) <-> (i <= z < i + Z.of_nat n)%Z.
Proof.
  induction n as [|n IH]; intros i z; cbn [zseq In]; [lia|]. rewrite IH. lia.
Qed.
Lemma zseq_nodup n : forall i, NoDup (zseq i n).
Proof.
  induction n as [|n IH]; intros i; cbn; constructor; auto. rewrite zseq_in. lia.
Qed.
Lemma zseq_nth n : forall i k, (k < n)%nat -> nth_error (zseq i n) k = Some (i + Z.of_nat k)%Z.
Proof.
  induction n as [|n IH]; intros i [|k] H; cbn; try lia.
  - f_equal. lia.
  - rewrite IH by lia. f_equal. lia.
Qed.

(** ** Numbering given beams *)
Definition same_but_idx (h h' : heap) : Prop :=
  List.length h' = List.length h
  /\ forall r, match nth_error h r, nth_error h' r with
     | Some b, Some b' => exists i, b' = with_idx b i
     | None, None => True
     | _, _ => False
     end.

Lemma with_idx_id b : with_idx b (idx b) = b. Proof. destruct b; reflexivity. Qed.

Lemma same_but_idx_refl h : same_but_idx h h.
Proof.
  split; auto. intros r. destruct (nth_error h r) as [b|]; auto. exists (idx b). now rewrite with_idx_id.
Qed.
Lemma same_but_idx_trans a b c : same_but_idx a b -> same_but_idx b c -> same_but_idx a c.
Proof.
  intros [H1 H2] [H3 H4]. split; [congruence|]. intros r. specialize (H2 r); specialize (H4 r).
  destruct (nth_error a r), (nth_error b r), (nth_error c r); try tauto.
  destruct H2 as [i ->], H4 as [j ->]. exists j. reflexivity.
Qed.

Lemma set_idx_spec h r i h' : set_idx h (Some r) i = Ok h' ->
  exists b, nth_error h r = Some b /\ h' = hset h r (with_idx b (Some i)).
Proof.
  cbn. intros H. apply bind_ok in H as (b & Hb & H). inversion H. apply index_ok in Hb. eauto.
Qed.

Lemma set_idx_same h r i h' : set_idx h (Some r) i = Ok h' -> same_but_idx h h'.
Proof.
  intros H. apply set_idx_spec in H as (b & Hb & ->). split; [apply hset_length|].
  intros r'. destruct (Nat.eq_dec r' r) as [->|Hn].
  - rewrite hset_same by (apply nth_error_Some; congruence). rewrite Hb. eauto.
  - rewrite hset_other by auto. destruct (nth_error h r') as [b'|]; auto.
    exists (idx b'). now rewrite with_idx_id.
Qed.

Lemma set_idx_hidx h r i h' : set_idx h (Some r) i = Ok h' ->
  hidx h' r = Some i /\ forall r', r' <> r -> hidx h' r' = hidx h r'.
Proof.
  intros H. apply set_idx_spec in H as (b & Hb & ->). unfold hidx. split.
  - rewrite hset_same by (apply nth_error_Some; congruence). reflexivity.
  - intros r' Hn. now rewrite hset_other.
Qed.

Fixpoint assign (h : heap) (rs : list nat) (i : Z) : res heap :=
  match rs with
  | [] => Ok h
  | r :: rest => do h <- set_idx h (Some r) i; assign h rest (i + 1)%Z
  end.

Lemma assign_same rs : forall h i h', assign h rs i = Ok h' -> same_but_idx h h'.
Proof.
  induction rs as [|r rs IH]; intros h i h' H; cbn [assign] in H.
  - inversion H; subst. apply same_but_idx_refl.
  - apply bind_ok in H as (h1 & H1 & H). eapply same_but_idx_trans; [eapply set_idx_same|eapply IH]; eauto.
Qed.

Lemma assign_hidx rs : forall h i h', assign h rs i = Ok h' -> NoDup rs ->
  map (hidx h') rs = map Some (zseq i (List.length rs))
  /\ forall r, ~ In r rs -> hidx h' r = hidx h r.
Proof.
  induction rs as [|r rs IH]; intros h i h' H ND; cbn [assign] in H.
  - inversion H; subst. cbn. auto.
  - apply bind_ok in H as (h1 & H1 & H). inversion ND as [|? ? Hn Hd]; subst.
    apply set_idx_hidx in H1 as [H1 H2]. destruct (IH _ _ _ H Hd) as [E1 E2]. split.
    + cbn [map List.length zseq]. rewrite E1, E2 by auto. now rewrite H1.
    + intros r' Hr'. cbn in Hr'. rewrite E2 by tauto. apply H2. intuition.
Qed.

Lemma add_many_spec rs : forall h i h' ps, add_many h rs i = Ok (h', ps) ->
  assign h rs i = Ok h' /\ refs ps = rs.
Proof.
  induction rs as [|r rs IH]; intros h i h' ps H; cbn [add_many] in H.
  - inversion H; subst. auto.
  - apply bind_ok in H as (h1 & H1 & H). apply bind_ok in H as ([h2 qs] & H2 & H).
    inversion H; subst. apply IH in H2 as [H2 E]. cbn [assign]. rewrite H1. cbn [bind].
    split; auto. rewrite refs_cons. cbn. now rewrite E.
Qed.

Lemma add_pairs_spec ps : forall h i h' qs, add_pairs h ps i = Ok (h', qs) ->
  assign h (refs ps) i = Ok h' /\ qs = ps /\ List.length (refs ps) = (2 * List.length ps)%nat.
Proof.
  induction ps as [|[[a|] [b|]] ps IH]; intros h i h' qs H; cbn [add_pairs fst snd] in H.
  - inversion H; subst. auto.
  - apply bind_ok in H as (h1 & H1 & H). apply bind_ok in H as (h2 & H2 & H).
    apply bind_ok in H as ([h3 rs] & H3 & H). inversion H; subst.
    apply IH in H3 as (H3 & -> & E). rewrite refs_cons. cbn [fst snd slot_list app assign].
    rewrite H1. cbn [bind]. rewrite H2. cbn [bind].
    replace (i + 1 + 1)%Z with (i + 2)%Z by lia. split; auto. split; auto.
    cbn [List.length]. rewrite E. lia.
  - apply bind_ok in H as (h1 & _ & H). discriminate.
  - discriminate.
  - discriminate.
Qed.

(** ** New beams at the end of the heap *)
Definition fresh_beam (b : beam) : Prop := ghosts b = [] /\ ghost_count b = 0%nat /\ ghost_idx b = None.

Definition grown (h : heap) (bs : list beam) (h' : heap) (ps : list pair) : Prop :=
  h' = (h ++ bs)%list /\ refs ps = seq (List.length h) (List.length bs)
  /\ Forall fresh_beam bs /\ List.length bs = (2 * List.length ps)%nat
  /\ Forall (fun p => fst p <> None /\ snd p <> None) ps.

Lemma grown_nil h : grown h [] h [].
Proof. repeat split; try constructor. now rewrite app_nil_r. Qed.

Lemma grown_cons h a b h' ps bs : fresh_beam a -> fresh_beam b ->
  grown (h ++ [a; b])%list bs h' ps ->
  grown h (a :: b :: bs) h' ((Some (List.length h), Some (S (List.length h))) :: ps).
Proof.
  intros Ha Hb (-> & E & F & L & N). repeat split.
  - now rewrite <- app_assoc.
  - rewrite refs_cons. cbn [fst snd slot_list app List.length seq]. rewrite E, app_length. cbn.
    do 3 f_equal. lia.
  - constructor; [exact Ha|constructor; [exact Hb|exact F]].
  - cbn [List.length]. lia.
  - constructor; auto. cbn. split; discriminate.
Qed.

Lemma beam_init_fresh kw b : beam_init kw = Ok b -> fresh_beam b.
Proof. intros H. apply beam_init_fold in H as (_ & _ & H1 & H2 & H3 & _). repeat split; auto. Qed.

Lemma beam_init_idx kw b z : beam_init kw = Ok b -> dget kw "idx" = Some (VInt z) -> idx b = Some z.
Proof.
  intros H E. apply beam_init_fold in H as (_ & _ & _ & _ & _ & H & _). now rewrite E in H.
Qed.

Lemma alloc_pair_eq h a b : alloc_pair h (a, b)
  = ((h ++ [a; b])%list, (Some (List.length h), Some (S (List.length h)))).
Proof.
  unfold alloc_pair, alloc. cbn [fst snd]. rewrite <- app_assoc. cbn [app].
  rewrite app_length. cbn. do 3 f_equal. lia.
Qed.

Lemma create_cells_grown mk (Q : nat -> nat -> Z -> beam -> beam -> Prop) :
  (forall azi eli i a b, mk azi eli i = Ok (a, b) -> fresh_beam a /\ fresh_beam b /\ Q azi eli i a b) ->
  forall l h i h' ps, create_cells h l i mk = Ok (h', ps) ->
  exists bs, grown h bs h' ps /\ List.length ps = List.length l
    /\ forall k azi eli, nth_error l k = Some (azi, eli) ->
         exists a b, nth_error bs (2 * k) = Some a /\ nth_error bs (2 * k + 1) = Some b
                     /\ Q azi eli (i + 2 * Z.of_nat k)%Z a b.
Proof.
  intros Hmk. induction l as [|[azi eli] l IH]; intros h i h' ps H; cbn [create_cells] in H.
  - inversion H; subst. exists []. split; [apply grown_nil|]. split; auto. intros [|k]; discriminate.
  - apply bind_ok in H as ([a b] & Hab & H). rewrite alloc_pair_eq in H.
    apply bind_ok in H as ([h2 qs] & H2 & H). inversion H; subst.
    destruct (IH _ _ _ _ H2) as (bs & G & L & N).
    destruct (Hmk _ _ _ _ _ Hab) as (Fa & Fb & HQ).
    exists (a :: b :: bs). split; [now apply grown_cons|]. split; [cbn; lia|].
    intros [|k] x y Hk.
    + cbn in Hk. inversion Hk; subst. exists a, b. cbn. rewrite Z.add_0_r. auto.
    + cbn in Hk. destruct (N _ _ _ Hk) as (a' & b' & Na & Nb & HQ').
      exists a', b'. replace (2 * S k)%nat with (S (S (2 * k))) by lia. cbn [nth_error Nat.add].
      repeat split; auto. replace (i + 2 * Z.of_nat (S k))%Z with (i + 2 + 2 * Z.of_nat k)%Z by lia. exact HQ'.
Qed.

Lemma load_files_grown fs : forall h kw i np pA pB h' ps,
  load_files h fs kw i np pA pB = Ok (h', ps) ->
  exists bs, grown h bs h' ps /\ List.length ps = List.length fs
    /\ forall k f, nth_error fs k = Some f ->
         exists a b, nth_error bs (2 * k) = Some a /\ nth_error bs (2 * k + 1) = Some b
                     /\ load_file f kw (i + 2 * Z.of_nat k)%Z np pA pB = Ok (a, b).
Proof.
  induction fs as [|f fs IH]; intros h kw i np pA pB h' ps H; cbn [load_files] in H.
  - inversion H; subst. exists []. split; [apply grown_nil|]. split; auto. intros [|k]; discriminate.
  - apply bind_ok in H as ([a b] & Hab & H). rewrite alloc_pair_eq in H.
    apply bind_ok in H as ([h2 qs] & H2 & H). inversion H; subst.
    destruct (IH _ _ _ _ _ _ _ _ H2) as (bs & G & L & N).
    assert (F : fresh_beam a /\ fresh_beam b).
    { assert (FP : forall da db kw i np pA pB a b, finish_pair da db kw i np pA pB = Ok (a, b) ->
        fresh_beam a /\ fresh_beam b).
      { clear. intros da db kw i np pA pB a b H. unfold finish_pair in H.
        apply bind_ok in H as (? & _ & H). apply bind_ok in H as (? & _ & H).
        apply bind_ok in H as (? & Ha & H). apply bind_ok in H as (? & Hb & H).
        inversion H; subst. eauto using beam_init_fresh. }
      destruct f as [d|[|d1 [|d2 [|]]]|d]; cbn [load_file] in Hab; try discriminate.
      - apply bind_ok in Hab as (? & _ & Hab). apply bind_ok in Hab as (? & _ & Hab). eauto.
      - eauto.
      - unfold finish_shared in Hab.
        apply bind_ok in Hab as (? & _ & Hab).
        apply bind_ok in Hab as (? & Ha & Hab). apply bind_ok in Hab as (? & Hb & Hab).
        inversion Hab; subst. eauto using beam_init_fresh. }
    destruct F as [Fa Fb].
    exists (a :: b :: bs). split; [now apply grown_cons|]. split; [cbn; lia|].
    intros [|k] x Hk.
    + cbn in Hk. inversion Hk; subst. exists a, b. cbn. rewrite Z.add_0_r. auto.
    + cbn in Hk. destruct (N _ _ Hk) as (a' & b' & Na & Nb & HQ').
      exists a', b'. replace (2 * S k)%nat with (S (S (2 * k))) by lia. cbn [nth_error Nat.add].
      repeat split; auto. replace (i + 2 * Z.of_nat (S k))%Z with (i + 2 + 2 * Z.of_nat k)%Z by lia. exact HQ'.
Qed.

Lemma input_cells_grown l : forall h kw i h' ps,
  input_cells h kw i l = Ok (h', ps) ->
  exists bs, grown h bs h' ps /\ List.length ps = List.length l
    /\ forall k p, nth_error l k = Some p ->
         exists a b, nth_error bs (2 * k) = Some a /\ nth_error bs (2 * k + 1) = Some b
                     /\ input_beams kw (i + k) p = Ok (a, b).
Proof.
  induction l as [|f fs IH]; intros h kw i h' ps H; cbn [input_cells] in H.
  - inversion H; subst. exists []. split; [apply grown_nil|]. split; auto. intros [|k]; discriminate.
  - apply bind_ok in H as ([a b] & Hab & H). rewrite alloc_pair_eq in H.
    apply bind_ok in H as ([h2 qs] & H2 & H). inversion H; subst.
    destruct (IH _ _ _ _ _ H2) as (bs & G & L & N).
    assert (F : fresh_beam a /\ fresh_beam b).
    { unfold input_beams in Hab. destruct f as [[[az el] pa] dd]. destruct (existsb _ kw); [discriminate|].
      apply bind_ok in Hab as (? & Ha & Hab). apply bind_ok in Hab as (? & Hb & Hab).
      inversion Hab; subst. eauto using beam_init_fresh. }
    destruct F as [Fa Fb].
    exists (a :: b :: bs). split; [now apply grown_cons|]. split; [cbn; lia|].
    intros [|k] x Hk.
    + cbn in Hk. inversion Hk; subst. exists a, b. cbn. rewrite Nat.add_0_r. auto.
    + cbn in Hk. destruct (N _ _ Hk) as (a' & b' & Na & Nb & HQ').
      exists a', b'. replace (2 * S k)%nat with (S (S (2 * k))) by lia. cbn [nth_error Nat.add].
      repeat split; auto. replace (i + S k)%nat with (i + 1 + k)%nat by lia. exact HQ'.
Qed.
