(** * Focal planes: the lemmas in the form of the property theorems *)
From Coq Require Import Reals String Lra FinFun.
From Verif Require Import Common LibList M_Beam M_Focal S_Focal L_Beam L_Ghost L_Focal L_FocalInv L_FocalOps
  L_FocalLoad L_FocalRef.
Open Scope string_scope.

(** ** The beams on the focal plane exist *)
Definition exist_ok (st : inst) : Prop := forall r, In r (present st) -> (r < List.length (objs st))%nat.

Lemma assign_lt rs : forall h i h', assign h rs i = Ok h' -> forall r, In r rs -> (r < List.length h')%nat.
Proof.
  induction rs as [|x rs IH]; intros h i h' H r Hr; [destruct Hr|].
  pose proof (assign_same _ _ _ _ H) as [L _]. cbn [assign] in H.
  apply bind_ok in H as (h1 & H1 & H). destruct Hr as [<-|Hr]; [|eapply IH; eauto].
  unfold set_idx in H1. apply bind_ok in H1 as (b & Hb & _). apply index_lt in Hb. lia.
Qed.

Lemma present_put st h new n c : present (put st h new n c) = ((if c then present st else []) ++ refs new)%list.
Proof. rewrite present_refs. unfold put. destruct c; cbn [fp]; [apply refs_app|reflexivity]. Qed.

Lemma objs_put st h new n c : objs (put st h new n c) = h.
Proof. destruct c; reflexivity. Qed.

Lemma step_exist st o st' : NoDup (map fst (keywords o)) -> step st o = Ok st' -> exist_ok st -> exist_ok st'.
Proof.
  intros N H I. destruct (quiet o) eqn:Q.
  - destruct (quiet_step _ _ _ Q N H) as (E1 & _ & [E2 _]). intros r. rewrite present_refs, E1. intros Hr.
    apply I in Hr. lia.
  - destruct (adds o) eqn:A.
    + destruct (adding_step _ _ _ A H) as (h & new & n & i & _ & -> & _ & D).
      intros r. rewrite present_put, objs_put. intros Hr. apply in_app_or in Hr.
      destruct D as [(a & _ & Er & Ea)|(bs & (Eh & Er & _) & _)].
      * pose proof (assign_same _ _ _ _ Ea) as [L _].
        destruct Hr as [Hr|Hr]; [destruct (combined o); [apply I in Hr; lia|destruct Hr]|].
        eapply assign_lt; eauto.
      * subst h. rewrite app_length.
        destruct Hr as [Hr|Hr]; [destruct (combined o); [apply I in Hr; lia|destruct Hr]|].
        rewrite Er in Hr. apply in_seq in Hr. lia.
    + destruct o; try discriminate. cbn [step] in H. apply remove_present in H as [E1 E2].
      intros r. rewrite E1, E2. intros Hr. apply filter_In in Hr as [Hr _]. auto.
Qed.

Lemma history_exist ok st os st' : history ok st os st' -> exist_ok st -> exist_ok st'.
Proof. induction 1; auto. intros. apply IHhistory. eapply step_exist; eauto. Qed.

Lemma empty_exist : exist_ok empty_inst. Proof. intros r []. Qed.

Lemma history_weaken (ok ok' : inst -> op -> Prop) st os st' :
  (forall st o, ok st o -> ok' st o) -> history ok st os st' -> history ok' st os st'.
Proof. intros K. induction 1; econstructor; eauto. Qed.

Lemma any_history ok st os st' : history ok st os st' -> history (fun _ _ => True) st os st'.
Proof. apply history_weaken. auto. Qed.

(** ** Facts about every history *)
Lemma count_from_empty os st : history (fun _ o => well_counted o) empty_inst os st ->
  ndet st = Z.of_nat (List.length (present st)).
Proof. intros H. apply (history_count _ _ _ H). reflexivity. Qed.

Lemma empty_idx : idx_ok empty_inst. Proof. exists []. split; [reflexivity|constructor]. Qed.

Lemma idx_from_empty os st :
  history (fun st o => adds_once st o /\ is_input o = false /\ loads_separate o) empty_inst os st ->
  NoDup (present st)
  /\ forall r s, In r (present st) -> In s (present st) -> r <> s ->
     exists i j, idx_of st r = Some i /\ idx_of st s = Some j /\ i <> j.
Proof.
  intros H. pose proof (history_idx _ _ _ H empty_idx) as I. split; [now apply idx_ok_nodup|].
  now apply idx_ok_distinct.
Qed.

Lemma ghosts_of_nth h r b : nth_error h r = Some b -> ghosts_of h r = ghosts b.
Proof. unfold ghosts_of. now intros ->. Qed.

Lemma ghosts_ok_leaf h : ghosts_ok h -> ghosts_leaf h.
Proof.
  intros [G _] r g Hg. unfold ghosts_of in Hg. destruct (nth_error h r) as [b|] eqn:E; [|destruct Hg].
  apply In_nth_error in Hg as [i Hi]. destruct (G r b E) as (_ & _ & G3).
  destruct (G3 i g Hi) as (gb & Eg & Gg & _). unfold ghosts_of. rewrite Eg.
  destruct (G g gb Eg) as (_ & G2 & _). auto.
Qed.

Lemma ghosts_ok_closed st : exist_ok st -> ghosts_ok (objs st) -> closed (objs st) (present st).
Proof.
  intros I [G _] t Ht. split; [now apply I|]. intros g Hg. unfold ghosts_of in Hg.
  destruct (nth_error (objs st) t) as [b|] eqn:E; [|destruct Hg].
  apply In_nth_error in Hg as [i Hi]. destruct (G t b E) as (_ & _ & G3).
  destruct (G3 i g Hi) as (gb & Eg & _). apply nth_error_Some. congruence.
Qed.

Lemma all_ghosts ok os st : history ok empty_inst os st -> ghosts_ok (objs st).
Proof. intros H. apply (history_ghosts _ _ _ (any_history _ _ _ _ H) empty_ghosts). Qed.

(** ** Killing channels *)
Lemma NoDup_app_right {A} (l l' : list A) : NoDup (l ++ l') -> NoDup l'.
Proof. induction l; cbn; auto. inversion 1; auto. Qed.

Lemma NoDup_flat_map_nth (ps : list pair) (draw : list nat) : complete ps -> NoDup (refs ps) -> NoDup draw ->
  (forall k, In k draw -> (k < List.length ps)%nat) ->
  exists qs, qs = map (fun k => nth k ps (None, None)) draw /\ NoDup (refs qs) /\ incl qs ps
    /\ refs qs = flat_map (fun k => [nth (2 * k) (refs ps) 0%nat; nth (2 * k + 1) (refs ps) 0%nat]) draw.
Proof.
  intros C N D B. eexists. split; [reflexivity|].
  assert (E : refs (map (fun k => nth k ps (None, None)) draw)
              = flat_map (fun k => [nth (2 * k) (refs ps) 0%nat; nth (2 * k + 1) (refs ps) 0%nat]) draw).
  { clear D N. induction draw as [|k draw IH]; [reflexivity|]. cbn [map flat_map]. rewrite refs_cons.
    destruct (complete_nth ps k C (B k (or_introl eq_refl))) as (a & b & E1 & E2 & E3).
    rewrite (nth_error_nth _ _ _ E1), (nth_error_nth _ _ _ E2), (nth_error_nth _ _ _ E3).
    cbn [fst snd slot_list app]. do 2 f_equal. apply IH. intros x Hx. apply B. now right. }
  split; [|split; [|exact E]].
  - rewrite E. pose proof (complete_length _ C) as L. clear E.
    induction draw as [|k draw IH]; [constructor|]. inversion D as [|? ? Dn Dd]; subst.
    cbn [flat_map app]. assert (Bk := B k (or_introl eq_refl)).
    assert (IH' := IH Dd (fun x Hx => B x (or_intror Hx))).
    assert (X : forall j, (j = 2 * k \/ j = 2 * k + 1)%nat ->
      ~ In (nth j (refs ps) 0%nat) (flat_map (fun k => [nth (2 * k) (refs ps) 0%nat; nth (2 * k + 1) (refs ps) 0%nat]) draw)).
    { intros j Hj Hin. apply in_flat_map in Hin as (k' & Hk' & Hin). assert (Bk' := B k' (or_intror Hk')).
      assert (k' <> k) by (intros ->; auto).
      cbn [In] in Hin. destruct Hin as [Hin|[Hin|[]]]; apply (NoDup_nth (refs ps) 0%nat) in Hin; try lia; auto. }
    constructor.
    + intros [H|H]; [|revert H; apply X; lia].
      apply (NoDup_nth (refs ps) 0%nat) in H; auto; lia.
    + constructor; [apply X; lia|exact IH'].
  - intros p Hp. apply in_map_iff in Hp as (k & <- & Hk). apply nth_In. auto.
Qed.

Lemma NoDup_map_nth (l : list nat) (draw : list nat) : NoDup l -> NoDup draw ->
  (forall k, In k draw -> (k < List.length l)%nat) -> NoDup (map (fun k => nth k l 0%nat) draw).
Proof.
  intros N D B. induction draw as [|k draw IH]; [constructor|]. inversion D; subst. cbn.
  constructor; [|apply IH; auto; intros; apply B; now right].
  intros X. apply in_map_iff in X as (j & E & Hj).
  apply (NoDup_nth l 0%nat) in E; auto; [congruence|apply B; now right|apply B; now left].
Qed.

Lemma flat_map_single {A B} (f : A -> B) l : flat_map (fun x => [f x]) l = map f l.
Proof. induction l; cbn; congruence. Qed.

Definition kill_ok (st : inst) (o : op) : Prop :=
  adds_once st o /\ is_input o = false /\ loads_separate o /\ well_counted o.

Lemma kill_history os st f choice : history kill_ok empty_inst os st ->
  (forall p, In p (fp st) -> fst p <> None /\ snd p <> None) ->
  (0 <= f <= 1)%R -> draws_distinct choice ->
  let n := List.length (present st) in
  (exists st' killed, kill_channels st f false choice = Ok st'
    /\ fp st' = fp st /\ ndet st' = ndet st
    /\ NoDup killed /\ incl killed (present st)
    /\ Z.of_nat (List.length killed) = Int_part (INR n * f)
    /\ (forall r, ((exists t, In t killed /\ (r = t \/ In r (ghosts_of (objs st) t))) ->
                   getattr (objs st') r "dead" = Some (VBool true))
               /\ (~ (exists t, In t killed /\ (r = t \/ In r (ghosts_of (objs st) t))) ->
                   getattr (objs st') r "dead" = getattr (objs st) r "dead"))
    /\ forall r k, k <> "dead" -> getattr (objs st') r k = getattr (objs st) r k)
  /\ (exists st' killed, kill_channels st f true choice = Ok st'
    /\ fp st' = fp st /\ ndet st' = ndet st
    /\ NoDup killed /\ incl killed (fp st)
    /\ Z.of_nat (List.length killed) = Int_part (INR (n / 2) * f)
    /\ (forall r, ((exists t, In t (refs killed) /\ (r = t \/ In r (ghosts_of (objs st) t))) ->
                   getattr (objs st') r "dead" = Some (VBool true))
               /\ (~ (exists t, In t (refs killed) /\ (r = t \/ In r (ghosts_of (objs st) t))) ->
                   getattr (objs st') r "dead" = getattr (objs st) r "dead"))
    /\ forall r k, k <> "dead" -> getattr (objs st') r k = getattr (objs st) r k).
Proof.
  intros H C Hf D n.
  assert (CO : count_ok st).
  { apply count_from_empty with os. eapply history_weaken; [|exact H]. unfold kill_ok. tauto. }
  assert (ND : NoDup (present st)).
  { apply (idx_from_empty os). eapply history_weaken; [|exact H]. unfold kill_ok. tauto. }
  assert (CL : closed (objs st) (present st)).
  { apply ghosts_ok_closed; [|eapply all_ghosts; eauto]. eapply history_exist; eauto. apply empty_exist. }
  assert (EX : forall (P Q : nat -> list nat) r ts, 
    existsb (fun t => existsb (Nat.eqb r) (t :: ghosts_of (objs st) t)) ts = true <->
    exists t, In t ts /\ (r = t \/ In r (ghosts_of (objs st) t))).
  { intros _ _ r ts. rewrite existsb_exists. split; intros (t & Ht & X); exists t; split; auto.
    - apply existsb_exists in X as (x & Hx & E). apply Nat.eqb_eq in E as <-. cbn in Hx. destruct Hx; auto.
    - apply existsb_exists. exists r. split; [cbn; destruct X; auto|apply Nat.eqb_refl]. }
  specialize (EX (fun _ => []) (fun _ => [])).
  assert (FIN : forall st' ts, (forall r key, getattr (objs st') r key
       = if (existsb (fun t => existsb (Nat.eqb r) (t :: ghosts_of (objs st) t)) ts && (key =? "dead"))%bool
         then Some (VBool true) else getattr (objs st) r key) ->
     (forall r, ((exists t, In t ts /\ (r = t \/ In r (ghosts_of (objs st) t))) ->
                   getattr (objs st') r "dead" = Some (VBool true))
               /\ (~ (exists t, In t ts /\ (r = t \/ In r (ghosts_of (objs st) t))) ->
                   getattr (objs st') r "dead" = getattr (objs st) r "dead"))
    /\ forall r k, k <> "dead" -> getattr (objs st') r k = getattr (objs st) r k).
  { intros st' ts E. split.
    - intros r. rewrite E. split; intros X.
      + apply EX in X. now rewrite X.
      + destruct (existsb _ ts) eqn:Q; [|reflexivity]. exfalso. apply X, EX, Q.
    - intros r k Hk. rewrite E. apply String.eqb_neq in Hk. now rewrite Hk, andb_false_r. }
  split.
  - destruct (kill_channels_spec st f false choice C CO CL Hf D) as (st' & draw & E1 & E2 & E3 & E4 & [E5 E6] & E7).
    exists st', (map (fun k => nth k (present st) 0%nat) draw).
    assert (B : forall k, In k draw -> (k < List.length (present st))%nat) by (intros k Hk; apply E6 in Hk; lia).
    unfold targets in E7. rewrite flat_map_single in E7.
    split; [exact E1|]. split; [exact E2|]. split; [exact E3|]. split; [now apply NoDup_map_nth|].
    split; [intros x Hx; apply in_map_iff in Hx as (k & <- & Hk); apply nth_In; auto|].
    split; [now rewrite map_length, E5, <- INR_IZR_INZ|]. apply FIN, E7.
  - destruct (kill_channels_spec st f true choice C CO CL Hf D) as (st' & draw & E1 & E2 & E3 & E4 & [E5 E6] & E7).
    pose proof (complete_length _ C) as L. rewrite <- present_refs in L.
    assert (DV : (Z.of_nat (List.length (present st)) / 2)%Z = Z.of_nat (List.length (present st) / 2)).
    { rewrite Nat2Z.inj_div. reflexivity. }
    assert (B : forall k, In k draw -> (k < List.length (fp st))%nat).
    { intros k Hk. apply E6 in Hk. rewrite DV, L, Nat.mul_comm, Nat.div_mul in Hk by lia. lia. }
    destruct (NoDup_flat_map_nth (fp st) draw C ND E4 B) as (qs & Eq & Q1 & Q2 & Q3).
    exists st', qs. split; [exact E1|]. split; [exact E2|]. split; [exact E3|].
    split.
    { subst qs. clear -E4 B C ND Q1 Q2. assert (CQ : complete (map (fun k => nth k (fp st) (None, None)) draw)).
      { intros p Hp. apply C, Q2, Hp. }
      revert Q1 CQ. generalize (map (fun k => nth k (fp st) (None, None)) draw) as qs. clear.
      induction qs as [|q qs IH]; intros Q C; constructor.
      - intros X. destruct (C q (or_introl eq_refl)) as [Na _]. destruct q as [[a|] b]; [|cbn in Na; congruence].
        rewrite refs_cons in Q. cbn [fst slot_list app] in Q. inversion Q as [|? ? Qn _]; subst.
        apply Qn. apply in_or_app. right. unfold refs. apply in_flat_map. exists (Some a, b). split; auto. cbn. auto.
      - apply IH; [|intros p Hp; apply C; now right]. rewrite refs_cons in Q.
        apply NoDup_app_right, NoDup_app_right in Q. exact Q. }
    split; [exact Q2|].
    split; [rewrite Eq, map_length, E5, DV, <- INR_IZR_INZ; reflexivity|].
    apply FIN. rewrite Q3. unfold targets in E7. rewrite present_refs in E7. exact E7.
Qed.

(** ** Setting properties *)
Lemma set_history os st prop ig nb na st' : history (fun _ _ => True) empty_inst os st ->
  plain_prop prop -> NoDup (map fst prop) -> set_global_prop st prop ig nb na = Ok st' ->
  fp st' = fp st /\ ndet st' = ndet st
  /\ forall r k, getattr (objs st') r k
     = match dget prop k with
       | Some v =>
           if existsb (fun b => (Nat.eqb r b || (existsb (Nat.eqb r) (ghosts_of (objs st) b)
                                                 && (ig || (k =? "dead"))))%bool) (chosen st nb na)
           then Some v else getattr (objs st) r k
       | None => getattr (objs st) r k
       end.
Proof.
  intros H P N E. apply (set_global_prop_spec _ _ _ _ _ _ E P N).
  - apply ghosts_ok_leaf. eapply all_ghosts; eauto.
  - apply (history_exist _ _ _ _ H empty_exist).
Qed.

(** Assignments of plain properties never fail. *)
Lemma setattr_ok h r k v : plain k = true -> closed h [r] -> exists h', setattr h r k v = Ok h'.
Proof.
  intros P C. destruct (String.eqb_spec k "dead") as [->|N]; [now apply setattr_dead_ok|].
  unfold setattr. rewrite (proj2 (String.eqb_neq _ _) N). apply set_obj_ok; auto. apply C. now left.
Qed.

(** ** Ghosts *)
Lemma dead_history os st r v st' : history (fun _ _ => True) empty_inst os st ->
  step st (SetAttr r "dead" v) = Ok st' ->
  forall x k, getattr (objs st') x k
    = if ((x =? r)%nat || existsb (Nat.eqb x) (ghosts_of (objs st) r)) && (k =? "dead")
      then Some v else getattr (objs st) x k.
Proof.
  intros _ H x k. cbn [step] in H. apply bind_ok in H as (h & Hh & H). inversion H; subst. cbn [objs].
  destruct (nth_error (objs st) r) as [b|] eqn:Eb.
  2:{ unfold setattr in Hh. cbn in Hh. unfold index in Hh. rewrite Eb in Hh. discriminate. }
  rewrite (setattr_dead _ _ _ _ _ Hh Eb). cbn [existsb]. now rewrite (ghosts_of_nth _ _ _ Eb).
Qed.

Lemma ghost_history os st : history (fun _ _ => True) empty_inst os st ->
  (forall r b, nth_error (objs st) r = Some b ->
     ghost_count b = List.length (ghosts b)
     /\ forall i g, nth_error (ghosts b) i = Some g ->
          exists gb, nth_error (objs st) g = Some gb /\ ghost gb = true /\ ghost_idx gb = Some i
                     /\ ghosts gb = [])
  /\ (forall r r' i i' g, nth_error (ghosts_of (objs st) r) i = Some g ->
        nth_error (ghosts_of (objs st) r') i' = Some g -> r = r' /\ i = i').
Proof.
  intros H. destruct (all_ghosts _ _ _ H) as [G1 G2]. split.
  - intros r b Hb. destruct (G1 r b Hb) as (E1 & E2 & E3). split; [exact E1|]. intros i g Hg.
    destruct (E3 i g Hg) as (gb & A & B & C). exists gb. repeat split; auto. apply (G1 _ _ A). exact B.
  - unfold ghosts_of. intros r r' i i' g. destruct (nth_error (objs st) r) as [b|] eqn:E1; [|now destruct i].
    destruct (nth_error (objs st) r') as [b'|] eqn:E2; [|now destruct i']. eauto.
Qed.

Lemma reflected_history os st tag rand rnd kw st' :
  history (fun st o => adds_once st o /\ is_input o = false /\ loads_separate o) empty_inst os st ->
  NoDup (map fst kw) -> create_reflected_ghosts st tag rand rnd kw = Ok st' ->
  fp st' = fp st /\ ndet st' = ndet st /\
  forall j r az el, nth_error (present st) j = Some r ->
  getattr (objs st) r "az" = Some (VNum az) -> getattr (objs st) r "el" = Some (VNum el) ->
  exists g, ghosts_of (objs st') r = (ghosts_of (objs st) r ++ [g])%list
  /\ getattr (objs st') g "az" = Some (VNum (- az))
  /\ getattr (objs st') g "el" = Some (VNum (- el))
  /\ (rand = true -> forall a0, vnum (dget kw "amplitude") 1%R = Ok a0 ->
        getattr (objs st') g "amplitude" = Some (VNum (a0 + prefix_sum rnd (S j))))
  /\ forall k d, In (k, d) options -> plain k = true -> k <> "name" -> k <> "az" -> k <> "el" ->
       (rand = true -> k <> "amplitude") ->
       getattr (objs st') g k
       = match dget kw k with
         | Some v => Some v
         | None => if existsb (fun k' => k' =? k) taken_over then getattr (objs st) r k else Some d
         end.
Proof.
  intros H N E. unfold create_reflected_ghosts in E. apply bind_ok in E as (h & Hh & E). inversion E; subst.
  split; [reflexivity|]. split; [reflexivity|].
  intros j r az el Hj Ha He. cbn [objs]. rewrite refs_concat in Hh.
  destruct (idx_from_empty _ _ H) as [ND _].
  unfold getattr in Ha, He. destruct (nth_error (objs st) r) as [b|] eqn:Eb; [|discriminate].
  destruct (reflected_spec _ _ _ _ _ _ _ Hh N ND j r b az el Hj Eb Ha He) as ((b' & B1 & B2) & R).
  exists (List.length (objs st) + j)%nat.
  split; [now rewrite (ghosts_of_nth _ _ _ B1), (ghosts_of_nth _ _ _ Eb)|].
  replace (getattr (objs st) r) with (attrs b); [exact R|]. unfold getattr. now rewrite Eb.
Qed.

Lemma ghost_options h r tag kw h' : create_ghost h r tag kw = Ok h' -> NoDup (map fst kw) ->
  ghosts_of h' r = (ghosts_of h r ++ [List.length h])%list
  /\ (forall x k, (x < List.length h)%nat -> getattr h' x k = getattr h x k)
  /\ forall k d, In (k, d) options -> plain k = true -> k <> "name" ->
     getattr h' (List.length h) k
     = match dget kw k with
       | Some v => Some v
       | None => if existsb (fun k' => k' =? k) taken_over then getattr h r k else Some d
       end.
Proof.
  intros H N. destruct (nth_error h r) as [b|] eqn:Eb.
  2:{ unfold create_ghost, index in H. rewrite Eb in H. discriminate. }
  destruct (create_ghost_heap _ _ _ _ _ _ H Eb N) as (g & _ & _ & _ & _ & _ & Hl & Hr & Ho).
  split; [now rewrite (ghosts_of_nth _ _ _ Hr), (ghosts_of_nth _ _ _ Eb)|]. split.
  - intros x k Hx. unfold getattr. destruct (Nat.eq_dec x r) as [->|Hn].
    + now rewrite Hr, Eb.
    + now rewrite Ho by lia.
  - intros k d Hk P Kn. rewrite (ghost_plain _ _ _ _ _ _ k d H Eb N Hk P Kn). unfold getattr. now rewrite Eb.
Qed.

Lemma ghost_names h r tag kw h' : create_ghost h r tag kw = Ok h' -> NoDup (map fst kw) ->
  getattr h' (List.length h) "name"
  = match tag, getattr h r "name" with
    | None, n | Some "", n => n
    | Some t, Some (VStr "") | Some t, Some VNone => Some (VStr t)
    | Some t, Some (VStr p) => Some (VStr (p ++ "_" ++ t))
    | _, n => n
    end.
Proof.
  intros H N. destruct (nth_error h r) as [b|] eqn:Eb.
  2:{ unfold create_ghost, index in H. rewrite Eb in H. discriminate. }
  destruct (ghost_tag _ _ _ _ _ _ H Eb N) as (p & Hp & ->). unfold getattr. rewrite Eb.
  destruct (attrs b "name") as [[| | | | |]|]; try contradiction; subst p;
    destruct tag as [[|ch t]|]; try reflexivity. cbn [ghost_name String.eqb]. destruct s; reflexivity.
Qed.

Lemma first_amplitude os st tag rnd kw st' a0 x :
  history (fun st o => adds_once st o /\ is_input o = false /\ loads_separate o) empty_inst os st ->
  NoDup (map fst kw) -> create_reflected_ghosts st tag true (x :: rnd) kw = Ok st' ->
  dget kw "amplitude" = Some (VNum a0) ->
  forall r az el, nth_error (present st) 0 = Some r ->
  getattr (objs st) r "az" = Some (VNum az) -> getattr (objs st) r "el" = Some (VNum el) ->
  exists g, ghosts_of (objs st') r = (ghosts_of (objs st) r ++ [g])%list
    /\ getattr (objs st') g "amplitude" = Some (VNum (a0 + x)).
Proof.
  intros H N E D r az el Hr Ha He.
  destruct (reflected_history _ _ _ _ _ _ _ H N E) as (_ & _ & R).
  destruct (R 0%nat r az el Hr Ha He) as (g & G & _ & _ & A & _). exists g. split; [exact G|].
  rewrite (A eq_refl a0); [|now rewrite D]. cbn [prefix_sum].
  destruct rnd; now rewrite Rplus_0_r.
Qed.

Lemma history_all (Q : op -> Prop) st os st' : history (fun _ _ => True) st os st' ->
  (forall o, In o os -> Q o) -> history (fun _ o => Q o) st os st'.
Proof.
  induction 1; intros K; econstructor; eauto.
  - apply K. now left.
  - apply IHhistory. intros; apply K; now right.
Qed.
