(** * Lemmas about sessions with maps *)
From Coq Require Import Reals Lra Lia.
From Verif Require Import Common LibList M_Mpi S_Mpi L_Mpi M_Solve S_Solve L_Solve M_MapHist S_MapHist.
Open Scope R_scope.

Definition agrees (s : maps) (cur : option (nat * list obs)) : Prop :=
  match cur with
  | None => global s = None
  | Some (n, l) => exists g, global s = Some g /\ npix s = (12 * n ^ 2)%nat /\ binned (12 * n ^ 2) g l
  end.

Lemma bin_fits s c add : (add = true -> global s <> None) -> flags_fit (own_flag s) c = true ->
  exists s', bin_tod s (c_samples c) (c_flag c) true add (c_start c) (c_end c) = Ok s'
    /\ own_flag s' = own_flag s /\ npix s' = npix s /\ (add = false -> global s' = global s).
Proof.
  intros Hg F.
  assert (K : forall fl, length fl = length (c_samples c) ->
    exists s', (if negb (length fl =? length (c_samples c))%nat then Err ValueError
      else let d := from_tod (repeat zero_pixel (npix s)) (c_samples c) fl in
      do g <- (if add then match global s with None => Err AttributeError | Some g => Ok (Some (zipadd add_pixel g d)) end
               else Ok (global s));
      Ok {| global := g; depo := d; own_flag := own_flag s; npix := npix s |}) = Ok s'
    /\ own_flag s' = own_flag s /\ npix s' = npix s /\ (add = false -> global s' = global s)).
  { intros fl L. rewrite L, Nat.eqb_refl. cbn [negb]. cbv zeta. destruct add.
    - destruct (global s) as [g|] eqn:Eg; [|destruct (Hg eq_refl eq_refl)]. eexists. split; [reflexivity|]. cbn. repeat split; auto; discriminate.
    - eexists. split; [reflexivity|]. cbn. auto. }
  unfold bin_tod, flags_fit in *. destruct (c_flag c) as [| |fl].
  - destruct (own_flag s) as [f|]; cbn [bind].
    + apply K. now apply Nat.eqb_eq.
    + apply K, repeat_length.
  - cbn [bind]. apply K, repeat_length.
  - apply andb_true_iff in F as [F1 F2]. apply Nat.ltb_lt in F1. destruct (Nat.leb_spec 2 (length fl)); [lia|]. cbn [bind].
    apply K. now apply Nat.eqb_eq.
Qed.
Lemma bin_misfits s c add : flags_fit (own_flag s) c = false ->
  exists e, bin_tod s (c_samples c) (c_flag c) true add (c_start c) (c_end c) = Err e.
Proof.
  intros F. unfold bin_tod, flags_fit in *. destruct (c_flag c) as [| |fl].
  - destruct (own_flag s) as [f|]; [|discriminate]. cbn [bind]. rewrite F. cbn. eauto.
  - discriminate.
  - destruct (2 <=? length fl)%nat eqn:E2; [cbn; eauto|]. cbn [bind].
    assert (E1 : (length fl <? 2)%nat = true) by (apply Nat.ltb_lt; apply Nat.leb_gt in E2; lia).
    rewrite E1 in F. cbn in F. rewrite F. cbn. eauto.
Qed.
Lemma bin_no_maps s c : global s = None ->
  exists e, bin_tod s (c_samples c) (c_flag c) true true (c_start c) (c_end c) = Err e.
Proof.
  intros Hg. unfold bin_tod. rewrite Hg.
  destruct (match c_flag c with FNone => _ | _ => _ end) as [fl|]; cbn [bind]; eauto.
  destruct (negb _); eauto.
Qed.

Lemma session_agrees : forall h s cur, agrees s cur -> agrees (session s h) (account (own_flag s) cur h).
Proof.
  induction h as [|a h IH]; intros s cur A; [exact A|]. destruct a as [n|f|c add|]; cbn [session fold_left act_step account].
  - apply (IH (allocate_maps n s)). cbn. eexists. split; [reflexivity|]. split; [reflexivity|]. apply binned_empty.
  - apply (IH {| global := global s; depo := depo s; own_flag := f; npix := npix s |}).
    destruct cur as [[n l]|]; exact A.
  - destruct cur as [[n l]|].
    + destruct A as (g & Hg & Hn & Hb). destruct (flags_fit (own_flag s) c) eqn:Ef.
      * rewrite andb_true_r. destruct (bin_fits s c add) as (s' & E & E1 & E2 & E3); auto; [congruence|].
        rewrite E. rewrite <- E1. apply IH. destruct add.
        -- rewrite <- Hn in Hb. destruct (bin_tod_binned s _ _ _ _ _ _ _ Hg Hb E) as (g' & G1 & G2 & G3 & G4).
           unfold agrees. exists g'. split; auto. split; [congruence|]. rewrite <- Hn, E1. destruct c. exact G4.
        -- cbn [andb]. unfold agrees. exists g. rewrite E3, E2; auto.
      * rewrite andb_false_r. destruct (bin_misfits s c add Ef) as (e & ->). apply IH. unfold agrees. eauto.
    + destruct (bin_tod s (c_samples c) (c_flag c) true add (c_start c) (c_end c)) as [s'|e] eqn:E.
      * destruct add; [destruct (bin_no_maps s c A); congruence|].
        destruct (flags_fit (own_flag s) c) eqn:Ef; [|destruct (bin_misfits s c false Ef); congruence].
        destruct (bin_fits s c false) as (s2 & E0 & E1 & E2 & E3); auto; [discriminate|].
        assert (s2 = s') by congruence. subst s2. rewrite <- E1. apply IH. cbn. rewrite E3; auto.
      * apply IH. exact A.
  - apply IH. exact A.
Qed.

Lemma session_none h : in_maps h = None -> global (session new_instance h) = None.
Proof. intros H. assert (A := session_agrees h new_instance None eq_refl). cbn in A. fold (in_maps h) in A. rewrite H in A. exact A. Qed.

Lemma session_maps h n l : in_maps h = Some (n, l) ->
  exists g, holds_maps h g /\ binned (12 * n ^ 2) g l.
Proof.
  intros H. assert (A := session_agrees h new_instance None eq_refl). cbn in A. fold (in_maps h) in A. rewrite H in A.
  destruct A as (g & Hg & _ & Hb). exists g. auto.
Qed.

Lemma session_sums h n l : in_maps h = Some (n, l) ->
  exists g, holds_maps h g /\ length g = (12 * n ^ 2)%nat
    /\ forall p, (p < 12 * n ^ 2)%nat -> nth_error g p = Some (data_sums (in_pixel p l), angle_sums (in_pixel p l)).
Proof.
  intros H. destruct (session_maps h n l H) as (g & Hg & Hb). exists g. split; auto. split; [apply Hb|].
  intros p Hp. exact (binned_nth _ _ _ _ Hb Hp).
Qed.

Section R.
  Context (well : sym3 -> bool) (cond : sym3 -> option R) (fill : R).
  Lemma sessions_solved n hs ls gs sky p : Forall2 (fun h l => in_maps h = Some (n, l)) hs ls -> Forall2 holds_maps hs gs ->
    hs <> [] -> (forall o, In o (concat ls) -> seen_from sky o /\ on_circle o) ->
    (p < 12 * n ^ 2)%nat -> three_angles p (concat ls) -> well (angle_sums (in_pixel p (concat ls))) = true ->
    exists m c P, solve_for_map well cond true 0 gs fill = (Some m, c, P) /\ nth_error m p = Some (sky p).
  Proof.
    intros F G Hn H Hp T W.
    assert (B : Forall2 (binned (12 * n ^ 2)) gs ls).
    { clear - F G. revert gs G. induction F as [|h l hs ls Hl F IH]; intros gs G; inversion G; subst; constructor; auto.
      destruct (session_maps h n l Hl) as (g & Hg & Hb). unfold holds_maps in *. congruence. }
    assert (X : binned (12 * n ^ 2) (reduce_array add_pixel gs) (concat ls)).
    { apply reduce_binned; auto. destruct G; congruence. }
    unfold solve_for_map. cbn [Nat.eqb]. do 3 eexists. split; [reflexivity|].
    rewrite (map_nth_error _ _ _ (binned_nth _ _ _ _ X Hp)). now rewrite (solve_total well fill sky) by auto.
  Qed.
End R.

(** Anything before the last allocation, and solving in between, leave no trace. *)
Lemma account_app h : forall own cur h', account own cur (h ++ h') =
  account (fold_left (fun own a => match a with SetFlag f => f | _ => own end) h own) (account own cur h) h'.
Proof. induction h as [|[n|f|c add|] h IH]; intros own cur h'; cbn; auto. Qed.
Lemma alloc_forgets h n h' : (forall f, ~ In (SetFlag f) h) -> in_maps (h ++ Allocate n :: h') = in_maps (Allocate n :: h').
Proof.
  intros Hf. unfold in_maps. rewrite account_app. cbn [account]. f_equal.
  assert (G : forall own, fold_left (fun own a => match a with SetFlag f => f | _ => own end) h own = own).
  { clear h'. induction h as [|a h IH]; intros own; cbn; auto. destruct a as [?|f|? ?|]; try (apply IH; intros f' Hf'; apply (Hf f'); now right).
    destruct (Hf f); now left. }
  apply G.
Qed.

Lemma account_some h : forall own n l, exists n' l', account own (Some (n, l)) h = Some (n', l').
Proof. induction h as [|[m|f|c add|] h IH]; intros own n l; cbn; eauto. Qed.
Lemma same_session h h' : in_maps h = in_maps h' -> global (session new_instance h) = global (session new_instance h').
Proof.
  intros E. destruct (in_maps h') as [[n l]|] eqn:E'.
  - destruct (session_maps _ _ _ E) as (g & Hg & Lg & Bg). destruct (session_maps _ _ _ E') as (g' & Hg' & Lg' & Bg').
    unfold holds_maps in *. rewrite Hg, Hg'. f_equal. apply (nth_ext _ _ zero_pixel zero_pixel); [congruence|].
    intros p Hp. rewrite Bg, Bg' by lia. reflexivity.
  - now rewrite (session_none h), (session_none h').
Qed.
Lemma alloc_fresh h n h' : (forall f, ~ In (SetFlag f) h) ->
  global (session new_instance (h ++ Allocate n :: h')) = global (session new_instance (Allocate n :: h')).
Proof. intros Hf. apply same_session. now apply alloc_forgets. Qed.

Lemma sessions_solved_any well cond fill mpi n hs ls gs sky p :
  (mpi = true \/ length hs = 1%nat) ->
  Forall2 (fun h l => in_maps h = Some (n, l)) hs ls -> Forall2 holds_maps hs gs ->
  hs <> [] -> (forall o, In o (concat ls) -> seen_from sky o /\ on_circle o) ->
  (p < 12 * n ^ 2)%nat -> three_angles p (concat ls) -> well (angle_sums (in_pixel p (concat ls))) = true ->
  exists m c P, solve_for_map well cond mpi 0 gs fill = (Some m, c, P) /\ nth_error m p = Some (sky p).
Proof.
  intros Hm F G Hn H Hp T W.
  destruct (sessions_solved well cond fill n hs ls gs sky p F G Hn H Hp T W) as (m & c & P & E & X).
  exists m, c, P. split; auto. destruct mpi; auto. destruct Hm as [|Hm]; [discriminate|].
  destruct hs as [|h [|]]; try discriminate. inversion G as [|? ? ? ? ? G']; subst. inversion G'; subst. exact E.
Qed.
