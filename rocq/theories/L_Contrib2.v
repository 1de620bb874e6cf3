(** * What all processes bin together *)
From Coq Require Import Reals Lra Permutation.
From Verif Require Import Common LibList M_Chunks M_Steps M_Hwp M_Mpi M_Detpair M_Scan
  S_Chunks S_Hwp S_Mpi S_Detpair S_Scan S_Saved S_Contrib L_Chunks L_Mpi L_Detpair L_Scan L_Scan2 L_Scan3 L_Scan4 L_Scan5
  L_Scan6 L_Scan7 L_Scan8 L_Scan9 L_Scan16 L_Scan17 L_Contrib.
Open Scope R_scope.

Lemma flat_map_app {X Y} (f g : X -> list Y) l :
  Permutation (flat_map (fun x => f x ++ g x) l) (flat_map f l ++ flat_map g l).
Proof.
  induction l as [|x l IH]; cbn [flat_map]; [reflexivity|]. rewrite IH, <- !app_assoc. apply Permutation_app_head.
  rewrite !app_assoc. apply Permutation_app_tail, Permutation_app_comm.
Qed.
Lemma flat_map_swap {X Y Z'} (f : X -> Y -> list Z') la lb :
  Permutation (flat_map (fun a => flat_map (f a) lb) la) (flat_map (fun b => flat_map (fun a => f a b) la) lb).
Proof.
  induction la as [|a la IH]; cbn [flat_map].
  - induction lb; cbn; auto.
  - rewrite IH. symmetry. apply flat_map_app.
Qed.
Lemma flat_map_perm {X Y} (f g : X -> list Y) l : (forall x, In x l -> Permutation (f x) (g x)) ->
  Permutation (flat_map f l) (flat_map g l).
Proof.
  induction l as [|x l IH]; cbn [flat_map]; intros H; [reflexivity|].
  apply Permutation_app; [apply H; now left|apply IH; intros y Hy; apply H; now right].
Qed.
Lemma flat_map_one {X Y} (f : X -> list Y) x l : In x l -> NoDup l -> (forall y, In y l -> y <> x -> f y = []) ->
  flat_map f l = f x.
Proof.
  induction l as [|y l IH]; intros Hin ND H; [destruct Hin|]. inversion ND; subst. cbn [flat_map].
  destruct Hin as [->|Hin].
  - assert (E : flat_map f l = []).
    { clear IH ND H3. induction l as [|z l IH]; [reflexivity|]. cbn [flat_map].
      rewrite (H z); [|right; now left|intros ->; apply H2; now left]. apply IH.
      - intros C. apply H2. now right.
      - intros w Hw. apply H. destruct Hw; [now left|right; now right]. }
    now rewrite E, app_nil_r.
  - rewrite (H y); [|now left|intros ->; contradiction]. cbn [app]. apply IH; auto. intros z Hz. apply H. now right.
Qed.

Definition tag (d : Z) (l : list (view * list R)) : list (Z * (view * list R)) := map (pair d) l.

Lemma all_bins_perm ids log : NoDup ids -> (forall d v t, In (EBin d v t) log -> In d ids) ->
  Permutation (all_bins log) (flat_map (fun d => tag d (bins d log)) ids).
Proof.
  intros ND. induction log as [|[c b|w v t|d v t] r IH]; intros H; cbn [all_bins bins].
  - clear H ND. induction ids as [|i ids IH]; cbn; [constructor|]. apply IH.
  - apply IH. intros; eapply H; right; eassumption.
  - apply IH. intros; eapply H; right; eassumption.
  - assert (HI : In d ids) by (eapply H; left; reflexivity).
    rewrite IH by (intros; eapply H; right; eassumption).
    transitivity (flat_map (fun d0 => (if (d =? d0)%Z then [(d, (v, t))] else []) ++ tag d0 (bins d0 r)) ids).
    + rewrite flat_map_app.
      rewrite (flat_map_one (fun d0 => if (d =? d0)%Z then [(d, (v, t))] else []) d ids HI ND).
      * rewrite Z.eqb_refl. reflexivity.
      * intros y _ N. destruct (Z.eqb_spec d y); congruence.
    + apply flat_map_perm. intros i _. destruct (Z.eqb_spec d i) as [->|]; reflexivity.
Qed.

Lemma no_bins d log : (forall e, In e log -> ~ about d e) -> bins d log = [].
Proof.
  induction log as [|[c b|w v t|d' v t] r IH]; cbn [bins]; intros H; auto;
    try (apply IH; intros e He; apply H; now right).
  destruct (Z.eqb_spec d' d) as [->|]; [|apply IH; intros e He; apply H; now right].
  destruct (H (EBin d v t)); [now left|reflexivity].
Qed.

Section L.
  Context {B : Type}.
  Implicit Types (s : state B) (E : env B) (d : det B) (p q : bpair B).

  (** Only live detectors of the focal plane are binned. *)
  Lemma bins_known E O s s' new i v t : well_set E O s -> scan_instrument E O s = Ok s' ->
    s_log s' = s_log s ++ new -> In (EBin i v t) new -> In i (map d_id (dets (s_beams s))).
  Proof.
    intros W H L Hin. destruct (mission_used E s (ws_mission _ _ _ W)) as (cs & Hcs & T).
    destruct (scan_instrument_like E O s s' cs) as (evss & HL & F); auto.
    { intros _. apply W. }
    { unfold no_stale, chunks_of. destruct (s_chunks s) as [l|] eqn:El.
      - intros Ho. apply (ws_marks _ _ _ W l El Ho).
      - intros _ cg [].  }
    { intros c Hc. apply (tiles_pos _ _ _ _ T Hc). }
    { apply W. }
    rewrite L in HL. apply app_inv_head in HL. subst new.
    destruct (in_dec Z.eq_dec i (map d_id (dets (s_beams s)))) as [|N]; [assumption|exfalso].
    apply in_concat in Hin. destruct Hin as (l & Hl & He).
    assert (X : exists w, pair_run E O (pair_at s w) cs l).
    { clear -F Hl. induction F; [destruct Hl|]. destruct Hl as [<-|Hl]; eauto. }
    destruct X as (w & (q' & maps & Lk & Sa & Sb & _)).
    refine (pair_untouched E O q' maps cs l i _ _ Lk He eq_refl).
    eapply same_untouched; [exact Sa|exact Sb|].
    assert (K : forall x, live (fst (pair_at s w)) = Some x \/ live (snd (pair_at s w)) = Some x -> d_id x <> i).
    { intros x Hx <-. apply live_in in Hx. apply N, in_map. unfold pair_at in Hx.
      destruct w as [k|]; [|destruct Hx]. destruct (nth_error (s_beams s) k) as [p|] eqn:Ek; [|destruct Hx].
      apply nth_error_In in Ek. unfold dets. apply in_flat_map. eauto. }
    split; intros x Hx; apply K; auto.
  Qed.

  (** Each pair belongs to one rank. *)
  Lemma one_rank (E : nat -> env B) O s size i : (0 < size)%nat -> o_scatter O = true ->
    (forall r, e_mpi (E r) = true /\ e_size (E r) = size /\ e_rank (E r) = r) ->
    (i < length (s_beams s))%nat ->
    exists r, (r < size)%nat /\ In (Some i) (my_pairs (E r) O s)
      /\ forall r', (r' < size)%nat -> r' <> r -> ~ In (Some i) (my_pairs (E r') O s).
  Proof.
    intros Hsz Hsc He Hi. set (idx := seq 0 (length (s_beams s))).
    assert (My : forall r, In (Some i) (my_pairs (E r) O s) <-> In i (rank_pairs true true size r idx idx)).
    { intros r. unfold my_pairs. destruct (He r) as (-> & -> & ->). rewrite Hsc.
      unfold rank_pairs. symmetry. apply somes_in. }
    pose proof (scan_covers size idx Hsz) as Cov. unfold covers, on_ranks in Cov.
    assert (Ex : exists r, (r < size)%nat /\ In i (rank_pairs true true size r idx idx)).
    { assert (Hin : In i (concat (map (fun r => rank_pairs true true size r idx idx) (seq 0 size)))).
      { rewrite Cov. apply in_seq. lia. }
      apply in_concat in Hin. destruct Hin as (l & Hl & Hin). apply in_map_iff in Hl.
      destruct Hl as (r & <- & Hr). apply in_seq in Hr. exists r. split; auto. lia. }
    destruct Ex as (r & Hr & Hin). exists r. split; auto. split; [now apply My|].
    intros r' Hr' Hne. rewrite My. intros Hin'.
    assert (NDc : NoDup (concat (map (fun r => rank_pairs true true size r idx idx) (seq 0 size)))).
    { rewrite Cov. apply seq_NoDup. }
    assert (Gen : forall l (f : nat -> list nat), NoDup (concat (map f l)) -> In r l -> In r' l ->
                  In i (f r) -> In i (f r') -> False).
    { clear -Hne. induction l as [|x l IH]; intros f ND Hr Hr' Hi Hi'; [destruct Hr|].
      cbn in ND.
      assert (Cross : forall u v, In i u -> In i v -> NoDup (u ++ v) -> False).
      { clear. induction u as [|h u IHu]; intros v Hu Hv H; [destruct Hu|]. cbn in H. inversion H; subst.
        destruct Hu as [->|Hu]; [|eapply IHu; eauto]. apply H2. apply in_or_app. auto. }
      destruct Hr as [<-|Hr], Hr' as [<-|Hr'].
      - congruence.
      - apply (Cross (f x) (concat (map f l))); auto. apply in_concat. exists (f r'). split; auto.
        apply in_map. auto.
      - apply (Cross (f x) (concat (map f l))); auto. apply in_concat. exists (f r). split; auto.
        apply in_map. auto.
      - apply nodup_r in ND. eapply (IH f); eauto. }
    apply (Gen _ _ NDc); auto; apply in_seq; lia.
  Qed.

  Lemma ranks_together E1 (E : nat -> env B) O s s1 (s' : nat -> state B) new1 (new : nat -> list event) size :
    (0 < size)%nat -> o_scatter O = true ->
    (e_mpi E1 = false /\ e_size E1 = 1%nat /\ e_rank E1 = 0%nat) ->
    (forall r, e_mpi (E r) = true /\ e_size (E r) = size /\ e_rank (E r) = r) ->
    well_set E1 O s -> (forall r, well_set (E r) O s) -> sky_only O -> all_ready s ->
    (forall r, same_observation E1 (E r) O O s s) ->
    scan_instrument E1 O s = Ok s1 -> (forall r, (r < size)%nat -> scan_instrument (E r) O s = Ok (s' r)) ->
    s_log s1 = s_log s ++ new1 -> (forall r, (r < size)%nat -> s_log (s' r) = s_log s ++ new r) ->
    Permutation (flat_map (fun r => all_bins (new r)) (seq 0 size)) (all_bins new1).
  Proof.
    intros Hsz Hsc (M1 & M2 & M3) He W1 W SK RD SO H1 H L1 L.
    set (ids := map d_id (dets (s_beams s))).
    assert (ND : NoDup ids) by apply W1.
    rewrite (all_bins_perm ids new1 ND) by (intros i v t; apply (bins_known E1 O s s1 new1 i v t W1 H1 L1)).
    transitivity (flat_map (fun r => flat_map (fun i => tag i (bins i (new r))) ids) (seq 0 size)).
    { apply flat_map_perm. intros r Hr. apply in_seq in Hr. assert (r < size)%nat by lia.
      apply all_bins_perm; [exact ND|]. intros i v t. apply (bins_known (E r) O s (s' r)); auto. }
    rewrite flat_map_swap. apply flat_map_perm. intros i Hi.
    unfold ids in Hi. apply in_map_iff in Hi. destruct Hi as (d & <- & Hd).
    unfold dets in Hd. apply in_flat_map in Hd. destruct Hd as (p & Hp & Hd). assert (Hp' := Hp).
    apply In_nth_error in Hp. destruct Hp as (k & Hp).
    assert (Hk : (k < length (s_beams s))%nat) by (apply nth_error_Some; congruence).
    assert (NB : forall E' s'' new', well_set E' O s -> scan_instrument E' O s = Ok s'' -> s_log s'' = s_log s ++ new' ->
      ~ In (Some k) (my_pairs E' O s) \/ d_dead d = true -> bins (d_id d) new' = []).
    { intros E' s'' new' W' H' L' X. apply no_bins.
      destruct SK as (_ & _ & _ & HF).
      destruct (scan_process E' O s s'') as (nw & Ln & Y); try apply W'; auto.
      { intros _. apply W'. }
      { intros m t t' Z. rewrite HF in Z. congruence. }
      rewrite L' in Ln. apply app_inv_head in Ln. subst nw. now apply (Y k p d Hp Hd). }
    destruct (d_dead d) eqn:Dd.
    { rewrite (NB E1 s1 new1 W1 H1 L1) by auto. cbn [tag map].
      assert (Z : forall l, (forall r, In r l -> (r < size)%nat) -> flat_map (fun r => tag (d_id d) (bins (d_id d) (new r))) l = []).
      { induction l as [|r l IH]; intros HL; [reflexivity|]. cbn [flat_map].
        rewrite (NB (E r) (s' r) (new r) (W r)) by (auto using in_eq). cbn. apply IH. intros; apply HL; now right. }
      rewrite Z; [reflexivity|]. intros r Hr. apply in_seq in Hr. lia. }
    destruct (one_rank E O s size k Hsz Hsc He Hk) as (r & Hr & Hin & Hno).
    rewrite (flat_map_one _ r); [|apply in_seq; lia|apply seq_NoDup|].
    - assert (Q : bins (d_id d) new1 = bins (d_id d) (new r)).
      { apply (own_pair_only E1 (E r) O O s s s1 (s' r) new1 (new r) p d); auto.
        - exists k. split; [exact Hp|]. now apply in_my_pairs.
        - exists k. now split.
        - now apply (RD p d). }
      now rewrite Q.
    - intros r' Hr' N. apply in_seq in Hr'. rewrite (NB (E r') (s' r') (new r')); auto.
      + apply H. lia.
      + apply L. lia.
      + left. apply Hno; [lia|exact N].
  Qed.
End L.
