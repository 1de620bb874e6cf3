(** * What a detector contributes *)
From Coq Require Import Reals Lra Permutation.
From Verif Require Import Common LibList M_Chunks M_Steps M_Hwp M_Mpi M_Detpair M_Scan
  S_Chunks S_Hwp S_Mpi S_Detpair S_Scan S_Saved S_Contrib L_Chunks L_Mpi L_Detpair L_Scan L_Scan2 L_Scan3 L_Scan4 L_Scan5
  L_Scan6 L_Scan7 L_Scan8 L_Scan9 L_Scan16 L_Scan17.
Open Scope R_scope.

(** ** Reading a trace *)
Lemma bins_views d log : map fst (bins d log) = bin_views d log.
Proof.
  induction log as [|[c b|w v t|d' v t] r IH]; cbn [bins bin_views map]; auto.
  destruct (d' =? d)%Z; cbn [map fst]; congruence.
Qed.
Lemma bins_binned d log : map (fun x => stretch (fst x) (snd x)) (bins d log) = binned d log.
Proof.
  induction log as [|[c b|w v t|d' v t] r IH]; cbn [bins binned map]; auto.
  destruct (d' =? d)%Z; cbn [map fst snd]; congruence.
Qed.
Lemma bins_in d log v t : In (v, t) (bins d log) <-> In (EBin d v t) log.
Proof.
  induction log as [|[c b|w v' t'|d' v' t'] r IH]; cbn [bins In]; try (rewrite IH); try (intuition discriminate).
  destruct (Z.eqb_spec d' d) as [->|N]; cbn [In]; rewrite IH; intuition congruence.
Qed.
Lemma all_in d log v t : In (d, (v, t)) (all_bins log) <-> In (EBin d v t) log.
Proof.
  induction log as [|[c b|w v' t'|d' v' t'] r IH]; cbn [all_bins In]; try (rewrite IH); try (intuition discriminate).
  intuition congruence.
Qed.

(** Equal starts and full cover: equal lengths. *)
Lemma same_lengths : forall (l l2 : list (view * list R)) lo hi, map fst l = map fst l2 ->
  tiles lo hi (map (fun x => stretch (fst x) (snd x)) l) -> tiles lo hi (map (fun x => stretch (fst x) (snd x)) l2) ->
  map (fun x => length (snd x)) l = map (fun x => length (snd x)) l2.
Proof.
  induction l as [|[v t] l IH]; intros [|[v2 t2] l2] lo hi F T T2; try discriminate F; [reflexivity|].
  cbn [map fst snd] in *. unfold stretch in T, T2. cbn [tiles] in T, T2.
  injection F as <- F. destruct T as (A & Lt & T), T2 as (_ & Lt2 & T2).
  assert (EQ : length t = length t2).
  { destruct l as [|[v' t'] l], l2 as [|[v2' t2'] l2]; try discriminate F; cbn [map tiles fst snd stretch] in T, T2.
    - lia.
    - cbn [map fst] in F. injection F as <- _. destruct T as (X & _), T2 as (X2 & _). lia. }
  rewrite EQ in T. f_equal; [exact EQ|]. eapply IH; eassumption.
Qed.

Lemma same_bins (f : view -> nat -> R) : forall (l l2 : list (view * list R)), map fst l = map fst l2 ->
  map (fun x => length (snd x)) l = map (fun x => length (snd x)) l2 ->
  (forall v t, In (v, t) l -> t = map (f v) (seq 0 (length t))) ->
  (forall v t, In (v, t) l2 -> t = map (f v) (seq 0 (length t))) -> l = l2.
Proof.
  induction l as [|[v t] l IH]; intros [|[v2 t2] l2] F Ln H H2; try discriminate F; [reflexivity|].
  cbn [map fst snd] in *. injection F as <- F. injection Ln as L1 Ln. f_equal.
  - f_equal. rewrite (H v t (or_introl eq_refl)), (H2 v t2 (or_introl eq_refl)), L1. reflexivity.
  - apply IH; auto; intros v' t' I; [apply H|apply H2]; now right.
Qed.

Section L.
  Context {B : Type}.
  Implicit Types (s : state B) (E : env B) (d : det B) (p q : bpair B).

  Lemma main_beam_fun d (x y : B) : main_beam d x -> main_beam d y -> x = y.
  Proof. unfold main_beam. intros [H|[H K]] [H'|[H' K']]; congruence. Qed.
  Lemma ghost_beam_fun (g : gh B) x y : ghost_beam g x -> ghost_beam g y -> x = y.
  Proof. unfold ghost_beam. intros [H|[H K]] [H'|[H' K']]; congruence. Qed.
  Lemma ghost_beams_fun (gs : list (gh B)) : forall bs bs', Forall2 ghost_beam gs bs -> Forall2 ghost_beam gs bs' -> bs = bs'.
  Proof.
    induction gs as [|g gs IH]; intros bs bs' H H'; inversion H; inversion H'; subst; [reflexivity|].
    f_equal; [eapply ghost_beam_fun; eassumption|auto].
  Qed.

  Lemma own_signal_env E E2 d x bs v j : e_signal E2 = e_signal E -> own_signal E2 d x bs v j = own_signal E d x bs v j.
  Proof.
    intros H. unfold own_signal. rewrite H. f_equal. generalize (d_ghosts d) bs 0%nat.
    induction l as [|g gs IH]; intros [|b bs'] k; cbn [ghost_signal]; auto. now rewrite H, IH.
  Qed.

  (** What is binned for a detector of the pair, as a function of the view. *)
  Lemma contribution E O s s' new i a ob : well_set E O s -> sky_only O -> scan_instrument E O s = Ok s' ->
    s_log s' = s_log s ++ new -> nth_error (s_beams s) i = Some (Some a, ob) -> pair_ready a ob ->
    exists x ba bb, main_beam a x /\ Forall2 ghost_beam (d_ghosts a) ba
      /\ (forall b, ob = Some b -> Forall2 ghost_beam (d_ghosts b) bb)
      /\ forall d, In d (pair_dets (Some a, ob)) -> d_dead d = false ->
         forall v t, In (v, t) (bins (d_id d) new) -> t = map (fun j =>
           (if Z.eqb (d_id d) (d_id a)
            then own_signal E a x ba v j + match live ob with Some b => o_ctalk O * own_signal E b x bb v j | None => 0 end
            else match ob with Some b => own_signal E b x bb v j | None => 0 end
                 + (if d_dead a then 0 else o_ctalk O * own_signal E a x ba v j))) (seq 0 (length t)).
  Proof.
    intros W (HB & HG & HR & HF) H L Hp Rd.
    destruct (scan_superposed E O s s' (ws_preview _ _ _ W) HR HG HF (ws_mission _ _ _ W) (ws_rotation _ _ _ W)
      (ws_marks _ _ _ W) (ws_ids _ _ _ W) H) as (new' & L' & X).
    rewrite L in L'. apply app_inv_head in L'. subst new'.
    destruct (X i a ob Hp Rd) as (x & ba & bb & M & GA & GB & XA & XB).
    exists x, ba, bb. split; [exact M|]. split; [exact GA|]. split; [exact GB|].
    intros d Hd Hl v t Ht. apply bins_in in Ht.
    assert (C : d = a \/ exists b, ob = Some b /\ d = b).
    { destruct ob as [b|]; cbn in Hd; intuition eauto. }
    destruct C as [->|(b & -> & ->)].
    - rewrite Z.eqb_refl. apply (XA Hl v t Ht).
    - assert (N : (d_id b =? d_id a)%Z = false).
      { apply Z.eqb_neq. destruct (dets_split (s_beams s) i _ Hp) as (l1 & l2 & Eab).
        assert (ND' := ws_ids _ _ _ W). rewrite Eab, !map_app in ND'. apply nodup_middle in ND'. cbn in ND'.
        inversion ND' as [|? ? Hnot _]; subst. intros Eq. apply Hnot. rewrite Eq. now left. }
      rewrite N. apply (XB b eq_refl Hl v t Ht).
  Qed.

  Lemma bins_cover E O s s' new d : well_set E O s -> sky_only O -> scan_instrument E O s = Ok s' ->
    s_log s' = s_log s ++ new -> observes E O s d -> tiles 0 (e_nsamp E) (binned (d_id d) new).
  Proof.
    intros W (HB & HG & HR & HF) H L (Hl & i & p & Hp & Hd & Hi).
    destruct (scan_process E O s s') as (new' & L' & X); try apply W; auto.
    { intros Y. congruence. }
    { intros m t t' Y. rewrite HF in Y. congruence. }
    rewrite L in L'. apply app_inv_head in L'. subst new'.
    destruct (X i p d Hp Hd) as [X1 _]. destruct (X1 Hi Hl) as [_ Y]. now rewrite HB in Y.
  Qed.

  Lemma own_pair_only E E2 O O2 s s2 s' s2' new new2 p d :
    well_set E O s -> well_set E2 O2 s2 -> sky_only O -> sky_only O2 -> same_observation E E2 O O2 s s2 ->
    works_on E O s p -> works_on E2 O2 s2 p ->
    (exists a ob, p = (Some a, ob) /\ pair_ready a ob) -> In d (pair_dets p) -> d_dead d = false ->
    scan_instrument E O s = Ok s' -> scan_instrument E2 O2 s2 = Ok s2' ->
    s_log s' = s_log s ++ new -> s_log s2' = s_log s2 ++ new2 ->
    bins (d_id d) new = bins (d_id d) new2.
  Proof.
    intros W W2 SK SK2 [N1 N2 N3 N4 N5 N6 N7] (i & Hp & Hi) (j & Hq & Hj) (a & ob & -> & Rd) Hd Hl H H2 L L2.
    assert (OB : observes E O s d) by (split; [exact Hl|eauto 6]).
    assert (OB2 : observes E2 O2 s2 d) by (split; [exact Hl|eauto 6]).
    destruct (contribution E O s s' new i a ob W SK H L Hp Rd) as (x & ba & bb & M & GA & GB & X).
    destruct (contribution E2 O2 s2 s2' new2 j a ob W2 SK2 H2 L2 Hq Rd) as (x2 & ba2 & bb2 & M2 & GA2 & GB2 & X2).
    rewrite <- (main_beam_fun _ _ _ M M2), <- (ghost_beams_fun _ _ _ GA GA2) in X2.
    specialize (X d Hd Hl). specialize (X2 d Hd Hl).
    assert (V : map fst (bins (d_id d) new) = map fst (bins (d_id d) new2)).
    { rewrite !bins_views, (binned_as_scanned E O s s' new d), (binned_as_scanned E2 O2 s2 s2' new2 d) by (try apply SK; try apply SK2; assumption).
      apply (same_course E E2 O O2 s s2 s' s2'); assumption. }
    refine (same_bins _ _ _ V _ X _).
    - apply (same_lengths _ _ 0 (e_nsamp E) V); rewrite bins_binned.
      + apply (bins_cover E O s s'); assumption.
      + rewrite <- N1. apply (bins_cover E2 O2 s2 s2'); assumption.
    - intros v t Ht. rewrite (X2 v t Ht) at 1. apply map_ext. intros k. rewrite N7.
      rewrite !(own_signal_env E E2) by assumption. destruct ob as [b|]; [|reflexivity].
      rewrite <- (ghost_beams_fun _ _ _ (GB b eq_refl) (GB2 b eq_refl)).
      rewrite !(own_signal_env E E2) by assumption.
      destruct (d_id d =? d_id a)%Z; [|reflexivity]. f_equal. unfold live. destruct (d_dead b); [reflexivity|].
      now rewrite (own_signal_env E E2).
  Qed.
End L.
