(** * From chunks to pairs to the instrument *)
From Coq Require Import Reals Lra.
From Verif Require Import Common LibList M_Chunks M_Steps M_Hwp M_Mpi M_Detpair M_Scan
  S_Chunks S_Detpair S_Scan L_Chunks L_Hwp L_Mpi L_Detpair L_Scan L_Scan2 L_Scan3 L_Scan4.
Open Scope R_scope.

Lemma slice_in {A} (l : list A) i j : exists pre post, l = pre ++ slice l i j ++ post.
Proof.
  unfold slice. exists (firstn i l), (skipn (j - i) (skipn i l)).
  rewrite firstn_skipn, firstn_skipn. reflexivity.
Qed.

Lemma nodup_l {A} (a b : list A) : NoDup (a ++ b) -> NoDup a.
Proof.
  induction a as [|x a IH]; cbn; intros H; [constructor|]. inversion H; subst.
  constructor; auto. intros Hx. apply H2. apply in_or_app. auto.
Qed.
Lemma nodup_r {A} (a b : list A) : NoDup (a ++ b) -> NoDup b.
Proof. induction a as [|x a IH]; cbn; intros H; auto. inversion H; auto. Qed.

Lemma nodup_middle {A} (a b c : list A) : NoDup (a ++ b ++ c) -> NoDup b.
Proof.
  intros H. apply nodup_r in H. apply nodup_l in H. exact H.
Qed.

Lemma rank_nodup {A} mpi scatter size rank (l : list A) : NoDup l ->
  NoDup (somes (rank_iterations mpi scatter size rank l l)).
Proof.
  intros H. unfold rank_iterations.
  assert (X : forall (bs : list A) k, NoDup bs -> NoDup (somes (map (fun i => nth_error bs i) (seq 0 k)))).
  { clear. intros bs k H. 
    assert (Y : forall k s, exists post, (skipn s bs) = somes (map (fun i => @nth_error A bs i) (seq s k)) ++ post).
    { clear. induction k as [|k IH]; intros s; cbn.
      - exists (skipn s bs). reflexivity.
      - destruct (IH (S s)) as (post & E). destruct (nth_error bs s) as [x|] eqn:En.
        + exists post. 
          change (skipn s bs = x :: (somes (map (fun i => nth_error bs i) (seq (S s) k)) ++ post)).
          rewrite <- E. apply nth_error_split in En.
          destruct En as (l1 & l2 & -> & <-).
          assert (Z : forall (a c : list A), skipn (length a) (a ++ c) = c).
          { intros a0 c. induction a0; cbn; auto. }
          rewrite Z. f_equal. replace (S (length l1)) with (length (l1 ++ [x]))
            by (rewrite app_length; cbn; lia).
          change (l1 ++ x :: l2) with (l1 ++ [x] ++ l2). rewrite app_assoc. symmetry. apply Z.
        + apply nth_error_None in En. exists [].
          change (skipn s bs = somes (map (fun i => nth_error bs i) (seq (S s) k)) ++ []).
          rewrite (skipn_all2 bs) in E by lia. rewrite skipn_all2 by lia.
          symmetry in E. apply app_eq_nil in E. destruct E as [-> _]. reflexivity. }
    destruct (Y k 0%nat) as (post & E). cbn in E. rewrite E in H.
    apply nodup_l in H. exact H. }
  apply X. destruct scatter; auto. unfold scatter_list. destruct mpi; cbn; auto.
  unfold array_split.
  destruct (Nat.lt_ge_cases rank size) as [Hr|Hr].
  - erewrite (nth_indep _ _ (slice l 0 0)) by (rewrite map_length, seq_length; lia).
    set (f := fun i => slice l _ _).
    replace (slice l 0 0) with (slice l 0 0) by reflexivity.
    assert (Z : exists i j, nth rank (map f (seq 0 size)) (slice l 0 0) = slice l i j).
    { destruct (nth_in_or_default rank (map f (seq 0 size)) (slice l 0 0)) as [Hi|Hi]; [|rewrite Hi; eauto].
      apply in_map_iff in Hi. destruct Hi as (i & <- & _). unfold f. eauto. }
    destruct Z as (i & j & ->). destruct (slice_in l i j) as (pre & post & E).
    rewrite E in H. apply nodup_middle in H. exact H.
  - rewrite nth_overflow by (rewrite map_length, seq_length; lia). constructor.
Qed.

Section L.
  Context {B : Type}.
  Implicit Types (s : state B) (E : env B) (d : det B).

  Definition pos_chunks (l : list chunk) : Prop := forall c, In c l -> (c_start c < c_end c)%Z.

  Lemma pos_positive (l : list (chunk * bool)) : pos_chunks (map fst l) -> positive l.
  Proof. intros H cg Hin. apply H. apply in_map. auto. Qed.

  (** ** Chunks *)
  Definition kth_like E O p maps (cs : list chunk) (k : nat) evs : Prop :=
    match nth_error cs k with Some c => chunk_like E O p maps c evs | None => evs = [] end.

  Lemma scan_chunks_like E O bidx (p : bpair B) :
    (o_ground O = true -> o_preview O = false) -> forall ks s s',
    no_stale O (chunks_of s) -> pos_chunks (map fst (chunks_of s)) ->
    rot_fine (ir_rot (sg_rot (s_strat s))) ->
    scan_chunks E O bidx p ks s = Ok s' ->
    exists evss, s_log s' = s_log s ++ concat evss
      /\ Forall2 (kth_like E O p (s_maps s) (map fst (chunks_of s))) ks evss
      /\ kept2 s s' /\ no_stale O (chunks_of s')
      /\ rot_fine (ir_rot (sg_rot (s_strat s'))).
  Proof.
    intros Hg. induction ks as [|k ks IH]; intros s s' Hst Hpos Hrot H; cbn [scan_chunks] in H.
    - injection H as <-. exists []. cbn. rewrite app_nil_r. split; auto. split; [constructor|].
      split; [apply kept2_refl|auto].
    - inv_bind H s1 H1. apply scan_chunk_like in H1; auto; [|apply pos_positive; auto].
      destruct H1 as (evs & L1 & C1 & K1 & N1 & R1).
      apply IH in H; auto; [|rewrite (k2_chunks _ _ K1); auto].
      destruct H as (evss & L2 & C2 & K2 & N2 & R2).
      exists (evs :: evss). cbn [concat]. rewrite L2, L1, <- app_assoc. split; auto.
      rewrite (k2_maps _ _ K1), (k2_chunks _ _ K1) in C2.
      split; [|split; [eapply kept2_trans; eauto|auto]].
      constructor; auto. unfold kth_like. rewrite nth_error_map.
      destruct (nth_error (chunks_of s) k); auto.
  Qed.

  Definition pair_like E O p maps (cs : list chunk) (evs : list event) : Prop :=
    exists evss, Forall2 (chunk_like E O p maps) cs evss /\ evs = concat evss.

  Lemma kth_all E O p maps (cs : list chunk) : forall pre evss,
    Forall2 (kth_like E O p maps (pre ++ cs)) (seq (length pre) (length cs)) evss ->
    Forall2 (chunk_like E O p maps) cs evss.
  Proof.
    induction cs as [|c cs IH]; intros pre evss H; cbn [length seq] in H;
      inversion H; subst; constructor.
    - match goal with K : kth_like _ _ _ _ _ _ _ |- _ => unfold kth_like in K;
        rewrite nth_error_app2, Nat.sub_diag in K by lia; exact K end.
    - apply (IH (pre ++ [c])). rewrite <- app_assoc. cbn [app].
      rewrite app_length. cbn [length]. rewrite Nat.add_1_r. assumption.
  Qed.

  (** ** Pairs *)

  (** The chunks that a scan in this state uses. *)
  Definition used_chunks E s : res (list chunk) :=
    match s_chunks s with
    | Some l => Ok (map fst l)
    | None => partition_mission (e_nsamp E) None
    end.

  Definition pair_at s (w : option nat) : bpair B :=
    match w with
    | Some i => match nth_error (s_beams s) i with Some p => p | None => (None, None) end
    | None => (None, None)
    end.

  Definition pair_run E O (p : bpair B) (cs : list chunk) (evs : list event) : Prop :=
    exists q maps, pair_like E O q maps cs evs
      /\ same_odet (fst p) (fst q) /\ same_odet (snd p) (snd q)
      /\ (o_preview O = true -> q = p)
      /\ (o_preview O = false -> o_reuse O = false -> p <> (None, None) ->
            exists m, maps = Some m /\ init_detpair (fst p) (snd p) (o_ground O) = Ok (m, q)).

  Lemma same_ghost_refl (g : gh B) : same_ghost g g.
  Proof. split; reflexivity. Qed.
  Lemma same_odet_refl (o : option (det B)) : same_odet o o.
  Proof.
    destruct o as [d|]; cbn; auto. unfold same_det. repeat split; auto.
    induction (d_ghosts d); constructor; auto. apply same_ghost_refl.
  Qed.

  Lemma put_pair_other (l : list (bpair B)) : forall i j p, j <> i ->
    nth_error (put_pair l i p) j = nth_error l j.
  Proof.
    induction l as [|x l IH]; intros i j p H; [reflexivity|].
    destruct i as [|i], j as [|j]; cbn; auto. congruence.
  Qed.

  Lemma reset_fine (st : strat) : rot_fine (ir_rot (sg_rot st)) -> rot_fine (ir_rot (sg_rot (reset st))).
  Proof. unfold rot_fine. cbn. intros H E. destruct (H E). split; lia. Qed.

  Lemma no_stale_fresh (O : opts) (l : list chunk) : no_stale O (map (fun c => (c, false)) l).
  Proof. intros _ cg H. apply in_map_iff in H. destruct H as (c & <- & _). reflexivity. Qed.

  Lemma scan_pair_like E O bidx w s s' cs :
    (o_ground O = true -> o_preview O = false) ->
    no_stale O (chunks_of s) -> used_chunks E s = Ok cs -> pos_chunks cs ->
    rot_fine (ir_rot (sg_rot (s_strat s))) ->
    scan_pair E O bidx w s = Ok s' ->
    exists evs, s_log s' = s_log s ++ evs
      /\ pair_run E O (pair_at s w) cs evs
      /\ (forall j, w <> Some j -> nth_error (s_beams s') j = nth_error (s_beams s) j)
      /\ used_chunks E s' = Ok cs /\ no_stale O (chunks_of s')
      /\ rot_fine (ir_rot (sg_rot (s_strat s'))).
  Proof.
    intros Hg Hst Hcs Hpos Hrot H. unfold scan_pair in H.
    set (s0 := if (bidx =? 0)%nat then s else set_strat s (reset (s_strat s))) in H.
    assert (X0 : s_log s0 = s_log s /\ s_beams s0 = s_beams s /\ s_chunks s0 = s_chunks s
                 /\ s_maps s0 = s_maps s /\ rot_fine (ir_rot (sg_rot (s_strat s0)))).
    { unfold s0. destruct (bidx =? 0)%nat; do 4 (split; [reflexivity|]); auto. apply reset_fine; auto. }
    destruct X0 as (L0 & B0 & C0 & M0 & R0). clearbody s0.
    fold (pair_at s0 w) in H.
    assert (P0 : pair_at s0 w = pair_at s w) by (unfold pair_at; rewrite B0; reflexivity).
    rewrite P0 in H. set (p := pair_at s w) in *.
    inv_bind H x Hx. destruct x as [q s1].
    assert (X1 : s_log s1 = s_log s /\ s_chunks s1 = s_chunks s
              /\ rot_fine (ir_rot (sg_rot (s_strat s1)))
              /\ (forall j, w <> Some j -> nth_error (s_beams s1) j = nth_error (s_beams s) j)
              /\ same_odet (fst p) (fst q) /\ same_odet (snd p) (snd q)
              /\ (o_preview O = true -> q = p)
              /\ (o_preview O = false -> o_reuse O = false -> p <> (None, None) ->
                   exists m, s_maps s1 = Some m /\ init_detpair (fst p) (snd p) (o_ground O) = Ok (m, q))).
    { assert (Same : (p, s0) = (q, s1) ->
                (o_preview O = true \/ o_reuse O = true \/ p = (None, None)) ->
                s_log s1 = s_log s /\ s_chunks s1 = s_chunks s
                /\ rot_fine (ir_rot (sg_rot (s_strat s1)))
                /\ (forall j, w <> Some j -> nth_error (s_beams s1) j = nth_error (s_beams s) j)
                /\ same_odet (fst p) (fst q) /\ same_odet (snd p) (snd q)
                /\ (o_preview O = true -> q = p)
                /\ (o_preview O = false -> o_reuse O = false -> p <> (None, None) ->
                     exists m, s_maps s1 = Some m /\ init_detpair (fst p) (snd p) (o_ground O) = Ok (m, q))).
      { intros Eq Hor. injection Eq as <- <-. split; auto. split; auto. split; auto.
        split; [intros; rewrite B0; reflexivity|]. split; [apply same_odet_refl|].
        split; [apply same_odet_refl|]. split; auto.
        intros A1 A2 A3. destruct Hor as [|[|]]; congruence. }
      assert (Init : forall a b, p = (a, b) -> (do (m, p') <- init_detpair a b (o_ground O);
                  let s := set_maps s0 (Some m) in
                  Ok (p', match w with Some i => set_beams s (put_pair (s_beams s) i p') | None => s end))
               = Ok (q, s1) ->
               s_log s1 = s_log s /\ s_chunks s1 = s_chunks s
              /\ rot_fine (ir_rot (sg_rot (s_strat s1)))
              /\ (forall j, w <> Some j -> nth_error (s_beams s1) j = nth_error (s_beams s) j)
              /\ same_odet (fst p) (fst q) /\ same_odet (snd p) (snd q)
              /\ exists m, s_maps s1 = Some m /\ init_detpair (fst p) (snd p) (o_ground O) = Ok (m, q)).
      { intros a b Ep Hi. inv_bind Hi y Hy. destruct y as [m q'].
        assert (Z := init_same _ _ _ _ _ Hy). rewrite Ep. cbn [fst snd].
        destruct Z as [Za Zb].
        assert (q' = q) by congruence. subst q'.
        destruct w as [i|]; injection Hi as <-; cbn [s_log s_chunks s_strat s_beams s_maps set_maps set_beams];
          do 3 (split; [assumption|]).
        - split; [|split; [auto|split; [auto|exists m; auto]]].
          intros j Hj. rewrite B0. apply put_pair_other. congruence.
        - split; [|split; [auto|split; [auto|exists m; auto]]].
          intros; rewrite B0; reflexivity. }
      assert (Gen : forall a b, p = (a, b) ->
                (if o_preview O then Ok (p, s0)
                 else if match s_maps s0 with Some _ => true | None => false end && o_reuse O
                 then Ok (p, s0)
                 else do (m, p') <- init_detpair a b (o_ground O);
                   let s := set_maps s0 (Some m) in
                   Ok (p', match w with Some i => set_beams s (put_pair (s_beams s) i p') | None => s end))
                = Ok (q, s1) ->
                s_log s1 = s_log s /\ s_chunks s1 = s_chunks s
              /\ rot_fine (ir_rot (sg_rot (s_strat s1)))
              /\ (forall j, w <> Some j -> nth_error (s_beams s1) j = nth_error (s_beams s) j)
              /\ same_odet (fst p) (fst q) /\ same_odet (snd p) (snd q)
              /\ (o_preview O = true -> q = p)
              /\ (o_preview O = false -> o_reuse O = false -> p <> (None, None) ->
                   exists m, s_maps s1 = Some m /\ init_detpair (fst p) (snd p) (o_ground O) = Ok (m, q))).
      { intros a b Ep Hi. destruct (o_preview O) eqn:Epr.
        - apply Same; [congruence|auto].
        - destruct (match s_maps s0 with Some _ => true | None => false end && o_reuse O) eqn:Er.
          + apply andb_prop in Er. destruct Er as [_ Er]. apply Same; [congruence|auto].
          + destruct (Init a b Ep Hi) as (A1 & A2 & A3 & A4 & A5 & A6 & A7).
            do 6 (split; auto). split; [congruence|auto]. }
      destruct p as [[a|] [b|]] eqn:Ep; try (apply (Gen _ _ eq_refl); exact Hx).
      apply Same; auto. congruence. }
    destruct X1 as (L1 & C1 & R1 & B1 & Sa & Sb & Qp & Qi).
    inv_bind H s2 Hs2.
    assert (X2 : s_log s2 = s_log s /\ s_maps s2 = s_maps s1 /\ s_beams s2 = s_beams s1
               /\ s_strat s2 = s_strat s1 /\ s_chunks s2 <> None
               /\ map fst (chunks_of s2) = cs /\ no_stale O (chunks_of s2)).
    { rewrite C1 in Hs2. unfold used_chunks in Hcs. unfold chunks_of in Hst.
      destruct (s_chunks s) as [l|] eqn:El.
      - injection Hs2 as <-. unfold chunks_of. rewrite C1. injection Hcs as <-.
        repeat split; auto. discriminate.
      - rewrite Hcs in Hs2. cbn in Hs2. injection Hs2 as <-. cbn. repeat split; auto.
        + discriminate.
        + unfold chunks_of. cbn. rewrite map_map. cbn. apply map_id.
        + apply no_stale_fresh. }
    destruct X2 as (L2 & M2 & B2 & S2 & N2 & F2 & St2).
    inv_bind H u Hu.
    assert (PC : plain_chunks s2 = map fst (chunks_of s2)).
    { unfold plain_chunks, chunks_of. destruct (s_chunks s2); reflexivity. }
    rewrite PC, F2 in H.
    apply scan_chunks_like in H; auto; [|rewrite F2; auto|rewrite S2; auto].
    destruct H as (evss & L3 & C3 & K3 & N3 & R3).
    exists (concat evss). rewrite L3, L2. split; auto. split.
    { exists q, (s_maps s1). split.
      - exists evss. split; auto. rewrite F2, M2 in C3. apply (kth_all E O q (s_maps s1) cs []). exact C3.
      - auto. }
    split; [intros j Hj; rewrite (k2_beams _ _ K3), B2; auto|].
    split; [|split; auto].
    unfold used_chunks. destruct (s_chunks s') as [l|] eqn:El.
    - f_equal. rewrite <- F2, <- (k2_chunks _ _ K3). unfold chunks_of. rewrite El. reflexivity.
    - exfalso. apply N2. apply (proj1 (k2_set _ _ K3)). auto.
  Qed.

  Lemma somes_in {A} (l : list (option A)) x : In x (somes l) <-> In (Some x) l.
  Proof.
    unfold somes. induction l as [|[y|] l IH]; cbn; [tauto| |].
    - rewrite IH. split; intros [H|H]; auto; left; congruence.
    - rewrite IH. split; [auto|intros [H|H]; [discriminate|auto]].
  Qed.

  Lemma scan_pairs_like E O cs :
    (o_ground O = true -> o_preview O = false) -> pos_chunks cs -> forall ws bidx s s',
    no_stale O (chunks_of s) -> used_chunks E s = Ok cs ->
    rot_fine (ir_rot (sg_rot (s_strat s))) -> NoDup (somes ws) ->
    scan_pairs E O bidx ws s = Ok s' ->
    exists evss, s_log s' = s_log s ++ concat evss
      /\ Forall2 (fun w => pair_run E O (pair_at s w) cs) ws evss.
  Proof.
    intros Hg Hpos. induction ws as [|w ws IH]; intros bidx s s' Hst Hcs Hrot Hnd H; cbn [scan_pairs] in H.
    - injection H as <-. exists []. cbn. rewrite app_nil_r. split; auto. 
    - inv_bind H s1 H1. eapply scan_pair_like in H1; eauto.
      destruct H1 as (evs & L1 & P1 & B1 & C1 & N1 & R1).
      assert (Hnd' : NoDup (somes ws)).
      { destruct w; cbn in Hnd; auto. inversion Hnd; auto. }
      apply (IH _ s1) in H; auto. destruct H as (evss & L2 & P2).
      exists (evs :: evss). cbn [concat]. rewrite L2, L1, <- app_assoc. split; auto.
      constructor; auto.
      assert (Same : forall w', In w' ws -> pair_at s1 w' = pair_at s w').
      { intros [j|] Hj; cbn; auto. rewrite B1; auto. intros ->. cbn in Hnd. inversion Hnd; subst.
        match goal with K : ~ In _ _ |- _ => apply K end. apply somes_in. auto. }
      clear -P2 Same. induction P2; constructor.
      + rewrite <- (Same x (or_introl eq_refl)). auto.
      + apply IHP2. intros; apply Same; now right.
  Qed.

  (** ** Instrument *)
  Definition iterations E O s : list (option nat) :=
    rank_iterations (e_mpi E) (o_scatter O) (e_size E) (e_rank E)
      (seq 0 (length (s_beams s))) (seq 0 (length (s_beams s))).

  Lemma scan_instrument_like E O s s' cs :
    (o_ground O = true -> o_preview O = false) ->
    no_stale O (chunks_of s) -> used_chunks E s = Ok cs -> pos_chunks cs ->
    rot_fine (ir_rot (sg_rot (s_strat s))) ->
    scan_instrument E O s = Ok s' ->
    exists evss, s_log s' = s_log s ++ concat evss
      /\ Forall2 (fun w => pair_run E O (pair_at s w) cs) (iterations E O s) evss.
  Proof.
    intros Hg Hst Hcs Hpos Hrot H. unfold scan_instrument in H.
    destruct (negb (o_alm O) && negb (o_preview O)); [discriminate|].
    destruct (o_preview O && (o_save_tod O || o_save_point O)); [discriminate|].
    set (s0 := if o_memmap O && negb (e_ext E) then _ else s) in H.
    assert (X : s_log s0 = s_log s /\ s_beams s0 = s_beams s /\ s_chunks s0 = s_chunks s
                /\ s_strat s0 = s_strat s).
    { unfold s0. destruct (o_memmap O && negb (e_ext E)); auto. }
    destruct X as (L0 & B0 & C0 & S0). clearbody s0.
    apply (scan_pairs_like E O cs) in H; auto.
    - destruct H as (evss & L1 & F). exists evss. rewrite L1, L0. split; auto.
      unfold iterations. rewrite B0 in F.
      assert (PA : forall w, pair_at s0 w = pair_at s w) by (intros w; unfold pair_at; rewrite B0; reflexivity).
      clear -F PA. induction F; constructor; auto. rewrite <- PA. auto.
    - unfold chunks_of in *. rewrite C0. auto.
    - unfold used_chunks in *. rewrite C0. auto.
    - rewrite S0. auto.
    - apply rank_nodup. apply seq_NoDup.
  Qed.
End L.
