(** * Inside chunks and pairs; what is saved *)
From Coq Require Import Reals Lra.
From Verif Require Import Common LibList M_Chunks M_Steps M_Hwp M_Mpi M_Detpair M_Scan
  S_Chunks S_Detpair S_Scan L_Chunks L_Hwp L_Mpi L_Detpair L_Scan L_Scan2 L_Scan3 L_Scan4 L_Scan5
  L_Scan6 L_Scan7 L_Scan8.
Open Scope R_scope.

Section L.
  Context {B : Type}.
  Implicit Types (s : state B) (E : env B) (d : det B) (p q : bpair B).

  Definition is_live p d : Prop := live (fst p) = Some d \/ live (snd p) = Some d.

  (** ** A chunk *)
  Definition alloc_step O p (c : chunk) s s' : Prop :=
    (forall ci k, (c_cidx c <> Some ci \/ (forall d, is_live p d -> d_id d <> k)) -> s_data s' ci k = s_data s ci k)
    /\ (forall d, is_live p d -> exists ci, c_cidx c = Some ci
          /\ s_data s' ci (d_id d) = (if o_save_tod O then Some (repeat 0 (csize c)) else None)).

  Lemma alloc_one O dd c s s' : on_live dd (fun d => allocate O d c) s = Ok s' ->
    exists dat pt, s' = set_point (set_data s dat) pt
      /\ (forall ci k, (c_cidx c <> Some ci \/ (forall d, live dd = Some d -> d_id d <> k)) -> dat ci k = s_data s ci k)
      /\ (forall d, live dd = Some d -> exists ci, c_cidx c = Some ci
            /\ dat ci (d_id d) = (if o_save_tod O then Some (repeat 0 (csize c)) else None))
      /\ (forall ci k, dat ci k = s_data s ci k
            \/ dat ci k = (if o_save_tod O then Some (repeat 0 (csize c)) else None))
      /\ pt = match live dd, c_cidx c with
              | Some d, Some ci => upd2 (s_point s) ci (d_id d)
                                     (if o_save_point O then repeat (0%Z, 0) (csize c) else [])
              | _, _ => s_point s
              end.
  Proof.
    unfold on_live, allocate. destruct (live dd) as [d|].
    - destruct (c_cidx c) as [ci|]; [|discriminate]. intros H. injection H as <-. eexists _, _. split; [reflexivity|].
      split; [|split; [|split; [|reflexivity]]].
      + intros ci' k Hk. apply upd2_other. intros Eq. injection Eq as -> ->.
        destruct Hk as [Hk|Hk]; [congruence|]. apply (Hk d); auto.
      + intros d' Hd. injection Hd as <-. exists ci. split; auto. apply upd2_same.
      + intros ci' k. unfold upd2. destruct ((ci' =? ci)%nat && (k =? d_id d)%Z); auto.
    - intros H. injection H as <-. exists (s_data s), (s_point s). split; [destruct s; reflexivity|].
      split; auto. split; [discriminate|auto].
  Qed.

  (** Arrays for positions and HWP angles before the sub-chunks are scanned. *)
  Definition point_alloc O bidx p (c : chunk) s s' : Prop :=
    forall k, c_cidx c = Some k ->
      (forall ci i, (ci <> k \/ (forall d, is_live p d -> d_id d <> i)) -> s_point s' ci i = s_point s ci i)
      /\ (forall d, is_live p d -> s_point s' k (d_id d) = if o_save_point O then repeat (0%Z, 0) (csize c) else [])
      /\ (forall ci, ci <> k -> s_hwps s' ci = s_hwps s ci)
      /\ s_hwps s' k = (if (bidx =? 0)%nat && o_save_point O then repeat 0 (csize c) else s_hwps s k).

  Lemma implement_point E pre ground c s s' : implement_scan E pre ground c s = Ok s' ->
    s_point s' = s_point s /\ s_hwps s' = s_hwps s.
  Proof.
    unfold implement_scan. destruct (e_ext E).
    - intros H. injection H as <-. auto.
    - destruct (if pre then s_mmap s else None).
      + intros H. injection H as <-. auto.
      + intros H. inv_bind H x Hx. destruct x as [x s1]. injection H as <-.
        apply lift_op_inv in Hx. destruct Hx as (st & _ & ->). destruct ground; auto.
  Qed.

  Lemma alloc_hwps bidx O c s s' : (if (bidx =? 0)%nat then allocate_hwp O c s else Ok s) = Ok s' ->
    forall k, c_cidx c = Some k -> (forall ci, ci <> k -> s_hwps s' ci = s_hwps s ci)
      /\ s_hwps s' k = (if (bidx =? 0)%nat && o_save_point O then repeat 0 (csize c) else s_hwps s k).
  Proof.
    intros H k Hk. unfold allocate_hwp in H. rewrite Hk in H. destruct (bidx =? 0)%nat; cbn [andb].
    - destruct (o_save_point O); injection H as <-; auto. cbn. rewrite Nat.eqb_refl. split; auto.
      intros ci Hc. destruct (Nat.eqb_spec ci k); [contradiction|auto].
    - injection H as <-. auto.
  Qed.

  Lemma deep_chunk E O bidx p k s s' c g : no_stale O (chunks_of s) ->
    nth_error (chunks_of s) k = Some (c, g) -> scan_chunk E O bidx p k s = Ok s' ->
    exists s1 subs r1 s6,
      implement_scan E (negb (bidx =? 0)%nat) (o_ground O) c s = Ok s1
      /\ subpart_chunk (ir_rot (sg_rot (s_strat s1))) c = Ok (subs, r1)
      /\ (let i := sg_rot (s_strat s1) in
          s_strat s6 = mkstrat (sg_fsamp (s_strat s1))
             (mkirot r1 (ir_start i) (ir_angles i) (ir_angle i) (ir_gen i)) (sg_hwp (s_strat s1)) (sg_el (s_strat s1)))
      /\ s_hwp s6 = s_hwp s1 /\ s_bore s6 = s_bore s1 /\ s_mmap s6 = s_mmap s1 /\ s_maps s6 = s_maps s1
      /\ plain_chunks s6 = plain_chunks s /\ s_log s6 = s_log s1
      /\ alloc_step O p c s1 s6
      /\ point_alloc O bidx p c s s6
      /\ scan_subs E O p (map (fun c => (c, o_ground O)) subs) s6 = Ok s'.
  Proof.
    intros Hst Ek H. unfold scan_chunk in H. fold (chunks_of s) in H. rewrite Ek in H.
    assert (Gg : g || o_ground O = o_ground O).
    { destruct (o_ground O) eqn:Eo; [apply orb_true_r|].
      specialize (Hst Eo _ (nth_error_In _ _ Ek)). cbn in Hst. rewrite Hst. reflexivity. }
    rewrite Gg in H.
    inv_bind H s1 H1. assert (H1' := H1). apply implement_scan_like in H1'. destruct H1' as (bore & _ & K1 & _).
    destruct (implement_point _ _ _ _ _ _ H1) as [I1 I2].
    inv_bind H sh Hh. assert (HH := alloc_hwps _ _ _ _ _ Hh).
    apply allocate_hwp_like in Hh. destruct Hh as (hx & ->).
    inv_bind H s2 H2. apply alloc_one in H2. destruct H2 as (dat & pt & -> & A1 & A2 & A2' & A2p).
    inv_bind H s3 H3. apply alloc_one in H3. destruct H3 as (dat' & pt' & -> & A3 & A4 & A4' & A4p).
    inv_bind H x Hx. destruct x as [x s4]. apply lift_op_inv in Hx. destruct Hx as (st & Hx & ->).
    assert (PA : forall u, s_point u = pt' -> s_hwps u = hx -> point_alloc O bidx p c s u).
    { intros u Hu Hv k0 Hk0. rewrite Hu, Hv. destruct (HH k0 Hk0) as [HH1 HH2].
      cbn [set_hwps s_hwps] in HH1, HH2. rewrite <- I2. split; [|split; [|split; auto]].
      - intros ci i Hi. rewrite A4p, Hk0. cbn [s_point set_point]. rewrite A2p, Hk0. cbn [s_point set_hwps].
        rewrite I1. destruct (live (snd p)) as [b|] eqn:Eb, (live (fst p)) as [a|] eqn:Ea; auto;
          rewrite ?upd2_other; auto; intros Eq; injection Eq as -> ->;
          (destruct Hi as [Hi|Hi]; [congruence|]); first [apply (Hi a); unfold is_live; auto; fail | apply (Hi b); unfold is_live; auto].
      - intros d Hd. rewrite A4p, Hk0. cbn [s_point set_point]. rewrite A2p, Hk0.
        destruct Hd as [Hd|Hd]; rewrite Hd.
        + destruct (live (snd p)) as [b|]; [|apply upd2_same].
          destruct (Z.eq_dec (d_id d) (d_id b)) as [-> |Hne]; [apply upd2_same|].
          rewrite upd2_other by congruence. apply upd2_same.
        + apply upd2_same. }
    cbn [s_strat set_data s_data set_point set_hwps] in *. cbn [run_op] in Hx.
    destruct (subpart_chunk (ir_rot (sg_rot (s_strat s1))) c) as [[subs r1]|] eqn:Es; [|discriminate].
    injection Hx as <- <-.
    exists s1, subs, r1.
    assert (AS : forall u, s_data u = dat' -> alloc_step O p c s1 u).
    { intros u Hu. unfold alloc_step. rewrite Hu. split.
      - intros ci k' Hk. rewrite A3, A1; auto; destruct Hk as [Hk|Hk]; auto; right; intros d Hd; apply Hk;
          unfold is_live; auto.
      - intros d [Hd|Hd]; [|apply A4; auto]. destruct (A2 d Hd) as (ci & Hc & Hdat). exists ci. split; auto.
        destruct (A4' ci (d_id d)) as [-> | ->]; auto. }
    assert (PC : plain_chunks s1 = plain_chunks s).
    { unfold plain_chunks. rewrite (k_chunks _ _ K1). reflexivity. }
    destruct (rot_period (ir_rot (sg_rot (s_strat s1)))).
    - match type of H with scan_subs _ _ _ _ ?u = _ => exists u end.
      split; auto. split; auto. split; [reflexivity|]. do 6 (split; [reflexivity || exact PC|]).
      split; [apply AS; reflexivity|]. split; [apply PA; reflexivity|exact H].
    - match type of H with scan_subs _ _ _ _ ?u = _ => exists u end.
      split; auto. split; auto. split; [destruct (o_ground O); reflexivity|].
      do 4 (split; [destruct (o_ground O); reflexivity|]).
      split; [|split; [destruct (o_ground O); reflexivity|split; [apply AS; destruct (o_ground O); reflexivity|
        split; [apply PA; destruct (o_ground O); reflexivity|exact H]]]].
      rewrite <- PC. destruct (o_ground O); auto. unfold plain_chunks. cbn. destruct (s_chunks s1); cbn; auto.
      apply set_ground_fst.
  Qed.

  (** ** A pair *)
  Lemma deep_pair E O bidx w s s' cs : no_stale O (chunks_of s) -> used_chunks E s = Ok cs ->
    scan_pair E O bidx w s = Ok s' ->
    exists q s2, same_odet (fst (pair_at s w)) (fst q) /\ same_odet (snd (pair_at s w)) (snd q)
      /\ s_strat s2 = (if (bidx =? 0)%nat then s_strat s else reset (s_strat s))
      /\ s_log s2 = s_log s /\ s_data s2 = s_data s /\ s_hwp s2 = s_hwp s /\ s_mmap s2 = s_mmap s
      /\ map fst (chunks_of s2) = cs /\ s_chunks s2 <> None /\ no_stale O (chunks_of s2)
      /\ (forall j, w <> Some j -> nth_error (s_beams s2) j = nth_error (s_beams s) j)
      /\ (forall k c, nth_error cs k = Some c -> c_cidx c <> None)
      /\ (s_point s2 = s_point s /\ s_hwps s2 = s_hwps s)
      /\ scan_chunks E O bidx q (seq 0 (length cs)) s2 = Ok s'.
  Proof.
    intros Hst Hcs H. unfold scan_pair in H.
    set (s0 := if (bidx =? 0)%nat then s else set_strat s (reset (s_strat s))) in H.
    assert (X0 : s_log s0 = s_log s /\ s_beams s0 = s_beams s /\ s_chunks s0 = s_chunks s
                 /\ s_data s0 = s_data s /\ (s_point s0 = s_point s /\ s_hwps s0 = s_hwps s) /\ s_hwp s0 = s_hwp s /\ s_mmap s0 = s_mmap s
                 /\ s_strat s0 = (if (bidx =? 0)%nat then s_strat s else reset (s_strat s))).
    { unfold s0. destruct (bidx =? 0)%nat; repeat split; auto. }
    destruct X0 as (L0 & B0 & C0 & D0 & [Pt0 Hw0] & H0 & M0 & S0). clearbody s0.
    fold (pair_at s0 w) in H.
    assert (P0 : pair_at s0 w = pair_at s w) by (unfold pair_at; rewrite B0; reflexivity).
    rewrite P0 in H. set (p := pair_at s w) in *.
    inv_bind H x Hx. destruct x as [q s1].
    assert (X1 : s_log s1 = s_log s0 /\ s_chunks s1 = s_chunks s0 /\ (s_point s1 = s_point s0 /\ s_hwps s1 = s_hwps s0) /\ s_data s1 = s_data s0
              /\ s_hwp s1 = s_hwp s0 /\ s_mmap s1 = s_mmap s0 /\ s_strat s1 = s_strat s0
              /\ (forall j, w <> Some j -> nth_error (s_beams s1) j = nth_error (s_beams s) j)
              /\ same_odet (fst p) (fst q) /\ same_odet (snd p) (snd q)).
    { assert (Same : (p, s0) = (q, s1) -> s_log s1 = s_log s0 /\ s_chunks s1 = s_chunks s0 /\ (s_point s1 = s_point s0 /\ s_hwps s1 = s_hwps s0) /\ s_data s1 = s_data s0
              /\ s_hwp s1 = s_hwp s0 /\ s_mmap s1 = s_mmap s0 /\ s_strat s1 = s_strat s0
              /\ (forall j, w <> Some j -> nth_error (s_beams s1) j = nth_error (s_beams s) j)
              /\ same_odet (fst p) (fst q) /\ same_odet (snd p) (snd q)).
      { intros Eq. injection Eq as <- <-. do 2 (split; [reflexivity|]). split; [auto|]. do 4 (split; [reflexivity|]). split; [intros; rewrite B0; reflexivity|].
        split; apply same_odet_refl. }
      assert (Gen : forall a b, p = (a, b) ->
                (if o_preview O then Ok (p, s0)
                 else if match s_maps s0 with Some _ => true | None => false end && o_reuse O
                 then Ok (p, s0)
                 else do (m, p') <- init_detpair a b (o_ground O);
                   let s := set_maps s0 (Some m) in
                   Ok (p', match w with Some i => set_beams s (put_pair (s_beams s) i p') | None => s end))
                = Ok (q, s1) ->
                s_log s1 = s_log s0 /\ s_chunks s1 = s_chunks s0 /\ (s_point s1 = s_point s0 /\ s_hwps s1 = s_hwps s0) /\ s_data s1 = s_data s0
              /\ s_hwp s1 = s_hwp s0 /\ s_mmap s1 = s_mmap s0 /\ s_strat s1 = s_strat s0
              /\ (forall j, w <> Some j -> nth_error (s_beams s1) j = nth_error (s_beams s) j)
              /\ same_odet (fst p) (fst q) /\ same_odet (snd p) (snd q)).
      { intros a b Ep Hi. destruct (o_preview O); [apply Same; congruence|].
        destruct (match s_maps s0 with Some _ => true | None => false end && o_reuse O); [apply Same; congruence|].
        inv_bind Hi y Hy. destruct y as [m q'].
        assert (Z := init_same _ _ _ _ _ Hy). rewrite Ep. cbn [fst snd].
        destruct Z as [Za Zb].
        assert (q' = q) by congruence. subst q'.
        destruct w as [i|]; injection Hi as <-; do 2 (split; [reflexivity|]); (split; [auto|]); do 4 (split; [reflexivity|]); (split; [|auto]).
        - intros j Hj. cbn. rewrite B0. apply put_pair_other. congruence.
        - intros; cbn; rewrite B0; reflexivity. }
      destruct p as [[a|] [b|]] eqn:Ep; try (apply (Gen _ _ eq_refl); exact Hx).
      apply Same. congruence. }
    destruct X1 as (L1 & C1 & [Pt1 Hw1] & D1 & H1 & M1 & S1 & B1 & Sa & Sb).
    inv_bind H s2 Hs2.
    assert (X2 : s_log s2 = s_log s1 /\ (s_point s2 = s_point s1 /\ s_hwps s2 = s_hwps s1) /\ s_data s2 = s_data s1 /\ s_hwp s2 = s_hwp s1 /\ s_mmap s2 = s_mmap s1
               /\ s_strat s2 = s_strat s1 /\ s_beams s2 = s_beams s1 /\ s_chunks s2 <> None
               /\ map fst (chunks_of s2) = cs /\ no_stale O (chunks_of s2)).
    { rewrite C1, C0 in Hs2. unfold used_chunks in Hcs. unfold chunks_of in Hst.
      destruct (s_chunks s) as [l|] eqn:El.
      - injection Hs2 as <-. unfold chunks_of. rewrite C1, C0. injection Hcs as <-.
        repeat split; auto. discriminate.
      - rewrite Hcs in Hs2. cbn in Hs2. injection Hs2 as <-. cbn. repeat split; auto.
        + discriminate.
        + unfold chunks_of. cbn. rewrite map_map. cbn. apply map_id.
        + apply no_stale_fresh. }
    destruct X2 as (L2 & [Pt2 Hw2] & D2 & H2 & M2 & S2 & B2 & N2 & F2 & St2).
    inv_bind H u Hu.
    assert (PC : plain_chunks s2 = cs).
    { rewrite <- F2. unfold plain_chunks, chunks_of. destruct (s_chunks s2); reflexivity. }
    rewrite PC in H, Hu. exists q, s2. split; auto. split; auto. split; [congruence|].
    do 4 (split; [congruence|]). split; auto. split; auto. split; auto.
    split; [intros j Hj; rewrite B2; auto|]. split; [|split; [split; congruence|exact H]].
    intros k c Hk. destruct (forallb _ cs) eqn:Ef in Hu; [|discriminate].
    rewrite forallb_forall in Ef. specialize (Ef c (nth_error_In _ _ Hk)). destruct (c_cidx c); congruence.
  Qed.

  (** ** Data *)
  Lemma slice_firstn {A} (l : list A) i j : slice (firstn j l) i j = slice l i j.
  Proof.
    unfold slice. rewrite skipn_firstn_comm, firstn_firstn, Nat.min_id. reflexivity.
  Qed.
  Lemma slice_spliced {A} (l : list A) i (t : list A) : (i + length t <= length l)%nat ->
    slice (splice l i t) i (i + length t) = t.
  Proof.
    intros H. unfold slice, splice. replace (i + length t - i)%nat with (length t) by lia.
    assert (L : length (firstn i l) = i) by (rewrite firstn_length; lia).
    rewrite skipn_app, L, Nat.sub_diag. rewrite (skipn_all2 (firstn i l)) by lia. cbn.
    rewrite firstn_app, Nat.sub_diag, firstn_all, firstn_O, app_nil_r. reflexivity.
  Qed.
  Lemma splice_length {A} (l : list A) i (t : list A) : (i + length t <= length l)%nat ->
    length (splice l i t) = length l.
  Proof. intros H. unfold splice. rewrite !app_length, firstn_length, skipn_length. lia. Qed.
  Lemma splice_firstn {A} (l : list A) i (t : list A) : (i + length t <= length l)%nat ->
    firstn i (splice l i t) = firstn i l.
  Proof.
    intros H. unfold splice. assert (L : length (firstn i l) = i) by (rewrite firstn_length; lia).
    rewrite firstn_app, L, Nat.sub_diag, firstn_O, app_nil_r, firstn_firstn, Nat.min_id. reflexivity.
  Qed.
  Lemma firstn_less {A} (l l' : list A) i j : (i <= j)%nat -> firstn j l = firstn j l' -> firstn i l = firstn i l'.
  Proof. intros H E. rewrite <- (Nat.min_l i j H), <- !firstn_firstn, E. reflexivity. Qed.

  Definition apart p : Prop := forall a b, live (fst p) = Some a -> live (snd p) = Some b -> d_id a <> d_id b.

  Lemma final_mixed E O p n vw la lb : final E O p n vw la lb
    = if ctalk_on O (fst p) (snd p) then mix (o_ctalk O) n (lsig E vw la) (lsig E vw lb) else arr n (lsig E vw la).
  Proof. reflexivity. Qed.

  Lemma sub_bins E O p n vw m la lb i v t : no_filters O -> apart p ->
    In (EBin i v t) (sub_events E O p n vw m la lb) ->
    v = vw false
    /\ exists d, is_live p d /\ i = d_id d
       /\ t = (match live (fst p) with
               | Some a => if (d_id a =? i)%Z then final E O p n vw la lb else final E O p n vw lb la
               | None => final E O p n vw lb la
               end).
  Proof.
    intros Hf Hap H. unfold sub_events in H. cbv zeta in H. rewrite !final_mixed. unfold is_live.
    destruct (live (fst p)) as [a|] eqn:Ea, (live (snd p)) as [b|] eqn:Eb.
    - assert (Hab : d_id a <> d_id b) by (apply Hap; auto).
      destruct (ctalk_on O (fst p) (snd p)) eqn:Ec;
      repeat (apply in_app_or in H; destruct H as [H|H]);
        try (destruct (in_calls_bin _ _ _ _ _ _ _ H)); apply in_bin_event in H;
        destruct H as (<- & Hv & Ht); (split; [auto|]); rewrite fval_none in Ht by auto.
      all: first [solve [exists a; rewrite Z.eqb_refl; auto]
        | solve [exists b; destruct (Z.eqb_spec (d_id a) (d_id b)); [contradiction|]; auto]].
    - unfold ctalk_on. rewrite Ea, Eb. apply in_app_or in H. destruct H as [H|H]; [destruct (in_calls_bin _ _ _ _ _ _ _ H)|].
      apply in_bin_event in H. destruct H as (<- & Hv & Ht). split; auto. exists a. rewrite Z.eqb_refl.
      rewrite fval_none in Ht by auto. auto.
    - unfold ctalk_on. rewrite Ea. apply in_app_or in H. destruct H as [H|H]; [destruct (in_calls_bin _ _ _ _ _ _ _ H)|].
      apply in_bin_event in H. destruct H as (<- & Hv & Ht). split; auto. exists b.
      rewrite fval_none in Ht by auto. auto.
    - destruct H.
  Qed.

  (** What holds of the data of one chunk after a stretch of its sub-chunks. *)
  Definition good (c : chunk) (k : nat) s e : Prop :=
    match e with
    | EBin i v t => exists ar, s_data s k i = Some ar /\ length ar = csize c
        /\ (c_start c <= v_start v)%Z /\ (v_start v + Z.of_nat (length t) <= c_end c)%Z
        /\ slice ar (Z.to_nat (v_start v - c_start c)) (Z.to_nat (v_start v - c_start c) + length t) = t
    | _ => True
    end.

  Lemma subs_data E O p c k : (o_ground O = true -> o_preview O = false) -> no_filters O ->
    o_save_tod O = true -> apart p -> forall subs a s s',
    tiles a (c_end c) (map span subs) -> (c_start c <= a)%Z ->
    (forall x, In x subs -> c_cidx x = Some k) -> nth_error (plain_chunks s) k = Some c ->
    (forall d, is_live p d -> exists ar, s_data s k (d_id d) = Some ar /\ length ar = csize c) ->
    scan_subs E O p (map (fun c => (c, o_ground O)) subs) s = Ok s' ->
    exists evs, s_log s' = s_log s ++ evs
      /\ (forall ci i, (ci <> k \/ (forall d, is_live p d -> d_id d <> i)) -> s_data s' ci i = s_data s ci i)
      /\ (forall d, is_live p d -> exists ar ar', s_data s k (d_id d) = Some ar /\ s_data s' k (d_id d) = Some ar'
            /\ length ar' = length ar
            /\ firstn (Z.to_nat (a - c_start c)) ar' = firstn (Z.to_nat (a - c_start c)) ar)
      /\ (forall i v t, In (EBin i v t) evs -> exists d, is_live p d /\ d_id d = i)
      /\ forall e, In e evs -> good c k s' e.
  Proof.
    intros Hg Hf Hsv Hap. induction subs as [|x subs IH]; intros a s s' T Hle Hci Hpc Hlen H; cbn [map scan_subs] in H.
    { injection H as <-. exists []. rewrite app_nil_r. split; auto. split; auto. split.
      { intros d Hd. destruct (Hlen d Hd) as (ar & Har & _). exists ar, ar. auto. }
      split; [intros ? ? ? []|intros ? []]. }
    inv_bind H s1 H1. cbn [map] in T. destruct x as [xa xb xc xn]. cbn in T. destruct T as (-> & Hlt & T).
    set (x := mkchunk a xb xc xn) in *.
    assert (Tle : (xb <= c_end c)%Z) by (eapply tiles_le; exact T).
    assert (Sp := scan_sub_spec _ _ _ _ _ _ _ Hg H1).
    destruct Sp as (st & h & la & lb & Hm & Ha & Hb & F & El & D1 & _ & D3).
    destruct (D3 Hsv) as [Da Db].
    set (vw := the_views x (moved s st h)) in *.
    assert (PC1 : plain_chunks s1 = plain_chunks s).
    { unfold plain_chunks. rewrite (f_chunks _ _ F). reflexivity. }
    assert (Xc : xc = Some k) by (apply (Hci x); now left).
    assert (C2 : chunk2idx (plain_chunks s) x = Ok (a - c_start c, xb - c_start c)%Z).
    { unfold chunk2idx. cbn. rewrite Xc, Hpc. reflexivity. }
    assert (Fl : forall u w, length (final E O p (csize x) vw u w) = csize x).
    { intros u w. unfold final, mix. cbv zeta. destruct (ctalk_on O (fst p) (snd p)); apply L_Tod.arr_len. }
    (* one splice per live detector *)
    assert (Sv : forall d, is_live p d -> exists ar t, s_data s k (d_id d) = Some ar
        /\ s_data s1 k (d_id d) = Some (splice ar (Z.to_nat (a - c_start c)) t)
        /\ (Z.to_nat (a - c_start c) + length t <= length ar)%nat /\ length ar = csize c /\ length t = csize x
        /\ t = (match live (fst p) with
               | Some a => if (d_id a =? d_id d)%Z then final E O p (csize x) vw la lb else final E O p (csize x) vw lb la
               | None => final E O p (csize x) vw lb la
               end)).
    { intros d Hd. destruct (Hlen d Hd) as (ar & Har & Hal).
      assert (Fit : (Z.to_nat (a - c_start c) + csize x <= length ar)%nat).
      { rewrite Hal. unfold csize. cbn. lia. }
      assert (Use : forall t, length t = csize x -> saved s s1 x (d_id d) t ->
                s_data s1 k (d_id d) = Some (splice ar (Z.to_nat (a - c_start c)) t)).
      { intros t Ht (i & j & ci & ar' & Hij & Hi0 & Hx & Har' & Hs). rewrite C2 in Hij. injection Hij as <- <-.
        cbn in Hx. assert (ci = k) by congruence. subst ci. rewrite Har in Har'. injection Har' as <-.
        apply Hs. rewrite Ht. exact Fit. }
      exists ar. destruct Hd as [Hd|Hd].
      - exists (final E O p (csize x) vw la lb). rewrite Hd, Z.eqb_refl, Fl. split; [exact Har|]. split; [|auto].
        apply Use; [apply Fl|]. apply Da; auto.
      - destruct (live (fst p)) as [d1|] eqn:Ed1.
        + destruct (Z.eqb_spec (d_id d1) (d_id d)) as [Ee|Ee]; [destruct (Hap d1 d); auto|].
          exists (final E O p (csize x) vw lb la). rewrite Fl. split; [exact Har|]. split; [|auto]. apply Use; [apply Fl|].
          apply Db; auto. intros a0 E0. congruence.
        + exists (final E O p (csize x) vw lb la). rewrite Fl. split; [exact Har|]. split; [|auto]. apply Use; [apply Fl|].
          apply Db; auto. discriminate. }
    destruct (IH xb s1 s') as (evs & L2 & P1 & P2 & P3 & P4); auto.
    { lia. }
    { intros y Hy. apply Hci. now right. }
    { rewrite PC1. exact Hpc. }
    { intros d Hd. destruct (Sv d Hd) as (ar & t & _ & E1 & Fit & Al & _). eexists. split; [exact E1|].
      rewrite splice_length; auto. }
    eexists. split; [rewrite L2, El, <- app_assoc; reflexivity|].
    split.
    { intros ci i Hi. rewrite P1; auto. apply D1. destruct Hi as [Hi|Hi]; auto. left. cbn. congruence. }
    split.
    { intros d Hd. destruct (Sv d Hd) as (ar & t & E0 & E1 & Fit & Al & Tl & _).
      destruct (P2 d Hd) as (ar1 & ar2 & E1' & E2 & L12 & Pf). rewrite E1 in E1'. injection E1' as <-.
      exists ar, ar2. split; auto. split; auto. split; [rewrite L12; apply splice_length; auto|].
      rewrite <- (splice_firstn ar _ t Fit). eapply firstn_less; [|exact Pf]. lia. }
    split.
    { intros i v t Hin. apply in_app_or in Hin. destruct Hin as [Hin|Hin]; [|eapply P3; eauto].
      apply sub_bins in Hin; auto. destruct Hin as (_ & d & Hd & -> & _). eauto. }
    intros e He. apply in_app_or in He. destruct He as [He|He]; [|auto].
    destruct e as [|w v t|i v t]; try exact I.
    apply sub_bins in He; auto. destruct He as (-> & d & Hd & -> & Ht).
    destruct (Sv d Hd) as (ar & t0 & E0 & E1 & Fit & Al & Tl & Ht0).
    assert (Et : t0 = t) by congruence. clear Ht Ht0. subst t0.
    destruct (P2 d Hd) as (ar1 & ar2 & E1' & E2 & L12 & Pf). rewrite E1 in E1'. injection E1' as <-.
    exists ar2. split; auto. rewrite L12, splice_length by auto. split; auto.
    cbn [vw the_views view_of v_start]. unfold vw, the_views, view_of. cbn [v_start].
    assert (Sx : csize x = Z.to_nat (xb - a)) by reflexivity.
    cbn [x c_start]. split; [lia|]. split; [rewrite Tl, Sx; lia|].
    rewrite <- slice_firstn.
    assert (Le : (Z.to_nat (a - c_start c) + length t <= Z.to_nat (xb - c_start c))%nat) by (rewrite Tl, Sx; lia).
    rewrite (firstn_less _ _ _ _ Le Pf), slice_firstn. apply slice_spliced. exact Fit.
  Qed.
End L.
