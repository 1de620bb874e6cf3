(** * Proof that what is scanned is what the telescope points at *)
From Coq Require Import Reals Lra.
From Verif Require Import Common LibList M_Chunks M_Steps M_Hwp M_Mpi M_Detpair M_Scan
  S_Chunks S_Detpair S_Scan S_Ground L_Chunks L_Hwp L_Mpi L_Detpair L_Scan L_Scan2 L_Scan3 L_Scan4 L_Scan5 L_Scan6 L_Scan7.
From Verif Require L_Scan13.
Open Scope R_scope.

(** The pointing after some events. *)
Fixpoint after (now : pointing) (log : list event) : pointing :=
  match log with
  | [] => now
  | EPoint c bore :: r => after (Some (c, bore)) r
  | _ :: r => after now r
  end.

Lemma looks_app gr l1 : forall now l2,
  looks_where_pointed gr now l1 -> looks_where_pointed gr (after now l1) l2 ->
  looks_where_pointed gr now (l1 ++ l2).
Proof.
  induction l1 as [|e l1 IH]; intros now l2 H1 H2; cbn; auto.
  destruct e; cbn in *; auto. destruct H1. auto.
Qed.

(** Events of a stretch: no pointing, all scans as required. *)
Definition still (gr : bool) (now : pointing) (e : event) : Prop :=
  match e with EPoint _ _ => False | EScan _ v t => v_ground v = gr -> seen_at now v (length t) | EBin _ _ _ => True end.

Lemma still_looks gr now l : Forall (still gr now) l -> looks_where_pointed gr now l /\ after now l = now.
Proof.
  induction 1 as [|e l He H IH]; cbn; auto. destruct e; cbn in *; tauto.
Qed.

Section L.
  Context {B : Type}.
  Implicit Types (s : state B) (E : env B) (d : det B).
  Variable gr : bool.

  (** Calls for the ground are made only when there is one. *)
  Lemma ghost_calls_sky maps i : forall gs k (l : list (@call B)) w b g,
    ghost_calls maps i false k gs = Ok l -> In (w, b, g) l -> g = false.
  Proof.
    induction gs as [|h gs IH]; intros k l w b g H Hin; cbn [ghost_calls] in H.
    - injection H as <-. contradiction.
    - destruct (gh_dead h); [eapply IH; eauto|]. inv_bind H x Hx. inv_bind H y Hy. injection H as <-.
      destruct Hin as [Eq|Hin]; [congruence|eapply IH; eauto].
  Qed.

  Lemma calls_for_sky O maps (dd : option (det B)) (l : list (@call B)) w b g :
    calls_for O maps dd false l -> In (w, b, g) l -> g = false.
  Proof.
    unfold calls_for, calls_of. destruct (live dd) as [d|]; [|intros ->; contradiction].
    intros [H _] Hin. destruct (o_preview O); [injection H as <-; contradiction|].
    unfold det_calls in H. inv_bind H gs Hgs. cbn [bind] in H. inv_bind H m Hm. injection H as <-.
    apply in_app_or in Hin. destruct Hin as [Hin|[Eq|[]]]; [eapply ghost_calls_sky; eauto|congruence].
  Qed.

  Lemma sub_events_still E O p n vw m (la lb : list (@call B)) now :
    (forall g, v_ground (vw g) = g) ->
    (forall w b, In (w, b, gr) la \/ In (w, b, gr) lb -> seen_at now (vw gr) n) ->
    Forall (still gr now) (sub_events E O p n vw m la lb).
  Proof.
    intros Hv H.
    assert (X : forall l, (forall x, In x l -> In x la \/ In x lb) ->
              Forall (still gr now) (map (call_event E n vw) l)).
    { intros l Hl. apply Forall_forall. intros e He. apply in_map_iff in He.
      destruct He as ([[w b] g] & <- & Hin). cbn. unfold arr. rewrite map_length, seq_length.
      rewrite Hv. intros ->. apply (H w b). auto. }
    assert (Y : forall d t, Forall (still gr now) (bin_event O m d (vw false) t)).
    { intros d t. unfold bin_event. destruct (o_binning O); repeat constructor. }
    assert (Xa := X la (fun x h => or_introl h)). assert (Xb := X lb (fun x h => or_intror h)).
    unfold sub_events. destruct (live (fst p)), (live (snd p)); try (destruct (ctalk_on O (fst p) (snd p)));
      repeat (apply Forall_app; split); auto.
  Qed.

  Definition gready O s (bore : list R) : Prop :=
    s_bore s = bore /\ (gr = true -> o_ground O = true -> s_gbore s = Some bore).

  Lemma sub_looks E O p c s s' c0 k bore : (o_ground O = true -> o_preview O = false) ->
    gready O s bore -> nth_error (plain_chunks s) k = Some c0 -> c_cidx c = Some k ->
    (c_start c0 <= c_start c)%Z ->
    scan_sub E O p (o_ground O) c s = Ok s' ->
    exists evs, s_log s' = s_log s ++ evs /\ Forall (still gr (Some (c0, bore))) evs
      /\ gready O s' bore /\ plain_chunks s' = plain_chunks s /\ s_mmap s' = s_mmap s.
  Proof.
    intros Hg [G1 G2] Hk Hc Hle H. apply scan_sub_spec in H; auto.
    destruct H as (st & h & la & lb & Hm & Ha & Hb & F & El & _).
    eexists. split; [exact El|]. split.
    { apply sub_events_still; [reflexivity|]. intros w b Hin.
      assert (Hbore : bore_of gr (moved s st h) = Some bore).
      { destruct gr; cbn; [|congruence]. apply G2; auto. destruct (o_ground O); auto.
        destruct Hin as [Hin|Hin]; [apply (calls_for_sky _ _ _ _ _ _ _ Ha) in Hin|apply (calls_for_sky _ _ _ _ _ _ _ Hb) in Hin];
          discriminate. }
      unfold the_views. rewrite Hbore.
      assert (Hsl : chunk_slice (moved s st h) c bore
                = Ok (slice bore (Z.to_nat (c_start c - c_start c0)) (Z.to_nat (c_end c - c_start c0)))).
      { unfold chunk_slice, chunk2idx. rewrite Hc. change (plain_chunks (moved s st h)) with (plain_chunks s).
        rewrite Hk. cbn [bind]. destruct (Z.ltb_spec (c_start c - c_start c0) 0); [lia|reflexivity]. }
      rewrite Hsl. exists c0, bore. split; auto. cbn [v_start v_bore view_of]. split; auto.
      unfold slice. f_equal. unfold csize. lia. }
    destruct F. cbn in *. unfold gready, plain_chunks. rewrite f_bore, f_gbore, f_mmap, f_chunks.
    cbn. auto.
  Qed.

  Lemma subs_look E O p c0 k bore : (o_ground O = true -> o_preview O = false) -> forall subs s s',
    gready O s bore -> nth_error (plain_chunks s) k = Some c0 ->
    (forall x, In x subs -> c_cidx x = Some k /\ (c_start c0 <= c_start x)%Z) ->
    scan_subs E O p (map (fun c => (c, o_ground O)) subs) s = Ok s' ->
    exists evs, s_log s' = s_log s ++ evs /\ Forall (still gr (Some (c0, bore))) evs /\ s_mmap s' = s_mmap s.
  Proof.
    intros Hg. induction subs as [|c subs IH]; intros s s' G Hk Hx H; cbn [map scan_subs] in H.
    - injection H as <-. exists []. rewrite app_nil_r. auto.
    - inv_bind H s1 H1. destruct (Hx c (or_introl eq_refl)) as [Hc Hl].
      eapply sub_looks in H1; eauto. destruct H1 as (e1 & L1 & S1 & G1 & P1 & M1).
      apply IH in H; auto; [|rewrite P1; auto|intros; apply Hx; now right].
      destruct H as (e2 & L2 & S2 & M2). exists (e1 ++ e2). rewrite L2, L1, app_assoc.
      split; auto. split; [apply Forall_app; auto|congruence].
  Qed.

  (** No ready-made pointing is used when there is a ground template. *)
  Definition computed_anew E O s : Prop := gr = true -> o_ground O = true -> e_ext E = false /\ s_mmap s = None.

  Lemma implement_ready E O pre c s s' : computed_anew E O s ->
    implement_scan E pre (o_ground O) c s = Ok s' ->
    exists bore, s_log s' = s_log s ++ [EPoint c bore] /\ gready O s' bore
      /\ plain_chunks s' = plain_chunks s /\ computed_anew E O s'
      /\ ir_rot (sg_rot (s_strat s')) = ir_rot (sg_rot (s_strat s)).
  Proof.
    intros HA H. assert (K := H). apply implement_scan_like in K. destruct K as (_ & _ & K & R).
    assert (PC : plain_chunks s' = plain_chunks s) by (unfold plain_chunks; rewrite (k_chunks _ _ K); reflexivity).
    unfold implement_scan, computed_anew, gready in *. destruct (e_ext E) eqn:Ee.
    - injection H as <-. eexists. split; [reflexivity|]. cbn. split; [|split; [auto|split; [exact HA|auto]]].
      split; auto. intros Hr Ho. destruct (HA Hr Ho). discriminate.
    - destruct (if pre then s_mmap s else None) as [m|] eqn:Em.
      + injection H as <-. eexists. split; [reflexivity|]. cbn. split; [|split; [auto|split; [exact HA|auto]]].
        split; auto. intros Hr Ho. destruct (HA Hr Ho) as [_ HN]. rewrite HN in Em. destruct pre; discriminate.
      + inv_bind H x Hx. destruct x as [x s1]. injection H as <-.
        apply lift_op_inv in Hx. destruct Hx as (st & _ & ->).
        eexists. split; [destruct (o_ground O); reflexivity|]. split; [|split; [auto|split; [|auto]]].
        * split; [destruct (o_ground O); reflexivity|]. intros _ Ho. rewrite Ho. reflexivity.
        * intros Hr Ho. destruct (HA Hr Ho) as [_ HN]. split; auto. rewrite Ho. cbn. rewrite HN. reflexivity.
  Qed.

  Lemma chunk_looks E O bidx p k s s' c : (o_ground O = true -> o_preview O = false) ->
    no_stale O (chunks_of s) -> pos_chunks (map fst (chunks_of s)) ->
    L_Scan13.numbered (map fst (chunks_of s)) -> rot_fine (ir_rot (sg_rot (s_strat s))) ->
    computed_anew E O s -> nth_error (map fst (chunks_of s)) k = Some c ->
    scan_chunk E O bidx p k s = Ok s' ->
    exists evs, s_log s' = s_log s ++ evs /\ (forall now, looks_where_pointed gr now evs) /\ computed_anew E O s'.
  Proof.
    intros Hg Hst Hpos Hnum Hrot HA Hk H.
    assert (Hci := Hnum _ _ Hk).
    assert (Hps : (c_start c < c_end c)%Z) by (apply Hpos; eapply nth_error_In; eauto).
    unfold scan_chunk in H. fold (chunks_of s) in H.
    assert (Hk' := Hk). rewrite nth_error_map in Hk'.
    destruct (nth_error (chunks_of s) k) as [[c' g]|] eqn:Ek; [|discriminate]. cbn in Hk'. injection Hk' as ->.
    assert (Gg : g || o_ground O = o_ground O).
    { destruct (o_ground O) eqn:Eo; [apply orb_true_r|]. specialize (Hst Eo _ (nth_error_In _ _ Ek)). cbn in Hst.
      rewrite Hst. reflexivity. }
    rewrite Gg in H. inv_bind H s1 H1. apply implement_ready in H1; auto.
    destruct H1 as (bore & L1 & G1 & P1 & A1 & R1).
    inv_bind H sh Hh. apply allocate_hwp_like in Hh. destruct Hh as (hx & ->).
    inv_bind H s2 H2. apply allocate_like in H2. destruct H2 as (dat & pt & ->).
    inv_bind H s3 H3. apply allocate_like in H3. destruct H3 as (dat' & pt' & ->).
    inv_bind H x Hx. destruct x as [x s4]. apply lift_op_inv in Hx. destruct Hx as (st & Hx & ->).
    cbn [s_strat set_data set_point set_hwps] in Hx, H.
    cbn [run_op] in Hx. rewrite <- R1 in Hrot.
    destruct (subpart_chunk (ir_rot (sg_rot (s_strat s1))) c) as [[subs r1]|] eqn:Es; [|discriminate].
    injection Hx as <- <-.
    destruct (subpart_tiles _ _ _ _ Hrot Hps Es) as (T & _ & Hsi & _).
    set (s5 := set_strat _ _) in H.
    assert (Hsubs : forall x, In x subs -> c_cidx x = Some k /\ (c_start c <= c_start x)%Z).
    { intros x Hx. split; [rewrite Hsi; auto|]. clear -T Hx.
      assert (Q : forall l lo hi, tiles lo hi (map span l) -> In x l -> (lo <= c_start x)%Z).
      { induction l as [|y l IH]; intros lo hi T' Hl; [contradiction|]. cbn in T'. destruct T' as (E1 & E2 & T').
        destruct Hl as [->|Hl]; [lia|]. specialize (IH _ _ T' Hl). lia. }
      eapply Q; eauto. }
    assert (Done : forall s6 s', s_log s6 = s_log s1 -> plain_chunks s6 = plain_chunks s1 ->
               s_bore s6 = s_bore s1 -> s_gbore s6 = s_gbore s1 -> s_mmap s6 = s_mmap s1 ->
               scan_subs E O p (map (fun c => (c, o_ground O)) subs) s6 = Ok s' ->
               exists evs, s_log s' = s_log s ++ evs /\ (forall now, looks_where_pointed gr now evs)
                 /\ computed_anew E O s').
    { intros s6 s6' L6 P6 B6 Gb6 M6 H6.
      apply (subs_look E O p c k bore Hg) in H6; auto.
      - destruct H6 as (evs & L7 & S7 & M7). exists (EPoint c bore :: evs).
        split; [rewrite L7, L6, L1, <- app_assoc; reflexivity|]. split.
        + intros now. cbn. apply still_looks. auto.
        + unfold computed_anew. rewrite M7, M6. exact A1.
      - unfold gready. rewrite B6, Gb6. exact G1.
      - rewrite P6, P1, L_Scan13.plain_of. exact Hk. }
    destruct (rot_period (ir_rot (sg_rot (s_strat s1)))).
    - apply (Done s5) in H; auto.
    - destruct (o_ground O) eqn:Eo.
      + refine (Done _ _ _ _ _ _ _ H); try reflexivity.
        unfold plain_chunks. cbn. destruct (s_chunks s1); cbn; [apply set_ground_fst|reflexivity].
      + apply (Done s5) in H; auto.
  Qed.

  Lemma chunks_look E O bidx p : (o_ground O = true -> o_preview O = false) -> forall ks s s',
    no_stale O (chunks_of s) -> pos_chunks (map fst (chunks_of s)) ->
    L_Scan13.numbered (map fst (chunks_of s)) -> rot_fine (ir_rot (sg_rot (s_strat s))) ->
    computed_anew E O s -> scan_chunks E O bidx p ks s = Ok s' ->
    exists evs, s_log s' = s_log s ++ evs /\ (forall now, looks_where_pointed gr now evs) /\ computed_anew E O s'.
  Proof.
    intros Hg. induction ks as [|k ks IH]; intros s s' Hst Hpos Hnum Hrot HA H; cbn [scan_chunks] in H.
    { injection H as <-. exists []. rewrite app_nil_r. cbn. auto. }
    inv_bind H s1 H1.
    assert (X : exists evs, s_log s1 = s_log s ++ evs /\ (forall now, looks_where_pointed gr now evs) /\ computed_anew E O s1).
    { destruct (nth_error (map fst (chunks_of s)) k) as [c|] eqn:Ek.
      - eapply chunk_looks; eauto.
      - rewrite nth_error_map in Ek. unfold scan_chunk in H1. fold (chunks_of s) in H1.
        destruct (nth_error (chunks_of s) k); [discriminate|]. injection H1 as <-.
        exists []. rewrite app_nil_r. cbn. auto. }
    destruct X as (e1 & L1 & S1 & A1).
    apply scan_chunk_like in H1; auto; [|apply pos_positive; auto].
    destruct H1 as (_ & _ & _ & K1 & N1 & R1).
    apply IH in H; auto; rewrite ?(k2_chunks _ _ K1); auto.
    destruct H as (e2 & L2 & S2 & A2). exists (e1 ++ e2). split; [rewrite L2, L1, app_assoc; reflexivity|].
    split; auto. intros now. apply looks_app; auto.
  Qed.

  Lemma pair_looks E O bidx w s s' cs : (o_ground O = true -> o_preview O = false) ->
    no_stale O (chunks_of s) -> used_chunks E s = Ok cs -> pos_chunks cs -> L_Scan13.numbered cs ->
    rot_fine (ir_rot (sg_rot (s_strat s))) -> computed_anew E O s ->
    scan_pair E O bidx w s = Ok s' ->
    exists evs, s_log s' = s_log s ++ evs /\ (forall now, looks_where_pointed gr now evs) /\ computed_anew E O s'.
  Proof.
    intros Hg Hst Hcs Hpos Hnum Hrot HA H. unfold scan_pair in H.
    set (s0 := if (bidx =? 0)%nat then s else set_strat s (reset (s_strat s))) in H.
    assert (X0 : s_log s0 = s_log s /\ s_chunks s0 = s_chunks s
                 /\ s_mmap s0 = s_mmap s /\ rot_fine (ir_rot (sg_rot (s_strat s0)))).
    { unfold s0. destruct (bidx =? 0)%nat; do 3 (split; [reflexivity|]); auto. apply reset_fine; auto. }
    destruct X0 as (L0 & C0 & M0 & R0). clearbody s0.
    inv_bind H x Hx. destruct x as [q s1].
    assert (X1 : s_log s1 = s_log s0 /\ s_chunks s1 = s_chunks s0 /\ s_mmap s1 = s_mmap s0 /\ s_strat s1 = s_strat s0).
    { set (p := match w with Some i => _ | None => _ end) in Hx.
      assert (Init : forall a b, (do (m, p') <- init_detpair a b (o_ground O);
                  let s := set_maps s0 (Some m) in
                  Ok (p', match w with Some i => set_beams s (put_pair (s_beams s) i p') | None => s end))
               = Ok (q, s1) -> s_log s1 = s_log s0 /\ s_chunks s1 = s_chunks s0 /\ s_mmap s1 = s_mmap s0 /\ s_strat s1 = s_strat s0).
      { intros a b Hi. inv_bind Hi y Hy. destruct y as [m q']. destruct w; injection Hi as _ <-; cbn; auto. }
      assert (Same : forall p', Ok (p', s0) = Ok (q, s1) ->
                s_log s1 = s_log s0 /\ s_chunks s1 = s_chunks s0 /\ s_mmap s1 = s_mmap s0 /\ s_strat s1 = s_strat s0).
      { intros p' Eq. injection Eq as _ <-. auto. }
      destruct p as [[a|] [b|]]; [| | |apply Same in Hx; exact Hx];
        (destruct (o_preview O); [apply Same in Hx; exact Hx|]);
        (destruct (_ && o_reuse O); [apply Same in Hx; exact Hx|]); apply Init in Hx; exact Hx. }
    destruct X1 as (L1 & C1 & M1 & St1).
    inv_bind H s2 Hs2.
    assert (X2 : s_log s2 = s_log s /\ s_mmap s2 = s_mmap s /\ s_strat s2 = s_strat s1
               /\ map fst (chunks_of s2) = cs /\ no_stale O (chunks_of s2)).
    { rewrite C1, C0 in Hs2. unfold used_chunks in Hcs. unfold chunks_of in Hst.
      destruct (s_chunks s) as [l|] eqn:El.
      - injection Hs2 as <-. unfold chunks_of. rewrite C1, C0. injection Hcs as <-.
        repeat split; auto; congruence.
      - rewrite Hcs in Hs2. cbn in Hs2. injection Hs2 as <-. cbn. repeat split; auto; try congruence.
        + unfold chunks_of. cbn. rewrite map_map. cbn. apply map_id.
        + apply no_stale_fresh. }
    destruct X2 as (L2 & M2 & S2 & F2 & St2).
    inv_bind H u Hu.
    apply chunks_look in H; auto; rewrite ?F2; auto.
    - destruct H as (evs & L3 & S3 & A3). exists evs. rewrite L3, L2. auto.
    - rewrite S2, St1. auto.
    - unfold computed_anew. rewrite M2. exact HA.
  Qed.

  Lemma pairs_look E O cs : (o_ground O = true -> o_preview O = false) ->
    pos_chunks cs -> L_Scan13.numbered cs -> forall ws bidx s s',
    no_stale O (chunks_of s) -> used_chunks E s = Ok cs ->
    rot_fine (ir_rot (sg_rot (s_strat s))) -> computed_anew E O s ->
    scan_pairs E O bidx ws s = Ok s' ->
    exists evs, s_log s' = s_log s ++ evs /\ forall now, looks_where_pointed gr now evs.
  Proof.
    intros Hg Hpos Hnum. induction ws as [|w ws IH]; intros bidx s s' Hst Hcs Hrot HA H; cbn [scan_pairs] in H.
    - injection H as <-. exists []. rewrite app_nil_r. cbn. auto.
    - inv_bind H s1 H1. assert (H1' := H1). eapply pair_looks in H1'; eauto.
      destruct H1' as (e1 & L1 & S1 & A1).
      eapply scan_pair_like in H1; eauto. destruct H1 as (_ & _ & _ & _ & C1 & N1 & R1).
      apply IH in H; auto. destruct H as (e2 & L2 & S2). exists (e1 ++ e2).
      split; [rewrite L2, L1, app_assoc; reflexivity|]. intros now. apply looks_app; auto.
  Qed.

  Lemma instrument_looks E O s s' :
    (o_ground O = true -> o_preview O = false) ->
    covers_mission E s -> rotation_ok s -> chunks_unmarked O s ->
    (gr = true -> o_ground O = true -> e_ext E = false /\ o_memmap O = false /\ s_mmap s = None) ->
    scan_instrument E O s = Ok s' ->
    exists new, s_log s' = s_log s ++ new /\ looks_where_pointed gr None new.
  Proof.
    intros Hg Hm Hr Hu HA H.
    destruct (mission_used E s Hm) as (cs & Hcs & T).
    assert (Hst : no_stale O (chunks_of s)).
    { unfold no_stale, chunks_of. destruct (s_chunks s) as [l|] eqn:El.
      - intros Ho. apply (Hu l El Ho).
      - intros _ cg []. }
    assert (Hpos : pos_chunks cs) by (intros c Hc; apply (tiles_pos _ _ _ _ T Hc)).
    assert (Hnum : L_Scan13.numbered cs).
    { destruct Hm as [Hn Hc]. unfold used_chunks in Hcs. destruct (s_chunks s) as [l|].
      - injection Hcs as <-. destruct (Hc l eq_refl) as [_ Hk]. intros k c Ek. rewrite nth_error_map in Ek.
        destruct (nth_error l k) as [cg|] eqn:El; [|discriminate]. injection Ek as <-. apply Hk. auto.
      - destruct (partition_mission_ok (e_nsamp E) None Hn I) as (cs' & Hcs' & _ & Hk).
        rewrite Hcs in Hcs'. injection Hcs' as <-. intros k c Ek. apply Hk. auto. }
    unfold scan_instrument in H.
    destruct (negb (o_alm O) && negb (o_preview O)); [discriminate|].
    destruct (o_preview O && (o_save_tod O || o_save_point O)); [discriminate|].
    set (s0 := if o_memmap O && negb (e_ext E) then _ else s) in H.
    assert (X : s_log s0 = s_log s /\ s_chunks s0 = s_chunks s
                /\ s_strat s0 = s_strat s /\ computed_anew E O s0).
    { unfold s0, computed_anew. destruct (o_memmap O && negb (e_ext E)) eqn:Em; cbn; do 3 (split; [auto|]);
        intros Hgr Ho; destruct (HA Hgr Ho) as (A1 & A2 & A3); auto.
      rewrite A2 in Em. discriminate. }
    destruct X as (L0 & C0 & S0 & A0). clearbody s0.
    apply (pairs_look E O cs) in H; auto.
    - destruct H as (evs & L1 & S1). exists evs. rewrite L1, L0. auto.
    - unfold chunks_of in *. rewrite C0. auto.
    - unfold used_chunks in *. rewrite C0. auto.
    - rewrite S0. exact Hr.
  Qed.
End L.

Lemma instrument_looks_sky {B} (E : env B) O s s' :
  (o_ground O = true -> o_preview O = false) ->
  covers_mission E s -> rotation_ok s -> chunks_unmarked O s ->
  scan_instrument E O s = Ok s' ->
  exists new, s_log s' = s_log s ++ new /\ looks_where_pointed false None new.
Proof. intros Hg Hm Hr Hu. apply instrument_looks; auto. discriminate. Qed.

Lemma instrument_looks_ground {B} (E : env B) O s s' :
  (o_ground O = true -> o_preview O = false) ->
  covers_mission E s -> rotation_ok s -> chunks_unmarked O s ->
  (o_ground O = true -> e_ext E = false /\ o_memmap O = false /\ s_mmap s = None) ->
  scan_instrument E O s = Ok s' ->
  exists new, s_log s' = s_log s ++ new /\ looks_where_pointed true None new.
Proof. intros Hg Hm Hr Hu HA. apply instrument_looks; auto. Qed.
