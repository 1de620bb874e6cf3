(** * From sub-chunks to the whole scan: what the trace looks like *)
From Coq Require Import Reals Lra.
From Verif Require Import Common LibList M_Chunks M_Steps M_Hwp M_Mpi M_Detpair M_Scan
  S_Chunks S_Detpair S_Scan L_Chunks L_Hwp L_Mpi L_Detpair L_Scan L_Scan2 L_Scan3.
Open Scope R_scope.

(** ** Sub-chunks cover their chunk, whatever is left of a period *)
Definition rot_fine (r : rot) : Prop :=
  rot_period r = true -> (0 < rot_chunk_size r)%Z /\ (0 <= rot_remainder r)%Z.

Lemma subpart_tiles r c l r1 : rot_fine r -> (c_start c < c_end c)%Z ->
  subpart_chunk r c = Ok (l, r1) ->
  tiles (c_start c) (c_end c) (map span l) /\ rot_fine r1
  /\ (forall x, In x l -> c_cidx x = c_cidx c)
  /\ rot_period r1 = rot_period r.
Proof.
  intros Hr Hc H. unfold subpart_chunk in H. unfold rot_fine in *.
  destruct (rot_period r) eqn:Ep; cbn [negb] in H.
  2:{ injection H as <- <-. cbn. rewrite Ep. repeat split; auto; try discriminate.
      intros x [<-|[]]. reflexivity. }
  destruct (Hr eq_refl) as [Hp Hrem]. clear Hr.
  destruct (Z.eqb_spec (rot_chunk_size r) 0); [lia|].
  pose proof (zceil_bounds (c_end c - c_start c - rot_remainder r) _ Hp) as HB.
  set (q := zceil_div (c_end c - c_start c - rot_remainder r) (rot_chunk_size r)) in *.
  set (p := rot_chunk_size r) in *. set (rem := rot_remainder r) in *.
  destruct c as [a b ci no]. cbn [c_start c_end c_cidx] in *.
  assert (One : forall m, (if (m =? 1)%Z then
                 if (rem >=? b - a)%Z
                 then Ok ([mkchunk a b ci false], set_rem r (rem - (b - a)))
                 else
                  Ok ((if (rem =? 0)%Z then [] else [mkchunk a (rem + a) ci true])
                      ++ [mkchunk (rem + a) b ci false], set_rem r (p - (b - (rem + a))))
                else
                 let '(first, start) :=
                   if (rem =? 0)%Z then ([], a) else ([mkchunk a (rem + a) ci true], (rem + a)%Z) in
                 let '(fulls, start0) := full_rot_chunks (Z.to_nat (m - 1)) start p ci in
                 Ok (first ++ fulls ++ [mkchunk start0 b ci false], set_rem r (p - (b - start0))))
              = Ok (l, r1) ->
              ((m <= 1 /\ q <= 1) \/ m = q)%Z -> (1 <= m)%Z ->
              tiles a b (map span l) /\ (rot_period r1 = true -> (0 < rot_chunk_size r1)%Z /\ (0 <= rot_remainder r1)%Z)
              /\ (forall x, In x l -> c_cidx x = ci) /\ rot_period r1 = true).
  { clear H. intros m H Hm Hm1. destruct (Z.eqb_spec m 1) as [Em|Em].
    - assert (Hq : (q <= 1)%Z) by lia.
      destruct (Z.geb_spec rem (b - a)) as [Hge|Hlt]; injection H as <- <-; cbn.
      + split; [repeat split; lia|]. split; [intros _; split; lia|]. split; auto.
        intros x [<-|[]]; reflexivity.
      + destruct (Z.eqb_spec rem 0); cbn; (split; [repeat split; lia|]); (split; [intros _; split; nia|]);
          (split; [|auto]).
        * intros x [<-|[]]; reflexivity.
        * intros x [<-|[<-|[]]]; reflexivity.
    - assert (m = q) by lia. subst m.
      destruct (full_rot_chunks (Z.to_nat (q - 1)) (rem + a) p ci) as [fulls last] eqn:F.
      assert (X : (if (rem =? 0)%Z then ([], a) else ([mkchunk a (rem + a) ci true], (rem + a)%Z))
                  = ((if (rem =? 0)%Z then [] else [mkchunk a (rem + a) ci true]), (rem + a)%Z)).
      { destruct (Z.eqb_spec rem 0) as [->|]; reflexivity. }
      rewrite X, F in H. injection H as <- <-. cbn.
      destruct (full_rot_spec _ _ _ _ _ _ F Hp) as (F1 & F2 & F3).
      rewrite Z2Nat.id in F1 by lia.
      assert (T : tiles (rem + a) b (map span (fulls ++ [mkchunk last b ci false]))).
      { rewrite map_app. apply tiles_app with last; auto. cbn. repeat split; nia. }
      assert (I : forall x, In x (fulls ++ [mkchunk last b ci false]) -> c_cidx x = ci).
      { intros x Hx. apply in_app_or in Hx as [Hx|[<-|[]]]; [apply F3 in Hx; tauto|reflexivity]. }
      destruct (Z.eqb_spec rem 0) as [E0|E0]; cbn [app].
      + rewrite E0 in T. split; [exact T|]. split; [intros _; split; nia|]. auto.
      + split; [cbn; split; [reflexivity|split; [lia|exact T]]|]. split; [intros _; split; nia|].
        split; auto. intros x [<-|Hx]; auto. }
  apply (One (if (q <? 1)%Z then 1%Z else q)); auto; destruct (Z.ltb_spec q 1); lia.
Qed.

Section L.
  Context {B : Type}.
  Implicit Types (s : state B) (E : env B) (d : det B).

  (** Filters do not change the length of what they filter. *)
  Definition same_length (O : opts) : Prop :=
    forall m t t', o_filter O m t = Ok t' -> length t' = length t.

  (** ** Sub-chunk *)
  Definition sub_like E O (p : bpair B) maps (c : chunk) (evs : list event) : Prop :=
    exists vw m la lb,
      (forall g, v_start (vw g) = c_start c /\ v_ground (vw g) = g
                 /\ v_rot (vw g) = v_rot (vw false) /\ v_hwp (vw g) = v_hwp (vw false))
      /\ calls_for O maps (fst p) (o_ground O) la /\ calls_for O maps (snd p) (o_ground O) lb
      /\ evs = sub_events E O p (csize c) vw m la lb.

  (** Parts of the state that scanning sub-chunks leaves alone. *)
  Record kept s s' : Prop := mkkept {
    k_beams : s_beams s' = s_beams s;
    k_maps : s_maps s' = s_maps s;
    k_chunks : s_chunks s' = s_chunks s }.
  Lemma kept_refl s : kept s s.
  Proof. constructor; reflexivity. Qed.
  Lemma kept_trans s1 s2 s3 : kept s1 s2 -> kept s2 s3 -> kept s1 s3.
  Proof. intros [] []. constructor; congruence. Qed.
  Lemma kept_frame s s' : frame s s' -> kept s s'.
  Proof. intros []. constructor; auto. Qed.

  Lemma move_rot c st h st' h' : move c st h = Ok (st', h') ->
    ir_rot (sg_rot st') = ir_rot (sg_rot st).
  Proof.
    unfold move. intros H.
    destruct (if c_norot c then (Ok XNone, st) else run_op ORotate st) as [[x|] st1] eqn:E1;
      [|discriminate].
    assert (R1 : ir_rot (sg_rot st1) = ir_rot (sg_rot st)).
    { destruct (c_norot c); [injection E1 as _ <-; reflexivity|].
      cbn in E1. unfold rotate_instr in E1.
      destruct (rot_period (ir_rot (sg_rot st))).
      - destruct (next (ir_gen (sg_rot st))) as [[a g]|]; cbn in E1; [|discriminate].
        injection E1 as _ <-. reflexivity.
      - injection E1 as _ <-. reflexivity. }
    cbn [run_op] in H. destruct (rotate_hwp (sg_fsamp st1) None (csize c) (sg_hwp st1)) as [[o h1]|];
      [|discriminate].
    injection H as <- _. cbn. exact R1.
  Qed.

  Lemma scan_sub_like E O p c s s' : (o_ground O = true -> o_preview O = false) ->
    scan_sub E O p (o_ground O) c s = Ok s' ->
    exists evs, s_log s' = s_log s ++ evs /\ sub_like E O p (s_maps s) c evs /\ kept s s'
      /\ ir_rot (sg_rot (s_strat s')) = ir_rot (sg_rot (s_strat s)).
  Proof.
    intros Hg H. apply scan_sub_spec in H; auto.
    destruct H as (st & h & la & lb & Hm & Ha & Hb & F & El & _).
    eexists. split; [exact El|]. split.
    { eexists _, _, _, _. split; [|split; [exact Ha|split; [exact Hb|reflexivity]]].
      intros g. repeat split; reflexivity. }
    split; [apply (kept_trans _ (moved s st h)); [constructor; reflexivity|apply kept_frame; auto]|].
    rewrite (f_strat _ _ F). cbn. eapply move_rot; eauto.
  Qed.

  Lemma scan_subs_like E O p : (o_ground O = true -> o_preview O = false) -> forall subs s s',
    scan_subs E O p (map (fun c => (c, o_ground O)) subs) s = Ok s' ->
    exists evss, s_log s' = s_log s ++ concat evss
      /\ Forall2 (sub_like E O p (s_maps s)) subs evss /\ kept s s'
      /\ ir_rot (sg_rot (s_strat s')) = ir_rot (sg_rot (s_strat s)).
  Proof.
    intros Hg. induction subs as [|c subs IH]; intros s s' H; cbn [map scan_subs] in H.
    - injection H as <-. exists []. cbn. rewrite app_nil_r.
      split; auto. split; [constructor|]. split; [apply kept_refl|reflexivity].
    - inv_bind H s1 Hs1. apply scan_sub_like in Hs1; auto.
      destruct Hs1 as (evs & El & Hl & K & R). apply IH in H.
      destruct H as (evss & El' & Hl' & K' & R'). exists (evs :: evss). cbn [concat].
      rewrite El', El, <- app_assoc. split; auto. rewrite (k_maps _ _ K) in Hl'.
      split; [constructor; auto|]. split; [eapply kept_trans; eauto|congruence].
  Qed.

  (** ** Chunk *)
  Definition chunk_like E O (p : bpair B) maps (c : chunk) (evs : list event) : Prop :=
    exists bore subs evss, tiles (c_start c) (c_end c) (map span subs)
      /\ Forall2 (sub_like E O p maps) subs evss /\ evs = EPoint c bore :: concat evss.

  (** Chunks are marked for the ground only when it is asked for. *)
  Definition no_stale (O : opts) (l : list (chunk * bool)) : Prop :=
    o_ground O = false -> forall cg, In cg l -> snd cg = false.

  Definition positive (l : list (chunk * bool)) : Prop :=
    forall cg, In cg l -> (c_start (fst cg) < c_end (fst cg))%Z.

  Lemma lift_op_inv o s x s' : lift_op o s = Ok (x, s') ->
    exists st, run_op o (s_strat s) = (Ok x, st) /\ s' = set_strat s st.
  Proof.
    unfold lift_op. destruct (run_op o (s_strat s)) as [[y|] st]; [|discriminate].
    intros H. injection H as <- <-. eauto.
  Qed.

  Lemma implement_scan_like E pre ground c s s' : implement_scan E pre ground c s = Ok s' ->
    exists bore, s_log s' = s_log s ++ [EPoint c bore] /\ kept s s'
      /\ ir_rot (sg_rot (s_strat s')) = ir_rot (sg_rot (s_strat s)).
  Proof.
    unfold implement_scan. destruct (e_ext E).
    - intros H. injection H as <-. eexists. split; [reflexivity|]. split; constructor; reflexivity.
    - destruct (if pre then s_mmap s else None).
      + intros H. injection H as <-. eexists. split; [reflexivity|]. split; constructor; reflexivity.
      + intros H. inv_bind H x Hx. destruct x as [x s1]. injection H as <-.
        apply lift_op_inv in Hx. destruct Hx as (st & Hx & ->).
        assert (R : sg_rot st = sg_rot (s_strat s)).
        { cbn in Hx. destruct (sg_el (s_strat s)) as [e|]; [|injection Hx as _ <-; reflexivity].
          destruct (el_on e); cbn in Hx; [|injection Hx as _ <-; reflexivity].
          destruct (step_array Rplus (e_elev E c) (el_st e)) as [[l d]|]; [|discriminate].
          injection Hx as _ <-. reflexivity. }
        eexists. split; [destruct ground; reflexivity|]. split.
        * destruct ground; constructor; reflexivity.
        * destruct ground; cbn; rewrite R; reflexivity.
  Qed.

  Lemma allocate_like O dd c s s' : on_live dd (fun d => allocate O d c) s = Ok s' ->
    exists dat pt, s' = set_point (set_data s dat) pt.
  Proof.
    unfold on_live, allocate. destruct (live dd) as [d|]; [|intros H; injection H as <-;
      exists (s_data s), (s_point s); destruct s; reflexivity].
    destruct (c_cidx c); [|discriminate]. intros H. injection H as <-. eauto.
  Qed.

  Lemma allocate_hwp_like (b : bool) O c s s' : (if b then allocate_hwp O c s else Ok s) = Ok s' ->
    exists x, s' = set_hwps s x.
  Proof.
    unfold allocate_hwp. assert (X : Ok s = Ok s' -> exists x, s' = set_hwps s x).
    { intros H. injection H as <-. exists (s_hwps s). destruct s; reflexivity. }
    destruct b; auto. destruct (o_save_point O); auto.
    destruct (c_cidx c); [|discriminate]. intros H. injection H as <-. eauto.
  Qed.

  Definition chunks_of s : list (chunk * bool) := match s_chunks s with Some l => l | None => [] end.

  Lemma set_ground_fst l : forall k, map fst (set_ground l k) = map fst l.
  Proof. induction l as [|[c g] l IH]; intros [|k]; cbn; auto. rewrite IH. reflexivity. Qed.

  Record kept2 s s' : Prop := mkkept2 {
    k2_beams : s_beams s' = s_beams s;
    k2_maps : s_maps s' = s_maps s;
    k2_chunks : map fst (chunks_of s') = map fst (chunks_of s);
    k2_set : s_chunks s' = None <-> s_chunks s = None }.
  Lemma kept2_refl s : kept2 s s.
  Proof. constructor; reflexivity. Qed.
  Lemma kept2_trans s1 s2 s3 : kept2 s1 s2 -> kept2 s2 s3 -> kept2 s1 s3.
  Proof. intros [] []. constructor; try congruence. rewrite k2_set1; auto. Qed.
  Lemma kept_kept2 s s' : kept s s' -> kept2 s s'.
  Proof. intros []. constructor; unfold chunks_of; rewrite ?k_chunks0; auto; reflexivity. Qed.

  Lemma scan_chunk_like E O bidx p k s s' :
    (o_ground O = true -> o_preview O = false) ->
    no_stale O (chunks_of s) -> positive (chunks_of s) ->
    rot_fine (ir_rot (sg_rot (s_strat s))) ->
    scan_chunk E O bidx p k s = Ok s' ->
    exists evs, s_log s' = s_log s ++ evs
      /\ match nth_error (chunks_of s) k with
         | Some cg => chunk_like E O p (s_maps s) (fst cg) evs
         | None => evs = []
         end
      /\ kept2 s s' /\ no_stale O (chunks_of s')
      /\ rot_fine (ir_rot (sg_rot (s_strat s'))).
  Proof.
    intros Hg Hst Hpos Hrot H. unfold scan_chunk in H. fold (chunks_of s) in H.
    destruct (nth_error (chunks_of s) k) as [[c g]|] eqn:Ek.
    2:{ injection H as <-. exists []. rewrite app_nil_r. split; auto. split; auto. split; [apply kept2_refl|]. split; auto. }
    assert (Hin : In (c, g) (chunks_of s)) by (eapply nth_error_In; eauto).
    assert (Gg : g || o_ground O = o_ground O).
    { destruct (o_ground O) eqn:Eo; [apply orb_true_r|]. specialize (Hst Eo _ Hin). cbn in Hst.
      rewrite Hst. reflexivity. }
    rewrite Gg in H.
    inv_bind H s1 H1. apply implement_scan_like in H1. destruct H1 as (bore & L1 & K1 & R1).
    inv_bind H sh Hh. apply allocate_hwp_like in Hh. destruct Hh as (hx & ->).
    inv_bind H s2 H2. apply allocate_like in H2. destruct H2 as (dat & pt & ->).
    inv_bind H s3 H3. apply allocate_like in H3. destruct H3 as (dat' & pt' & ->).
    inv_bind H x Hx. destruct x as [x s4]. apply lift_op_inv in Hx. destruct Hx as (st & Hx & ->).
    cbn [s_strat set_data set_point set_hwps] in Hx, H.
    cbn [run_op] in Hx. rewrite <- R1 in Hrot.
    destruct (subpart_chunk (ir_rot (sg_rot (s_strat s1))) c) as [[subs r1]|] eqn:Es; [|discriminate].
    injection Hx as <- <-.
    destruct (subpart_tiles _ _ _ _ Hrot (Hpos _ Hin) Es) as (T & Hr1 & _ & _).
    set (s5 := set_strat _ _) in H.
    assert (K5 : kept s s5) by (eapply kept_trans; [exact K1|constructor; reflexivity]).
    assert (L5 : s_log s5 = s_log s ++ [EPoint c bore]) by exact L1.
    assert (R5 : rot_fine (ir_rot (sg_rot (s_strat s5)))) by exact Hr1.
    assert (Hcov : forall s6 s', kept2 s s6 -> no_stale O (chunks_of s6) -> s_log s6 = s_log s5 ->
               s_strat s6 = s_strat s5 ->
               scan_subs E O p (map (fun c => (c, o_ground O)) subs) s6 = Ok s' ->
               exists evs, s_log s' = s_log s ++ evs /\ chunk_like E O p (s_maps s) c evs
                 /\ kept2 s s' /\ no_stale O (chunks_of s')
                 /\ rot_fine (ir_rot (sg_rot (s_strat s')))).
    { intros s6 s6' K6 N6 L6 St6 H6. apply scan_subs_like in H6; auto.
      destruct H6 as (evss & El & Hl & K7 & R7).
      exists (EPoint c bore :: concat evss). rewrite El, L6, L5, <- app_assoc.
      split; [reflexivity|]. rewrite (k2_maps _ _ K6) in Hl. split.
      { exists bore, subs, evss. auto. }
      split; [eapply kept2_trans; [exact K6|apply kept_kept2; exact K7]|].
      split; [unfold chunks_of in *; rewrite (k_chunks _ _ K7); exact N6|].
      rewrite R7, St6. exact R5. }
    cbn [fst]. destruct (rot_period (ir_rot (sg_rot (s_strat s1)))).
    - apply (Hcov s5); auto. apply kept_kept2; auto.
      unfold chunks_of in *. rewrite (k_chunks _ _ K5). exact Hst.
    - destruct (o_ground O) eqn:Eo.
      + apply (Hcov (set_chunks s5 (option_map (fun l => set_ground l k) (s_chunks s5)))); auto.
        * eapply kept2_trans; [apply kept_kept2; exact K5|]. constructor; cbn; auto; try reflexivity.
          -- unfold chunks_of. cbn. destruct (s_chunks s1); cbn; [apply set_ground_fst|reflexivity].
          -- destruct (s_chunks s1); cbn; split; congruence.
        * unfold no_stale. congruence.
      + apply (Hcov s5); auto. apply kept_kept2; auto.
        unfold chunks_of in *. rewrite (k_chunks _ _ K5). exact Hst.
  Qed.
End L.
