(** * The timestream of a detector is the superposition of its beams *)
From Coq Require Import Reals Lra.
From Verif Require Import Common LibList M_Chunks M_Steps M_Hwp M_Mpi M_Detpair M_Scan
  S_Chunks S_Detpair S_Scan L_Chunks L_Hwp L_Mpi L_Detpair L_Scan L_Scan2 L_Scan3 L_Scan4
  L_Scan5 L_Scan6 L_Scan7 L_Scan8.
From Verif Require L_Tod.
Open Scope R_scope.

Lemma choose_list {A X} (P : A -> X -> Prop) (l : list A) : (forall a, In a l -> exists x, P a x) ->
  exists xs, Forall2 P l xs.
Proof.
  induction l as [|a l IH]; intros H; [exists []; constructor|].
  destruct (H a (or_introl eq_refl)) as (x & Hx).
  destruct IH as (xs & F); [intros; apply H; now right|]. exists (x :: xs). constructor; auto.
Qed.

Section L.
  Context {B : Type}.
  Implicit Types (s : state B) (E : env B) (d : det B).

  Lemma ready_beams (a : det B) ob ground maps q : pair_ready a ob ->
    init_detpair (Some a) ob ground = Ok (maps, q) ->
    exists x ba bb,
      (main_beam a x /\ find_maps (Some maps) None false = Ok x)
      /\ (Forall2 ghost_beam (d_ghosts a) ba
          /\ Forall2 (fun g b => find_maps (Some maps) (Some (gh_idx g)) false = Ok b) (d_ghosts a) ba)
      /\ (forall b, ob = Some b ->
          Forall2 ghost_beam (d_ghosts b) bb
          /\ Forall2 (fun g y => find_maps (Some maps) (Some (gh_idx g)) false = Ok y) (d_ghosts b) bb).
  Proof.
    intros (Hav & Hn & Hc & Hp) H.
    destruct (consistent_found a ob ground Hav Hn Hc) as (maps' & q' & E' & (x & Hx) & Hg).
    rewrite H in E'. injection E' as <- <-.
    assert (Split : forall gs bs,
       Forall2 (fun (g : gh B) y => ghost_beam g y /\ find_maps (Some maps) (Some (gh_idx g)) false = Ok y) gs bs ->
       Forall2 ghost_beam gs bs
       /\ Forall2 (fun g y => find_maps (Some maps) (Some (gh_idx g)) false = Ok y) gs bs).
    { intros gs bs F. induction F as [|g b gs bs [] _ []]; split; constructor; auto. }
    destruct (choose_list _ _ Hg) as (ba & Fa). apply Split in Fa.
    exists x, ba. destruct ob as [b|].
    - assert (Hb : forall g, In g (d_ghosts b) ->
        exists y, ghost_beam g y /\ find_maps (Some maps) (Some (gh_idx g)) false = Ok y).
      { intros g Hin. destruct (Hp b g eq_refl Hin) as (g' & Hin' & Ei & Hbm).
        destruct (Hg g' Hin') as (y & Hy & Ef). exists y. rewrite <- Ei. auto. }
      destruct (choose_list _ _ Hb) as (bb & Fb). apply Split in Fb. exists bb.
      split; auto. split; auto. intros b' Eb. injection Eb as <-. auto.
    - exists []. split; auto. split; auto. intros b Eb. discriminate.
  Qed.

  Lemma bin_in_pair E O s cs ws evss i p d v t :
    NoDup (map d_id (dets (s_beams s))) ->
    Forall2 (fun w => pair_run E O (pair_at s w) cs) ws evss ->
    nth_error (s_beams s) i = Some p -> In d (pair_dets p) ->
    In (EBin (d_id d) v t) (concat evss) ->
    exists evs, In evs evss /\ pair_run E O p cs evs /\ In (EBin (d_id d) v t) evs.
  Proof.
    intros ND F Hp Hd He. apply in_concat in He. destruct He as (l & Hl & He).
    assert (X : exists w, pair_run E O (pair_at s w) cs l).
    { clear -F Hl. induction F; [destruct Hl|]. destruct Hl as [<-|Hl]; eauto. }
    destruct X as (w & R). exists l. split; auto. split; auto.
    assert (Dec : w = Some i \/ w <> Some i).
    { destruct w as [j|]; [|right; discriminate]. destruct (Nat.eq_dec j i); [left|right]; congruence. }
    destruct Dec as [->|Hw]; [unfold pair_at in R; rewrite Hp in R; exact R|].
    exfalso. assert (U := others_untouched (s_beams s) ND i p d Hp Hd w Hw).
    apply (run_untouched E O cs d (at_ (s_beams s) w) l (EBin (d_id d) v t) U R He). reflexivity.
  Qed.

  Lemma calls_sum E O maps d d' x bs vw (dd : option (det B)) l j : o_preview O = false -> o_ground O = false ->
    live dd = Some d' -> same_shape d d' -> find_maps maps None false = Ok x ->
    Forall2 (fun g b => find_maps maps (Some (gh_idx g)) false = Ok b) (d_ghosts d) bs ->
    calls_for O maps dd (o_ground O) l ->
    lsig E vw l j = own_signal E d x bs (vw false) j.
  Proof.
    intros Hp Hg Hl Hs Hx Hb H. unfold calls_for, calls_of in H. rewrite Hl, Hp, Hg in H.
    destruct H as [H _]. eapply det_calls_sum; eauto.
  Qed.

  Lemma scan_superposed E O s s' :
    o_preview O = false -> o_reuse O = false -> o_ground O = false -> no_filters O ->
    covers_mission E s -> rotation_ok s -> chunks_unmarked O s ->
    NoDup (map d_id (dets (s_beams s))) ->
    scan_instrument E O s = Ok s' ->
    exists new, s_log s' = s_log s ++ new
      /\ forall i a ob, nth_error (s_beams s) i = Some (Some a, ob) -> pair_ready a ob ->
         exists x ba bb,
           main_beam a x /\ Forall2 ghost_beam (d_ghosts a) ba
           /\ (forall b, ob = Some b -> Forall2 ghost_beam (d_ghosts b) bb)
           /\ (d_dead a = false -> forall v t, In (EBin (d_id a) v t) new ->
                 t = map (fun j => own_signal E a x ba v j
                                   + match live ob with
                                     | Some b => o_ctalk O * own_signal E b x bb v j
                                     | None => 0
                                     end) (seq 0 (length t))
                 /\ exists t0, In (EScan (Main (d_id a)) v t0) new)
           /\ (forall b, ob = Some b -> d_dead b = false -> forall v t, In (EBin (d_id b) v t) new ->
                 t = map (fun j => own_signal E b x bb v j
                                   + (if d_dead a then 0 else o_ctalk O * own_signal E a x ba v j))
                       (seq 0 (length t))
                 /\ exists t0, In (EScan (Main (d_id b)) v t0) new).
  Proof.
    intros Hpv Hre Hgr Hf Hm Hr Hu ND H.
    destruct (mission_used E s Hm) as (cs & Hcs & T).
    destruct (scan_instrument_like E O s s' cs) as (evss & HL & F); auto.
    { unfold no_stale, chunks_of. destruct (s_chunks s) as [l|] eqn:El.
      - intros Ho. apply (Hu l El Ho).
      - intros _ cg [].  }
    { intros c Hc. apply (tiles_pos _ _ _ _ T Hc). }
    exists (concat evss). split; auto. intros i a ob Hp Rdy.
    (* the initialisation, if the pair was initialised at all *)
    assert (Beams : exists x ba bb, main_beam a x /\ Forall2 ghost_beam (d_ghosts a) ba
        /\ (forall b, ob = Some b -> Forall2 ghost_beam (d_ghosts b) bb)
        /\ exists maps q, init_detpair (Some a) ob (o_ground O) = Ok (maps, q)
           /\ find_maps (Some maps) None false = Ok x
           /\ Forall2 (fun g b => find_maps (Some maps) (Some (gh_idx g)) false = Ok b) (d_ghosts a) ba
           /\ (forall b, ob = Some b ->
               Forall2 (fun g y => find_maps (Some maps) (Some (gh_idx g)) false = Ok y) (d_ghosts b) bb)).
    { assert (Rdy' := Rdy). destruct Rdy' as (Hav & Hn & Hc & _).
      destruct (consistent_found a ob (o_ground O) Hav Hn Hc) as (maps & q & E1 & _).
      destruct (ready_beams a ob _ maps q Rdy E1) as (x & ba & bb & (H1 & H2) & (H3 & H4) & H5).
      exists x, ba, bb. do 2 (split; auto). split; [intros b Eb; apply (H5 b Eb)|].
      exists maps, q. do 3 (split; auto). intros b Eb. apply (H5 b Eb). }
    destruct Beams as (x & ba & bb & Hx & Hba & Hbb & maps & q & Ei & Fx & Fa & Fb).
    exists x, ba, bb. do 3 (split; auto).
    destruct Rdy as (Hav & _). destruct (init_shape a ob _ maps q Hav Ei) as (a' & Ea' & Sa & Sb).
    assert (NDp : forall b, ob = Some b -> d_id b <> d_id a).
    { intros b ->. destruct (dets_split (s_beams s) i _ Hp) as (l1 & l2 & Eab).
      assert (ND' := ND). rewrite Eab, !map_app in ND'. apply nodup_middle in ND'. cbn in ND'.
      inversion ND' as [|? ? Hnot _]; subst. intros Eq. apply Hnot. rewrite Eq. now left. }
    (* where an event comes from *)
    assert (Sub : forall d v t, In d (pair_dets (Some a, ob)) -> In (EBin (d_id d) v t) (concat evss) ->
      exists n vw m la lb, calls_for O (Some maps) (fst q) (o_ground O) la
        /\ calls_for O (Some maps) (snd q) (o_ground O) lb
        /\ In (EBin (d_id d) v t) (sub_events E O q n vw m la lb)
        /\ incl (sub_events E O q n vw m la lb) (concat evss)).
    { intros d v t Hd He. destruct (bin_in_pair E O s cs _ _ i _ d v t ND F Hp Hd He) as (evs & Hin & R & He').
      destruct R as (q1 & m1 & L & _ & _ & _ & Hi). destruct (Hi Hpv Hre) as (m2 & -> & Ei2); [discriminate|].
      cbn [fst snd] in Ei2. rewrite Ei in Ei2. injection Ei2 as <- <-.
      destruct (event_sub E O q _ cs evs _ L He') as [(c & l & Eq)|(c & sevs & Sl & Hs & Inc)]; [discriminate|].
      destruct Sl as (vw & m & la & lb & _ & Ha & Hb & ->). exists (csize c), vw, m, la, lb.
      do 3 (split; auto). intros y Hy. apply in_concat. exists evs. split; auto. }
    assert (Sa' := Sa). destruct Sa' as (Ia & Da & _).
    assert (La : live (fst q) = if d_dead a then None else Some a').
    { rewrite Ea'. unfold live. rewrite Da. reflexivity. }
    assert (Lb : forall b, ob = Some b -> exists b', snd q = Some b' /\ same_shape b b'
                  /\ live (snd q) = if d_dead b then None else Some b').
    { intros b ->. destruct (snd q) as [b'|]; [|contradiction]. exists b'. do 2 (split; auto).
      destruct Sb as (_ & Db & _). unfold live. rewrite Db. reflexivity. }
    assert (Lb0 : ob = None -> live (snd q) = None).
    { intros ->. destruct (snd q); [contradiction|reflexivity]. }
    split.
    - intros Hl v t He.
      destruct (Sub a v t) as (n & vw & m & la & lb & Ha & Hb & He' & Inc); [destruct ob; now left|auto|].
      rewrite Hl in La. assert (He2 := He'). rewrite <- Ia in He2.
      apply sub_bin_a with (a := a') in He2; auto.
      2:{ intros b' Hb'. destruct ob as [b|]; [|rewrite Lb0 in Hb' by auto; discriminate].
          destruct (Lb b eq_refl) as (b1 & _ & (Ib & _) & L1). rewrite L1 in Hb'.
          destruct (d_dead b); [discriminate|]. injection Hb' as <-. rewrite Ib, Ia. auto. }
      destruct He2 as [-> Ht]. split.
      + rewrite Ht. unfold mixed. rewrite L_Tod.arr_len. unfold L_Tod.arr. apply map_ext. intros j.
        rewrite (calls_sum E O (Some maps) a a' x ba vw (fst q) la j Hpv Hgr La Sa Fx Fa Ha). f_equal.
        destruct ob as [b|]; [|rewrite Lb0 by auto; reflexivity].
        destruct (Lb b eq_refl) as (b1 & _ & Sb1 & L1). rewrite L1. unfold live at 1.
        destruct (d_dead b) eqn:Db; [reflexivity|].
        rewrite (calls_sum E O (Some maps) b b1 x bb vw (snd q) lb j Hpv Hgr L1 Sb1 Fx (Fb b eq_refl) Hb).
        reflexivity.
      + destruct (sub_main E O q n vw m (Some maps) la lb (o_ground O) a' Hpv (or_introl La) Ha Hb)
          as (t0 & Ht0). rewrite Ia in Ht0. exists t0. apply Inc. auto.
    - intros b -> Hl v t He.
      destruct (Sub b v t) as (n & vw & m & la & lb & Ha & Hb & He' & Inc); [right; now left|auto|].
      destruct (Lb b eq_refl) as (b1 & _ & Sb1 & L1). rewrite Hl in L1.
      assert (Ib := Sb1). destruct Ib as (Ib & _).
      assert (He2 := He'). rewrite <- Ib in He2.
      apply sub_bin_b with (b := b1) in He2; auto.
      2:{ intros a1 Ha1. rewrite La in Ha1. destruct (d_dead a); [discriminate|]. injection Ha1 as <-.
          rewrite Ia, Ib. intros Eq. apply (NDp b eq_refl). auto. }
      destruct He2 as [-> Ht]. split.
      + rewrite Ht. unfold mixed. rewrite L_Tod.arr_len. unfold L_Tod.arr. apply map_ext. intros j.
        rewrite (calls_sum E O (Some maps) b b1 x bb vw (snd q) lb j Hpv Hgr L1 Sb1 Fx (Fb b eq_refl) Hb).
        f_equal. rewrite La. destruct (d_dead a); [reflexivity|].
        rewrite (calls_sum E O (Some maps) a a' x ba vw (fst q) la j Hpv Hgr La Sa Fx Fa Ha). reflexivity.
      + destruct (sub_main E O q n vw m (Some maps) la lb (o_ground O) b1 Hpv (or_intror L1) Ha Hb)
          as (t0 & Ht0). rewrite Ib in Ht0. exists t0. apply Inc. auto.
  Qed.

  (** A pair without ghosts. *)
  Lemma scan_ground_pair E O s s' :
    o_preview O = false -> o_reuse O = false -> o_ground O = true -> no_filters O ->
    covers_mission E s -> rotation_ok s ->
    NoDup (map d_id (dets (s_beams s))) ->
    scan_instrument E O s = Ok s' ->
    exists new, s_log s' = s_log s ++ new
      /\ forall i a ob, nth_error (s_beams s) i = Some (Some a, ob) ->
         (forall d, In d (pair_dets (Some a, ob)) -> d_ghosts d = []) -> (exists x, main_beam a x) ->
         exists x, main_beam a x
           /\ (d_dead a = false -> forall v t, In (EBin (d_id a) v t) new ->
                exists vg, v_ground v = false /\ v_ground vg = true /\ v_start vg = v_start v
                  /\ v_rot vg = v_rot v /\ v_hwp vg = v_hwp v
                  /\ t = map (fun j => sky_and_ground E a x v vg j
                                       + match live ob with
                                         | Some b => o_ctalk O * sky_and_ground E b x v vg j
                                         | None => 0
                                         end) (seq 0 (length t)))
           /\ (forall b, ob = Some b -> d_dead b = false -> forall v t, In (EBin (d_id b) v t) new ->
                exists vg, v_ground v = false /\ v_ground vg = true /\ v_start vg = v_start v
                  /\ v_rot vg = v_rot v /\ v_hwp vg = v_hwp v
                  /\ t = map (fun j => sky_and_ground E b x v vg j
                                       + (if d_dead a then 0 else o_ctalk O * sky_and_ground E a x v vg j))
                         (seq 0 (length t))).
  Proof.
    intros Hpv Hre Hgr Hf Hm Hr ND H.
    destruct (mission_used E s Hm) as (cs & Hcs & T).
    destruct (scan_instrument_like E O s s' cs) as (evss & HL & F); auto.
    { unfold no_stale. congruence. }
    { intros c Hc. apply (tiles_pos _ _ _ _ T Hc). }
    exists (concat evss). split; auto. intros i a ob Hp Hgh Hmb.
    assert (Hga : d_ghosts a = []) by (apply Hgh; destruct ob; now left).
    assert (Hgb : forall b, ob = Some b -> d_ghosts b = []) by (intros b ->; apply Hgh; right; now left).
    assert (Hav : beams_available a ob).
    { split; auto. split; [rewrite Hga; intros g []|intros d g Eq; rewrite (Hgb d Eq); intros []]. }
    assert (Hn : no_gap (d_ghosts a)) by (rewrite Hga; intros g j []).
    assert (Hc : consistent (d_ghosts a)) by (rewrite Hga; intros g g' y []).
    destruct (consistent_found a ob (o_ground O) Hav Hn Hc) as (maps & q & Ei & (x & Hx & Fx) & _).
    assert (G := proj1 ground_refuted B a ob Hav Hn). destruct G as (m2 & q2 & E2 & G1 & _).
    rewrite <- Hgr, Ei in E2. injection E2 as <- <-. destruct (G1 Hga) as (y & Hy & Fy).
    assert (Exy : y = x) by (destruct Hx as [|[]], Hy as [|[]]; congruence). subst y.
    exists x. split; auto.
    destruct (init_shape a ob _ maps q Hav Ei) as (a' & Ea' & Sa & Sb).
    assert (NDp : forall b, ob = Some b -> d_id b <> d_id a).
    { intros b ->. destruct (dets_split (s_beams s) i _ Hp) as (l1 & l2 & Eab).
      assert (ND' := ND). rewrite Eab, !map_app in ND'. apply nodup_middle in ND'. cbn in ND'.
      inversion ND' as [|? ? Hnot _]; subst. intros Eq. apply Hnot. rewrite Eq. now left. }
    assert (Sub : forall d v t, In d (pair_dets (Some a, ob)) -> In (EBin (d_id d) v t) (concat evss) ->
      exists n vw m la lb, calls_for O (Some maps) (fst q) (o_ground O) la
        /\ calls_for O (Some maps) (snd q) (o_ground O) lb
        /\ In (EBin (d_id d) v t) (sub_events E O q n vw m la lb)
        /\ v_ground (vw false) = false /\ v_ground (vw true) = true /\ v_start (vw true) = v_start (vw false)
        /\ v_rot (vw true) = v_rot (vw false) /\ v_hwp (vw true) = v_hwp (vw false)).
    { intros d v t Hd He. destruct (bin_in_pair E O s cs _ _ i _ d v t ND F Hp Hd He) as (evs & Hin & R & He').
      destruct R as (q1 & m1 & L & _ & _ & _ & Hi). destruct (Hi Hpv Hre) as (m2 & -> & Ei2); [discriminate|].
      cbn [fst snd] in Ei2. rewrite Ei in Ei2. injection Ei2 as <- <-.
      destruct (event_sub E O q _ cs evs _ L He') as [(c & l & Eq)|(c & sevs & Sl & Hs & Inc)]; [discriminate|].
      destruct Sl as (vw & m & la & lb & Hv & Ha & Hb & ->). exists (csize c), vw, m, la, lb.
      do 3 (split; auto). destruct (Hv false) as (Hv1 & Hv2 & _), (Hv true) as (Hv3 & Hv4 & Hv5 & Hv6).
      do 2 (split; auto). split; [congruence|auto]. }
    assert (Sa' := Sa). destruct Sa' as (Ia & Da & Ga).
    assert (La : live (fst q) = if d_dead a then None else Some a') by (rewrite Ea'; unfold live; rewrite Da; reflexivity).
    assert (Lb : forall b, ob = Some b -> exists b', snd q = Some b' /\ same_shape b b'
                  /\ live (snd q) = if d_dead b then None else Some b').
    { intros b ->. destruct (snd q) as [b'|]; [|contradiction]. exists b'. do 2 (split; auto).
      destruct Sb as (_ & Db & _). unfold live. rewrite Db. reflexivity. }
    assert (Lb0 : ob = None -> live (snd q) = None).
    { intros ->. destruct (snd q); [contradiction|reflexivity]. }
    assert (Sum : forall d d' (dd : option (det B)) vw l j, live dd = Some d' -> same_shape d d' -> d_ghosts d = [] ->
       calls_for O (Some maps) dd (o_ground O) l -> lsig E vw l j = sky_and_ground E d x (vw false) (vw true) j).
    { intros d d' dd vw l j L0 (I0 & _ & G0) N0 C0. unfold calls_for, calls_of in C0. rewrite L0, Hpv, Hgr in C0.
      destruct C0 as [C0 _]. rewrite N0 in G0. inversion G0 as [G00|]; subst.
      exact (det_calls_ground E vw (Some maps) d d' x x l j I0 (eq_sym H0) Fx Fy C0). }
    split.
    - intros Hl v t He.
      destruct (Sub a v t) as (n & vw & m & la & lb & Ha & Hb & He' & V1 & V2 & V3 & V4 & V5); [destruct ob; now left|auto|].
      rewrite Hl in La. assert (He2 := He'). rewrite <- Ia in He2.
      apply sub_bin_a with (a := a') in He2; auto.
      2:{ intros b' Hb'. destruct ob as [b|]; [|rewrite Lb0 in Hb' by auto; discriminate].
          destruct (Lb b eq_refl) as (b1 & _ & (Ib & _) & L1). rewrite L1 in Hb'.
          destruct (d_dead b); [discriminate|]. injection Hb' as <-. rewrite Ib, Ia. auto. }
      destruct He2 as [-> Ht]. exists (vw true). do 5 (split; auto).
      rewrite Ht. unfold mixed. rewrite L_Tod.arr_len. unfold L_Tod.arr. apply map_ext. intros j.
      rewrite (Sum a a' (fst q) vw la j La Sa Hga Ha). f_equal.
      destruct ob as [b|]; [|rewrite Lb0 by auto; reflexivity].
      destruct (Lb b eq_refl) as (b1 & _ & Sb1 & L1). rewrite L1. unfold live at 1.
      destruct (d_dead b) eqn:Db; [reflexivity|].
      rewrite (Sum b b1 (snd q) vw lb j L1 Sb1 (Hgb b eq_refl) Hb). reflexivity.
    - intros b -> Hl v t He.
      destruct (Sub b v t) as (n & vw & m & la & lb & Ha & Hb & He' & V1 & V2 & V3 & V4 & V5); [right; now left|auto|].
      destruct (Lb b eq_refl) as (b1 & _ & Sb1 & L1). rewrite Hl in L1.
      assert (Ib := Sb1). destruct Ib as (Ib & _).
      assert (He2 := He'). rewrite <- Ib in He2.
      apply sub_bin_b with (b := b1) in He2; auto.
      2:{ intros a1 Ha1. rewrite La in Ha1. destruct (d_dead a); [discriminate|]. injection Ha1 as <-.
          rewrite Ia, Ib. intros Eq. apply (NDp b eq_refl). auto. }
      destruct He2 as [-> Ht]. exists (vw true). do 5 (split; auto).
      rewrite Ht. unfold mixed. rewrite L_Tod.arr_len. unfold L_Tod.arr. apply map_ext. intros j.
      rewrite (Sum b b1 (snd q) vw lb j L1 Sb1 (Hgb b eq_refl) Hb).
      f_equal. rewrite La. destruct (d_dead a); [reflexivity|].
      rewrite (Sum a a' (fst q) vw la j La Sa Hga Ha). reflexivity.
  Qed.

  (** With a ground template, no ghost sees the sky. *)
  Lemma alone_scanned d k g log : left_alone d log -> scanned (Ghost (d_id d) k) g log = [].
  Proof.
    unfold left_alone. induction log as [|e log IH]; intros H; [reflexivity|].
    assert (IH' := IH (fun e He => H e (or_intror He))).
    destruct e as [c l|w v t|d' v t]; cbn [scanned]; auto.
    destruct (same_who (Ghost (d_id d) k) w) eqn:Ew; auto. exfalso.
    apply (H _ (or_introl eq_refl)). destruct w as [d'|d' k']; cbn in *; [discriminate|].
    apply andb_prop in Ew. destruct Ew as [Ew _]. lia.
  Qed.

  Lemma ground_ghosts E O s s' :
    o_preview O = false -> o_ground O = true ->
    covers_mission E s -> rotation_ok s -> filters_keep_length O ->
    NoDup (map d_id (dets (s_beams s))) ->
    scan_instrument E O s = Ok s' ->
    exists new, s_log s' = s_log s ++ new
      /\ forall d k, In d (dets (s_beams s)) -> scanned (Ghost (d_id d) k) false new = [].
  Proof.
    intros Hpv Hgr Hm Hr Hf ND H.
    destruct (scan_process E O s s') as (new & HL & X); auto.
    { intros l _ Hng. congruence. }
    exists new. split; auto. intros d k Hd.
    unfold dets in Hd. apply in_flat_map in Hd. destruct Hd as (p & Hp & Hd).
    apply In_nth_error in Hp. destruct Hp as (i & Hp). destruct (X i p d Hp Hd) as [X1 X2].
    destruct (d_dead d) eqn:Ed; [apply alone_scanned; auto|].
    assert (Dec : In (Some i) (my_pairs E O s) \/ ~ In (Some i) (my_pairs E O s)).
    { destruct (in_dec (fun a b : option nat => ltac:(decide equality; apply Nat.eq_dec)) (Some i) (my_pairs E O s)); auto. }
    destruct Dec as [Hin|Hin]; [|apply alone_scanned; auto].
    destruct (X1 Hin eq_refl) as [G _]. rewrite Hpv in G. destruct G as (_ & _ & G).
    destruct (G k) as [_ G2]. rewrite Hgr in G2. exact G2.
  Qed.
End L.
