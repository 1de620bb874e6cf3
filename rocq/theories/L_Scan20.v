(** * Saved positions and HWP angles are those the detectors saw *)
From Coq Require Import Reals Lra.
From Verif Require Import Common LibList M_Chunks M_Steps M_Hwp M_Mpi M_Detpair M_Scan
  S_Chunks S_Detpair S_Scan S_Saved L_Chunks L_Hwp L_Mpi L_Detpair L_Scan L_Scan2 L_Scan3 L_Scan4 L_Scan5
  L_Scan6 L_Scan7 L_Scan8 L_Scan9 L_Scan12 L_Scan13 L_Scan14 L_Scan16 L_Scan17 L_Scan18 L_Scan19.
Open Scope R_scope.

(** ** Events of one detector that overlap are the same *)
Lemma scanned_later i : forall log lo hi v t, tiles lo hi (scanned (Main i) false log) ->
  In (EScan (Main i) v t) log -> v_ground v = false -> (lo <= v_start v)%Z.
Proof.
  induction log as [|e log IH]; intros lo hi v t T H Hv; [contradiction|].
  destruct H as [-> |H].
  - cbn [scanned same_who] in T. rewrite Z.eqb_refl, Hv in T. cbn in T. lia.
  - destruct e as [|w' v' t'|]; cbn [scanned] in T; eauto.
    destruct (same_who (Main i) w' && Bool.eqb (v_ground v') false); eauto.
    cbn in T. destruct T as (E0 & L & T). specialize (IH _ _ _ _ T H Hv). lia.
Qed.
Lemma scanned_same i : forall log lo hi v t v' t' k, tiles lo hi (scanned (Main i) false log) ->
  In (EScan (Main i) v t) log -> v_ground v = false ->
  In (EScan (Main i) v' t') log -> v_ground v' = false ->
  (v_start v <= k < v_start v + Z.of_nat (length t))%Z ->
  (v_start v' <= k < v_start v' + Z.of_nat (length t'))%Z -> v' = v /\ t' = t.
Proof.
  induction log as [|e log IH]; intros lo hi v t v' t' k T H Hv H' Hv' K K'; [contradiction|].
  destruct H as [-> |H], H' as [H'|H'].
  - injection H' as -> ->. auto.
  - cbn [scanned same_who] in T. rewrite Z.eqb_refl, Hv in T. cbn in T. destruct T as (E0 & L & T).
    assert (X := scanned_later i log _ _ _ _ T H' Hv'). lia.
  - subst e. cbn [scanned same_who] in T. rewrite Z.eqb_refl, Hv' in T. cbn in T. destruct T as (E0 & L & T).
    assert (X := scanned_later i log _ _ _ _ T H Hv). lia.
  - destruct e as [|w2 v2 t2|]; cbn [scanned] in T; eauto.
    destruct (same_who (Main i) w2 && Bool.eqb (v_ground v2) false); eauto.
    cbn in T. destruct T as (E0 & L & T). eauto.
Qed.

Lemma sky_in i v : forall log, In v (sky_views i log) -> v_ground v = false /\ exists t, In (EScan (Main i) v t) log.
Proof.
  induction log as [|e log IH]; intros H; [contradiction|]. cbn in H.
  destruct e as [|[d|] v' t|];
    try (destruct (IH H) as (E & t0 & H0); split; auto; exists t0; now right).
  destruct (Z.eqb_spec d i) as [-> |]; cbn [andb] in H;
    [destruct (v_ground v') eqn:Ev; cbn [negb] in H|];
    try (destruct (IH H) as (E & t0 & H0); split; auto; exists t0; now right).
  destruct H as [-> |H]; [split; auto; exists t; now left|].
  destruct (IH H) as (E & t0 & H0). split; auto. exists t0. now right.
Qed.
Lemma in_sky i v t : forall log, In (EScan (Main i) v t) log -> v_ground v = false -> In v (sky_views i log).
Proof.
  induction log as [|e log IH]; intros H Hv; [contradiction|]. destruct H as [-> |H].
  - cbn. rewrite Z.eqb_refl, Hv. now left.
  - cbn. destruct e as [|[d|] v' t'|]; auto. destruct ((d =? i)%Z && negb (v_ground v')); auto. right. auto.
Qed.

Lemma point_writes_in pos i c w : forall evs, In w (point_writes pos i c evs) ->
  exists v t, In (EScan (Main i) v t) evs /\ v_ground v = false /\ begins_in c v = true
    /\ w = (offset c v, map (pos i v) (seq 0 (length t))).
Proof.
  induction evs as [|e evs IH]; intros H; [contradiction|]. cbn in H.
  destruct e as [|[d|] v t|];
    try (destruct (IH H) as (v0 & t0 & H0 & R0); exists v0, t0; split; [now right|exact R0]).
  destruct (Z.eqb_spec d i) as [-> |]; cbn [andb] in H;
    [destruct (v_ground v) eqn:Ev; cbn [negb andb] in H; [|destruct (begins_in c v) eqn:Eb]|];
    try (destruct (IH H) as (v0 & t0 & H0 & R0); exists v0, t0; split; [now right|exact R0]).
  destruct H as [<- |H]; [exists v, t; split; [now left|auto]|].
  destruct (IH H) as (v0 & t0 & H0 & R0); exists v0, t0; split; [now right|exact R0].
Qed.
Lemma in_point_writes pos i c v t : forall evs, In (EScan (Main i) v t) evs -> v_ground v = false ->
  begins_in c v = true -> In (offset c v, map (pos i v) (seq 0 (length t))) (point_writes pos i c evs).
Proof.
  induction evs as [|e evs IH]; intros H Hv Hb; [contradiction|]. destruct H as [-> |H].
  - cbn. rewrite Z.eqb_refl, Hv, Hb. now left.
  - cbn. destruct e as [|[d|] v' t'|]; auto. destruct ((d =? i)%Z && negb (v_ground v') && begins_in c v'); auto. right. auto.
Qed.
Lemma hwp_writes_in c w : forall evs, In w (hwp_writes c evs) ->
  exists i v t, In (EScan (Main i) v t) evs /\ v_ground v = false /\ begins_in c v = true
    /\ w = (offset c v, hwp_deg v (length t)).
Proof.
  induction evs as [|e evs IH]; intros H; [contradiction|]. cbn in H.
  destruct e as [|[d|] v t|];
    try (destruct (IH H) as (i0 & v0 & t0 & H0 & R0); exists i0, v0, t0; split; [now right|exact R0]).
  destruct (v_ground v) eqn:Ev; cbn [negb andb] in H; [|destruct (begins_in c v) eqn:Eb];
    try (destruct (IH H) as (i0 & v0 & t0 & H0 & R0); exists i0, v0, t0; split; [now right|exact R0]).
  destruct H as [<- |H]; [exists d, v, t; split; [now left|auto]|].
  destruct (IH H) as (i0 & v0 & t0 & H0 & R0); exists i0, v0, t0; split; [now right|exact R0].
Qed.
Lemma in_hwp_writes c i v t : forall evs, In (EScan (Main i) v t) evs -> v_ground v = false ->
  begins_in c v = true -> In (offset c v, hwp_deg v (length t)) (hwp_writes c evs).
Proof.
  induction evs as [|e evs IH]; intros H Hv Hb; [contradiction|]. destruct H as [-> |H].
  - cbn. rewrite Hv, Hb. now left.
  - cbn. destruct e as [|[d|] v' t'|]; auto. destruct (negb (v_ground v') && begins_in c v'); auto. right. auto.
Qed.

Lemma ret_length h n l : ret_hwp h n = Ok l -> length l = n.
Proof.
  unfold ret_hwp. destruct h as [[a|x|]|]; intros H; try discriminate.
  - injection H as <-. apply repeat_length.
  - destruct (Nat.eqb_spec (length x) n); [injection H as <-; rewrite map_length; auto|].
    destruct x as [|a [|]]; try discriminate. injection H as <-. apply repeat_length.
  - injection H as <-. apply repeat_length.
Qed.
Lemma repeat_map {A} (a : A) n k : repeat a n = map (fun _ => a) (seq k n).
Proof. revert k; induction n; intros k; cbn; f_equal; auto. Qed.
Lemma nth_map_seq (l : list R) (f : R -> R) : map f l = map (fun j => f (nth j l 0)) (seq 0 (length l)).
Proof.
  induction l as [|a l IH]; [reflexivity|]. cbn. f_equal. rewrite <- seq_shift, map_map. exact IH.
Qed.
Lemma ret_reading v n l : ret_hwp (v_hwp v) n = Ok l -> l = map (hwp_reading v) (seq 0 n).
Proof.
  unfold ret_hwp, hwp_reading. destruct (v_hwp v) as [[a|x|]|]; intros H; try discriminate.
  - injection H as <-. apply repeat_map.
  - destruct (Nat.eqb_spec (length x) n) as [<- |].
    + injection H as <-. destruct x as [|a [|b x]]; auto. apply (nth_map_seq (a :: b :: x) degrees).
    + destruct x as [|a [|]]; try discriminate. injection H as <-. apply repeat_map.
  - injection H as <-. apply repeat_map.
Qed.

Section L.
  Context {B : Type}.
  Implicit Types (s : state B) (E : env B) (d : det B) (p q : bpair B).

  Definition my_live E O s i : Prop := some_live (s_beams s) (my_pairs E O s) i.

  Lemma scan_point E O s s' : o_save_point O = true -> o_ground O = false ->
    covers_mission E s -> rotation_ok s -> chunks_unmarked O s ->
    NoDup (map d_id (dets (s_beams s))) ->
    scan_instrument E O s = Ok s' ->
    exists new cs, s_log s' = s_log s ++ new /\ chunks_used E s = Ok cs /\ used_chunks E s' = Ok cs
      /\ tiles 0 (e_nsamp E) (map span cs) /\ numbered cs
      /\ (forall e, In e new -> in_chunks cs (seq 0 (length cs)) (my_live E O s) e)
      /\ forall k c, nth_error cs k = Some c ->
         (forall i, my_live E O s i -> s_point s' k i = apply (point_writes (e_pos E) i c new) (zero_point c))
         /\ (my_pairs E O s <> [] -> s_hwps s' k = apply (hwp_writes c new) (zero_hwp c)).
  Proof.
    intros Hsp Hgr Hm Hr Hu ND H.
    destruct (used_facts E s Hm) as (cs & Hcs & Hcs' & T & Hnum).
    assert (Hst : no_stale O (chunks_of s)).
    { unfold no_stale, chunks_of. destruct (s_chunks s) as [l|] eqn:El.
      - intros Ho. apply (Hu l El Ho).
      - intros _ cg []. }
    unfold scan_instrument in H.
    destruct (negb (o_alm O) && negb (o_preview O)); [discriminate|].
    destruct (o_preview O && (o_save_tod O || o_save_point O)); [discriminate|].
    set (s0 := if o_memmap O && negb (e_ext E) then _ else s) in H.
    assert (X : s_log s0 = s_log s /\ s_beams s0 = s_beams s /\ s_chunks s0 = s_chunks s
                /\ s_strat s0 = s_strat s).
    { unfold s0. destruct (o_memmap O && negb (e_ext E)); auto. }
    destruct X as (L0 & B0 & C0 & S0). clearbody s0.
    apply (pairs_point E O cs 0 (e_nsamp E) (s_beams s)) in H; auto.
    - destruct H as (evs & L & C1 & W & G). rewrite B0 in *.
      exists evs, cs. split; [congruence|]. do 4 (split; auto). split; [exact W|].
      intros k c Hk. destruct (G k c Hk) as (G1 & _ & G2). split; [exact G1|].
      intros Hne. unfold my_pairs in Hne. destruct (rank_iterations _ _ _ _ _ _); [contradiction|exact G2].
    - apply rank_nodup. apply seq_NoDup.
    - intros w _. unfold pair_at, at_. rewrite B0. reflexivity.
    - unfold chunks_of in *. rewrite C0. auto.
    - unfold used_chunks in *. rewrite C0. auto.
    - rewrite S0. auto.
  Qed.

  Lemma live_observes E O s i : my_live E O s i -> exists d, d_id d = i /\ observes E O s d.
  Proof.
    intros (w & Hw & d & Hd & Hi). exists d. split; auto. destruct w as [j|]; [|cbn in Hd; destruct Hd; discriminate].
    cbn in Hd. destruct (nth_error (s_beams s) j) as [p|] eqn:Ej; [|destruct Hd; discriminate].
    assert (X : In d (pair_dets p) /\ d_dead d = false).
    { unfold is_live, live in Hd. destruct p as [[a|] [b|]]; cbn in *;
        repeat match goal with
        | h : _ \/ _ |- _ => destruct h as [h|h]
        | h : context [if ?b then _ else _] |- _ => destruct b eqn:?
        | h : Some _ = Some _ |- _ => injection h as <-
        | h : None = Some _ |- _ => discriminate h
        end; auto. }
    destruct X as [X1 X2]. split; auto. exists j, p. auto.
  Qed.

  (** Bounds of a write that begins in a chunk. *)
  Lemma write_fits cs n (P : Z -> Prop) k c i v t : tiles 0 n (map span cs) -> nth_error cs k = Some c ->
    in_chunks cs (seq 0 (length cs)) P (EScan (Main i) v t) -> v_ground v = false -> begins_in c v = true ->
    P i /\ (c_start c <= v_start v < c_end c)%Z /\ (0 < length t)%nat /\ (v_start v + Z.of_nat (length t) <= c_end c)%Z
    /\ ret_hwp (v_hwp v) (length t) = Ok (hwp_deg v (length t)) /\ length (v_bore v) = length t.
  Proof.
    intros T Hk (k' & c' & Hk' & _ & W) Hv Hb. cbn in W. destruct W as [W|(Pi & W1 & W2 & W3 & W4)]; [congruence|].
    unfold begins_in in Hb. apply andb_prop in Hb. destruct Hb as [B1 B2]. apply Z.leb_le in B1. apply Z.ltb_lt in B2.
    assert (Ek : k' = k).
    { destruct (Nat.lt_total k k') as [L|[L|L]]; auto; [assert (X := tiles_apart _ _ _ _ _ _ _ T Hk Hk' L)
        |assert (X := tiles_apart _ _ _ _ _ _ _ T Hk' Hk L)]; lia. }
    subst k'. assert (c' = c) by congruence. subst c'. repeat split; auto; lia.
  Qed.

  Lemma saved_point E O s s' : o_save_point O = true -> o_ground O = false -> filters_keep_length O ->
    covers_mission E s -> rotation_ok s -> chunks_unmarked O s ->
    NoDup (map d_id (dets (s_beams s))) ->
    scan_instrument E O s = Ok s' ->
    exists new chunks, s_log s' = s_log s ++ new
      /\ tiles 0 (e_nsamp E) (map span chunks)
      /\ (forall l, s_chunks s = Some l \/ s_chunks s' = Some l -> chunks = map fst l)
      /\ forall i v t, In (EScan (Main i) v t) new -> v_ground v = false ->
           saved_in chunks (fun c => data_point s' c i) (v_start v) (map (e_pos E i v) (seq 0 (length t))).
  Proof.
    intros Hsp Hgr Hfl Hm Hr Hu ND H.
    assert (Hp : o_preview O = false).
    { unfold scan_instrument in H. destruct (negb (o_alm O) && negb (o_preview O)); [discriminate|].
      rewrite Hsp, orb_true_r, andb_true_r in H. destruct (o_preview O); [discriminate|reflexivity]. }
    destruct (scan_point E O s s' Hsp Hgr Hm Hr Hu ND H) as (new & cs & L & C & C' & T & Hnum & W & G).
    exists new, cs. split; auto. split; auto.
    split.
    { intros l [Hl|Hl]; [rename C into X|rename C' into X]; unfold chunks_used, used_chunks in X; rewrite Hl in X;
        injection X as <-; reflexivity. }
    intros i v t Hi Hv.
    assert (We := W _ Hi). assert (We' := We). destruct We' as (k & c & Hk & _ & [Wg|(Pi & W1 & W2 & _)]); [congruence|].
    assert (Bi : begins_in c v = true).
    { unfold begins_in. destruct (Z.leb_spec (c_start c) (v_start v)); [|lia]. destruct (Z.ltb_spec (v_start v) (c_end c)); auto. lia. }
    destruct (G k c Hk) as (G1 & _). specialize (G1 i Pi).
    destruct (live_observes E O s i Pi) as (d & Ed & Hd).
    assert (Tl : tiles 0 (e_nsamp E) (scanned (Main i) false new)).
    { destruct (scan_process E O s s' (fun _ => Hp) Hm Hr Hu Hfl ND H) as (new' & L' & Pr).
      rewrite L in L'. apply app_inv_head in L'. subst new'.
      destruct Hd as (Hdd & j & p & Ej & Hin & Hj). destruct (Pr j p d Ej Hin) as [Pr1 _].
      destruct (Pr1 Hj Hdd) as [Pr2 _]. rewrite Hp in Pr2. rewrite <- Ed. apply Pr2. }
    assert (Fit : forall w, In w (point_writes (e_pos E) i c new) -> (fst w + length (snd w) <= length (zero_point c))%nat).
    { intros w Hw. apply point_writes_in in Hw. destruct Hw as (v' & t' & Hi' & Hv' & Hb' & ->).
      destruct (write_fits cs _ _ k c i v' t' T Hk (W _ Hi') Hv' Hb') as (_ & F1 & F2 & F3 & _).
      cbn [fst snd]. rewrite map_length, seq_length. unfold zero_point, offset. rewrite repeat_length. unfold csize. lia. }
    assert (Len : length (s_point s' k i) = csize c).
    { rewrite G1, apply_length by exact Fit. apply repeat_length. }
    assert (Pos : (c_start c < c_end c)%Z) by lia.
    exists k, c, (s_point s' k i). split; auto. split.
    { unfold data_point. rewrite (Hnum _ _ Hk). destruct (s_point s' k i); auto. cbn in Len. unfold csize in Len. lia. }
    split; [rewrite Len; unfold csize; lia|]. split; [lia|].
    rewrite map_length, seq_length. split; [lia|]. intros j Hj.
    rewrite G1. apply apply_nth; [exact Fit| |].
    - intros w Hw Hc. apply point_writes_in in Hw. destruct Hw as (v' & t' & Hi' & Hv' & Hb' & ->).
      destruct (write_fits cs _ _ k c i v' t' T Hk (W _ Hi') Hv' Hb') as (_ & F1 & _).
      cbn [fst snd] in *. rewrite map_length, seq_length in Hc. unfold offset in *.
      destruct (scanned_same i new _ _ v t v' t' (v_start v + Z.of_nat j) Tl Hi Hv Hi' Hv') as [-> ->]; [lia|lia|].
      f_equal. lia.
    - right. exists (offset c v, map (e_pos E i v) (seq 0 (length t))).
      split; [apply in_point_writes; auto|]. cbn [fst snd]. rewrite map_length, seq_length. unfold offset. lia.
  Qed.

  Lemma saved_hwp E O s s' new chunks d v : well_set E O s -> o_save_point O = true -> o_ground O = false ->
    filters_keep_length O ->
    scan_instrument E O s = Ok s' -> s_log s' = s_log s ++ new -> chunks_used E s = Ok chunks ->
    observes E O s d -> In v (sky_views (d_id d) new) ->
    saved_in chunks (data_hwp s') (v_start v) (map (hwp_reading v) (seq 0 (length (v_bore v)))).
  Proof.
    intros Ws Hsp Hgr Hfl H L C Hd Hv. assert (Ws' := Ws). destruct Ws' as [Hm Hr Hu ND _ _ Hp _ _].
    destruct (scan_point E O s s' Hsp Hgr Hm Hr Hu ND H) as (new' & cs & L' & C' & _ & T & Hnum & W & G).
    rewrite L in L'. apply app_inv_head in L'. subst new'. rewrite C in C'. injection C' as <-.
    apply sky_in in Hv. destruct Hv as (Hv & t & Hi).
    assert (We := W _ Hi). destruct We as (k & c & Hk & _ & [Wg|(Pi & W1 & W2 & W3 & W4)]); [congruence|].
    assert (Bi : begins_in c v = true).
    { unfold begins_in. destruct (Z.leb_spec (c_start c) (v_start v)); [|lia]. destruct (Z.ltb_spec (v_start v) (c_end c)); auto. lia. }
    destruct (G k c Hk) as (_ & G2).
    assert (Hne : my_pairs E O s <> []).
    { intros Z0. destruct Hd as (_ & j & p & _ & _ & Hj). rewrite Z0 in Hj. contradiction. }
    specialize (G2 Hne).
    assert (Tl : tiles 0 (e_nsamp E) (scanned (Main (d_id d)) false new)).
    { destruct (scan_process E O s s' (fun _ => Hp) Hm Hr Hu Hfl ND H) as (new' & L' & Pr).
      rewrite L in L'. apply app_inv_head in L'. subst new'.
      destruct Hd as (Hdd & j & p & Ej & Hin & Hj). destruct (Pr j p d Ej Hin) as [Pr1 _].
      destruct (Pr1 Hj Hdd) as [Pr2 _]. rewrite Hp in Pr2. apply Pr2. }
    assert (Fit : forall w, In w (hwp_writes c new) -> (fst w + length (snd w) <= length (zero_hwp c))%nat).
    { intros w Hw. apply hwp_writes_in in Hw. destruct Hw as (i' & v' & t' & Hi' & Hv' & Hb' & ->).
      destruct (write_fits chunks _ _ k c i' v' t' T Hk (W _ Hi') Hv' Hb') as (_ & F1 & F2 & F3 & F4 & _).
      cbn [fst snd]. rewrite (ret_length _ _ _ F4). unfold zero_hwp, offset. rewrite repeat_length. unfold csize. lia. }
    assert (Len : length (s_hwps s' k) = csize c).
    { rewrite G2, apply_length by exact Fit. apply repeat_length. }
    rewrite W4, <- (ret_reading _ _ _ W3).
    exists k, c, (s_hwps s' k). split; auto. split.
    { unfold data_hwp. rewrite (Hnum _ _ Hk). destruct (s_hwps s' k); auto. cbn in Len. unfold csize in Len. lia. }
    split; [rewrite Len; unfold csize; lia|]. split; [lia|].
    rewrite (ret_length _ _ _ W3). split; [lia|]. intros j Hj.
    rewrite G2. apply apply_nth; [exact Fit| |].
    - intros w Hw Hc. apply hwp_writes_in in Hw. destruct Hw as (i' & v' & t' & Hi' & Hv' & Hb' & ->).
      destruct (write_fits chunks _ _ k c i' v' t' T Hk (W _ Hi') Hv' Hb') as (Pi' & F1 & F2 & F3 & F4 & F5).
      cbn [fst snd] in *. rewrite (ret_length _ _ _ F4) in Hc. unfold offset in *.
      destruct (live_observes E O s i' Pi') as (d' & Ed' & Hd').
      assert (Sv : In v' (sky_views (d_id d) new)).
      { rewrite (same_course E E O O s s s' s' new new d d'); auto. rewrite Ed'. eapply in_sky; eauto. }
      apply sky_in in Sv. destruct Sv as (_ & t2 & Hi2).
      destruct (write_fits chunks _ _ k c (d_id d) v' t2 T Hk (W _ Hi2) Hv' Hb') as (_ & _ & _ & _ & _ & F6).
      destruct (scanned_same (d_id d) new _ _ v t v' t2 (v_start v + Z.of_nat j) Tl Hi Hv Hi2 Hv') as [-> ->]; [lia|lia|].
      assert (Et : length t' = length t) by congruence. rewrite Et. f_equal. lia.
    - right. exists (offset c v, hwp_deg v (length t)).
      split; [eapply in_hwp_writes; eauto|]. cbn [fst snd]. rewrite (ret_length _ _ _ W3). unfold offset. lia.
  Qed.
End L.
