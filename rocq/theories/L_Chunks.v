(** * Proofs about mission chunking *)
From Verif Require Import Common LibList M_Chunks S_Chunks.
From Coq Require Import ZifyBool.
Open Scope Z_scope.
Ltac Zify.zify_post_hook ::= Z.div_mod_to_equations.

Lemma zceil_bounds a b : 0 < b -> (zceil_div a b - 1) * b < a <= zceil_div a b * b.
Proof. intros Hb. unfold zceil_div. nia. Qed.

Lemma zceil_unique a b q : 0 < b -> (q - 1) * b < a <= q * b -> zceil_div a b = q.
Proof. intros Hb H. pose proof (zceil_bounds a b Hb). nia. Qed.

(** ** partition_mission *)

Lemma mission_loop_tiles fuel nsamp cs start cidx :
  0 < cs -> (Z.of_nat fuel - 1) * cs < nsamp - start <= Z.of_nat fuel * cs ->
  (fuel <> 0%nat \/ start = nsamp) ->
  tiles start nsamp (map span (mission_loop fuel nsamp cs start cidx)).
Proof.
  revert start cidx; induction fuel as [|k IH]; intros start cidx Hcs Hb Hne.
  - simpl. nia.
  - cbn [mission_loop map span tiles c_start c_end].
    destruct (Z.geb_spec (start + cs) nsamp) as [Hge|Hlt].
    + destruct k.
      * cbn [mission_loop map tiles]. nia.
      * exfalso. nia.
    + split; [reflexivity|]. split; [lia|]. apply IH; try lia.
Qed.

Lemma mission_loop_length fuel nsamp cs start cidx :
  length (mission_loop fuel nsamp cs start cidx) = fuel.
Proof. revert start cidx; induction fuel; intros; simpl; auto. Qed.

Lemma mission_loop_nth fuel nsamp cs start cidx i c :
  nth_error (mission_loop fuel nsamp cs start cidx) i = Some c ->
  c = mkchunk (start + Z.of_nat i * cs)
        (if start + Z.of_nat i * cs + cs >=? nsamp then nsamp
         else start + Z.of_nat i * cs + cs)
        (Some (cidx + i)%nat) false.
Proof.
  revert start cidx i; induction fuel as [|k IH]; intros start cidx i H.
  - destruct i; discriminate.
  - destruct i as [|i]; cbn [mission_loop nth_error] in H.
    + injection H as <-. rewrite Nat.add_0_r.
      replace (start + Z.of_nat 0 * cs) with start by lia. reflexivity.
    + apply IH in H. subst c.
      replace (start + cs + Z.of_nat i * cs) with (start + Z.of_nat (S i) * cs) by lia.
      replace (S cidx + i)%nat with (cidx + S i)%nat by lia. reflexivity.
Qed.

Lemma partition_mission_ok nsamp chunksize :
  1 <= nsamp -> admissible chunksize ->
  let size := used_size nsamp chunksize in
  exists chunks,
    partition_mission nsamp chunksize = Ok chunks
    /\ tiles 0 nsamp (map span chunks)
    /\ forall i c, nth_error chunks i = Some c ->
         c_cidx c = Some i /\ c_norot c = false
         /\ c_end c - c_start c <= size
         /\ ((S i < length chunks)%nat -> c_end c - c_start c = size).
Proof.
  intros Hn Ha size.
  assert (Hsz : 0 < size <= nsamp).
  { unfold size, used_size. destruct chunksize as [c|]; [|lia].
    destruct (Z.ltb_spec 0 c), (Z.ltb_spec c nsamp); simpl; lia. }
  assert (Hcs : (match chunksize with
            | None => nsamp
            | Some c => if (c =? 0) || (c >=? nsamp) then nsamp else c
            end) = size).
  { unfold size, used_size. destruct chunksize as [c|]; [|lia]. simpl in Ha.
    destruct (Z.ltb_spec 0 c), (Z.ltb_spec c nsamp), (Z.eqb_spec c 0), (Z.geb_spec c nsamp);
      simpl; lia. }
  unfold partition_mission. rewrite Hcs.
  destruct (Z.eqb_spec size 0); [lia|].
  pose proof (zceil_bounds nsamp size ltac:(lia)) as Hc.
  set (nch := zceil_div nsamp size) in *.
  assert (Hpos : 1 <= nch) by nia.
  eexists; split; [reflexivity|]. split.
  - apply mission_loop_tiles; try lia; try nia.
  - intros i c H. pose proof (mission_loop_length (Z.to_nat nch) nsamp size 0 0) as HL.
    pose proof H as Hi. apply mission_loop_nth in H.
    assert (Hlt : (i < length (mission_loop (Z.to_nat nch) nsamp size 0 0))%nat)
      by (apply nth_error_Some; congruence).
    rewrite HL in *. subst c; cbn [c_start c_end c_cidx c_norot].
    split; [reflexivity|]. split; [reflexivity|].
    destruct (Z.geb_spec (0 + Z.of_nat i * size + size) nsamp); split; try lia; nia.
Qed.

Lemma partition_mission_empty chunksize : admissible chunksize ->
  partition_mission 0 chunksize = Err ZeroDivisionError.
Proof.
  intros H. unfold partition_mission. destruct chunksize as [c|]; [|reflexivity].
  simpl in H. destruct (Z.eqb_spec c 0), (Z.geb_spec c 0); simpl; auto; lia.
Qed.

Lemma partition_mission_negative nsamp c : 1 <= nsamp -> c < 0 ->
  partition_mission nsamp (Some c) = Ok [].
Proof.
  intros Hn Hc. unfold partition_mission.
  destruct (Z.eqb_spec c 0), (Z.geb_spec c nsamp); simpl; try lia.
  destruct (Z.eqb_spec c 0); [lia|].
  replace (Z.to_nat (zceil_div nsamp c)) with 0%nat; [reflexivity|].
  unfold zceil_div. nia.
Qed.

(** ** subpart_chunk *)

Lemma tiles_app lo mid hi l1 l2 :
  tiles lo mid l1 -> tiles mid hi l2 -> tiles lo hi (l1 ++ l2).
Proof.
  revert lo; induction l1 as [|[a b] l1 IH]; intros lo H1 H2; simpl in *.
  - now subst.
  - destruct H1 as (-> & Hab & H1). auto.
Qed.

Lemma tiles_le lo hi l : tiles lo hi l -> lo <= hi.
Proof.
  revert lo; induction l as [|[a b] l IH]; intros lo H; simpl in H; [lia|].
  destruct H as (-> & Hab & H). apply IH in H. lia.
Qed.

Lemma tiles_in lo hi l a b : tiles lo hi l -> In (a, b) l -> lo <= a /\ a < b /\ b <= hi.
Proof.
  revert lo; induction l as [|[a' b'] l IH]; intros lo H Hin; [contradiction|].
  simpl in H. destruct H as (-> & Hab & H). destruct Hin as [E|Hin].
  - injection E as -> ->. apply tiles_le in H. lia.
  - apply IH in H; auto. lia.
Qed.

Lemma full_rot_spec n start size cidx fulls last :
  full_rot_chunks n start size cidx = (fulls, last) -> 0 < size ->
  last = start + Z.of_nat n * size
  /\ tiles start last (map span fulls)
  /\ (forall s, In s fulls -> c_cidx s = cidx /\ c_norot s = false
        /\ c_end s = c_start s + size
        /\ exists j, 0 <= j < Z.of_nat n /\ c_start s = start + j * size).
Proof.
  revert start fulls last; induction n as [|n IH]; intros start fulls last H Hs; simpl in H.
  - injection H as <- <-. repeat split; simpl; try lia; contradiction.
  - destruct (full_rot_chunks n (start + size) size cidx) as [rest l2] eqn:E.
    injection H as <- <-. apply IH in E as (E1 & E2 & E3); auto.
    split; [lia|]. split.
    + cbn [map span tiles c_start c_end]. repeat split; auto; lia.
    + intros s [<-|Hin].
      * cbn. repeat split; auto. exists 0. lia.
      * apply E3 in Hin as (H1 & H2 & H3 & j & Hj & H4). repeat split; auto.
        exists (j + 1). lia.
Qed.

(** Rotation counts within a run of sub-chunks. *)
Lemma rotation_trace_app n l1 l2 :
  rotation_trace n (l1 ++ l2)
  = rotation_trace n l1
    ++ rotation_trace (n + count (fun s => negb (c_norot s)) l1) l2.
Proof.
  revert n; induction l1 as [|s l1 IH]; intros n.
  - simpl. unfold count; simpl. now rewrite Z.add_0_r.
  - cbn [app rotation_trace]. rewrite IH. cbn [app].
    f_equal. f_equal. f_equal. unfold count. cbn [filter].
    destruct (c_norot s); cbn [negb length]; lia.
Qed.

Lemma rotation_trace_in n l s m : In (s, m) (rotation_trace n l) -> In s l.
Proof.
  revert n; induction l as [|s' l IH]; intros n H; [contradiction|].
  cbn in H. destruct H as [H|H]; [left; congruence|right; eapply IH; eauto].
Qed.

Lemma rotation_trace_fulls n start size cidx k fulls last nrot :
  full_rot_chunks n start size cidx = (fulls, last) -> 0 < size ->
  start = k * size ->
  (forall s m, In (s, m) (rotation_trace nrot fulls) ->
     m = nrot + 1 + (c_start s / size - k))
  /\ count (fun s => negb (c_norot s)) fulls = Z.of_nat n.
Proof.
  revert start k nrot fulls last; induction n as [|n IH]; intros start k nrot fulls last H Hs Hk;
    simpl in H.
  - injection H as <- <-. split; [intros s m []|reflexivity].
  - destruct (full_rot_chunks n (start + size) size cidx) as [rest l2] eqn:E.
    injection H as <- <-.
    destruct (IH (start + size) (k + 1) (nrot + 1) rest l2 E Hs ltac:(lia)) as [H1 H2].
    split.
    + intros s m Hin. cbn [rotation_trace c_norot] in Hin. destruct Hin as [Hin|Hin].
      * injection Hin as <- <-. cbn [c_start]. rewrite Hk, Z.div_mul by lia. lia.
      * apply H1 in Hin. lia.
    + unfold count in *. cbn [filter c_norot negb length]. lia.
Qed.

Definition rot_ok (r : rot) (pos : Z) : Prop :=
  rot_period r = true /\ 0 < rot_chunk_size r
  /\ 0 <= rot_remainder r < rot_chunk_size r
  /\ (pos + rot_remainder r) mod rot_chunk_size r = 0.

(** All there is to know about splitting one chunk. *)
Lemma subpart_spec r c :
  rot_ok r (c_start c) -> c_start c < c_end c ->
  exists subs r',
    subpart_chunk r c = Ok (subs, r')
    /\ rot_period r' = true /\ rot_chunk_size r' = rot_chunk_size r
    /\ rot_ok r' (c_end c)
    /\ tiles (c_start c) (c_end c) (map span subs)
    /\ (forall s, In s subs -> c_cidx s = c_cidx c /\ in_one_period (rot_chunk_size r) (span s))
    /\ let p := rot_chunk_size r in
       let x := if inside_period p (span c) then 1 else 0 in
       (forall nrot s m, In (s, m) (rotation_trace nrot subs) ->
          m = nrot - (c_start c + rot_remainder r) / p + (c_start s / p + 1) + x)
       /\ count (fun s => negb (c_norot s)) subs
          = (c_end c + rot_remainder r') / p - (c_start c + rot_remainder r) / p + x.
Proof.
  intros (Hper & Hp & Hr & Hm) Hc.
  destruct r as [per p rem]. cbn [rot_period rot_chunk_size rot_remainder] in *.
  subst per. destruct c as [a b ci no]. cbn [c_start c_end c_cidx] in *.
  assert (exists k, a + rem = k * p) as [k Hk] by (exists ((a + rem) / p); lia).
  unfold subpart_chunk. cbn [rot_period rot_chunk_size rot_remainder negb c_start c_end c_cidx].
  destruct (Z.eqb_spec p 0) as [?|_]; [lia|].
  pose proof (zceil_bounds (b - a - rem) p Hp) as HB.
  set (q := zceil_div (b - a - rem) p) in *.
  unfold inside_period, span, set_rem, rot_ok; cbn [fst snd c_start c_end].
  assert (Hkd : (a + rem) / p = k) by (rewrite Hk; apply Z.div_mul; lia).
  rewrite Hkd.
  assert (Hin : (negb (a mod p =? 0) && (b <=? (a / p + 1) * p))
                = (b - a <=? rem)).
  { destruct (Z.leb_spec (b - a) rem).
    - assert (a / p = k - 1) by (symmetry; apply Z.div_unique with (p - rem); lia).
      assert (a mod p = p - rem) by (symmetry; apply Z.mod_unique with (k - 1); lia).
      apply andb_true_intro; split; [apply negb_true_iff; lia | nia].
    - destruct (Z.eqb_spec rem 0).
      + assert (a mod p = 0) as -> by (subst rem; rewrite Z.add_0_r in Hk; rewrite Hk; apply Z.mod_mul; lia).
        reflexivity.
      + assert (a / p = k - 1) by (symmetry; apply Z.div_unique with (p - rem); lia).
        apply andb_false_intro2. nia. }
  rewrite Hin.
  destruct (Z.ltb_spec q 1) as [Hq1|Hq1].
  - (* q < 1: the remainder covers the chunk *)
    rewrite Z.eqb_refl.
    destruct (Z.geb_spec rem (b - a)) as [Hge|Hlt]; [|nia].
    destruct (Z.leb_spec (b - a) rem); [|lia].
    do 2 eexists. split; [reflexivity|]. cbn.
    split; [reflexivity|]. split; [reflexivity|].
    split; [repeat split; try lia; replace (b + (rem - (b - a))) with (k * p) by lia; apply Z.mod_mul; lia|].
    split; [repeat split; lia|].
    assert (Hne : rem <> 0) by lia.
    assert (Ha : a / p = k - 1) by (symmetry; apply Z.div_unique with (p - rem); lia).
    split.
    { intros s [<-|[]]. split; [reflexivity|]. exists (k - 1). cbn. nia. }
    replace (b + (rem - (b - a))) with (k * p) by lia.
    rewrite Z.div_mul by lia.
    split; [intros nrot s m [E|[]]; injection E as <- <-; cbn; lia | unfold count; cbn; lia].
  - destruct (Z.eqb_spec q 1) as [Hq|Hq].
    + destruct (Z.geb_spec rem (b - a)) as [Hge|Hlt]; [exfalso; nia|].
      destruct (Z.leb_spec (b - a) rem); [lia|].
      do 2 eexists. split; [reflexivity|]. cbn [rot_period rot_chunk_size rot_remainder].
      split; [reflexivity|]. split; [reflexivity|].
      assert (Hend : b + (p - (b - (rem + a))) = (k + 1) * p) by lia.
      rewrite Hend.
      split; [repeat split; try lia; apply Z.mod_mul; lia|].
      rewrite Z.div_mul by lia.
      assert (Hk0 : (rem + a) / p = k) by (replace (rem + a) with (k * p) by lia; apply Z.div_mul; lia).
      destruct (Z.eqb_spec rem 0) as [Hr0|Hr0].
      * subst rem. cbn. split; [repeat split; lia|].
        split.
        { intros s [<-|[]]. split; [reflexivity|]. exists k. cbn. nia. }
        split; [intros nrot s m [E|[]]; injection E as <- <-; cbn in *; lia | unfold count; cbn; lia].
      * assert (Ha : a / p = k - 1) by (symmetry; apply Z.div_unique with (p - rem); lia).
        cbn. split; [repeat split; lia|].
        split.
        { intros s [<-|[<-|[]]]; (split; [reflexivity|]).
          - exists (k - 1). cbn. nia.
          - exists k. cbn. nia. }
        split; [intros nrot s m [E|[E|[]]]; injection E as <- <-; cbn in *; lia | unfold count; cbn; lia].
    + destruct (Z.leb_spec (b - a) rem); [exfalso; nia|].
      destruct (full_rot_chunks (Z.to_nat (q - 1)) (rem + a) p ci) as [fulls last] eqn:E.
      pose proof (full_rot_spec _ _ _ _ _ _ E Hp) as (F1 & F2 & F3).
      rewrite Z2Nat.id in F1, F3 by lia.
      assert (Hstart : rem + a = k * p) by lia.
      pose proof (fun nrot => rotation_trace_fulls _ _ _ _ k _ _ nrot E Hp Hstart) as F4.
      assert (Hlast : last = (k + q - 1) * p) by lia.
      assert (Hld : last / p = k + q - 1) by (rewrite Hlast; apply Z.div_mul; lia).
      assert (Htail : last < b <= last + p) by nia.
      assert (Hend : b + (p - (b - last)) = (k + q) * p) by lia.
      assert (Hfc : count (fun s => negb (c_norot s)) fulls = q - 1)
        by (destruct (F4 0) as [_ ->]; lia).
      assert (TT : tiles (rem + a) b (map span (fulls ++ [mkchunk last b ci false]))).
      { rewrite map_app. apply tiles_app with last; auto. cbn. repeat split; lia. }
      assert (PP : forall s, In s (fulls ++ [mkchunk last b ci false]) ->
                 c_cidx s = ci /\ in_one_period p (c_start s, c_end s)).
      { intros s Hs. apply in_app_or in Hs as [Hs|[<-|[]]].
        - apply F3 in Hs as (H1 & _ & H3 & j & Hj & H4). split; [exact H1|].
          exists (k + j). cbn. nia.
        - split; [reflexivity|]. exists (k + q - 1). cbn. nia. }
      assert (RR : forall nrot s m,
          In (s, m) (rotation_trace nrot (fulls ++ [mkchunk last b ci false])) ->
          m = nrot - k + (c_start s / p + 1)).
      { intros nrot s m Hs. rewrite rotation_trace_app in Hs. apply in_app_or in Hs as [Hs|Hs].
        - apply (F4 nrot) in Hs. lia.
        - cbn in Hs. destruct Hs as [Hs|[]]. injection Hs as <- <-. rewrite Hfc. cbn. lia. }
      assert (CC : count (fun s => negb (c_norot s)) (fulls ++ [mkchunk last b ci false]) = q).
      { unfold count in *. rewrite filter_app, app_length. cbn [filter c_norot negb length]. lia. }
      destruct (Z.eqb_spec rem 0) as [Hr0|Hr0].
      * subst rem. replace (0 + a) with a in * by lia. rewrite E.
        do 2 eexists. split; [reflexivity|]. cbn [rot_period rot_chunk_size rot_remainder app].
        split; [reflexivity|]. split; [reflexivity|]. rewrite Hend.
        split; [repeat split; try lia; apply Z.mod_mul; lia|].
        rewrite Z.div_mul by lia.
        split; [exact TT|]. split; [exact PP|].
        split; [intros nrot s m Hs; apply RR in Hs; lia | rewrite CC; lia].
      * rewrite E.
        assert (Ha : a / p = k - 1) by (symmetry; apply Z.div_unique with (p - rem); lia).
        do 2 eexists. split; [reflexivity|]. cbn [rot_period rot_chunk_size rot_remainder app].
        split; [reflexivity|]. split; [reflexivity|]. rewrite Hend.
        split; [repeat split; try lia; apply Z.mod_mul; lia|].
        rewrite Z.div_mul by lia.
        split.
        { cbn [map span tiles c_start c_end]. repeat split; try lia. exact TT. }
        split.
        { intros s [<-|Hs]; [|apply PP; exact Hs]. split; [reflexivity|].
          exists (k - 1). cbn. nia. }
        split.
        { intros nrot s m Hs. cbn [rotation_trace c_norot] in Hs. destruct Hs as [Hs|Hs].
          - injection Hs as <- <-. cbn. lia.
          - apply RR in Hs. lia. }
        { unfold count in *. cbn [filter c_norot negb]. lia. }
Qed.

(** ** All chunks *)

Lemma subpart_all_spec r lo hi chunks :
  rot_ok r lo -> tiles lo hi (map span chunks) ->
  exists subss r',
    subpart_all r chunks = Ok (subss, r')
    /\ rot_ok r' hi /\ rot_chunk_size r' = rot_chunk_size r
    /\ length subss = length chunks
    /\ tiles lo hi (map span (concat subss))
    /\ (forall j c subs, nth_error chunks j = Some c -> nth_error subss j = Some subs ->
          tiles (c_start c) (c_end c) (map span subs)
          /\ forall s, In s subs -> c_cidx s = c_cidx c)
    /\ (forall s, In s (concat subss) -> in_one_period (rot_chunk_size r) (span s))
    /\ let p := rot_chunk_size r in
       forall nrot s m k, In (s, m) (rotation_trace nrot (concat subss)) ->
         c_start s <= k < c_end s ->
         m - 1 = nrot - (lo + rot_remainder r) / p + k / p
             + count (inside_period p) (filter (fun ab => fst ab <=? k) (map span chunks)).
Proof.
  revert r lo; induction chunks as [|c chunks IH]; intros r lo Hr HT.
  - simpl in HT. subst lo. exists [], r. repeat split; auto; try reflexivity;
      try (apply Hr); try contradiction; try (destruct j; discriminate).
  - cbn [map span tiles] in HT. destruct HT as (Hlo & Hlt & HT).
    subst lo. destruct (subpart_spec r c Hr Hlt)
      as (subs & r1 & E1 & Hp1 & Hs1 & Hr1 & T1 & P1 & R1 & C1).
    destruct (IH r1 (c_end c) Hr1 HT) as (more & r2 & E2 & Hr2 & Hs2 & L2 & T2 & N2 & P2 & R2).
    exists (subs :: more), r2.
    cbn [subpart_all]. rewrite E1. cbn [bind]. rewrite E2. cbn [bind].
    split; [reflexivity|]. split; [exact Hr2|]. split; [congruence|].
    split; [simpl; congruence|].
    split; [cbn [concat]; rewrite map_app; eapply tiles_app; eauto|].
    split.
    { intros [|j] c' subs' Hc Hs; cbn [nth_error] in *.
      - injection Hc as <-. injection Hs as <-. split; [exact T1|]. intros s Hin. apply P1; auto.
      - eapply N2; eauto. }
    split.
    { intros s Hin. cbn [concat] in Hin. apply in_app_or in Hin as [Hin|Hin].
      - apply P1; auto.
      - rewrite <- Hs1. apply P2; auto. }
    cbv zeta. rewrite Hs1 in R2. intros nrot s m k Hin Hk.
    cbn [concat] in Hin. rewrite rotation_trace_app in Hin.
    assert (Hp : 0 < rot_chunk_size r) by apply Hr.
    apply in_app_or in Hin as [Hin|Hin].
    + pose proof Hin as Hin'. apply R1 in Hin.
      assert (Hs : In s subs) by (eapply rotation_trace_in; eauto).
      pose proof (P1 s Hs) as (_ & kk & Hk1 & Hk2). cbn [span fst snd] in Hk1, Hk2.
      assert (Hd : c_start s / rot_chunk_size r = kk)
        by (symmetry; apply Z.div_unique with (c_start s - kk * rot_chunk_size r); lia).
      assert (Hd2 : k / rot_chunk_size r = kk)
        by (symmetry; apply Z.div_unique with (k - kk * rot_chunk_size r); lia).
      assert (Hsp : c_start c <= c_start s /\ c_start s < c_end s /\ c_end s <= c_end c)
        by (apply (tiles_in _ _ (map span subs)); [exact T1| now apply (in_map span)]).
      cbn [map filter span fst]. destruct (Z.leb_spec (c_start c) k); [|lia].
      assert (HF : filter (fun ab : Z * Z => fst ab <=? k) (map span chunks) = []).
      { clear -HT Hsp Hk. assert (H : k < c_end c) by lia. clear Hsp Hk.
        remember (map span chunks) as l eqn:El. clear El.
        assert (HH : forall ab, In ab l -> k < fst ab).
        { intros [a' b'] Hin. apply (tiles_in _ _ _ _ _ HT) in Hin. cbn. lia. }
        clear HT. induction l as [|ab l IHl]; [reflexivity|]. cbn [filter].
        destruct (Z.leb_spec (fst ab) k).
        - specialize (HH ab (or_introl eq_refl)). lia.
        - apply IHl. intros; apply HH; now right. }
      rewrite HF. unfold count. cbn [filter].
      change (c_start c, c_end c) with (span c).
      destruct (inside_period (rot_chunk_size r) (span c)); cbn [length]; lia.
    + pose proof (rotation_trace_in _ _ _ _ Hin) as Hmem.
      rewrite C1 in Hin. apply R2 with (k := k) in Hin; [|exact Hk].
      assert (Hs : c_end c <= c_start s)
        by exact (proj1 (tiles_in _ _ _ _ _ T2 (in_map span _ _ Hmem))).
      cbn [map filter span fst]. destruct (Z.leb_spec (c_start c) k); [|lia].
      unfold count in *. cbn [filter].
      change (c_start c, c_end c) with (span c).
      destruct (inside_period (rot_chunk_size r) (span c)); cbn [length]; lia.
Qed.

Lemma fresh_ok p : 0 < p -> rot_ok (fresh_rot p) 0.
Proof. intros H. repeat split; cbn; try lia. Qed.

Lemma subpart_all_fresh p n chunks :
  0 < p -> tiles 0 n (map span chunks) ->
  exists subss r',
    subpart_all (fresh_rot p) chunks = Ok (subss, r')
    /\ length subss = length chunks
    /\ tiles 0 n (map span (concat subss))
    /\ (forall j c subs, nth_error chunks j = Some c -> nth_error subss j = Some subs ->
          tiles (c_start c) (c_end c) (map span subs)
          /\ forall s, In s subs -> c_cidx s = c_cidx c)
    /\ (forall s, In s (concat subss) -> in_one_period p (span s)).
Proof.
  intros Hp HT.
  destruct (subpart_all_spec _ _ _ _ (fresh_ok p Hp) HT) as (ss & r' & E & _ & _ & L & T & N & P & _).
  exists ss, r'. auto.
Qed.

Lemma rotation_exact p n chunks subss r' s m k :
  0 < p -> tiles 0 n (map span chunks) ->
  subpart_all (fresh_rot p) chunks = Ok (subss, r') ->
  In (s, m) (rotation_trace 0 (concat subss)) ->
  c_start s <= k < c_end s ->
  m - 1 = k / p + count (inside_period p) (filter (fun ab => fst ab <=? k) (map span chunks)).
Proof.
  intros Hp HT E Hin Hk.
  destruct (subpart_all_spec _ _ _ _ (fresh_ok p Hp) HT) as (ss & r1 & E1 & _ & _ & L & T & N & P & R).
  rewrite E in E1. injection E1 as <- <-.
  specialize (R 0 s m k Hin Hk). cbn [fresh_rot rot_chunk_size rot_remainder] in R.
  rewrite Z.div_0_l in R by lia. exact R.
Qed.

Lemma count_none {A} (f g : A -> bool) l :
  (forall x, In x l -> f x = false) -> count f (filter g l) = 0.
Proof.
  intros H. unfold count. replace (filter f (filter g l)) with (@nil A); [reflexivity|].
  induction l as [|x l IH]; [reflexivity|]. cbn [filter].
  destruct (g x); cbn [filter].
  - rewrite (H x (or_introl eq_refl)). apply IH. intros; apply H; now right.
  - apply IH. intros; apply H; now right.
Qed.

Lemma rotation_when_periods_not_cut p n chunks subss r' s m k :
  0 < p -> tiles 0 n (map span chunks) ->
  (forall c, In c chunks -> inside_period p (span c) = false) ->
  subpart_all (fresh_rot p) chunks = Ok (subss, r') ->
  In (s, m) (rotation_trace 0 (concat subss)) ->
  c_start s <= k < c_end s ->
  m - 1 = k / p.
Proof.
  intros Hp HT Hno E Hin Hk. rewrite (rotation_exact _ _ _ _ _ _ _ _ Hp HT E Hin Hk).
  rewrite count_none; [lia|].
  intros ab Hab. apply in_map_iff in Hab as (c & <- & Hc). auto.
Qed.

(** Each sample of the mission is in one sub-chunk of the trace. *)
Lemma tiles_sample lo hi l k : tiles lo hi l -> lo <= k < hi ->
  exists a b, In (a, b) l /\ a <= k < b.
Proof.
  revert lo; induction l as [|[a b] l IH]; intros lo H Hk; simpl in H; [lia|].
  destruct H as (-> & Hab & H). destruct (Z.lt_ge_cases k b).
  - exists lo, b. split; [now left|lia].
  - destruct (IH b H ltac:(lia)) as (a' & b' & Hin & Hk'). exists a', b'. split; [now right|auto].
Qed.

Lemma rotation_trace_fst n l : map fst (rotation_trace n l) = l.
Proof. revert n; induction l; intros; cbn; congruence. Qed.

(** A chunk shorter than the period makes the instrument rotate early. *)
Lemma early_rotation_witness :
  exists p n size chunks subss r' s m k,
    0 < p /\ partition_mission n (Some size) = Ok chunks
    /\ subpart_all (fresh_rot p) chunks = Ok (subss, r')
    /\ In (s, m) (rotation_trace 0 (concat subss))
    /\ c_start s <= k < c_end s
    /\ m - 1 <> k / p.
Proof.
  exists 10, 20, 4.
  do 3 eexists. exists (mkchunk 4 8 (Some 1%nat) false), 2, 5.
  split; [lia|]. split; [vm_compute; reflexivity|].
  split; [vm_compute; reflexivity|].
  split; [vm_compute; tauto|].
  split; [cbn; lia|]. vm_compute. discriminate.
Qed.

(** ** Storage slices *)

Lemma tiles_shift d lo hi l :
  tiles lo hi l -> tiles (lo - d) (hi - d) (map (fun ab => (fst ab - d, snd ab - d)) l).
Proof.
  revert lo; induction l as [|[a b] l IH]; intros lo H; simpl in *; [lia|].
  destruct H as (-> & Hab & H). repeat split; try lia. auto.
Qed.

Lemma slices_tile_chunk p n chunks subss r' j c subs :
  0 < p -> tiles 0 n (map span chunks) ->
  (forall i c, nth_error chunks i = Some c -> c_cidx c = Some i) ->
  subpart_all (fresh_rot p) chunks = Ok (subss, r') ->
  nth_error chunks j = Some c -> nth_error subss j = Some subs ->
  exists slices,
    map (chunk2idx chunks) subs = map Ok slices
    /\ tiles 0 (c_end c - c_start c) slices
    /\ Forall2 (fun s sl => snd sl - fst sl = c_end s - c_start s
                          /\ fst sl + c_start c = c_start s) subs slices.
Proof.
  intros Hp HT Hci E Hc Hs.
  destruct (subpart_all_fresh p n chunks Hp HT) as (ss & r1 & E1 & L & T & N & P).
  rewrite E in E1. injection E1 as <- <-.
  destruct (N j c subs Hc Hs) as [HT1 HI].
  exists (map (fun ab => (fst ab - c_start c, snd ab - c_start c)) (map span subs)).
  split; [|split].
  - rewrite !map_map. apply map_ext_in. intros s Hin.
    unfold chunk2idx. rewrite (HI s Hin), (Hci j c Hc), Hc. reflexivity.
  - apply (tiles_shift (c_start c)) in HT1. replace (c_start c - c_start c) with 0 in HT1 by lia. exact HT1.
  - clear. induction subs; cbn; constructor; auto. cbn. lia.
Qed.

Lemma slices_without_rotation chunks i c :
  nth_error chunks i = Some c -> c_cidx c = Some i ->
  subpart_chunk (mkrot false 0 0) c = Ok ([c], mkrot false 0 0)
  /\ chunk2idx chunks c = Ok (0, c_end c - c_start c).
Proof.
  intros H Hc. split; [reflexivity|]. unfold chunk2idx. rewrite Hc, H.
  now replace (c_start c - c_start c) with 0 by lia.
Qed.
