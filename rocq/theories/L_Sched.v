(** * Proofs about schedule partitioning *)
From Verif Require Import Common LibList M_Chunks M_Sched S_Sched.
From Coq Require Import Lqa ZifyBool.
Open Scope Q_scope.

Lemma qle_bool_spec a b : reflect (a <= b) (Qle_bool a b).
Proof. apply iff_reflect. symmetry. apply Qle_bool_iff. Qed.

Lemma qeq_bool_spec a b : reflect (a == b) (Qeq_bool a b).
Proof. apply iff_reflect. symmetry. apply Qeq_bool_iff. Qed.

Lemma qtrunc_floor q : 0 <= q -> qtrunc q = Qfloor q.
Proof. intros H. unfold qtrunc. destruct (qle_bool_spec 0 q); [reflexivity|contradiction]. Qed.

Lemma floor_add q z : Qfloor (q + inject_Z z) = (Qfloor q + z)%Z.
Proof.
  pose proof (Qfloor_le q) as H1. pose proof (Qlt_floor q) as H2.
  pose proof (Qfloor_le (q + inject_Z z)) as H3. pose proof (Qlt_floor (q + inject_Z z)) as H4.
  rewrite inject_Z_plus in H2, H4.
  assert (A : inject_Z (Qfloor (q + inject_Z z)) < inject_Z (Qfloor q + z + 1)).
  { rewrite !inject_Z_plus. lra. }
  assert (B : inject_Z (Qfloor q + z) < inject_Z (Qfloor (q + inject_Z z) + 1)).
  { rewrite !inject_Z_plus. lra. }
  rewrite <- Zlt_Qlt in A, B. lia.
Qed.

Lemma floor_Z z : Qfloor (inject_Z z) = z.
Proof. apply Qfloor_Z. Qed.

Lemma chain_app lo mid hi l1 l2 : chain lo mid l1 -> chain mid hi l2 -> chain lo hi (l1 ++ l2).
Proof.
  revert lo; induction l1 as [|[a b] l1 IH]; intros lo H1 H2; cbn in *.
  - now subst.
  - destruct H1 as (-> & H & H1). auto.
Qed.

Lemma chain_comp lo hi hi' l : chain lo hi l -> hi = hi' -> chain lo hi' l.
Proof. intros; now subst. Qed.

Definition qmin (a b : Q) : Q := if Qle_bool a b then a else b.

(** What the entries of one scan look like; [j0] is the number of the first. *)
Definition entry_ok (cs chunknum : Z) (fs samplenum nfull : Q) (c : ces) (bound : Z) (k : nat)
  (i : nat) (e : entry) : Prop :=
  c_cidx (e_chunk e) = Some (Z.to_nat (chunknum + Z.of_nat (k + i)))
  /\ e_ces e = c
  /\ e_tstart e == t0 c + inject_Z (Z.of_nat (k + i)) * inject_Z cs / fs
  /\ (c_end (e_chunk e) - c_start (e_chunk e) <= bound)%Z
  /\ c_start (e_chunk e) = Qfloor (samplenum + inject_Z (Z.of_nat (k + i)) * inject_Z cs)
  /\ (c_end (e_chunk e) <= Qfloor (samplenum + nfull))%Z.

Lemma ces_loop_SS f k cs nsamp chunknum fs samplenum nfull c start tstart :
  ces_loop (S (S f)) k cs nsamp chunknum fs samplenum nfull c start tstart
  = let e := start + inject_Z cs in
    let e := if Qle_bool (inject_Z nsamp) e then inject_Z nsamp else e in
    let '(new, start', tstart') :=
      if Qeq_bool e start then ([], start, tstart)
      else ([mkentry (mkchunk (qtrunc start) (qtrunc e)
                        (Some (Z.to_nat (chunknum + Z.of_nat k))) false) tstart c],
            start + inject_Z cs, tstart + inject_Z cs / fs) in
    if Qle_bool (inject_Z nsamp) start' then (new, e, k, true)
    else
      let '(rest, e', k', d) :=
        ces_loop (S f) (S k) cs nsamp chunknum fs samplenum nfull c start' tstart' in
      (new ++ rest, e', k', d).
Proof. reflexivity. Qed.

Lemma ces_loop_spec f : forall k cs nsamp chunknum fs samplenum nfull c start tstart bound,
  (0 <= cs)%Z -> (f <> O -> 0 < cs)%Z -> 0 < fs -> 0 <= samplenum -> 0 < nfull ->
  start == samplenum + inject_Z (Z.of_nat k) * inject_Z cs ->
  tstart == t0 c + inject_Z (Z.of_nat k) * inject_Z cs / fs ->
  start < inject_Z nsamp ->
  inject_Z (Z.of_nat f) * inject_Z cs < samplenum + nfull - start ->
  (cs <= bound)%Z ->
  samplenum + nfull - start <= inject_Z (Z.of_nat f) * inject_Z cs + inject_Z bound ->
  exists new e k' d,
    ces_loop (S f) k cs nsamp chunknum fs samplenum nfull c start tstart = (new, e, k', d)
    /\ new <> []
    /\ chain (Qfloor start) (Qfloor e) (map espan new)
    /\ e == qmin (inject_Z nsamp) (samplenum + nfull)
    /\ (forall i x, nth_error new i = Some x -> entry_ok cs chunknum fs samplenum nfull c bound k i x)
    /\ k' = (k + length new - 1)%nat
    /\ (d = false -> k' = (k + f)%nat)
    /\ (d = true -> inject_Z nsamp <= samplenum + inject_Z (Z.of_nat (k + f + 1)) * inject_Z cs)
    /\ (length new <= S f)%nat.
Proof.
  induction f as [|f IH]; intros k cs nsamp chunknum fs samplenum nfull c start tstart bound
    Hcs Hcs1 Hfs Hsn Hnf Hst Hts Hlt Hrem Hb Hrb.
  - cbn [ces_loop].
    set (e := if Qle_bool (inject_Z nsamp) (samplenum + nfull) then inject_Z nsamp
              else samplenum + nfull).
    assert (Hst0 : 0 <= start).
    { rewrite Hst. assert (0 <= inject_Z (Z.of_nat k) * inject_Z cs); [|lra].
      rewrite <- inject_Z_mult. change 0 with (inject_Z 0). rewrite <- Zle_Qle. lia. }
    assert (HZ : inject_Z (Z.of_nat 0) * inject_Z cs == 0) by (cbn; ring).
    rewrite HZ in Hrem, Hrb.
    assert (He : start < e /\ e <= samplenum + nfull).
    { unfold e. destruct (qle_bool_spec (inject_Z nsamp) (samplenum + nfull)); split; lra. }
    destruct (qeq_bool_spec e start) as [Heq|Hne]; [exfalso; lra|].
    assert (HF : (Qfloor start <= Qfloor e)%Z) by (apply Qfloor_resp_le; lra).
    assert (Hbd : (Qfloor e - Qfloor start <= bound)%Z).
    { assert (Qfloor e <= Qfloor (start + inject_Z bound))%Z by (apply Qfloor_resp_le; lra).
      rewrite floor_add in H. lia. }
    set (new := [mkentry (mkchunk (qtrunc start) (qtrunc e)
                          (Some (Z.to_nat (chunknum + Z.of_nat k))) false) tstart c]).
    assert (Hent : forall i x, nth_error new i = Some x -> entry_ok cs chunknum fs samplenum nfull c bound k i x).
    { intros [|i] x H; [|destruct i; discriminate]. injection H as <-.
      unfold entry_ok. rewrite Nat.add_0_r. cbn [e_chunk e_ces e_tstart c_cidx c_start c_end].
      rewrite !qtrunc_floor by lra. repeat split; auto.
      - apply Qfloor_comp. exact Hst.
      - apply Qfloor_resp_le. lra. }
    assert (Hch : chain (Qfloor start) (Qfloor e) (map espan new)).
    { cbn. rewrite !qtrunc_floor by lra. auto. }
    assert (Hem : e == qmin (inject_Z nsamp) (samplenum + nfull)) by reflexivity.
    destruct (qle_bool_spec (inject_Z nsamp) (start + inject_Z cs)).
    + exists new, e, k, true. split; [reflexivity|].
      split; [discriminate|]. split; [exact Hch|]. split; [exact Hem|]. split; [exact Hent|].
      split; [cbn; lia|]. split; [discriminate|]. split; [|cbn; lia]. intros _.
      rewrite Nat.add_0_r, Nat2Z.inj_add, inject_Z_plus.
      change (inject_Z (Z.of_nat 1)) with 1. lra.
    + exists new, e, k, false. split; [reflexivity|].
      split; [discriminate|]. split; [exact Hch|]. split; [exact Hem|]. split; [exact Hent|].
      split; [cbn; lia|]. split; [lia|]. split; [discriminate|cbn; lia].
  - rewrite ces_loop_SS. cbv zeta.
    set (g := S f) in *.
    set (e := if Qle_bool (inject_Z nsamp) (start + inject_Z cs) then inject_Z nsamp
              else start + inject_Z cs).
    assert (Hcsq : 0 <= inject_Z cs) by (change 0 with (inject_Z 0); rewrite <- Zle_Qle; lia).
    assert (Hst0 : 0 <= start).
    { rewrite Hst. assert (0 <= inject_Z (Z.of_nat k) * inject_Z cs); [|lra].
      rewrite <- inject_Z_mult. change 0 with (inject_Z 0). rewrite <- Zle_Qle. lia. }
    assert (HSf : inject_Z (Z.of_nat g) * inject_Z cs
                  == inject_Z (Z.of_nat f) * inject_Z cs + inject_Z cs).
    { unfold g. rewrite Nat2Z.inj_succ. unfold Z.succ. rewrite inject_Z_plus. cbn. ring. }
    rewrite HSf in Hrem, Hrb.
    assert (Hfp : 0 <= inject_Z (Z.of_nat f) * inject_Z cs).
    { rewrite <- inject_Z_mult. change 0 with (inject_Z 0). rewrite <- Zle_Qle. lia. }
    assert (Hcpos : 0 < inject_Z cs)
      by (change 0 with (inject_Z 0); rewrite <- Zlt_Qlt; apply Hcs1; discriminate).
    assert (Hee : start < e /\ e <= start + inject_Z cs).
    { unfold e. destruct (qle_bool_spec (inject_Z nsamp) (start + inject_Z cs)); split; lra. }
    destruct (qeq_bool_spec e start) as [Heq|Hne]; [exfalso; lra|].
    assert (HF : (Qfloor start <= Qfloor e)%Z) by (apply Qfloor_resp_le; lra).
    assert (Hbd : (Qfloor e - Qfloor start <= bound)%Z).
    { assert (Qfloor e <= Qfloor (start + inject_Z cs))%Z by (apply Qfloor_resp_le; lra).
      rewrite floor_add in H. lia. }
    set (x0 := mkentry (mkchunk (qtrunc start) (qtrunc e)
                          (Some (Z.to_nat (chunknum + Z.of_nat k))) false) tstart c).
    assert (Hx0 : entry_ok cs chunknum fs samplenum nfull c bound k 0 x0).
    { unfold entry_ok, x0. rewrite Nat.add_0_r. cbn [e_chunk e_ces e_tstart c_cidx c_start c_end].
      rewrite !qtrunc_floor by lra. repeat split; auto.
      - apply Qfloor_comp. exact Hst.
      - apply Qfloor_resp_le. lra. }
    destruct (qle_bool_spec (inject_Z nsamp) (start + inject_Z cs)) as [Hdone|Hgo].
    + exists [x0], e, k, true. split; [reflexivity|]. split; [discriminate|].
      split; [cbn; rewrite !qtrunc_floor by lra; auto|].
      split.
      { unfold e, qmin. destruct (qle_bool_spec (inject_Z nsamp) (samplenum + nfull)); [reflexivity|lra]. }
      split.
      { intros [|i] x H; [|destruct i; discriminate]. injection H as <-. exact Hx0. }
      split; [cbn; lia|]. split; [discriminate|]. split; [|cbn; lia]. intros _.
      rewrite !Nat2Z.inj_add, !inject_Z_plus.
      change (inject_Z (Z.of_nat 1)) with 1. lra.
    + assert (Ee : e = start + inject_Z cs) by reflexivity.
      assert (HSk : inject_Z (Z.of_nat (S k)) == inject_Z (Z.of_nat k) + 1).
      { rewrite Nat2Z.inj_succ. unfold Z.succ. rewrite inject_Z_plus. reflexivity. }
      destruct (IH (S k) cs nsamp chunknum fs samplenum nfull c (start + inject_Z cs)
                  (tstart + inject_Z cs / fs) bound)
        as (new & e' & k' & d & E & Hnn & Hch & Hem & Hent & Hk & Hd0 & Hd1 & Hl); auto; try lra.
      { intros _. apply Hcs1. discriminate. }
      { rewrite HSk, Hst. ring. }
      { rewrite HSk, Hts. field. lra. }
      fold g in E. rewrite E.
      exists (x0 :: new), e', k', d. split; [reflexivity|]. split; [discriminate|].
      split.
      { cbn [map chain espan x0 e_chunk c_start c_end]. rewrite !qtrunc_floor by lra.
        split; [reflexivity|]. split; [exact HF|]. rewrite Ee. exact Hch. }
      split; [exact Hem|].
      split.
      { intros [|i] x H; cbn [nth_error] in H.
        - injection H as <-. exact Hx0.
        - apply Hent in H. unfold entry_ok in *. replace (k + S i)%nat with (S k + i)%nat by lia. exact H. }
      assert (length new <> 0)%nat by (destruct new; [congruence|discriminate]).
      split; [cbn [length]; lia|]. split; [intros Hd; apply Hd0 in Hd; unfold g; lia|].
      split; [intros Hd; apply Hd1 in Hd; replace (k + g + 1)%nat with (S k + f + 1)%nat by (unfold g; lia); exact Hd|]. cbn [length]. unfold g. lia.
Qed.

Lemma ces_loop_full f k cs nsamp chunknum fs samplenum nfull c start tstart :
  (0 <= cs)%Z -> 0 < nfull -> samplenum == inject_Z nsamp -> start == samplenum ->
  ces_loop (S f) k cs nsamp chunknum fs samplenum nfull c start tstart
  = ([], inject_Z nsamp, k, true).
Proof.
  intros Hcs Hnf Hsn Hst.
  assert (Hcsq : 0 <= inject_Z cs) by (change 0 with (inject_Z 0); rewrite <- Zle_Qle; lia).
  cbn [ces_loop].
  set (e := match f with O => _ | _ => _ end).
  assert (He : inject_Z nsamp <= e) by (unfold e; destruct f; lra).
  destruct (qle_bool_spec (inject_Z nsamp) e) as [_|]; [|contradiction].
  destruct (qeq_bool_spec (inject_Z nsamp) start) as [_|Hn]; [|exfalso; apply Hn; lra].
  destruct (qle_bool_spec (inject_Z nsamp) start) as [_|Hn]; [reflexivity|exfalso; apply Hn; lra].
Qed.

Lemma ces_sizes_spec chunksize nfull :
  0 < nfull -> match chunksize with Some c => (0 <= c)%Z | None => True end ->
  exists cs f bound,
    ces_sizes chunksize nfull = Ok (cs, Z.of_nat (S f))
    /\ (0 <= cs)%Z /\ (f <> O -> (0 < cs)%Z)
    /\ inject_Z (Z.of_nat f) * inject_Z cs < nfull
    /\ (cs <= bound)%Z
    /\ nfull <= inject_Z (Z.of_nat f) * inject_Z cs + inject_Z bound
    /\ (forall c, chunksize = Some c -> (0 < c)%Z -> (bound <= c)%Z)
    /\ (inject_Z (Z.of_nat (f + 1)) * inject_Z cs <= nfull
        \/ inject_Z (Z.of_nat (f + 1)) * inject_Z cs < nfull + inject_Z (slack chunksize)).
Proof.
  intros Hnf Hc.
  assert (Hfl : (0 <= Qfloor nfull)%Z) by (change 0%Z with (Qfloor 0); apply Qfloor_resp_le; lra).
  assert (Hcl : nfull <= inject_Z (Qceiling nfull)) by apply Qle_ceiling.
  assert (Hfc : (Qfloor nfull <= Qceiling nfull)%Z).
  { rewrite Zle_Qle. pose proof (Qfloor_le nfull). lra. }
  assert (W : forall b, (Qfloor nfull <= b)%Z -> nfull <= inject_Z b ->
     (forall c, chunksize = Some c -> (0 < c)%Z -> (b <= c)%Z) ->
     exists cs f bound,
    Ok (qtrunc nfull, 1%Z) = Ok (cs, Z.of_nat (S f))
    /\ (0 <= cs)%Z /\ (f <> O -> (0 < cs)%Z)
    /\ inject_Z (Z.of_nat f) * inject_Z cs < nfull
    /\ (cs <= bound)%Z
    /\ nfull <= inject_Z (Z.of_nat f) * inject_Z cs + inject_Z bound
    /\ (forall c, chunksize = Some c -> (0 < c)%Z -> (bound <= c)%Z)
    /\ (inject_Z (Z.of_nat (f + 1)) * inject_Z cs <= nfull
        \/ inject_Z (Z.of_nat (f + 1)) * inject_Z cs < nfull + inject_Z (slack chunksize))).
  { intros b Hb1 Hb2 Hb3. exists (Qfloor nfull), 0%nat, b.
    rewrite qtrunc_floor by lra. split; [reflexivity|]. split; [exact Hfl|].
    split; [congruence|]. change (inject_Z (Z.of_nat 0)) with 0.
    split; [lra|]. split; [exact Hb1|]. split; [lra|]. split; [exact Hb3|].
    left. change (inject_Z (Z.of_nat (0 + 1))) with 1. pose proof (Qfloor_le nfull). lra. }
  unfold ces_sizes. destruct chunksize as [c|].
  2:{ apply (W (Qceiling nfull)); auto. discriminate. }
  destruct (Z.eqb_spec c 0) as [->|Hc0]; cbn [orb].
  { apply (W (Qceiling nfull)); auto. intros c E. injection E as <-. lia. }
  destruct (qle_bool_spec nfull (inject_Z c)) as [Hle|Hgt].
  { apply (W c); auto.
    - rewrite Zle_Qle. pose proof (Qfloor_le nfull). lra.
    - intros c' E _. injection E as <-. lia. }
  assert (Hcp : 0 < inject_Z c) by (change 0 with (inject_Z 0); rewrite <- Zlt_Qlt; lia).
  pose proof (Qle_ceiling (nfull / inject_Z c)) as H1.
  pose proof (Qceiling_lt (nfull / inject_Z c)) as H2.
  set (n := Qceiling (nfull / inject_Z c)) in *.
  assert (E : nfull / inject_Z c * inject_Z c == nfull) by (field; lra).
  assert (H3 : nfull <= inject_Z n * inject_Z c).
  { rewrite <- E. apply Qmult_le_compat_r; lra. }
  assert (H4 : inject_Z (n - 1) * inject_Z c < nfull).
  { rewrite <- E at 1. apply Qmult_lt_compat_r; lra. }
  assert (Hn : (1 <= n)%Z).
  { assert (0 < n)%Z; [|lia]. rewrite Zlt_Qlt. change (inject_Z 0) with 0.
    assert (0 < inject_Z n * inject_Z c) by lra.
    destruct (Qlt_le_dec 0 (inject_Z n)); auto. exfalso.
    assert (inject_Z n * inject_Z c <= 0 * inject_Z c) by (apply Qmult_le_compat_r; lra). lra. }
  exists c, (Z.to_nat (n - 1)), c.
  replace (Z.of_nat (S (Z.to_nat (n - 1)))) with n by lia.
  replace (Z.of_nat (Z.to_nat (n - 1))) with (n - 1)%Z by lia.
  replace (Z.of_nat (Z.to_nat (n - 1) + 1)) with n by lia.
  assert (E1 : inject_Z n == inject_Z (n - 1) + 1).
  { replace n with ((n - 1) + 1)%Z at 1 by lia. rewrite inject_Z_plus. reflexivity. }
  split; [reflexivity|]. split; [lia|]. split; [lia|]. split; [exact H4|]. split; [lia|].
  split; [rewrite E1 in H3; lra|]. split; [intros c' E' _; injection E' as <-; lia|].
  right. cbn [slack]. rewrite E1. lra.
Qed.

Lemma sched_loop_full l chunksize nsamp fs samplenum chunknum :
  0 < fs -> samplenum == inject_Z nsamp ->
  match chunksize with Some c => (0 <= c)%Z | None => True end ->
  (forall c, In c l -> t0 c < t1 c) ->
  True /\ sched_loop l chunksize nsamp fs samplenum chunknum = Ok [].
Proof.
  intros Hfs Hs Hc Hl. split; auto. destruct l as [|c l]; [reflexivity|]. cbn [sched_loop].
  set (nfull := (t1 c - t0 c) * fs).
  assert (Hnf : 0 < nfull).
  { unfold nfull. specialize (Hl c (or_introl eq_refl)).
    rewrite <- (Qmult_0_l fs). apply Qmult_lt_compat_r; lra. }
  destruct (ces_sizes_spec chunksize nfull Hnf Hc) as (cs & f & bound & Es & Hcs & _).
  rewrite Es. cbn [bind]. destruct (Z.leb_spec (Z.of_nat (S f)) 0); [lia|].
  rewrite Nat2Z.id. rewrite ces_loop_full by (auto; lra). reflexivity.
Qed.

Lemma sched_loop_spec l : forall chunksize nsamp fs samplenum chunknum,
  0 < fs -> 0 <= samplenum -> samplenum <= inject_Z nsamp -> (0 <= chunknum)%Z ->
  match chunksize with Some c => (0 <= c)%Z | None => True end ->
  (forall c, In c l -> t0 c < t1 c) ->
  exists es hi,
    sched_loop l chunksize nsamp fs samplenum chunknum = Ok es
    /\ chain (Qfloor samplenum) hi (map espan es) /\ (hi <= nsamp)%Z
    /\ (forall i x, nth_error es i = Some x ->
          c_cidx (e_chunk x) = Some (Z.to_nat chunknum + i)%nat
          /\ in_own_scan fs samplenum l x
          /\ forall c, chunksize = Some c -> (0 < c)%Z ->
               (c_end (e_chunk x) - c_start (e_chunk x) <= c)%Z)
    /\ (clear_of_end fs (slack chunksize) nsamp samplenum l ->
         hi = Qfloor (qmin (inject_Z nsamp) (samplenum + scheduled fs l))).
Proof.
  induction l as [|c l IH]; intros chunksize nsamp fs samplenum chunknum Hfs Hs0 Hs1 Hcn Hc Hl.
  - exists [], (Qfloor samplenum). cbn [sched_loop map chain scheduled].
    assert (Hle : (Qfloor samplenum <= nsamp)%Z)
      by (rewrite <- (floor_Z nsamp); apply Qfloor_resp_le; auto).
    repeat split; auto; try (destruct i; discriminate).
    intros _. unfold qmin. destruct (qle_bool_spec (inject_Z nsamp) (samplenum + 0)) as [H|H].
    + apply Qfloor_comp. lra.
    + apply Qfloor_comp. ring.
  - cbn [sched_loop]. set (nfull := (t1 c - t0 c) * fs).
    assert (Hnf : 0 < nfull).
    { unfold nfull. specialize (Hl c (or_introl eq_refl)).
      rewrite <- (Qmult_0_l fs). apply Qmult_lt_compat_r; lra. }
    destruct (ces_sizes_spec chunksize nfull Hnf Hc)
      as (cs & f & bound & Es & Hcs & Hcs1 & Hr1 & Hb1 & Hr2 & Hbc & Hov).
    rewrite Es. cbn [bind]. destruct (Z.leb_spec (Z.of_nat (S f)) 0); [lia|].
    rewrite Nat2Z.id.
    destruct (Qlt_le_dec samplenum (inject_Z nsamp)) as [Hlt|Hge].
    2:{ rewrite ces_loop_full by (auto; lra).
        exists [], (Qfloor samplenum). cbn [map chain].
        assert (Hle : (Qfloor samplenum <= nsamp)%Z)
          by (rewrite <- (floor_Z nsamp); apply Qfloor_resp_le; auto).
        repeat split; auto; try (destruct i; discriminate).
        intros _. cbn [scheduled]. unfold qmin.
        assert (Hsch : 0 <= scheduled fs l).
        { assert (G : forall c, In c l -> t0 c < t1 c) by (intros; apply Hl; now right).
          clear - G Hfs. induction l as [|x l IH]; cbn [scheduled]; [lra|].
          assert (0 <= (t1 x - t0 x) * fs).
          { specialize (G x (or_introl eq_refl)). rewrite <- (Qmult_0_l fs). apply Qmult_le_compat_r; lra. }
          assert (0 <= scheduled fs l) by (apply IH; intros; apply G; now right). lra. }
        fold nfull.
        destruct (qle_bool_spec (inject_Z nsamp) (samplenum + (nfull + scheduled fs l))) as [H1|H1].
        - apply Qfloor_comp. lra.
        - exfalso. apply H1. lra. }
    destruct (ces_loop_spec f 0 cs nsamp chunknum fs samplenum nfull c samplenum (t0 c) bound)
      as (new & e & k' & d & E & Hnn & Hch & Hem & Hent & Hk & Hd0 & Hd1 & Hlen); auto.
    { change (inject_Z (Z.of_nat 0)) with 0. ring. }
    { change (inject_Z (Z.of_nat 0)) with 0. field. lra. }
    { lra. }
    { lra. }
    rewrite E.
    assert (Hents : forall i x, nth_error new i = Some x ->
              c_cidx (e_chunk x) = Some (Z.to_nat chunknum + i)%nat
              /\ in_own_scan fs samplenum (c :: l) x
              /\ forall c0, chunksize = Some c0 -> (0 < c0)%Z ->
               (c_end (e_chunk x) - c_start (e_chunk x) <= c0)%Z).
    { intros i x H1. assert (Hi : (i <= f)%nat).
      { assert (i < length new)%nat by (apply nth_error_Some; congruence). lia. }
      apply Hent in H1 as (A1 & A2 & A3 & A4 & A5 & A6). split; [rewrite A1; f_equal; lia|].
      cbn [Nat.add] in A3, A5.
      assert (Hq : 0 <= inject_Z (Z.of_nat i) * inject_Z cs
                   /\ inject_Z (Z.of_nat i) * inject_Z cs < nfull).
      { split.
        - rewrite <- inject_Z_mult. change 0 with (inject_Z 0). rewrite <- Zle_Qle. lia.
        - eapply Qle_lt_trans; [|exact Hr1]. rewrite <- !inject_Z_mult, <- Zle_Qle. nia. }
      split.
      { exists [], l, (inject_Z (Z.of_nat i) * inject_Z cs). rewrite A2. cbn [app scheduled].
        fold nfull. split; [reflexivity|]. split; [apply Hq|]. split; [apply Hq|].
        split; [rewrite A5; apply Qfloor_comp; ring|].
        split; [|exact A3].
        eapply Z.le_trans; [exact A6|]. apply Qfloor_resp_le. lra. } intros c0 E0 P0. specialize (Hbc c0 E0 P0). lia. }
    assert (Hee : 0 <= e /\ e <= inject_Z nsamp).
    { rewrite Hem. unfold qmin. destruct (qle_bool_spec (inject_Z nsamp) (samplenum + nfull)); split; lra. }
    assert (Hen : (Qfloor e <= nsamp)%Z)
      by (rewrite <- (floor_Z nsamp); apply Qfloor_resp_le; apply Hee).
    assert (Hsch : 0 <= scheduled fs l).
    { assert (G : forall c, In c l -> t0 c < t1 c) by (intros; apply Hl; now right).
      clear - G Hfs. induction l as [|x l IH]; cbn [scheduled]; [lra|].
      assert (0 <= (t1 x - t0 x) * fs).
      { specialize (G x (or_introl eq_refl)). rewrite <- (Qmult_0_l fs). apply Qmult_le_compat_r; lra. }
      assert (0 <= scheduled fs l) by (apply IH; intros; apply G; now right). lra. }
    destruct d.
    + exists new, (Qfloor e). split; [reflexivity|]. split; [exact Hch|]. split; [exact Hen|].
      split; [exact Hents|].
      cbn [clear_of_end scheduled]. fold nfull. intros [Hclr _].
      specialize (Hd1 eq_refl). cbn [Nat.add] in Hd1.
      rewrite (Qfloor_comp _ _ Hem). unfold qmin.
      destruct (qle_bool_spec (inject_Z nsamp) (samplenum + nfull)) as [G|G].
      * destruct (qle_bool_spec (inject_Z nsamp) (samplenum + (nfull + scheduled fs l))) as [G1|G1];
          [reflexivity|exfalso; apply G1; lra].
      * exfalso. assert (G' : samplenum + nfull < inject_Z nsamp) by lra.
        apply Hclr in G'. destruct Hov as [Hov|Hov].
        -- lra.
        -- lra.
    + specialize (Hd0 eq_refl). cbn [Nat.add] in Hd0.
      destruct (IH chunksize nsamp fs e (chunknum + Z.of_nat (S f))%Z)
        as (more & hi & E2 & Hch2 & Hhi & Hent2 & Hcov); auto; try apply Hee; try lia.
      { intros; apply Hl; now right. }
      rewrite E2. cbn [bind]. exists (new ++ more), hi. split; [reflexivity|].
      split; [rewrite map_app; eapply chain_app; eauto|]. split; [exact Hhi|].
      assert (Hnl : length new = S f).
      { assert (length new <> 0)%nat by (destruct new; [congruence|discriminate]). lia. }
      split.
      { intros i x Hi. destruct (Nat.lt_ge_cases i (length new)) as [Hi1|Hi1].
        - rewrite nth_error_app1 in Hi by auto. auto.
        - rewrite nth_error_app2 in Hi by auto. pose proof Hi as Hi0. apply Hent2 in Hi as (A1 & A2 & A3).
          split; [rewrite A1; f_equal; lia|]. split; [|auto].
          destruct A2 as (l1 & l2 & q & B1 & B2 & B3 & B4 & B5 & B6).
          exists (c :: l1), l2, q. cbn [app scheduled]. fold nfull. rewrite B1.
          split; [reflexivity|]. split; [exact B2|]. split; [exact B3|].
          assert (Hlt2 : e == samplenum + nfull \/ e == inject_Z nsamp).
          { rewrite Hem. unfold qmin. destruct (qle_bool_spec (inject_Z nsamp) (samplenum + nfull)); auto using Qeq_refl. }
          destruct Hlt2 as [He|He].
          + split; [rewrite B4; apply Qfloor_comp; lra|]. split; [|exact B6].
            eapply Z.le_trans; [exact B5|]. apply Qfloor_resp_le. lra.
          + exfalso. destruct (sched_loop_full l chunksize nsamp fs e (chunknum + Z.of_nat (S f))%Z) as [_ EF]; auto.
            { intros; apply Hl; now right. }
            rewrite E2 in EF. injection EF as ->. destruct (i - length new)%nat in Hi0; discriminate. }
      cbn [clear_of_end scheduled]. fold nfull. intros [Hclr Hrest].
      unfold qmin in Hem. destruct (qle_bool_spec (inject_Z nsamp) (samplenum + nfull)) as [G|G].
      * (* mission full: the next scans add nothing *)
        unfold qmin.
        destruct (qle_bool_spec (inject_Z nsamp) (samplenum + (nfull + scheduled fs l))) as [G1|G1];
          [|exfalso; apply G1; lra].
        apply Z.le_antisymm; [now rewrite floor_Z|].
        rewrite <- (Qfloor_comp _ _ Hem).
        clear - Hch2. revert Hch2. generalize (Qfloor e). induction (map espan more) as [|[a b] r IHr]; cbn.
        -- intros; lia.
        -- intros z (-> & H & H2). apply IHr in H2. lia.
      * rewrite Hcov.
        -- apply Qfloor_comp. unfold qmin.
           assert (EE : e + scheduled fs l == samplenum + (nfull + scheduled fs l)) by lra.
           destruct (qle_bool_spec (inject_Z nsamp) (e + scheduled fs l)),
             (qle_bool_spec (inject_Z nsamp) (samplenum + (nfull + scheduled fs l))); lra.
        -- clear - Hrest Hem.
           assert (Hx : e == samplenum + nfull) by exact Hem. clear Hem.
           revert Hrest Hx. generalize (samplenum + nfull). generalize e. clear.
           induction l as [|x l IH]; intros e q H Hx; cbn [clear_of_end] in *; auto.
           destruct H as [H1 H2]. split.
           ++ intros HH. rewrite Hx. apply H1. lra.
           ++ eapply IH; [exact H2|]. lra.
Qed.

Lemma partition_schedule_spec l chunksize nsamp fs :
  0 < fs -> (0 <= nsamp)%Z ->
  match chunksize with Some c => (0 <= c)%Z | None => True end ->
  (forall c, In c l -> t0 c < t1 c) ->
  exists es hi,
    partition_schedule l chunksize nsamp fs = Ok es
    /\ chain 0 hi (map espan es) /\ (hi <= nsamp)%Z
    /\ (forall x c, In x es -> chunksize = Some c -> (0 < c)%Z ->
               (c_end (e_chunk x) - c_start (e_chunk x) <= c)%Z)
    /\ (clear_of_end fs (slack chunksize) nsamp 0 l ->
         hi = Z.min nsamp (Qfloor (scheduled fs l))).
Proof.
  intros Hfs Hn Hc Hl.
  destruct (sched_loop_spec l chunksize nsamp fs 0 0) as (es & hi & E & Hch & Hhi & Hent & Hcov); auto; try lra; try lia.
  { change 0 with (inject_Z 0). rewrite <- Zle_Qle. exact Hn. }
  exists es, hi. split; [exact E|]. split; [exact Hch|]. split; [exact Hhi|]. split.
  { intros x c Hin. apply In_nth_error in Hin as [i Hi]. apply Hent in Hi as (_ & _ & H). apply H. }
  intros H. rewrite (Hcov H). unfold qmin.
  destruct (qle_bool_spec (inject_Z nsamp) (0 + scheduled fs l)) as [G|G].
  - rewrite floor_Z. assert (nsamp <= Qfloor (scheduled fs l))%Z; [|lia].
    rewrite <- (floor_Z nsamp). apply Qfloor_resp_le. lra.
  - rewrite (Qfloor_comp (0 + scheduled fs l) (scheduled fs l)) by ring.
    assert (Qfloor (scheduled fs l) <= nsamp)%Z; [|lia].
    rewrite <- (floor_Z nsamp). apply Qfloor_resp_le. lra.
Qed.

Lemma partition_schedule_lookup l chunksize nsamp fs :
  0 < fs -> (0 <= nsamp)%Z ->
  match chunksize with Some c => (0 <= c)%Z | None => True end ->
  (forall c, In c l -> t0 c < t1 c) ->
  exists es,
    partition_schedule l chunksize nsamp fs = Ok es
    /\ forall x, In x es -> lookup_entry es (e_chunk x) = Ok x /\ in_own_scan fs 0 l x.
Proof.
  intros Hfs Hn Hc Hl.
  destruct (sched_loop_spec l chunksize nsamp fs 0 0) as (es & hi & E & _ & _ & Hent & _); auto; try lra; try lia.
  { change 0 with (inject_Z 0). rewrite <- Zle_Qle. exact Hn. }
  exists es. split; [exact E|]. intros x Hin. apply In_nth_error in Hin as [i Hi].
  pose proof (Hent i x Hi) as (H1 & H2 & _). split; [|exact H2].
  unfold lookup_entry. rewrite H1. cbn. unfold index. now rewrite Hi.
Qed.

Lemma clear_of_end_0 fs nsamp l : forall a, clear_of_end fs 0 nsamp a l.
Proof.
  induction l as [|c l IH]; intros a; cbn [clear_of_end]; auto. split; auto.
  intros H. change (inject_Z 0) with 0. lra.
Qed.

Lemma partition_schedule_whole l nsamp fs :
  0 < fs -> (0 <= nsamp)%Z -> (forall c, In c l -> t0 c < t1 c) ->
  exists es,
    partition_schedule l None nsamp fs = Ok es
    /\ chain 0 (Z.min nsamp (Qfloor (scheduled fs l))) (map espan es).
Proof.
  intros Hfs Hn Hl.
  destruct (partition_schedule_spec l None nsamp fs Hfs Hn I Hl) as (es & hi & E & Hch & _ & _ & Hc).
  exists es. split; auto. rewrite <- Hc; auto. apply clear_of_end_0.
Qed.

(** Witnesses. *)
Definition two_scans : list ces := [mkces 0 60 0 1 45; mkces 100 200 0 1 45].
Definition empty_first : list ces := [mkces 0 0 0 1 30; mkces 10 20 2 3 45].

Lemma schedule_stops_early :
  scheduled 1 two_scans == 160
  /\ exists es, partition_schedule two_scans (Some 50%Z) 100 1 = Ok es
       /\ map espan es = [(0, 50); (50, 60)]%Z.
Proof.
  split; [reflexivity|]. eexists. split; [vm_compute; reflexivity|]. reflexivity.
Qed.

Lemma schedule_index_drift :
  exists x, partition_schedule empty_first None 100 1 = Ok [x]
    /\ espan x = (0, 10)%Z
    /\ lookup_entry [x] (e_chunk x) = Err IndexError.
Proof. eexists. split; [vm_compute; reflexivity|]. split; reflexivity. Qed.

Lemma one_row_fails r : parse_schedule [r] = Err IndexError.
Proof. reflexivity. Qed.

Lemma parse_rows : forall rows, (2 <= length rows)%nat ->
  exists l, parse_schedule rows = Ok l /\ length l = length rows
    /\ forall i a b c d e, nth_error rows i = Some (a, b, c, d, e) ->
         nth_error l i = Some (mkces ((a - 40587) * 86400) ((b - 40587) * 86400) c d e).
Proof.
  intros [|r1 [|r2 rows]] H; cbn [length] in H; try lia.
  eexists. split; [reflexivity|]. split; [apply map_length|].
  intros i a b c d e Hi. erewrite map_nth_error; eauto. reflexivity.
Qed.
