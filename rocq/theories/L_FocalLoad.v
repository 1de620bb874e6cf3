(** * Lemmas about created and loaded focal planes, and band limits *)
From Coq Require Import Reals Ascii String Lra Decimal DecimalString DecimalNat Sorted Permutation.
From Verif Require Import Common LibList M_Beam M_Focal S_Focal L_Beam L_Ghost L_Focal L_FocalInv L_FocalOps.
Open Scope string_scope.

(** ** Names on the grid *)
Fixpoint no_char (c : Ascii.ascii) (s : string) : Prop :=
  match s with EmptyString => True | String x r => x <> c /\ no_char c r end.

Lemma no_char_digits u : no_char "c"%char (NilEmpty.string_of_uint u).
Proof. induction u; cbn; auto; split; auto; discriminate. Qed.

Lemma split_char c s : forall t s' t', no_char c s -> no_char c s' ->
  s ++ String c t = s' ++ String c t' -> s = s' /\ t = t'.
Proof.
  induction s as [|x s IH]; intros t [|x' s'] t' H H' E; cbn in *.
  - inversion E; auto.
  - inversion E; subst. destruct H'; congruence.
  - inversion E; subst. destruct H; congruence.
  - destruct H as [_ H], H' as [_ H']. injection E as <- E. destruct (IH _ _ _ H H' E) as [-> ->]. auto.
Qed.

Lemma append_inj_r s s' : forall t, s ++ t = s' ++ t -> s = s'.
Proof.
  assert (LA : forall a b, String.length (a ++ b) = (String.length a + String.length b)%nat).
  { induction a; cbn; intros; auto. }
  revert s'; induction s as [|x s IH]; intros [|x' s'] t E; cbn in *; auto.
  - apply (f_equal String.length) in E. cbn in E. rewrite LA in E. lia.
  - apply (f_equal String.length) in E. cbn in E. rewrite LA in E. lia.
  - inversion E; subst. f_equal. eauto.
Qed.

Lemma pad3_value u : Nat.of_uint (pad3 u) = Nat.of_uint u.
Proof. unfold pad3. destruct (nb_digits u) as [|[|[|n]]]; reflexivity. Qed.

Lemma fmt03_inj m n : fmt03 m = fmt03 n -> m = n.
Proof.
  unfold fmt03. intros E. apply (f_equal NilEmpty.uint_of_string) in E.
  rewrite !NilEmpty.usu in E. inversion E as [E']. apply (f_equal Nat.of_uint) in E'.
  rewrite !pad3_value in E'. now rewrite !DecimalNat.Unsigned.of_to in E'.
Qed.

Lemma app_string_assoc a b c : (a ++ b) ++ c = a ++ (b ++ c).
Proof. induction a; cbn; congruence. Qed.

Lemma cell_name_inj azi eli azi' eli' p p' : (p = "A" \/ p = "B") -> (p' = "A" \/ p' = "B") ->
  cell_name azi eli p = cell_name azi' eli' p' -> azi = azi' /\ eli = eli' /\ p = p'.
Proof.
  unfold cell_name. intros Hp Hp' E. cbn [append] in E. inversion E as [E'].
  change ("c" ++ fmt03 azi) with (String "c"%char (fmt03 azi)) in E'.
  change ("c" ++ fmt03 azi') with (String "c"%char (fmt03 azi')) in E'.
  rewrite !app_string_assoc in E'. cbn [append] in E'.
  apply split_char in E' as [E1 E2]; [|apply no_char_digits|apply no_char_digits].
  apply fmt03_inj in E1. subst eli'.
  assert (P : p = p').
  { assert (LC : forall s q q', (q = "A" \/ q = "B") -> (q' = "A" \/ q' = "B") ->
      forall s', s ++ q = s' ++ q' -> q = q').
    { induction s as [|x s IH]; intros q q' Hq Hq' s' X.
      - destruct s' as [|y s']; [exact X|]. exfalso.
        apply (f_equal String.length) in X.
        assert (LA : forall a b, String.length (a ++ b) = (String.length a + String.length b)%nat)
          by (induction a; cbn; intros; auto).
        cbn in X. rewrite LA in X. destruct Hq, Hq'; subst; cbn in X; lia.
      - destruct s' as [|y s'].
        + exfalso. apply (f_equal String.length) in X.
          assert (LA : forall a b, String.length (a ++ b) = (String.length a + String.length b)%nat)
            by (induction a; cbn; intros; auto).
          cbn in X. rewrite LA in X. destruct Hq, Hq'; subst; cbn in X; lia.
        + cbn in X. inversion X. eauto. }
    eapply LC; eauto. }
  subst p'. apply append_inj_r, fmt03_inj in E2. auto.
Qed.

(** ** The grid *)
Lemma nth_cells nrow ncol azi eli : (azi < ncol)%nat -> (eli < nrow)%nat ->
  nth_error (cells nrow ncol) (azi * nrow + eli) = Some (azi, eli).
Proof.
  unfold cells. intros Ha He.
  assert (G : forall n s azi, (azi < n)%nat ->
    nth_error (concat (map (fun azi => map (fun eli => (azi, eli)) (seq 0 nrow)) (seq s n))) (azi * nrow + eli)
    = Some ((s + azi)%nat, eli)).
  { induction n as [|n IH]; intros s a Hn; [lia|]. cbn [seq map concat]. destruct a as [|a].
    - rewrite nth_error_app1 by (rewrite map_length, seq_length; cbn; lia).
      cbn [Nat.mul Nat.add]. rewrite (nth_error_map_seq _ 0) by exact He. rewrite Nat.add_0_r. reflexivity.
    - rewrite nth_error_app2 by (rewrite map_length, seq_length; cbn; lia).
      rewrite map_length, seq_length. replace (S a * nrow + eli - nrow)%nat with (a * nrow + eli)%nat by (cbn; lia).
      rewrite IH by lia. do 2 f_equal. lia. }
  now rewrite G.
Qed.

Lemma cells_cover nrow ncol k : (k < nrow * ncol)%nat ->
  exists azi eli, (azi < ncol)%nat /\ (eli < nrow)%nat /\ k = (azi * nrow + eli)%nat.
Proof.
  intros H. assert (nrow <> 0)%nat by (intros ->; cbn in H; lia).
  exists (k / nrow)%nat, (k mod nrow)%nat. split.
  - apply Nat.div_lt_upper_bound; auto.
  - split; [now apply Nat.mod_upper_bound|]. rewrite Nat.mul_comm. now apply Nat.div_mod.
Qed.

Lemma grown_nth h bs h' ps k a b : grown h bs h' ps ->
  nth_error bs (2 * k) = Some a -> nth_error bs (2 * k + 1) = Some b ->
  exists ra rb, nth_error ps k = Some (Some ra, Some rb)
    /\ nth_error h' ra = Some a /\ nth_error h' rb = Some b
    /\ ra = (List.length h + 2 * k)%nat /\ rb = (List.length h + 2 * k + 1)%nat.
Proof.
  intros (-> & E & _ & L & F) Ha Hb.
  assert (Lk : (2 * k + 1 < List.length bs)%nat) by (apply nth_error_Some; congruence).
  rewrite Forall_forall in F.
  destruct (complete_nth ps k F) as (ra & rb & E1 & E2 & E3); [lia|].
  rewrite E in E2, E3.
  rewrite (nth_error_nth' _ 0%nat), seq_nth in E2 by (rewrite ?seq_length; lia).
  rewrite (nth_error_nth' _ 0%nat), seq_nth in E3 by (rewrite ?seq_length; lia).
  inversion E2; inversion E3; subst. exists (List.length h + 2 * k)%nat, (List.length h + (2 * k + 1))%nat.
  split; [exact E1|]. rewrite !nth_error_app2 by lia. split; [|split; [|split; lia]].
  - replace (List.length h + 2 * k - List.length h)%nat with (2 * k)%nat by lia. exact Ha.
  - replace (List.length h + (2 * k + 1) - List.length h)%nat with (2 * k + 1)%nat by lia. exact Hb.
Qed.

Lemma NoDup_grid_keys : forall (a b c d e f g : val),
  NoDup (map fst [("az", a); ("el", b); ("name", c); ("polang", d); ("dead", e); ("pol", f); ("idx", g)]).
Proof. intros. cbn. repeat constructor; cbn; intuition discriminate. Qed.

Lemma create_grid st nrow ncol fov np ab c kw st' :
  create_focal_plane st nrow ncol fov np ab c kw = Ok st' -> NoDup (map fst kw) ->
  exists new polang dead,
    fp st' = ((if c then fp st else []) ++ new)%list
    /\ List.length new = (nrow * ncol)%nat
    /\ vnum (dget kw "polang") 0%R = Ok polang /\ vbool (dget kw "dead") false = Ok dead
    /\ forall azi eli, (azi < ncol)%nat -> (eli < nrow)%nat ->
       exists ra rb, nth_error new (azi * nrow + eli) = Some (Some ra, Some rb)
       /\ (List.length (objs st) <= ra)%nat /\ rb = S ra
       /\ getattr (objs st') ra "name" = Some (VStr (cell_name azi eli "A"))
       /\ getattr (objs st') rb "name" = Some (VStr (cell_name azi eli "B"))
       /\ (forall r, r = ra \/ r = rb ->
             getattr (objs st') r "az" = Some (VNum (linspace (- fov / 2) (fov / 2) ncol azi))
             /\ getattr (objs st') r "el" = Some (VNum (linspace (- fov / 2) (fov / 2) nrow eli)))
       /\ getattr (objs st') ra "polang" = Some (VNum polang)
       /\ getattr (objs st') rb "polang" = Some (VNum (polang + ab))
       /\ getattr (objs st') ra "pol" = Some (VStr "A")
       /\ getattr (objs st') rb "pol" = Some (VStr "B")
       /\ getattr (objs st') ra "dead" = Some (VBool dead)
       /\ getattr (objs st') rb "dead" = Some (VBool (dead || np)).
Proof.
  intros H ND. unfold create_focal_plane in H. cbv zeta in H.
  set (kw1 := fold_left dpop ["az"; "el"; "pol"; "name"; "ghost"; "idx"] kw) in *.
  apply bind_ok in H as (pa & Hpa & H). apply bind_ok in H as (dd & Hdd & H).
  apply bind_ok in H as (i & Hi & H). apply bind_ok in H as ([h ps] & Hh & H). inversion H; subst; clear H.
  assert (K1 : forall k, k <> "az" -> k <> "el" -> k <> "pol" -> k <> "name" -> k <> "ghost" -> k <> "idx" ->
    dget kw1 k = dget kw k).
  { intros k N1 N2 N3 N4 N5 N6. unfold kw1. cbn [fold_left].
    rewrite !dget_dpop. apply not_eq_sym, String.eqb_neq in N1, N2, N3, N4, N5, N6.
    now rewrite N1, N2, N3, N4, N5, N6. }
  rewrite K1 in Hpa by discriminate. rewrite K1 in Hdd by discriminate.
  eapply (create_cells_grown _ (fun azi eli i a b =>
     grid_beams nrow ncol fov pa ab dd np (dpop (dpop kw1 "polang") "dead") azi eli i = Ok (a, b))) in Hh
      as (bs & G & L & N).
  2:{ clear. intros azi eli i a b H. split; [|split; [|exact H]]; unfold grid_beams in H; cbv zeta in H;
      apply bind_ok in H as (a' & Ha & H); apply bind_ok in H as (b' & Hb & H); inversion H; subst;
      eauto using beam_init_fresh. }
  rewrite cells_length in L.
  exists ps, pa, dd. split; [unfold put; destruct c; reflexivity|]. split; [exact L|].
  split; [exact Hpa|]. split; [exact Hdd|].
  assert (EO : forall n, objs (put st h ps n c) = h) by (intros; unfold put; now destruct c).
  rewrite EO. intros azi eli Ha He.
  destruct (N _ _ _ (nth_cells nrow ncol azi eli Ha He)) as (a & b & Na & Nb & HQ).
  destruct (grown_nth _ _ _ _ _ _ _ G Na Nb) as (ra & rb & Ep & Ea & Eb & Era & Erb).
  exists ra, rb. split; [exact Ep|]. split; [lia|]. split; [lia|].
  unfold grid_beams in HQ. cbv zeta in HQ.
  apply bind_ok in HQ as (a' & HA & HQ). apply bind_ok in HQ as (b' & HB & HQ). inversion HQ; subst a' b'; clear HQ.
  unfold getattr. rewrite Ea, Eb.
  assert (PA : forall k d, In (k, d) beam_defaults -> plain k = true ->
    attrs a k = Some (kwval _ k d)) by (intros; eapply beam_init_plain; eauto).
  assert (PB : forall k d, In (k, d) beam_defaults -> plain k = true ->
    attrs b k = Some (kwval _ k d)) by (intros; eapply beam_init_plain; eauto).
  assert (D1 : In ("name", VNone) beam_defaults) by (cbn; tauto).
  assert (D2 : In ("az", VNum 0) beam_defaults) by (cbn; tauto).
  assert (D3 : In ("el", VNum 0) beam_defaults) by (cbn; tauto).
  assert (D4 : In ("polang", VNum 0) beam_defaults) by (cbn; tauto).
  assert (D5 : In ("pol", VStr "A") beam_defaults) by (cbn; tauto).
  assert (D6 : In ("dead", VBool false) beam_defaults) by (cbn; tauto).
  repeat split.
  - rewrite (PA _ _ D1 eq_refl). unfold kwval. rewrite dget_dupdate by apply NoDup_grid_keys. reflexivity.
  - rewrite (PB _ _ D1 eq_refl). unfold kwval. rewrite dget_dupdate by apply NoDup_grid_keys. reflexivity.
  - destruct H as [->| ->]; [rewrite Ea, (PA _ _ D2 eq_refl)|rewrite Eb, (PB _ _ D2 eq_refl)];
      unfold kwval; rewrite dget_dupdate by apply NoDup_grid_keys; reflexivity.
  - destruct H as [->| ->]; [rewrite Ea, (PA _ _ D3 eq_refl)|rewrite Eb, (PB _ _ D3 eq_refl)];
      unfold kwval; rewrite dget_dupdate by apply NoDup_grid_keys; reflexivity.
  - rewrite (PA _ _ D4 eq_refl). unfold kwval. rewrite dget_dupdate by apply NoDup_grid_keys. reflexivity.
  - rewrite (PB _ _ D4 eq_refl). unfold kwval. rewrite dget_dupdate by apply NoDup_grid_keys. reflexivity.
  - rewrite (PA _ _ D5 eq_refl). unfold kwval. rewrite dget_dupdate by apply NoDup_grid_keys. reflexivity.
  - rewrite (PB _ _ D5 eq_refl). unfold kwval. rewrite dget_dupdate by apply NoDup_grid_keys. reflexivity.
  - rewrite (PA _ _ D6 eq_refl). unfold kwval. rewrite dget_dupdate by apply NoDup_grid_keys. reflexivity.
  - rewrite (PB _ _ D6 eq_refl). unfold kwval. rewrite dget_dupdate by apply NoDup_grid_keys. reflexivity.
Qed.

(** Different new beams have different names. *)
Lemma create_names st nrow ncol fov np ab c kw st' :
  create_focal_plane st nrow ncol fov np ab c kw = Ok st' -> NoDup (map fst kw) ->
  exists new, fp st' = ((if c then fp st else []) ++ new)%list
    /\ NoDup (map (fun r => getattr (objs st') r "name") (refs new)).
Proof.
  intros H ND. destruct (create_grid _ _ _ _ _ _ _ _ _ H ND) as (new & pa & dd & E & L & _ & _ & G).
  exists new. split; [exact E|].
  assert (CP : complete new).
  { intros p Hp. apply In_nth_error in Hp as [k Hk].
    assert (Lk : (k < nrow * ncol)%nat) by (rewrite <- L; apply nth_error_Some; congruence).
    destruct (cells_cover _ _ _ Lk) as (azi & eli & Ha & He & ->).
    destruct (G azi eli Ha He) as (ra & rb & Ep & _). rewrite Ep in Hk. inversion Hk; subst. cbn. split; discriminate. }
  assert (LR := complete_length _ CP).
  apply NoDup_nth_error. rewrite map_length. intros i j Hi Hij.
  assert (NM : forall n, (n < List.length (refs new))%nat -> exists azi eli p,
    (azi < ncol)%nat /\ (eli < nrow)%nat /\ n = (2 * (azi * nrow + eli) + (if (p =? "B")%string then 1 else 0))%nat
    /\ (p = "A" \/ p = "B")
    /\ nth_error (map (fun r => getattr (objs st') r "name") (refs new)) n
       = Some (Some (VStr (cell_name azi eli p)))).
  { intros n Hn. pose proof (Nat.div_mod n 2) as D. pose proof (Nat.mod_upper_bound n 2) as U.
    assert (Lk : (n / 2 < nrow * ncol)%nat) by lia.
    destruct (cells_cover _ _ _ Lk) as (azi & eli & Ha & He & Ek).
    destruct (G azi eli Ha He) as (ra & rb & Ep & _ & _ & Na & Nb & _).
    destruct (complete_nth new (n / 2) CP) as (a & b & E1 & E2 & E3); [lia|].
    rewrite <- Ek, E1 in Ep. inversion Ep; subst a b.
    rewrite nth_error_map. destruct (Nat.eq_dec (n mod 2) 0) as [Z|Z].
    - exists azi, eli, "A". repeat split; auto.
      + change ("A" =? "B") with false. cbv iota. lia.
      + replace n with (2 * (n / 2))%nat by lia. rewrite E2. cbn [option_map]. now rewrite Na.
    - exists azi, eli, "B". repeat split; auto.
      + change ("B" =? "B") with true. cbv iota. lia.
      + replace n with (2 * (n / 2) + 1)%nat by lia. rewrite E3. cbn [option_map]. now rewrite Nb. }
  destruct (NM i Hi) as (a1 & e1 & p1 & _ & _ & I1 & P1 & N1).
  assert (Hj : (j < List.length (refs new))%nat).
  { rewrite <- (map_length (fun r => getattr (objs st') r "name") (refs new)).
    apply nth_error_Some. rewrite <- Hij, N1. discriminate. }
  destruct (NM j Hj) as (a2 & e2 & p2 & _ & _ & I2 & P2 & N2).
  rewrite N1, N2 in Hij. assert (X : cell_name a1 e1 p1 = cell_name a2 e2 p2) by congruence.
  apply cell_name_inj in X as (-> & -> & ->); auto. lia.
Qed.

Lemma linspace_symmetric f n k : (2 <= n)%nat -> (k < n)%nat ->
  linspace (- f / 2) (f / 2) n (n - 1 - k) = (- linspace (- f / 2) (f / 2) n k)%R.
Proof.
  intros Hn Hk. unfold linspace. destruct (Nat.eqb_spec n 1); [lia|].
  rewrite !minus_INR by lia. cbn [INR].
  assert (INR n - 1 <> 0)%R.
  { assert (1 < INR n)%R by (apply (lt_INR 1); lia). lra. }
  field. auto.
Qed.

Lemma linspace_ends f n : (2 <= n)%nat ->
  linspace (- f / 2) (f / 2) n 0 = (- f / 2)%R /\ linspace (- f / 2) (f / 2) n (n - 1) = (f / 2)%R.
Proof.
  intros Hn. unfold linspace. destruct (Nat.eqb_spec n 1); [lia|].
  assert (INR (n - 1) <> 0)%R by (apply not_0_INR; lia).
  split; cbn [INR]; field; auto.
Qed.

(** ** Loaded focal planes *)
Lemma insert_perm n l : Permutation (insert_name n l) (n :: l).
Proof.
  induction l as [|x l IH]; cbn; auto. destruct (String.leb _ _); auto.
  eapply perm_trans; [apply perm_skip, IH|apply perm_swap].
Qed.
Lemma sort_perm l : Permutation (sort_names l) l.
Proof.
  induction l as [|x l IH]; cbn; auto. eapply perm_trans; [apply insert_perm|auto].
Qed.
Lemma insert_sorted n l : Sorted name_le l -> Sorted name_le (insert_name n l).
Proof.
  induction 1 as [|x l S IH HD]; cbn; [repeat constructor|].
  destruct (String.leb (n ++ ".pkl") (x ++ ".pkl")) eqn:E.
  - constructor; [now constructor|]. constructor. exact E.
  - assert (T : name_le x n).
    { unfold name_le. destruct (String.leb_total (n ++ ".pkl") (x ++ ".pkl")) as [X|X]; [congruence|exact X]. }
    constructor; auto. destruct l as [|y l]; cbn.
    + now constructor.
    + destruct (String.leb (n ++ ".pkl") (y ++ ".pkl")); constructor; auto. now inversion HD.
Qed.
Lemma sort_sorted l : Sorted name_le (sort_names l).
Proof. induction l; cbn; [constructor|]. now apply insert_sorted. Qed.

Lemma all_some_map {A} (l : list (option A)) s : all_some l = Some s -> l = map Some s.
Proof.
  revert s; induction l as [|[a|] l IH]; intros s H; cbn in H; try discriminate.
  - now inversion H.
  - destruct (all_some l); [|discriminate]. inversion H; subst. cbn. f_equal. auto.
Qed.

Lemma file_list_spec d tag names fs : file_list d tag names = Ok fs ->
  exists sorted,
    map (lookup_file d) sorted = map Some fs
    /\ Permutation sorted (filter (contains tag) (match names with [] => map fst d | _ => names end))
    /\ Sorted name_le sorted.
Proof.
  intros H. unfold file_list in H. apply bind_ok in H as (nms & Hn & H).
  exists (sort_names nms). destruct (all_some (map (lookup_file d) (sort_names nms))) as [fs'|] eqn:E; [|discriminate].
  inversion H; subst. apply all_some_map in E. split; [exact E|]. split; [|apply sort_sorted].
  eapply perm_trans; [apply sort_perm|].
  assert (X : nms = filter (contains tag) (match names with [] => map fst d | _ => names end)); [|now rewrite X].
  destruct names as [|n ns].
  - destruct (filter (contains tag) (map fst d)); [discriminate|]. now inversion Hn.
  - destruct (forallb _ _); [|discriminate]. now inversion Hn.
Qed.

Lemma append_name_get d s d' : append_name d s = Ok d' ->
  forall k, dget d' k = if k =? "name" then tagged_name (dget d k) s else dget d k.
Proof.
  unfold append_name. intros H k.
  destruct (dget d "name") as [[]|] eqn:E; try discriminate.
  - inversion H; subst. destruct (String.eqb_spec k "name") as [->|]; [|reflexivity]. now rewrite E.
  - destruct (s0 =? "") eqn:Es; inversion H; subst.
    + destruct (String.eqb_spec k "name") as [->|]; [|reflexivity]. rewrite E. cbn. now rewrite Es.
    + rewrite dget_dset, (String.eqb_sym "name" k). destruct (String.eqb_spec k "name") as [->|]; [|reflexivity].
      rewrite E. cbn. now rewrite Es.
  - inversion H; subst. destruct (String.eqb_spec k "name") as [->|]; [|reflexivity]. now rewrite E.
Qed.

Lemma add_polang_get d p d' : add_polang d p = Ok d' ->
  exists x, vnum (dget d "polang") 0%R = Ok x
  /\ forall k, dget d' k = if k =? "polang" then Some (VNum (x + p)) else dget d k.
Proof.
  unfold add_polang. intros H. apply bind_ok in H as (x & Hx & H). inversion H; subst.
  exists x. split; auto. intros k. rewrite dget_dset, (String.eqb_sym "polang" k). reflexivity.
Qed.

(** One loaded beam: [e] is its entry in the file. *)
Lemma finish_one e db kw second np p i b d1 :
  NoDup (map fst kw) -> (forall k, dget db k = e k) ->
  add_polang (dset (dupdate db kw) "idx" (VInt i)) p = Ok d1 ->
  beam_init (dset (dpop (if (second && np)%bool then dset d1 "dead" (VBool true) else d1) "pol") "pol"
               (VStr (if second then "B" else "A"))) = Ok b ->
  loaded_as e kw second np p i b.
Proof.
  intros ND He HP HB. apply add_polang_get in HP as (x & Hx & HP).
  assert (DU : forall k, dget (dset (dupdate db kw) "idx" (VInt i)) k
     = if k =? "idx" then Some (VInt i) else match dget kw k with Some v => Some v | None => e k end).
  { intros k. rewrite dget_dset, (String.eqb_sym "idx" k). rewrite dget_dupdate by exact ND. now rewrite He. }
  rewrite DU in Hx. change ("polang" =? "idx") with false in Hx. cbv iota in Hx.
  set (d2 := if (second && np)%bool then dset d1 "dead" (VBool true) else d1) in *.
  assert (D2 : forall k, dget d2 k = if ((k =? "dead") && (second && np))%bool then Some (VBool true) else dget d1 k).
  { intros k. unfold d2. destruct (second && np)%bool; [|now rewrite andb_false_r].
    rewrite dget_dset, (String.eqb_sym "dead" k). now rewrite andb_true_r. }
  assert (FI : forall k, dget (dset (dpop d2 "pol") "pol" (VStr (if second then "B" else "A"))) k
     = if k =? "pol" then Some (VStr (if second then "B" else "A")) else dget d2 k).
  { intros k. rewrite dget_dset, dget_dpop, (String.eqb_sym "pol" k). now destruct (k =? "pol"). }
  unfold loaded_as. cbv zeta. split.
  { eapply beam_init_idx; eauto. rewrite FI. cbn [String.eqb]. change ("idx" =? "pol") with false. cbv iota.
    rewrite D2. change ("idx" =? "dead") with false. cbn [andb]. rewrite HP, DU. reflexivity. }
  assert (PL : forall k d, In (k, d) beam_defaults -> plain k = true -> attrs b k = Some (kwval _ k d))
    by (intros; eapply beam_init_plain; eauto).
  split. { rewrite (PL "pol" (VStr "A")); [|cbn; tauto|reflexivity]. unfold kwval. rewrite FI. reflexivity. }
  split. { exists x. split; [exact Hx|]. rewrite (PL "polang" (VNum 0)); [|cbn; tauto|reflexivity].
           unfold kwval. rewrite FI. change ("polang" =? "pol") with false. cbv iota. rewrite D2.
           change ("polang" =? "dead") with false. cbn [andb]. rewrite HP. reflexivity. }
  split. { intros -> ->. rewrite (PL "dead" (VBool false)); [|cbn; tauto|reflexivity].
           unfold kwval. rewrite FI. change ("dead" =? "pol") with false. cbv iota. rewrite D2. reflexivity. }
  intros k d Hk Pk N1 N2 N3. rewrite (PL k d Hk Pk). unfold kwval. rewrite FI.
  apply String.eqb_neq in N1, N2. rewrite N1, D2.
  assert (X : ((k =? "dead") && (second && np))%bool = false).
  { destruct (String.eqb_spec k "dead"); cbn [andb]; auto. }
  rewrite X, HP, N2, DU.
  assert (NI : (k =? "idx") = false).
  { apply String.eqb_neq. intros ->. discriminate Pk. }
  rewrite NI. destruct (dget kw k); [reflexivity|]. now destruct (e k).
Qed.

Lemma load_file_spec f kw i np pA pB a b : NoDup (map fst kw) ->
  load_file f kw i np pA pB = Ok (a, b) -> (forall d, f <> Shared d) ->
  loaded_as (entry f false) kw false np pA i a /\ loaded_as (entry f true) kw true np pB (i + 1) b.
Proof.
  intros ND H NS.
  assert (FP : forall da db, finish_pair da db kw i np pA pB = Ok (a, b) ->
    forall ea eb, (forall k, dget da k = ea k) -> (forall k, dget db k = eb k) ->
    loaded_as ea kw false np pA i a /\ loaded_as eb kw true np pB (i + 1) b).
  { clear - ND. intros da db H ea eb Ea Eb. unfold finish_pair in H. cbv zeta in H.
    apply bind_ok in H as (d1 & H1 & H). apply bind_ok in H as (d2 & H2 & H).
    apply bind_ok in H as (a' & HA & H). apply bind_ok in H as (b' & HB & H). inversion H; subst.
    split; eapply finish_one; eauto. }
  destruct f as [d|[|d1 [|d2 [|]]]|d]; cbn [load_file] in H; try discriminate.
  - apply bind_ok in H as (da & HA & H). apply bind_ok in H as (db & HB & H).
    eapply FP; eauto; intros k; cbn [entry]; eapply append_name_get; eauto.
  - eapply FP; eauto.
  - now destruct (NS d).
Qed.

Lemma load_spec st d tag names np c pA pB kw st' :
  load_focal_plane st d tag names np c pA pB kw = Ok st' -> NoDup (map fst kw) ->
  (forall x, ~ In (Shared x) (map snd d)) ->
  let kw' := filter (fun kv => negb ((fst kv =? "pol") || (fst kv =? "ghost") || (fst kv =? "idx"))) kw in
  exists i sorted fs new,
    next_idx st c = Ok i
    /\ fp st' = ((if c then fp st else []) ++ new)%list
    /\ Permutation sorted (filter (contains tag) (match names with [] => map fst d | _ => names end))
    /\ Sorted name_le sorted
    /\ map (lookup_file d) sorted = map Some fs
    /\ List.length new = List.length fs
    /\ forall k f, nth_error fs k = Some f ->
       exists ra rb a b, nth_error new k = Some (Some ra, Some rb)
         /\ nth_error (objs st') ra = Some a /\ nth_error (objs st') rb = Some b
         /\ loaded_as (entry f false) kw' false np pA (i + 2 * Z.of_nat k) a
         /\ loaded_as (entry f true) kw' true np pB (i + 2 * Z.of_nat k + 1) b.
Proof.
  intros H ND NS kw'. unfold load_focal_plane in H. cbv zeta in H.
  apply bind_ok in H as (i & Hi & H). apply bind_ok in H as (fs & Hf & H).
  apply bind_ok in H as ([h ps] & Hh & H). inversion H; subst; clear H.
  destruct (file_list_spec _ _ _ _ Hf) as (sorted & E1 & E2 & E3).
  assert (EK : fold_left dpop ["pol"; "ghost"; "idx"] kw = kw').
  { unfold kw'. cbn [fold_left]. unfold dpop. clear. induction kw as [|[k v] kw IH]; [reflexivity|].
    cbn [filter fst]. destruct (k =? "pol"), (k =? "ghost") eqn:X, (k =? "idx") eqn:Y; cbn [negb orb filter fst];
      rewrite ?X, ?Y; cbn [negb filter fst]; rewrite ?Y; cbn [negb]; rewrite ?IH; reflexivity. }
  rewrite EK in Hh. apply load_files_grown in Hh as (bs & G & L & N).
  exists i, sorted, fs, ps. split; [exact Hi|]. split; [unfold put; destruct c; reflexivity|].
  split; [exact E2|]. split; [exact E3|]. split; [exact E1|]. split; [exact L|].
  intros k f Hk. destruct (N _ _ Hk) as (a & b & Na & Nb & Hl).
  destruct (grown_nth _ _ _ _ _ _ _ G Na Nb) as (ra & rb & Ep & Ea & Eb & _ & _).
  exists ra, rb, a, b. split; [exact Ep|].
  assert (EO : forall n, objs (put st h ps n c) = h) by (intros; unfold put; now destruct c).
  rewrite EO. split; [exact Ea|]. split; [exact Eb|].
  apply load_file_spec; auto.
  - unfold kw'. clear - ND. induction kw as [|[k v] kw IH]; [constructor|]. cbn in ND. inversion ND; subst.
    cbn [filter fst]. destruct (negb _); auto. cbn. constructor; auto.
    intros X. apply in_map_iff in X as ([x y] & E & X). apply filter_In in X as [X _].
    apply H1. apply in_map_iff. exists (x, y). auto.
  - intros x ->. apply nth_error_In in Hk. apply (in_map Some) in Hk. rewrite <- E1 in Hk.
    apply in_map_iff in Hk as (n & En & _). apply (NS x). revert En. clear.
    induction d as [|[m f] d IH]; cbn; [discriminate|].
    destruct (m =? n); [intros X; inversion X; auto|]. auto.
Qed.

Lemma load_malformed st d tag names np c pA pB kw n l :
  In n (match names with [] => map fst d | _ => names end) -> contains tag n = true ->
  lookup_file d n = Some (Sequence l) -> List.length l <> 2%nat ->
  forall st', load_focal_plane st d tag names np c pA pB kw <> Ok st'.
Proof.
  intros Hn Ht Hl Hlen st' H. unfold load_focal_plane in H. cbv zeta in H.
  apply bind_ok in H as (i & Hi & H). apply bind_ok in H as (fs & Hf & H).
  apply bind_ok in H as ([h ps] & Hh & _).
  destruct (file_list_spec _ _ _ _ Hf) as (sorted & E1 & E2 & _).
  assert (X : In (Sequence l) fs).
  { assert (Y : In n sorted).
    { eapply Permutation_in; [symmetry; exact E2|]. apply filter_In. auto. }
    apply (in_map (lookup_file d)) in Y. rewrite E1, Hl in Y. apply in_map_iff in Y as (y & Ey & Y).
    now inversion Ey; subst. }
  apply In_nth_error in X as [k Hk]. apply load_files_grown in Hh as (bs & _ & _ & N).
  destruct (N _ _ Hk) as (a & b & _ & _ & Hb). cbn [load_file] in Hb.
  destruct l as [|? [|? [|]]]; try discriminate. now cbn in Hlen.
Qed.

(** ** Band limits over histories *)
Lemma fold_res_in {X S} (f : S -> X -> res S) (P : S -> S -> Prop) l : forall s s',
  (forall s, P s s) -> (forall a b c, P a b -> P b c -> P a c) ->
  (forall s x s', In x l -> f s x = Ok s' -> P s s') ->
  fold_left (fun s x => do s <- s; f s x) l (Ok s) = Ok s' -> P s s'.
Proof.
  induction l as [|x l IH]; intros s s' Hr Ht Hf H; cbn in H.
  - inversion H. apply Hr.
  - destruct (f s x) as [s1|e] eqn:E; [|rewrite fold_res_err in H; discriminate].
    eapply Ht; [eapply Hf; [now left|exact E]|]. apply IH; auto. intros ? ? ? Hx. apply Hf. now right.
Qed.

(** A property [P] of the attributes of new beams that is kept by assignments to
    the attributes in [K] is kept by all operations that only assign those. *)
Section Attributes.
Variable P : (string -> option val) -> Prop.
Variable K : string -> Prop.
Hypothesis P_init : forall kw b, beam_init kw = Ok b -> P (attrs b).
Hypothesis P_set : forall a k v a', K k -> P a -> set1 a k v = Ok a' -> P a'.

Definition all_valid (h : heap) : Prop := forall r b, nth_error h r = Some b -> P (attrs b).

Lemma set_obj_valid h r k v h' : K k -> set_obj h r k v = Ok h' -> all_valid h -> all_valid h'.
Proof.
  intros Kk H A. apply set_obj_spec in H as (b & a & Hb & Ha & ->). intros r' b' H'.
  destruct (Nat.eq_dec r' r) as [->|Hn].
  - rewrite hset_same in H' by (apply nth_error_Some; congruence). inversion H'; subst. cbn.
    eapply P_set; eauto.
  - rewrite hset_other in H' by auto. eauto.
Qed.

Lemma setattr_valid h r k v h' : K k -> setattr h r k v = Ok h' -> all_valid h -> all_valid h'.
Proof.
  unfold setattr. intros Kk. destruct (k =? "dead").
  - intros H. apply bind_ok in H as (b & Hb & H). apply bind_ok in H as (h1 & H1 & H).
    intros A. apply (set_obj_valid _ _ _ _ _ Kk H1) in A. revert A. revert H.
    apply (fold_res_inv _ (fun a b => all_valid a -> all_valid b)); auto.
    intros s x s'. now apply set_obj_valid.
  - now apply set_obj_valid.
Qed.

Lemma app_valid h bs : (forall b, In b bs -> exists kw, beam_init kw = Ok b) -> all_valid h -> all_valid (h ++ bs)%list.
Proof.
  intros B A r b H. destruct (Nat.lt_ge_cases r (List.length h)) as [L|L].
  - rewrite nth_error_app1 in H by exact L. eauto.
  - rewrite nth_error_app2 in H by exact L. apply nth_error_In in H. destruct (B _ H) as [kw Hk].
    now apply P_init in Hk.
Qed.

Lemma create_ghost_valid h r tag kw h' : NoDup (map fst kw) ->
  create_ghost h r tag kw = Ok h' -> all_valid h -> all_valid h'.
Proof.
  intros ND H A. destruct (nth_error h r) as [b|] eqn:Eb.
  2:{ unfold create_ghost, index in H. rewrite Eb in H. discriminate. }
  destruct (create_ghost_spec _ _ _ _ _ _ H Eb ND) as (g & opts & par & _ & _ & _ & _ & Hg & ->).
  intros r' b' H'. destruct (Nat.eq_dec r' r) as [->|Hn].
  - rewrite hset_same in H'.
    + inversion H'; subst. cbn. eauto.
    + rewrite app_length. assert (r < List.length h)%nat by (apply nth_error_Some; congruence). cbn; lia.
  - rewrite hset_other in H' by auto. destruct (Nat.lt_ge_cases r' (List.length h)) as [L|L].
    + rewrite nth_error_app1 in H' by exact L. eauto.
    + rewrite nth_error_app2 in H' by exact L. destruct (r' - List.length h)%nat as [|[|]]; try discriminate.
      inversion H'; subst. cbn. now apply P_init in Hg.
Qed.

Lemma step_valid st o st' : (forall k, In k (assigned o) -> K k) -> NoDup (map fst (keywords o)) -> step st o = Ok st' ->
  all_valid (objs st) -> all_valid (objs st').
Proof.
  intros KK N H.
  assert (SP : forall h r prop h', (forall k, In k (map fst prop) -> K k) -> set_props h r prop = Ok h' -> all_valid h -> all_valid h').
  { intros h r prop h' Kp. unfold set_props. apply (fold_res_in _ (fun a b => all_valid a -> all_valid b)); auto.
    intros s x s' Hx. apply setattr_valid, Kp. now apply in_map. }
  assert (ASS : forall rs h i h', assign h rs i = Ok h' -> all_valid h -> all_valid h').
  { intros rs h i h' Ha A r b Hb. apply assign_same in Ha as [_ E]. specialize (E r). rewrite Hb in E.
    destruct (nth_error h r) eqn:Er; [|tauto]. destruct E as [j ->]. cbn. eauto. }
  assert (OP : forall st h new n c, objs (put st h new n c) = h) by (intros; unfold put; now destruct c).
  assert (GR : forall h bs h' ps (mk : nat -> res (beam * beam)), grown h bs h' ps ->
    (forall k, (2 * k < List.length bs)%nat -> exists a b, nth_error bs (2 * k) = Some a /\
       nth_error bs (2 * k + 1) = Some b /\ (exists kw, beam_init kw = Ok a) /\ (exists kw, beam_init kw = Ok b)) ->
    all_valid h -> all_valid h').
  { intros h bs h' ps _ (-> & _) Kb. apply app_valid. intros b Hb. apply In_nth_error in Hb as [n Hn].
    assert (L : (n < List.length bs)%nat) by (apply nth_error_Some; congruence).
    pose proof (Nat.div_mod n 2) as D. pose proof (Nat.mod_upper_bound n 2) as U.
    destruct (Kb (n / 2)%nat) as (x & y & E1 & E2 & K1 & K2); [lia|].
    destruct (Nat.eq_dec (n mod 2) 0) as [Z|Z].
    - replace n with (2 * (n / 2))%nat in Hn by lia. rewrite E1 in Hn. inversion Hn; subst. exact K1.
    - replace n with (2 * (n / 2) + 1)%nat in Hn by lia. rewrite E2 in Hn. inversion Hn; subst. exact K2. }
  assert (PG : forall h r tag kw h', NoDup (map fst kw) -> create_ghost h r tag kw = Ok h' ->
    all_valid h -> all_valid h') by (intros; eapply create_ghost_valid; eauto).
  destruct o; cbn [step keywords assigned] in H, N, KK.
  - apply bind_ok in H as (b & Hb & H). inversion H; subst. cbn [objs alloc fst].
    apply app_valid. intros x [<-|[]]. eauto.
  - unfold add_to_focal_plane in H. destruct a as [r|[|r rs]|[|p ps]]; try discriminate;
      apply bind_ok in H as (i & _ & H).
    + apply bind_ok in H as (h & Hh & H). inversion H; subst. rewrite OP. apply (ASS [r] _ i).
      cbn [assign]. now rewrite Hh.
    + apply bind_ok in H as ([h qs] & Hh & H). inversion H; subst. rewrite OP.
      apply add_many_spec in Hh as [Hh _]. eapply ASS; eauto.
    + apply bind_ok in H as ([h qs] & Hh & H). inversion H; subst. rewrite OP.
      apply add_pairs_spec in Hh as [Hh _]. eapply ASS; eauto.
  - destruct (remove_present _ _ _ H) as [-> _]. auto.
  - unfold create_focal_plane in H. cbv zeta in H.
    apply bind_ok in H as (pa & _ & H). apply bind_ok in H as (dd & _ & H).
    apply bind_ok in H as (i & Hi & H). apply bind_ok in H as ([h ps] & Hh & H). inversion H; subst; clear H.
    rewrite OP.
    eapply (create_cells_grown _ (fun _ _ i a b => (exists kw, beam_init kw = Ok a) /\ (exists kw, beam_init kw = Ok b))) in Hh
      as (bs & G & L & NN).
    + apply (GR _ _ _ _ (fun _ => Err IndexError) G). intros k Hk.
      destruct (nth_error (cells nrow ncol) k) as [[azi eli]|] eqn:Ek.
      * destruct (NN _ _ _ Ek) as (a & b & Na & Nb & Q). eauto 6.
      * apply nth_error_None in Ek. destruct G as (_ & _ & _ & L2 & _). lia.
    + clear. intros azi eli i a b H. unfold grid_beams in H. cbv zeta in H.
      apply bind_ok in H as (a' & Ha & H). apply bind_ok in H as (b' & Hb & H). inversion H; subst.
      split; [eauto using beam_init_fresh|]. split; [eauto using beam_init_fresh|]. eauto.
  - unfold input_focal_plane in H. cbv zeta in H. destruct combine; [|discriminate].
    apply bind_ok in H as (i & Hi & H). apply bind_ok in H as ([h ps] & Hh & H). inversion H; subst; clear H.
    cbn [objs]. apply input_cells_grown in Hh as (bs & G & L & NN).
    apply (GR _ _ _ _ (fun _ => Err IndexError) G). intros k Hk.
    revert L NN. generalize (combine (combine (combine azs els) polangs)
      match deads with Some d => d | None => map (fun _ => (false, false)) azs end). intros l L NN.
    destruct (nth_error l k) as [p|] eqn:Ek.
    2:{ apply nth_error_None in Ek. destruct G as (_ & _ & _ & L2 & _). lia. }
    destruct (NN _ _ Ek) as (a & b & Na & Nb & Q). exists a, b. split; [exact Na|]. split; [exact Nb|].
    unfold input_beams in Q. destruct p as [[[? ?] ?] ?]. destruct (existsb _ kw); [discriminate|].
    apply bind_ok in Q as (a' & Ha & Q). apply bind_ok in Q as (b' & Hb & Q). inversion Q; subst. eauto.
  - unfold load_focal_plane in H. cbv zeta in H.
    apply bind_ok in H as (i & Hi & H). apply bind_ok in H as (fs & Hf & H).
    apply bind_ok in H as ([h ps] & Hh & H). inversion H; subst; clear H. rewrite OP.
    apply load_files_grown in Hh as (bs & G & L & NN).
    apply (GR _ _ _ _ (fun _ => Err IndexError) G). intros k Hk.
    destruct (nth_error fs k) as [p|] eqn:Ek.
    2:{ apply nth_error_None in Ek. destruct G as (_ & _ & _ & L2 & _). lia. }
    destruct (NN _ _ Ek) as (a & b & Na & Nb & Q). exists a, b. split; [exact Na|]. split; [exact Nb|].
    clear - Q. assert (FP : forall da db kw i np pA pB, finish_pair da db kw i np pA pB = Ok (a, b) ->
      (exists kw, beam_init kw = Ok a) /\ (exists kw, beam_init kw = Ok b)).
    { clear. intros da db kw i np pA pB H. unfold finish_pair in H.
      apply bind_ok in H as (? & _ & H). apply bind_ok in H as (? & _ & H).
      apply bind_ok in H as (? & Ha & H). apply bind_ok in H as (? & Hb & H). inversion H; subst. eauto. }
    destruct p as [d0|[|d1 [|d2 [|]]]|d0]; cbn [load_file] in Q; try discriminate.
    + apply bind_ok in Q as (? & _ & Q). apply bind_ok in Q as (? & _ & Q). eauto.
    + eauto.
    + unfold finish_shared in Q. apply bind_ok in Q as (? & _ & Q).
      apply bind_ok in Q as (? & Ha & Q). apply bind_ok in Q as (? & Hb & Q). inversion Q; subst. eauto.
  - apply bind_ok in H as (h & Hh & H). inversion H; subst. cbn [objs]. eapply PG; eauto.
  - unfold create_reflected_ghosts in H. apply bind_ok in H as (h & Hh & H). inversion H; subst. cbn [objs].
    refine (reflected_P (fun h h' => all_valid h -> all_valid h') _ _ PG _ _ _ _ _ _ _ N Hh); auto.
  - unfold create_crosstalk_ghosts in H. apply bind_ok in H as (h & Hh & H). inversion H; subst. cbn [objs].
    refine (crosstalk_P (fun h h' => all_valid h -> all_valid h') _ _ PG _ _ _ _ _ _ _ N Hh); auto.
  - apply bind_ok in H as (h & Hh & H). inversion H; subst. cbn [objs]. eapply setattr_valid; eauto; apply KK; now left.
  - unfold set_global_prop in H. apply bind_ok in H as (h & Hh & H). inversion H; subst. cbn [objs]. revert Hh.
    apply (fold_res_inv _ (fun a b => all_valid a -> all_valid b)); auto.
    intros s x s' Hs. unfold set_beam in Hs. apply bind_ok in Hs as (h1 & H1 & Hs).
    intros A. apply (SP _ _ _ _ KK H1) in A. destruct incl_ghosts; [|now inversion Hs; subst].
    apply bind_ok in Hs as (b & _ & Hs). revert A. revert Hs.
    apply (fold_res_inv _ (fun a b => all_valid a -> all_valid b)); auto. intros; eapply SP; eauto.
  - unfold add_to_prop in H. destruct prop as [|[key x] [|]]; try discriminate.
    apply bind_ok in H as (h & Hh & H). inversion H; subst. cbn [objs]. revert Hh.
    apply (fold_res_inv _ (fun a b => all_valid a -> all_valid b)); auto.
    intros s y s' Hs. unfold add_beam in Hs. apply bind_ok in Hs as (b & _ & Hs). apply bind_ok in Hs as (v & _ & Hs).
    apply bind_ok in Hs as (h1 & H1 & Hs). intros A. apply (setattr_valid _ _ _ _ _ (KK key (or_introl eq_refl)) H1) in A.
    destruct incl_ghosts; [|now inversion Hs; subst]. revert A. revert Hs.
    apply (fold_res_inv _ (fun a b => all_valid a -> all_valid b)); auto. intros; eapply setattr_valid; eauto; apply KK; now left.
  - unfold set_btypes in H. apply bind_ok in H as (h & Hh & H). inversion H; subst. cbn [objs]. revert Hh.
    apply (fold_res_inv _ (fun a b => all_valid a -> all_valid b)); auto. intros; eapply setattr_valid; eauto; apply KK; now left.
  - unfold kill_channels in H. apply bind_ok in H as (h & Hh & H). inversion H; subst. cbn [objs]. revert Hh.
    apply (fold_res_inv _ (fun a b => all_valid a -> all_valid b)); auto.
    assert (KS : forall s t s', kill_slot s t = Ok s' -> all_valid s -> all_valid s').
    { intros s [t|] s' Hs; [|discriminate]. eapply setattr_valid; eauto. apply KK; now left. }
    intros s k s' Hs. unfold kill_one in Hs. destruct pairs; apply bind_ok in Hs as (p & _ & Hs); eauto.
    apply bind_ok in Hs as (h1 & H1 & Hs). eauto.
Qed.

Lemma history_attrs st os st' : history (fun _ o => forall k, In k (assigned o) -> K k) st os st' ->
  all_valid (objs st) -> all_valid (objs st').
Proof.
  induction 1 as [|st o st' os st'' R N H _ IH]; auto. intros C. apply IH. eapply step_valid; eauto.
Qed.
End Attributes.

Lemma history_valid os st : history (fun _ _ => True) empty_inst os st ->
  forall r b, nth_error (objs st) r = Some b -> valid_limits (attrs b).
Proof.
  intros H. apply (history_attrs valid_limits (fun _ => True)) with empty_inst os.
  - intros kw b Hb. now apply beam_init_limits in Hb.
  - intros a k v a' _. apply set1_limits.
  - revert H. clear. induction 1; econstructor; eauto.
  - intros [|]; discriminate.
Qed.

Lemma history_mmax os st : history (fun _ o => ~ In "lmax" (assigned o)) empty_inst os st ->
  forall r b, nth_error (objs st) r = Some b -> mmax_ok (attrs b).
Proof.
  intros H. apply (history_attrs mmax_ok (fun k => k <> "lmax")) with empty_inst os.
  - intros kw b Hb. now apply beam_init_limits in Hb.
  - intros a k v a' Hk M E. eapply set1_mmax; eauto. intros ->. congruence.
  - revert H. clear. induction 1; econstructor; eauto. intros k Hk ->. auto.
  - intros [|]; discriminate.
Qed.

(** ** In the words of the specification *)
Lemma prefix_append tag n : String.prefix tag n = true <-> exists b, n = tag ++ b.
Proof.
  revert n; induction tag as [|c tag IH]; intros n.
  - split; [intros _; now exists n|intros _; destruct n; reflexivity].
  - destruct n as [|d n]; cbn.
    + split; [discriminate|intros [b H]; discriminate].
    + destruct (Ascii.ascii_dec c d) as [->|Hn].
      * rewrite IH. split; intros [b H]; exists b; congruence.
      * split; [discriminate|intros [b H]; congruence].
Qed.

Lemma contains_tag tag n : contains tag n = true <-> has_tag tag n.
Proof.
  induction n as [|c n IH]; cbn [contains].
  - rewrite orb_false_r, prefix_append. split.
    + intros [b H]. now exists "", b.
    + intros (a & b & H). destruct a; [|discriminate]. now exists b.
  - rewrite orb_true_iff, prefix_append, IH. split.
    + intros [[b H]|(a & b & H)]; [now exists "", b|]. exists (String c a), b. now rewrite H.
    + intros ([|x a] & b & H); [left; now exists b|]. right. exists a, b. cbn in H. congruence.
Qed.

Lemma fold_max_in l : forall x, In (fold_left Z.max l x) (x :: l).
Proof.
  induction l as [|y l IH]; intros x; cbn [fold_left]; [now left|].
  destruct (IH (Z.max x y)) as [E|H]; [|right; now right].
  rewrite <- E. destruct (Z.max_spec x y) as [[_ ->]|[_ ->]]; cbn; auto.
Qed.

Lemma next_idx_first st c i : next_idx st c = Ok i -> first_index st c i.
Proof.
  unfold next_idx, first_index. destruct c; [|now inversion 1]. intros H. apply bind_ok in H as (l & Hl & H).
  unfold beams_idxs in Hl. rewrite refs_concat in Hl. apply idxs_of_spec in Hl.
  rewrite <- present_refs in Hl. change (hidx (objs st)) with (idx_of st) in Hl.
  destruct l as [|x l]; inversion H; subst.
  - left. split; [|reflexivity]. destruct (present st); [reflexivity|discriminate].
  - right. split.
    + pose proof (fold_max_in l x) as M. apply (in_map Some) in M. rewrite <- Hl in M.
      apply in_map_iff in M as (r & E & Hr). exists r. split; [exact Hr|]. rewrite E. f_equal. lia.
    + intros r Hr. apply (in_map (idx_of st)) in Hr. rewrite Hl in Hr. apply in_map_iff in Hr as (j & E & Hj).
      exists j. split; [congruence|]. destruct (fold_max l x) as [M1 M2].
      destruct Hj as [<-|Hj]; [lia|]. apply M2 in Hj. lia.
Qed.

Lemma load_words st d tag names np c pA pB kw st' :
  load_focal_plane st d tag names np c pA pB kw = Ok st' -> NoDup (map fst kw) ->
  (forall x, ~ In (Shared x) (map snd d)) ->
  let kw' := filter (fun kv => negb ((fst kv =? "pol") || (fst kv =? "ghost") || (fst kv =? "idx"))) kw in
  exists i keep sorted fs new,
    first_index st c i
    /\ fp st' = ((if c then fp st else []) ++ new)%list
    /\ (forall n, keep n = true <-> has_tag tag n)
    /\ Permutation sorted (filter keep (match names with [] => map fst d | _ => names end))
    /\ Sorted name_le sorted
    /\ map (lookup_file d) sorted = map Some fs
    /\ List.length new = List.length fs
    /\ forall k f, nth_error fs k = Some f ->
       exists ra rb a b, nth_error new k = Some (Some ra, Some rb)
         /\ nth_error (objs st') ra = Some a /\ nth_error (objs st') rb = Some b
         /\ loaded_as (entry f false) kw' false np pA (i + 2 * Z.of_nat k) a
         /\ loaded_as (entry f true) kw' true np pB (i + 2 * Z.of_nat k + 1) b.
Proof.
  intros H N S. destruct (load_spec _ _ _ _ _ _ _ _ _ _ H N S) as (i & sorted & fs & new & H1 & H2 & H3 & H4 & R).
  exists i, (contains tag), sorted, fs, new. repeat split; try (apply contains_tag); try tauto.
  now apply next_idx_first.
Qed.

Lemma linspace_offset f n k : (k < n)%nat -> linspace (- f / 2) (f / 2) n k = grid_offset f n k.
Proof.
  intros H. unfold linspace, grid_offset. destruct n as [|[|n]]; [lia|reflexivity|].
  cbn [Nat.eqb]. rewrite minus_INR by lia. f_equal. f_equal. f_equal. field.
Qed.

Lemma offset_symmetric f n k : (2 <= n)%nat -> (k < n)%nat ->
  grid_offset f n (n - 1 - k) = (- grid_offset f n k)%R
  /\ grid_offset f n 0 = (- f / 2)%R /\ grid_offset f n (n - 1) = (f / 2)%R.
Proof.
  intros H K. rewrite <- !linspace_offset by lia. split; [now apply linspace_symmetric|]. now apply linspace_ends.
Qed.

Lemma create_grid_words st nrow ncol fov np ab c kw st' :
  create_focal_plane st nrow ncol fov np ab c kw = Ok st' -> NoDup (map fst kw) ->
  exists new polang dead,
    fp st' = ((if c then fp st else []) ++ new)%list
    /\ List.length new = (nrow * ncol)%nat
    /\ vnum (dget kw "polang") 0%R = Ok polang /\ vbool (dget kw "dead") false = Ok dead
    /\ forall azi eli, (azi < ncol)%nat -> (eli < nrow)%nat ->
       exists ra rb, nth_error new (azi * nrow + eli) = Some (Some ra, Some rb)
       /\ (List.length (objs st) <= ra)%nat /\ rb = S ra
       /\ getattr (objs st') ra "name" = Some (VStr (cell_name azi eli "A"))
       /\ getattr (objs st') rb "name" = Some (VStr (cell_name azi eli "B"))
       /\ (forall r, r = ra \/ r = rb ->
             getattr (objs st') r "az" = Some (VNum (grid_offset fov ncol azi))
             /\ getattr (objs st') r "el" = Some (VNum (grid_offset fov nrow eli)))
       /\ getattr (objs st') ra "polang" = Some (VNum polang)
       /\ getattr (objs st') rb "polang" = Some (VNum (polang + ab))
       /\ getattr (objs st') ra "pol" = Some (VStr "A")
       /\ getattr (objs st') rb "pol" = Some (VStr "B")
       /\ getattr (objs st') ra "dead" = Some (VBool dead)
       /\ getattr (objs st') rb "dead" = Some (VBool (dead || np)).
Proof.
  intros H N. destruct (create_grid _ _ _ _ _ _ _ _ _ H N) as (new & p & d & H1 & H2 & H3 & H4 & H5).
  exists new, p, d. repeat split; auto. intros azi eli A E. rewrite <- !linspace_offset by lia. now apply H5.
Qed.
