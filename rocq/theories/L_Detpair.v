(** * Lemmas about the initialisation of a detector pair *)
From Verif Require Import Common LibList M_Detpair S_Detpair.

Section L.
  Context {B : Type}.
  Implicit Types (a : det B) (g o : gh B) (gs : list (gh B)).

  Lemma ghost_beam_get g b : ghost_beam g b <-> get_blm (gh_blm g) (gh_gen g) = Ok b.
  Proof.
    unfold ghost_beam, get_blm. destruct (gh_blm g); split; intros H.
    - destruct H as [H|[H _]]; congruence.
    - left. congruence.
    - destruct H as [H|[_ H]]; congruence.
    - right. auto.
  Qed.
  Lemma main_beam_get (d : det B) b : main_beam d b <-> get_blm (d_blm d) (d_gen d) = Ok b.
  Proof.
    unfold main_beam, get_blm. destruct (d_blm d); split; intros H.
    - destruct H as [H|[H _]]; congruence.
    - left. congruence.
    - destruct H as [H|[_ H]]; congruence.
    - right. auto.
  Qed.

  (** Preparing: every ghost gets its own coefficients stored. *)
  Definition filled g g' : Prop :=
    gh_dead g' = gh_dead g /\ gh_idx g' = gh_idx g /\ gh_gen g' = gh_gen g
    /\ exists b, ghost_beam g b /\ gh_blm g' = Some b.

  Lemma hasattr_ok g b : ghost_beam g b ->
    hasattr_blm g = Ok (true, mkgh (gh_dead g) (gh_idx g) (Some b) (gh_gen g)).
  Proof. intros H. apply ghost_beam_get in H. unfold hasattr_blm. rewrite H. reflexivity. Qed.

  Lemma prepare_ok gs : (forall g, In g gs -> exists b, ghost_beam g b) ->
    forall f, exists gs', prepare f gs = Ok gs' /\ Forall2 filled gs gs'.
  Proof.
    induction gs as [|g gs IH]; intros H f; cbn [prepare].
    - exists []. split; auto.
    - destruct (H g (or_introl eq_refl)) as [b Hb]. rewrite (hasattr_ok g b Hb). cbn [bind].
      set (f' := match f with Some f => Some f | None => _ end).
      destruct (IH (fun x Hx => H x (or_intror Hx)) f') as (gs' & E & F). rewrite E. cbn [bind].
      eexists. split; [reflexivity|]. constructor; auto.
      unfold filled. cbn. eauto 10.
  Qed.

  Lemma prepare_b_ok gs : (forall g, In g gs -> exists b, ghost_beam g b) ->
    forall f, exists gs', prepare_b f gs = Ok gs' /\ Forall2 filled gs gs'.
  Proof.
    induction gs as [|g gs IH]; intros H f; cbn [prepare_b].
    - exists []. split; auto.
    - destruct (H g (or_introl eq_refl)) as [b Hb]. rewrite (hasattr_ok g b Hb). cbn [bind].
      destruct (IH (fun x Hx => H x (or_intror Hx)) f) as (gs' & E & F). rewrite E. cbn [bind].
      eexists. split; [reflexivity|]. constructor; auto.
      unfold filled. cbn. eauto 10.
  Qed.

  (** ** np.unique *)
  Lemma list_max_in (l : list nat) x : In x l -> x <= list_max l.
  Proof.
    intros H. assert (F := proj1 (list_max_le l (list_max l)) (le_n _)).
    rewrite Forall_forall in F. auto.
  Qed.

  Lemma unique_in l u : In u (unique l) <-> In u l.
  Proof.
    unfold unique. rewrite filter_In, in_seq, existsb_exists. split.
    - intros (_ & x & Hx & E). apply Nat.eqb_eq in E. congruence.
    - intros H. split; [pose proof (list_max_in l u H); lia|]. exists u. split; auto.
      apply Nat.eqb_refl.
  Qed.

  (** A filtered range without gaps is a range. *)
  Lemma filter_seq_initial (f : nat -> bool) n s :
    (forall i j, s <= i <= j -> f j = true -> j < s + n -> f i = true) ->
    exists k, k <= n /\ filter f (seq s n) = seq s k
      /\ forall i, s <= i < s + n -> (f i = true <-> i < s + k).
  Proof.
    revert s. induction n as [|n IH]; intros s H.
    - exists 0. cbn. repeat split; auto; intros; lia.
    - cbn [seq filter]. destruct (f s) eqn:E.
      + destruct (IH (S s)) as (k & Hk & Ek & Hi).
        { intros i j Hij Hj Hn. apply (H i j); auto; lia. }
        exists (S k). rewrite Ek. cbn [seq]. split; [lia|]. split; [reflexivity|].
        intros i Hi'. destruct (Nat.eq_dec i s) as [->|]; [intuition lia|].
        rewrite Hi by lia. lia.
      + assert (F : forall i, s <= i < s + S n -> f i = false).
        { intros i Hi. destruct (f i) eqn:Ei; auto.
          rewrite (H s i) in E; auto; lia. }
        exists 0. split; [lia|]. split.
        * cbn. induction (seq (S s) n) as [|x l IHl] eqn:El; auto.
          assert (forall y, In y (seq (S s) n) -> f y = false).
          { intros y Hy. apply in_seq in Hy. apply F. lia. }
          clear IHl. rewrite <- El. clear El. induction (seq (S s) n) as [|y l' IH']; auto.
          cbn. rewrite H0 by now left. apply IH'. intros; apply H0; now right.
        * intros i Hi. rewrite F by lia. intuition (try discriminate; lia).
  Qed.

  Lemma unique_no_gap l : (forall i j, In j l -> i <= j -> In i l) ->
    exists k, unique l = seq 0 k /\ forall i, In i l <-> i < k.
  Proof.
    intros H. unfold unique.
    assert (X : forall i, existsb (Nat.eqb i) l = true <-> In i l).
    { intros i. rewrite existsb_exists. split.
      - intros (x & Hx & E). apply Nat.eqb_eq in E. congruence.
      - intros Hi. exists i. split; auto. apply Nat.eqb_refl. }
    destruct (filter_seq_initial (fun u => existsb (Nat.eqb u) l) (S (list_max l)) 0)
      as (k & Hk & E & Hi).
    - intros i j Hij Hj _. apply X. apply X in Hj. apply (H i j); auto; lia.
    - exists k. split; auto. intros i. split.
      + intros Hin. assert (i <= list_max l) by (apply list_max_in; auto).
        apply (Hi i); [lia|]. apply X. auto.
      + intros Hlt. apply X. apply (Hi i); [lia|]. lia.
  Qed.

  (** ** first_with *)
  Lemma first_with_some gs i o : first_with i gs = Some o <-> first_of_index gs i o.
  Proof.
    unfold first_with, first_of_index. split.
    - induction gs as [|g gs IH]; cbn; [discriminate|].
      destruct (gh_idx g =? i) eqn:E; intros H.
      + injection H as <-. apply Nat.eqb_eq in E. exists [], gs. cbn. intuition.
      + destruct (IH H) as (pre & post & -> & Ho & Hp). exists (g :: pre), post.
        cbn. repeat split; auto. intros x [<-|Hx]; auto. apply Nat.eqb_neq. auto.
    - intros (pre & post & -> & Ho & Hp). induction pre as [|x pre IH]; cbn.
      + rewrite Ho, Nat.eqb_refl. reflexivity.
      + assert (N := Hp x (or_introl eq_refl)). apply Nat.eqb_neq in N. rewrite N.
        apply IH. intros y Hy. apply Hp. now right.
  Qed.

  Lemma first_with_exists gs i : In i (map gh_idx gs) -> exists o, first_with i gs = Some o.
  Proof.
    intros H. apply in_map_iff in H. destruct H as (g & E & Hg). unfold first_with.
    destruct (find (fun g => gh_idx g =? i) gs) eqn:F; eauto.
    apply (find_none _ _ F) in Hg. cbn in Hg. rewrite E, Nat.eqb_refl in Hg. discriminate.
  Qed.

  (** ** The loop over distinct indices *)
  Lemma put_nth_end acc b : put_nth (acc ++ [None]) (length acc) b = acc ++ [Some b] :> list (option B).
  Proof. induction acc as [|x acc IH]; cbn; [reflexivity|]. rewrite IH. reflexivity. Qed.

  Lemma ghost_maps_ok gs : forall k acc last,
    (forall i, length acc <= i < length acc + k ->
       exists o b, first_with i gs = Some o /\ ghost_beam o b) ->
    exists l lst, ghost_maps (seq (length acc) k) gs acc last = Ok (acc ++ l, lst)
      /\ length l = k
      /\ (k = 0 -> lst = last)
      /\ (k <> 0 -> exists o b, first_with (length acc + k - 1) gs = Some o /\ ghost_beam o b
             /\ lst = b)
      /\ forall i, i < k -> exists o b, first_with (length acc + i) gs = Some o /\ ghost_beam o b
           /\ nth_error l i = Some (Some b).
  Proof.
    induction k as [|k IH]; intros acc last H; cbn [seq ghost_maps].
    - exists [], last. rewrite app_nil_r. repeat split; auto; [congruence|intros; lia].
    - destruct (H (length acc) ltac:(lia)) as (o & b & Ho & Hb).
      rewrite app_length. cbn [length].
      destruct (Nat.ltb_spec (length acc) (length acc + 1)) as [_|]; [|lia].
      rewrite Ho. apply ghost_beam_get in Hb. rewrite Hb. cbn [bind]. rewrite put_nth_end.
      replace (S (length acc)) with (length (acc ++ [Some b])) by (rewrite app_length; cbn; lia).
      assert (L : length (acc ++ [Some b]) = S (length acc)) by (rewrite app_length; cbn; lia).
      destruct (IH (acc ++ [Some b]) b) as (l & lst & E & Hl & H0 & H1 & Hi).
      { intros i Hi. rewrite L in Hi. apply H. lia. }
      exists (Some b :: l), lst. rewrite E, <- app_assoc. cbn [app length].
      split; [reflexivity|]. split; [lia|]. split; [discriminate|].
      apply ghost_beam_get in Hb.
      split.
      + intros _. destruct k as [|k].
        * exists o, b. rewrite H0 by auto. replace (length acc + 1 - 1) with (length acc) by lia. auto.
        * destruct (H1 ltac:(lia)) as (o' & b' & A1 & A2 & A3). exists o', b'.
          rewrite L in A1. replace (length acc + S (S k) - 1) with (S (length acc) + S k - 1) by lia.
          auto.
      + intros [|i] Hlt.
        * exists o, b. rewrite Nat.add_0_r. cbn. auto.
        * destruct (Hi i ltac:(lia)) as (o' & b' & A1 & A2 & A3). exists o', b'.
          rewrite L in A1. replace (length acc + S i) with (S (length acc) + i) by lia. cbn. auto.
  Qed.

  (** A gap makes the assignment fail. *)
  Lemma ghost_maps_gap gs u us : forall k acc last,
    length acc + k < u ->
    (forall i, length acc <= i < length acc + k ->
       exists o b, first_with i gs = Some o /\ ghost_beam o b) ->
    ghost_maps (seq (length acc) k ++ u :: us) gs acc last = Err IndexError.
  Proof.
    induction k as [|k IH]; intros acc last Hu H; cbn [seq app ghost_maps].
    - rewrite app_length. cbn [length].
      destruct (Nat.ltb_spec u (length acc + 1)); [lia|reflexivity].
    - destruct (H (length acc) ltac:(lia)) as (o & b & Ho & Hb).
      rewrite app_length. cbn [length].
      destruct (Nat.ltb_spec (length acc) (length acc + 1)); [|lia].
      rewrite Ho. apply ghost_beam_get in Hb. rewrite Hb. cbn [bind]. rewrite put_nth_end.
      assert (L : length (acc ++ [Some b]) = S (length acc)) by (rewrite app_length; cbn; lia).
      rewrite <- L. apply IH.
      + rewrite L. lia.
      + intros i Hi. rewrite L in Hi. apply H. lia.
  Qed.

  Lemma filter_seq_gap (f : nat -> bool) n s :
    (exists i j, s <= i < j /\ j < s + n /\ f j = true /\ f i = false) ->
    exists k u us, filter f (seq s n) = seq s k ++ u :: us /\ s + k < u
      /\ forall i, s <= i < s + k -> f i = true.
  Proof.
    revert s. induction n as [|n IH]; intros s (i & j & Hij & Hj & Fj & Fi); [lia|].
    cbn [seq filter]. destruct (f s) eqn:E.
    - destruct (IH (S s)) as (k & u & us & Ek & Hu & Hk).
      { exists i, j. assert (i <> s) by congruence. repeat split; auto; lia. }
      exists (S k), u, us. rewrite Ek. cbn [seq app]. split; [reflexivity|]. split; [lia|].
      intros x Hx. destruct (Nat.eq_dec x s) as [->|]; auto. apply Hk. lia.
    - exists 0. cbn [seq app].
      destruct (filter f (seq (S s) n)) as [|u us] eqn:F.
      + assert (X : In j (filter f (seq (S s) n))).
        { apply filter_In. split; auto. apply in_seq. lia. }
        rewrite F in X. destruct X.
      + exists u, us. split; auto. split; [|intros; lia].
        assert (X : In u (filter f (seq (S s) n))) by (rewrite F; now left).
        apply filter_In in X. rewrite in_seq in X. lia.
  Qed.

  (** ** init_spinmaps *)
  Lemma filled_map_idx gs gs' : Forall2 filled gs gs' -> map gh_idx gs' = map gh_idx gs.
  Proof. induction 1 as [|g g' gs gs' (_ & H & _) _ IH]; cbn; congruence. Qed.

  Lemma filled_first gs gs' i o' : Forall2 filled gs gs' -> first_with i gs' = Some o' ->
    exists o, first_with i gs = Some o /\ filled o o'.
  Proof.
    unfold first_with. induction 1 as [|g g' gs gs' Hf _ IH]; cbn; [discriminate|].
    assert (Hi : gh_idx g' = gh_idx g) by (destruct Hf as (_ & H & _); auto).
    rewrite Hi. destruct (gh_idx g =? i); intros E; [injection E as <-; eauto|auto].
  Qed.

  Lemma filled_beam g g' b : filled g g' -> ghost_beam g' b -> ghost_beam g b.
  Proof.
    intros (_ & _ & _ & x & Hx & E) [H|[H _]]; congruence.
  Qed.

  Definition opt_ghosts (b : option (det B)) : list (gh B) :=
    match b with Some d => d_ghosts d | None => [] end.

  Lemma init_detpair_unfold a b ground : beams_available a b ->
    exists gs' b', Forall2 filled (d_ghosts a) gs'
      /\ init_detpair (Some a) b ground
         = (do maps <- init_spinmaps (with_gs a gs') ground;
            Ok (maps, (Some (delete_blm (with_gs a gs')), option_map delete_blm b'))).
  Proof.
    intros (_ & Ha & Hb). unfold init_detpair.
    destruct (prepare_ok (d_ghosts a) Ha None) as (gs' & E & F). rewrite E. cbn [bind].
    destruct b as [d|].
    - destruct (prepare_b_ok (d_ghosts d) (fun g Hg => Hb d g eq_refl Hg)
                  (hd_error (d_ghosts (with_gs a gs')))) as (gb & Eb & Fb).
      rewrite Eb. cbn [bind]. exists gs', (Some (with_gs d gb)). split; auto.
    - cbn [bind]. exists gs', None. split; auto.
  Qed.

  Lemma no_gap_idx gs : no_gap gs <-> (forall i j, In j (map (@gh_idx B) gs) -> i <= j -> In i (map gh_idx gs)).
  Proof.
    unfold no_gap. split.
    - intros H i j Hj Hij. apply in_map_iff in Hj. destruct Hj as (g & <- & Hg).
      destruct (H g i Hg Hij) as (g' & Hg' & E). apply in_map_iff. eauto.
    - intros H g j Hg Hj. assert (X : In j (map gh_idx gs)).
      { apply (H j (gh_idx g)); auto. apply in_map. auto. }
      apply in_map_iff in X. destruct X as (g' & E & Hg'). eauto.
  Qed.

  (** Without gaps everything is found. *)
  Lemma init_ok a b ground : beams_available a b -> no_gap (d_ghosts a) ->
    exists maps p, init_detpair (Some a) b ground = Ok (maps, p)
      /\ main_beam a (sm_main maps)
      /\ (forall i, (exists g, In g (d_ghosts a) /\ gh_idx g = i) ->
            exists o x, first_of_index (d_ghosts a) i o /\ ghost_beam o x
                        /\ nth_error (sm_ghosts maps) i = Some (Some x))
      /\ (forall i, (forall g, In g (d_ghosts a) -> gh_idx g <> i) ->
            nth_error (sm_ghosts maps) i = None)
      /\ (ground = false -> sm_ground maps = None)
      /\ (ground = true ->
            (d_ghosts a = [] -> exists x, main_beam a x /\ sm_ground maps = Some x)
            /\ (d_ghosts a <> [] -> exists g x, In g (d_ghosts a) /\ ghost_beam g x
                                                /\ sm_ground maps = Some x)).
  Proof.
    intros Hav Hng. destruct (init_detpair_unfold a b ground Hav) as (gs' & b' & F & ->).
    destruct Hav as ((m & Hm) & Ha & _). unfold init_spinmaps.
    apply main_beam_get in Hm. cbn [with_gs d_blm d_gen d_ghosts]. rewrite Hm. cbn [bind].
    assert (F' := F).
    destruct (d_ghosts a) as [|g0 gs0] eqn:Eg.
    - inversion F; subst. cbn. eexists _, _. split; [reflexivity|]. cbn.
      split; [apply main_beam_get; auto|].
      split; [intros i (g & [] & _)|].
      split; [intros [|i] _; reflexivity|].
      split; [intros ->; reflexivity|]. intros ->. split; [|congruence].
      intros _. exists m. split; auto. apply main_beam_get; auto.
    - destruct gs' as [|g0' gs0'] eqn:Eg'; [inversion F|]. rewrite <- Eg in *.
      rewrite <- Eg' in *.
      destruct (unique_no_gap _ (proj1 (no_gap_idx _) Hng)) as (k & Ek & Hk).
      rewrite (filled_map_idx _ _ F'), Ek.
      assert (Hfirst : forall i, i < k -> exists o' b, first_with i gs' = Some o' /\ ghost_beam o' b).
      { intros i Hi. apply Hk in Hi. rewrite <- (filled_map_idx _ _ F') in Hi.
        destruct (first_with_exists gs' i Hi) as (o' & Ho'). exists o'.
        destruct (filled_first _ _ _ _ F' Ho') as (o & _ & (_ & _ & _ & x & _ & Ex)).
        exists x. split; auto. left. auto. }
      destruct (ghost_maps_ok gs' k [] m) as (l & lst & E & Hl & H0 & H1 & Hi).
      { cbn. intros i Hi. apply Hfirst. lia. }
      cbn [length] in E. rewrite E. cbn [bind app]. eexists _, _. split; [reflexivity|]. cbn.
      split; [apply main_beam_get; auto|].
      assert (K : forall i, i < k -> exists o x, first_of_index (d_ghosts a) i o /\ ghost_beam o x
                    /\ nth_error l i = Some (Some x)).
      { intros i Hlt. destruct (Hi i Hlt) as (o' & x & A1 & A2 & A3).
        destruct (filled_first _ _ _ _ F' A1) as (o & Ho & Hf).
        exists o, x. split; [apply first_with_some; auto|]. split; auto.
        eapply filled_beam; eauto. }
      split.
      { intros i (g & Hg & Egi). apply K. apply Hk. subst i. apply in_map. auto. }
      split.
      { intros i Hi'. apply nth_error_None. rewrite Hl.
        destruct (Nat.lt_ge_cases i k) as [Hlt|]; auto. apply Hk in Hlt.
        apply in_map_iff in Hlt. destruct Hlt as (g & Eg1 & Hg). destruct (Hi' g Hg Eg1). }
      split; [intros ->; reflexivity|]. intros ->. split; [rewrite Eg; discriminate|].
      intros _. assert (k <> 0).
      { intros ->. assert (X := proj1 (Hk (gh_idx g0))). rewrite Eg in X.
        specialize (X (or_introl eq_refl)). lia. }
      destruct (H1 H) as (o' & x & A1 & A2 & ->).
      destruct (filled_first _ _ _ _ F' A1) as (o & Ho & Hf). exists o, x.
      split; [|split; auto; eapply filled_beam; eauto].
      apply first_with_some in Ho. destruct Ho as (pre & post & -> & _).
      apply in_or_app. right. now left.
  Qed.

  (** With a gap the initialisation fails. *)
  Lemma init_gap a b ground : beams_available a b -> ~ no_gap (d_ghosts a) ->
    init_detpair (Some a) b ground = Err IndexError.
  Proof.
    intros Hav Hng. destruct (init_detpair_unfold a b ground Hav) as (gs' & b' & F & ->).
    destruct Hav as ((m & Hm) & Ha & _). unfold init_spinmaps.
    apply main_beam_get in Hm. cbn [with_gs d_blm d_gen d_ghosts]. rewrite Hm. cbn [bind].
    set (l := map (@gh_idx B) gs').
    assert (El : l = map gh_idx (d_ghosts a)) by (apply filled_map_idx; auto).
    assert (G : exists i j, In j l /\ i <= j /\ ~ In i l).
    { rewrite El. destruct (existsb (fun j => existsb (fun i => negb (existsb (Nat.eqb i) (map gh_idx (d_ghosts a))))
          (seq 0 (S j))) (map gh_idx (d_ghosts a))) eqn:X.
      - apply existsb_exists in X. destruct X as (j & Hj & X). apply existsb_exists in X.
        destruct X as (i & Hi & X). apply in_seq in Hi. exists i, j. split; auto. split; [lia|].
        intros Hin. apply negb_true_iff in X.
        assert (Y : existsb (Nat.eqb i) (map gh_idx (d_ghosts a)) = true).
        { apply existsb_exists. exists i. split; auto. apply Nat.eqb_refl. }
        congruence.
      - exfalso. apply Hng. apply no_gap_idx. intros i j Hj Hij.
        destruct (existsb (Nat.eqb i) (map gh_idx (d_ghosts a))) eqn:Y.
        + apply existsb_exists in Y. destruct Y as (x & Hx & Ex). apply Nat.eqb_eq in Ex. congruence.
        + assert (Z : existsb (fun j => existsb (fun i => negb (existsb (Nat.eqb i) (map gh_idx (d_ghosts a))))
             (seq 0 (S j))) (map gh_idx (d_ghosts a)) = true).
          { apply existsb_exists. exists j. split; auto. apply existsb_exists. exists i.
            split; [apply in_seq; lia|]. rewrite Y. reflexivity. }
          congruence. }
    destruct G as (i & j & Hj & Hij & Hi).
    assert (X : forall i, existsb (Nat.eqb i) l = true <-> In i l).
    { intros x. rewrite existsb_exists. split.
      - intros (y & Hy & E). apply Nat.eqb_eq in E. congruence.
      - intros Hx. exists x. split; auto. apply Nat.eqb_refl. }
    destruct (filter_seq_gap (fun u => existsb (Nat.eqb u) l) (S (list_max l)) 0)
      as (k & u & us & Ek & Hu & Hk).
    { exists i, j. assert (i <> j) by congruence. split; [lia|]. split.
      - pose proof (list_max_in l j Hj). lia.
      - split; [apply X; auto|]. destruct (existsb (Nat.eqb i) l) eqn:Y; auto.
        apply X in Y. contradiction. }
    assert (N : gs' <> []) by (intros ->; destruct Hj).
    replace (match gs' with [] => [] | g :: l => unique (map gh_idx (g :: l)) end)
      with (seq 0 k ++ u :: us).
    2:{ destruct gs' eqn:Eg; [congruence|]. unfold unique. fold l. symmetry. exact Ek. }
    assert (Z := ghost_maps_gap gs' u us k [] m). cbn [length] in Z. rewrite Z; auto.
    cbn. intros x Hx. assert (Y := Hk x ltac:(lia)). apply X in Y.
    destruct (first_with_exists gs' x Y) as (o' & Ho'). exists o'.
    destruct (filled_first _ _ _ _ F Ho') as (o & _ & (_ & _ & _ & y & _ & Ey)).
    exists y. split; auto. left. auto.
  Qed.

  Lemma numbered_no_gap (gs : list (gh B)) : numbered gs -> no_gap gs.
  Proof.
    intros H g j Hg Hj. apply In_nth_error in Hg. destruct Hg as (k & Hk).
    assert (gh_idx g = k) by (apply H; auto).
    assert (k < length gs) by (apply nth_error_Some; congruence).
    destruct (nth_error gs j) as [g'|] eqn:E.
    - exists g'. split; [eapply nth_error_In; eauto|]. apply H. auto.
    - apply nth_error_None in E. lia.
  Qed.

  Lemma numbered_first (gs : list (gh B)) k g o : numbered gs -> nth_error gs k = Some g ->
    first_of_index gs (gh_idx g) o -> o = g.
  Proof.
    intros H Hk (pre & post & E & Ho & Hp).
    assert (X : nth_error gs (length pre) = Some o).
    { rewrite E, nth_error_app2, Nat.sub_diag by lia. reflexivity. }
    assert (gh_idx o = length pre) by (apply H; auto).
    assert (gh_idx g = k) by (apply H; auto).
    replace (length pre) with k in X by lia. congruence.
  Qed.

  (** ** Sharing *)
  Lemma numbered_consistent gs : numbered gs -> consistent gs.
  Proof.
    intros H g g' x Hg Hg' E Hb. apply In_nth_error in Hg, Hg'.
    destruct Hg as (k & Hk), Hg' as (k' & Hk').
    assert (gh_idx g = k) by (apply H; auto). assert (gh_idx g' = k') by (apply H; auto).
    assert (k = k') by congruence. subst k'. congruence.
  Qed.

  Lemma in_replace {A} (l : list A) i y x : In x (firstn i l ++ y :: skipn (S i) l) ->
    x = y \/ In x l.
  Proof.
    intros H. apply in_app_or in H. destruct H as [H|[H|H]].
    - right. rewrite <- (firstn_skipn i l). apply in_or_app. auto.
    - auto.
    - right. rewrite <- (firstn_skipn (S i) l). apply in_or_app. auto.
  Qed.

  Lemma ghost_beam_fun g x y : ghost_beam g x -> ghost_beam g y -> x = y.
  Proof. intros H1 H2. apply ghost_beam_get in H1, H2. congruence. Qed.

  Lemma reuse_consistent gs i j gs' : consistent gs -> reuse gs i j = Some gs' -> consistent gs'.
  Proof.
    intros Hc. unfold reuse. destruct (nth_error gs i) as [g|] eqn:Ei; [|discriminate].
    destruct (nth_error gs j) as [p|] eqn:Ej; [|discriminate].
    destruct (share g p) as [n|] eqn:Es; [|discriminate]. intros E. injection E as <-.
    unfold share in Es. destruct (get_blm (gh_blm p) (gh_gen p)) as [b|] eqn:Eb; [|discriminate].
    injection Es as <-. assert (Hp : In p gs) by (eapply nth_error_In; eauto).
    assert (Hb : ghost_beam p b) by (apply ghost_beam_get; auto).
    assert (Hn : forall x, ghost_beam (mkgh (gh_dead g) (gh_idx p) (Some b) (gh_gen g)) x <-> x = b).
    { intros x. unfold ghost_beam. cbn. split; [intros [E|[E _]]; [injection E as <-; reflexivity|discriminate]|intros ->; auto]. }
    intros h h' x Hh Hh' Eh Hx. apply in_replace in Hh, Hh'.
    destruct Hh as [->|Hh], Hh' as [->|Hh']; auto.
    - apply Hn in Hx. subst x. apply (Hc p h'); auto.
    - apply Hn. cbn in Eh. assert (Z := Hc h p x Hh Hp Eh Hx). eapply ghost_beam_fun; eauto.
    - eapply Hc; eauto.
  Qed.

  Lemma reuses_consistent l : forall gs gs', consistent gs -> reuses gs l = Some gs' -> consistent gs'.
  Proof.
    induction l as [|[i j] l IH]; intros gs gs' Hc H; cbn in H; [injection H as <-; exact Hc|].
    destruct (reuse gs i j) as [g1|] eqn:E; [|discriminate].
    eapply IH; [|exact H]. eapply reuse_consistent; eauto.
  Qed.

  Lemma index_nth {A} (l : list A) i x : nth_error l i = Some x -> index l i = Ok x.
  Proof. unfold index. intros ->. reflexivity. Qed.
  Lemma index_none {A} (l : list A) i : nth_error l i = None -> index l i = Err IndexError.
  Proof. unfold index. intros ->. reflexivity. Qed.

  Lemma consistent_found a b ground : beams_available a b -> no_gap (d_ghosts a) ->
    consistent (d_ghosts a) ->
    exists maps p, init_detpair (Some a) b ground = Ok (maps, p)
      /\ (exists x, main_beam a x /\ find_maps (Some maps) None false = Ok x)
      /\ forall g, In g (d_ghosts a) ->
           exists x, ghost_beam g x /\ find_maps (Some maps) (Some (gh_idx g)) false = Ok x.
  Proof.
    intros Hav Hn Hc. destruct (init_ok a b ground Hav Hn) as (maps & p & E & Hm & Hg & _).
    exists maps, p. split; auto. split; [exists (sm_main maps); auto|].
    intros g Hin. destruct (Hg (gh_idx g)) as (o & x & Ho & Hx & En); [eauto|].
    exists x. split.
    - destruct Ho as (pre & post & Eg & Eo & _). apply (Hc o g); auto.
      rewrite Eg. apply in_or_app. right. now left.
    - cbn. rewrite (index_nth _ _ _ En). reflexivity.
  Qed.

  (** ** The detectors afterwards *)
  Lemma hasattr_same g r : hasattr_blm g = Ok r -> same_ghost g (snd r).
  Proof.
    unfold hasattr_blm. destruct (get_blm (gh_blm g) (gh_gen g)) as [b|[]]; intros H;
      try discriminate; injection H as <-; split; reflexivity.
  Qed.
  Lemma share_same g p r : share g p = Ok r -> same_ghost g r.
  Proof.
    unfold share. destruct (get_blm (gh_blm p) (gh_gen p)); [|discriminate].
    intros H. injection H as <-. split; reflexivity.
  Qed.
  Lemma same_ghost_trans g1 g2 g3 : same_ghost g1 g2 -> same_ghost g2 g3 -> same_ghost g1 g3.
  Proof. intros [] []. split; congruence. Qed.

  Lemma prepare_same gs : forall f gs', prepare f gs = Ok gs' -> Forall2 same_ghost gs gs'.
  Proof.
    induction gs as [|g gs IH]; intros f gs' H; cbn [prepare] in H; [injection H as <-; constructor|].
    destruct (hasattr_blm g) as [[h g1]|] eqn:E1; [|discriminate]. cbn [bind] in H.
    apply hasattr_same in E1. cbn in E1.
    destruct (if h then Ok g1 else match f with Some f => share g1 f | None => Err AttributeError end)
      as [g2|] eqn:E2; [|discriminate]. cbn [bind] in H.
    destruct (prepare _ gs) as [r|] eqn:E3; [|discriminate]. injection H as <-.
    constructor; [|eapply IH; eauto].
    destruct h; [injection E2 as <-; auto|]. destruct f; [|discriminate].
    eapply same_ghost_trans; [exact E1|eapply share_same; eauto].
  Qed.
  Lemma prepare_b_same gs : forall f gs', prepare_b f gs = Ok gs' -> Forall2 same_ghost gs gs'.
  Proof.
    induction gs as [|g gs IH]; intros f gs' H; cbn [prepare_b] in H; [injection H as <-; constructor|].
    destruct (hasattr_blm g) as [[h g1]|] eqn:E1; [|discriminate]. cbn [bind] in H.
    apply hasattr_same in E1. cbn in E1.
    destruct (if h then Ok g1 else match f with Some f => share g1 f | None => Err IndexError end)
      as [g2|] eqn:E2; [|discriminate]. cbn [bind] in H.
    destruct (prepare_b f gs) as [r|] eqn:E3; [|discriminate]. injection H as <-.
    constructor; [|eapply IH; eauto].
    destruct h; [injection E2 as <-; auto|]. destruct f; [|discriminate].
    eapply same_ghost_trans; [exact E1|eapply share_same; eauto].
  Qed.

  Lemma same_delete (d : det B) gs : Forall2 same_ghost (d_ghosts d) gs ->
    same_det d (delete_blm (with_gs d gs)).
  Proof.
    intros H. unfold same_det, delete_blm, with_gs. cbn. repeat split; auto.
    induction H as [|g g' l l' [] _ IH]; cbn; constructor; auto. split; cbn; auto.
  Qed.

  Lemma init_same (oa b : option (det B)) ground maps p : init_detpair oa b ground = Ok (maps, p) ->
    same_odet oa (fst p) /\ same_odet b (snd p).
  Proof.
    unfold init_detpair. destruct oa as [a|]; [|discriminate].
    destruct (prepare None (d_ghosts a)) as [gs|] eqn:E1; [|discriminate]. cbn [bind].
    apply prepare_same in E1.
    destruct b as [b|].
    - destruct (prepare_b (hd_error (d_ghosts (with_gs a gs))) (d_ghosts b)) as [gb|] eqn:E2;
        [|discriminate]. cbn [bind]. apply prepare_b_same in E2.
      destruct (init_spinmaps (with_gs a gs) ground) as [m|]; [|discriminate].
      intros H. injection H as <- <-. cbn. split; apply same_delete; auto.
    - cbn [bind]. destruct (init_spinmaps (with_gs a gs) ground) as [m|]; [|discriminate].
      intros H. injection H as <- <-. cbn. split; auto. apply same_delete; auto.
  Qed.

  Lemma filled_same_idx gs gs' : Forall2 filled gs gs' ->
    map gh_idx (map (fun g => mkgh (gh_dead g) (gh_idx g) None (gh_gen g)) gs') = map gh_idx gs.
  Proof.
    intros H. rewrite <- (filled_map_idx _ _ H), map_map. apply map_ext. reflexivity.
  Qed.

  (** What is left in memory after initialising. *)
  Lemma init_forgets a b ground : beams_available a b -> no_gap (d_ghosts a) ->
    exists maps a' b', init_detpair (Some a) b ground = Ok (maps, (Some a', b'))
      /\ d_blm a' = None /\ d_gen a' = d_gen a
      /\ Forall2 (fun g g' => gh_idx g' = gh_idx g /\ gh_gen g' = gh_gen g /\ gh_blm g' = None)
           (d_ghosts a) (d_ghosts a').
  Proof.
    intros Hav Hn. destruct (init_detpair_unfold a b ground Hav) as (gs' & b' & F & E).
    destruct (init_ok a b ground Hav Hn) as (maps & p & E' & _). rewrite E in E'.
    destruct (init_spinmaps (with_gs a gs') ground) as [m|] eqn:Em; [|discriminate].
    exists m, (delete_blm (with_gs a gs')), (option_map delete_blm b'). rewrite E.
    cbn [bind]. split; [reflexivity|]. split; [reflexivity|]. split; [reflexivity|].
    cbn. clear -F. induction F as [|g g' l l' (A & C & D & _) _ IH]; cbn; constructor; auto.
  Qed.

  Lemma lookup_any a (b : option (det B)) ground : beams_available a b -> no_gap (d_ghosts a) ->
    exists maps p, init_detpair (Some a) b ground = Ok (maps, p)
    /\ (forall i, (exists g, In g (d_ghosts a) /\ gh_idx g = i) ->
          exists o x, first_of_index (d_ghosts a) i o /\ ghost_beam o x
                      /\ find_maps (Some maps) (Some i) false = Ok x)
    /\ (forall i, (forall g, In g (d_ghosts a) -> gh_idx g <> i) ->
          find_maps (Some maps) (Some i) false = Err IndexError).
  Proof.
    intros Hav Hn. destruct (init_ok a b ground Hav Hn) as (maps & p & E & Hm & Hg & Hno & _).
    exists maps, p. split; auto. split.
    - intros i Hi. destruct (Hg i Hi) as (o & x & Ho & Hx & En). exists o, x. split; auto.
      split; auto. cbn. rewrite (index_nth _ _ _ En). reflexivity.
    - intros i Hi. cbn. rewrite (index_none _ _ (Hno i Hi)). reflexivity.
  Qed.

  Lemma partner_found a (d : det B) ground :
    beams_available a (Some d) -> no_gap (d_ghosts a) -> consistent (d_ghosts a) ->
    (forall g, In g (d_ghosts d) ->
       exists g', In g' (d_ghosts a) /\ gh_idx g' = gh_idx g
                  /\ forall x, ghost_beam g' x -> ghost_beam g x) ->
    exists maps p, init_detpair (Some a) (Some d) ground = Ok (maps, p)
    /\ forall g, In g (d_ghosts d) ->
         exists x, ghost_beam g x /\ find_maps (Some maps) (Some (gh_idx g)) false = Ok x.
  Proof.
    intros Hav Hn Hc Hp. destruct (consistent_found a (Some d) ground Hav Hn Hc)
      as (maps & p & E & _ & Hg).
    exists maps, p. split; auto. intros g Hin. destruct (Hp g Hin) as (g' & Hin' & Ei & Hb).
    destruct (Hg g' Hin') as (x & Hx & Ef). exists x. rewrite <- Ei. auto.
  Qed.

  Lemma first_transfer gs gs' i o' :
    Forall2 (fun g g' => gh_idx g' = gh_idx g /\ gh_gen g' = gh_gen g /\ gh_blm g' = None) gs gs' ->
    first_with i gs' = Some o' ->
    exists o, first_with i gs = Some o /\ gh_gen o' = gh_gen o /\ gh_blm o' = None.
  Proof.
    unfold first_with. induction 1 as [|g g' l l' (E1 & E2 & E3) _ IH]; cbn; [discriminate|].
    rewrite E1. destruct (gh_idx g =? i); intros H; [injection H as <-; eauto|auto].
  Qed.

  Lemma first_in gs i o : first_of_index gs i o -> In o gs /\ gh_idx o = i.
  Proof. intros (pre & post & -> & E & _). split; auto. apply in_or_app. right. now left. Qed.

  Lemma find_inv maps i x : find_maps (Some maps) (Some i) false = Ok x ->
    nth_error (@sm_ghosts B maps) i = Some (Some x).
  Proof.
    cbn. unfold index. destruct (nth_error (sm_ghosts maps) i) as [[y|]|]; cbn; congruence.
  Qed.

  (** Whatever is found was the beam of the first ghost with that index. *)
  Lemma ghost_maps_sound gs : forall us acc last r lst,
    ghost_maps us gs acc last = Ok (r, lst) ->
    (forall i x, nth_error acc i = Some (Some x) -> exists o, first_with i gs = Some o /\ ghost_beam o x) ->
    forall i x, nth_error r i = Some (Some x) -> exists o, first_with i gs = Some o /\ ghost_beam o x.
  Proof.
    induction us as [|u us IH]; intros acc last r lst H Hacc; cbn [ghost_maps] in H.
    - injection H as <- _. exact Hacc.
    - destruct (u <? length (acc ++ [None])); [|discriminate].
      destruct (first_with u gs) as [g|] eqn:Eu; [|discriminate].
      destruct (get_blm (gh_blm g) (gh_gen g)) as [b|] eqn:Eb; [|discriminate]. cbn [bind] in H.
      eapply IH; [exact H|]. intros i x Hi.
      assert (Z : forall l k, nth_error (put_nth l k b) i = Some (Some x) ->
                (i = k /\ x = b) \/ nth_error l i = Some (Some x)).
      { clear. intros l. revert i. induction l as [|y l IH]; intros i k H; cbn in H; [auto|].
        destruct k; destruct i; cbn in H |- *; auto.
        - left. split; congruence.
        - destruct (IH _ _ H) as [[-> ->]|]; auto. }
      destruct (Z _ _ Hi) as [[-> ->]|Hi'].
      + exists g. split; auto. apply ghost_beam_get. auto.
      + apply Hacc. clear -Hi'. revert i Hi'. induction acc as [|y acc IHa]; intros [|i] H; cbn in H; auto.
        * discriminate.
        * destruct i; discriminate.
        * apply IHa in H. exact H.
  Qed.

  Lemma init_again a (b : option (det B)) ground maps (a' : det B) b' maps' p' :
    beams_available a b -> no_gap (d_ghosts a) ->
    (forall g, In g (d_ghosts a) -> exists x, gh_gen g = Ok x) ->
    init_detpair (Some a) b ground = Ok (maps, (Some a', b')) ->
    init_detpair (Some a') b' ground = Ok (maps', p') ->
    d_gen a = Ok (sm_main maps')
    /\ (d_blm a = None -> sm_main maps' = sm_main maps)
    /\ forall i x, find_maps (Some maps') (Some i) false = Ok x ->
         exists o, first_of_index (d_ghosts a) i o /\ gh_gen o = Ok x
                   /\ (gh_blm o = None -> find_maps (Some maps) (Some i) false = Ok x).
  Proof.
    intros Hav Hn Hgen E1 E2. destruct (init_forgets a b ground Hav Hn) as (m0 & a0 & b0 & E0 & F1 & F2 & F3).
    rewrite E0 in E1. injection E1 as -> -> ->.
    destruct (init_ok a b ground Hav Hn) as (m1 & p1 & E1 & Hm & Hg & _).
    rewrite E0 in E1. injection E1 as <- _.
    unfold init_detpair in E2.
    destruct (prepare None (d_ghosts a')) as [gs|] eqn:Ep; [|discriminate]. cbn [bind] in E2.
    assert (X : exists q, init_spinmaps (with_gs a' gs) ground = Ok maps' /\ q = p').
    { destruct (match b' with Some b => _ | None => Ok None end) as [q|]; [|discriminate].
      cbn [bind] in E2. destruct (init_spinmaps (with_gs a' gs) ground) as [m|]; [|discriminate].
      cbn [bind] in E2. injection E2 as <- _. eauto. }
    destruct X as (_ & X & _). unfold init_spinmaps in X. cbn [with_gs d_blm d_gen d_ghosts] in X.
    rewrite F1, F2 in X. cbn [get_blm] in X.
    destruct (d_gen a) as [m|] eqn:Em; [|discriminate]. cbn [bind] in X.
    destruct (ghost_maps _ gs [] m) as [[gm last]|] eqn:Egm; [|discriminate].
    cbn [bind] in X. injection X as <-. cbn [sm_main].
    split; auto. split.
    { intros Hb. destruct Hm as [Hm|[_ Hm]]; congruence. }
    intros i x Hx. apply find_inv in Hx. cbn in Hx.
    destruct (ghost_maps_sound _ _ _ _ _ _ Egm) with (i := i) (x := x) as (o1 & Ho1 & Hb1); auto.
    { intros [|j] y H; discriminate. }
    assert (P : exists o2, first_with i (d_ghosts a') = Some o2 /\ gh_gen o2 = Ok x).
    { assert (N : forall g, In g (d_ghosts a') -> gh_blm g = None /\ exists y, gh_gen g = Ok y).
      { clear -F3 Hgen. induction F3 as [|g g' l l' (_ & E' & E) _ IH]; intros h Hh; [destruct Hh|].
        destruct Hh as [<-|Hh].
        - split; auto. destruct (Hgen g (or_introl eq_refl)) as (y & Hy). exists y. congruence.
        - apply IH; auto. intros k Hk. apply Hgen. now right. }
      clear -Ep Ho1 Hb1 N. revert gs Ep o1 Ho1 Hb1 N. generalize (@None (gh B)).
      induction (d_ghosts a') as [|g l IH]; intros f gs Ep o1 Ho1 Hb1 N; cbn [prepare] in Ep.
      - injection Ep as <-. discriminate.
      - unfold hasattr_blm in Ep. destruct (N g (or_introl eq_refl)) as (Nb & y & Eg).
        rewrite Nb in Ep. cbn [get_blm] in Ep. rewrite Eg in Ep.
        cbn [bind] in Ep. destruct (prepare _ l) as [r|] eqn:Er; [|discriminate].
        cbn [bind] in Ep. injection Ep as <-. unfold first_with in *. cbn [find gh_idx] in *.
        destruct (gh_idx g =? i).
        + injection Ho1 as <-. destruct Hb1 as [H|[H _]]; [|discriminate]. injection H as ->. eauto.
        + eapply IH; eauto. intros h Hh. apply N. now right. }
    destruct P as (o2 & Ho2 & Eg2).
    destruct (first_transfer _ _ _ _ F3 Ho2) as (o & Ho & Eo & _).
    exists o. assert (Fo : first_of_index (d_ghosts a) i o) by (apply first_with_some; auto).
    split; auto. split; [congruence|]. intros Hnb.
    destruct (Hg i) as (o' & y & Ho' & Hy & En).
    { exists o. apply first_in. auto. }
    apply first_with_some in Ho'. assert (o' = o) by congruence. subst o'.
    assert (y = x). { destruct Hy as [Hy|[_ Hy]]; congruence. } subst y.
    cbn. rewrite (index_nth _ _ _ En). reflexivity.
  Qed.
End L.

(** ** Concrete pairs of detectors; beams are numbers *)
Definition tg (dead : bool) (i : nat) (own : nat) : gh nat := mkgh dead i None (Ok own).
Definition td (id : Z) (gs : list (gh nat)) (own : nat) : det nat := mkdet id false false gs None (Ok own).

Lemma gap_refuted :
  (forall B (a : det B) (b : option (det B)) ground,
     beams_available a b -> ~ no_gap (d_ghosts a) ->
     init_detpair (Some a) b ground = Err IndexError)
  /\ exists a : det nat,
       reuses [tg false 0 10; tg false 1 11; tg false 2 12] [(1, 0)] = Some (d_ghosts a)
       /\ numbered [tg false 0 10; tg false 1 11; tg false 2 12]
       /\ beams_available a None
       /\ init_detpair (Some a) None false = Err IndexError.
Proof.
  split; [intros; apply init_gap; auto|].
  exists (td 1 [tg false 0 10; mkgh false 0 (Some 10) (Ok 11); tg false 2 12] 7).
  split; [reflexivity|]. split.
  { intros [|[|[|k]]] g H; cbn in H; try (injection H as <-; reflexivity). destruct k; discriminate. }
  split; [|reflexivity]. split; [exists 7; right; auto|]. split; [|intros d g H; discriminate].
  intros g [<-|[<-|[<-|[]]]]; eexists; [right; cbn; auto|left; reflexivity|right; cbn; auto].
Qed.

Lemma partner_refuted :
  exists (a d : det nat) maps p,
    numbered (d_ghosts a) /\ numbered (d_ghosts d)
    /\ init_detpair (Some a) (Some d) false = Ok (maps, p)
    /\ exists g g', nth_error (d_ghosts d) 0 = Some g /\ nth_error (d_ghosts d) 1 = Some g'
       /\ ghost_beam g 20 /\ find_maps (Some maps) (Some (gh_idx g)) false = Ok 10
       /\ find_maps (Some maps) (Some (gh_idx g')) false = Err IndexError.
Proof.
  exists (td 1 [tg false 0 10] 7), (td 2 [tg false 0 20; tg false 1 21] 8). eexists _, _.
  split. { intros [|[|k]] g H; cbn in H; try discriminate. injection H as <-; reflexivity. }
  split. { intros [|[|[|k]]] g H; cbn in H; try discriminate; injection H as <-; reflexivity. }
  split; [reflexivity|]. eexists _, _. repeat split; try reflexivity. right; auto.
Qed.

Lemma again_refuted :
  exists (a : det nat) maps a' b' maps' p',
    main_beam a 5 /\ beams_available a None
    /\ init_detpair (Some a) None false = Ok (maps, (Some a', b')) /\ sm_main maps = 5
    /\ init_detpair (Some a') b' false = Ok (maps', p') /\ sm_main maps' = 7
    /\ find_maps (Some maps) (Some 0) false = Ok 5 /\ find_maps (Some maps') (Some 0) false = Ok 9.
Proof.
  exists (mkdet 1 false false [mkgh false 0 (Some 5) (Ok 9)] (Some 5) (Ok 7)).
  eexists _, _, _, _, _. split; [left; reflexivity|]. split.
  { split; [exists 5; left; reflexivity|]. split; [|intros d g H; discriminate].
    intros g [<-|[]]. exists 5. left. reflexivity. }
  repeat split; reflexivity.
Qed.

Lemma ground_refuted :
  (forall B (a : det B) (b : option (det B)), beams_available a b -> no_gap (d_ghosts a) ->
     exists maps p, init_detpair (Some a) b true = Ok (maps, p)
     /\ (d_ghosts a = [] -> exists x, main_beam a x /\ find_maps (Some maps) None true = Ok x)
     /\ (d_ghosts a <> [] -> exists g x, In g (d_ghosts a) /\ ghost_beam g x
                                         /\ find_maps (Some maps) None true = Ok x))
  /\ exists (a : det nat) maps p, main_beam a 7 /\ numbered (d_ghosts a)
     /\ init_detpair (Some a) None true = Ok (maps, p)
     /\ find_maps (Some maps) None true = Ok 10.
Proof.
  split.
  - intros B a b Hav Hn. destruct (init_ok a b true Hav Hn) as (maps & p & E & _ & _ & _ & _ & Hg).
    destruct (Hg eq_refl) as (H0 & H1). exists maps, p. split; auto. cbn. split.
    + intros H. destruct (H0 H) as (x & Hx & ->). eauto.
    + intros H. destruct (H1 H) as (g & x & Hin & Hx & ->). eauto 6.
  - exists (td 1 [tg false 0 10] 7). eexists _, _. split; [right; auto|]. split.
    { intros [|[|k]] g H; cbn in H; try discriminate. injection H as <-; reflexivity. }
    split; reflexivity.
Qed.
