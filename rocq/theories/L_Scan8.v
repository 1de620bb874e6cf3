(** * What the binned timestreams are made of *)
From Coq Require Import Reals Lra.
From Verif Require Import Common LibList M_Chunks M_Steps M_Hwp M_Mpi M_Detpair M_Scan
  S_Chunks S_Detpair S_Scan L_Chunks L_Hwp L_Mpi L_Detpair L_Scan L_Scan2 L_Scan3 L_Scan4
  L_Scan5 L_Scan6 L_Scan7.
From Verif Require L_Tod.
Open Scope R_scope.

Lemma rsum_cons_ x l : rsum (x :: l) = x + rsum l.
Proof. reflexivity. Qed.
Lemma rsum_app_ (a b : list R) : rsum (a ++ b) = rsum a + rsum b.
Proof.
  induction a as [|x a IH]; cbn [app]; [unfold rsum; cbn; ring|].
  rewrite !rsum_cons_, IH. ring.
Qed.

Section L.
  Context {B : Type}.
  Implicit Types (s : state B) (E : env B) (d : det B).

  (** ** After initialising, indices and dead flags are as before *)
  Definition same_shape d d' : Prop :=
    d_id d' = d_id d /\ d_dead d' = d_dead d
    /\ Forall2 (fun g g' => gh_dead g' = gh_dead g /\ gh_idx g' = gh_idx g) (d_ghosts d) (d_ghosts d').

  Lemma filled_shape d gs : Forall2 filled (d_ghosts d) gs -> same_shape d (delete_blm (with_gs d gs)).
  Proof.
    intros F. split; [reflexivity|]. split; [reflexivity|]. cbn.
    induction F as [|g g' gs0 gs' (H1 & H2 & _) _ IH]; cbn; constructor; auto.
  Qed.

  Lemma init_shape (a : det B) (ob : option (det B)) ground maps (q : bpair B) : beams_available a ob ->
    init_detpair (Some a) ob ground = Ok (maps, q) ->
    exists a', fst q = Some a' /\ same_shape a a'
      /\ match ob, snd q with
         | Some b, Some b' => same_shape b b'
         | None, None => True
         | _, _ => False
         end.
  Proof.
    intros (_ & Ha & Hb) H. unfold init_detpair in H.
    destruct (prepare_ok (d_ghosts a) Ha None) as (gs' & E1 & F). rewrite E1 in H. cbn [bind] in H.
    destruct ob as [d|].
    - destruct (prepare_b_ok (d_ghosts d) (fun g Hg => Hb d g eq_refl Hg)
                  (hd_error (d_ghosts (with_gs a gs')))) as (gb & Eb & Fb).
      rewrite Eb in H. cbn [bind] in H. inv_bind H m Hm. injection H as <- <-.
      eexists. split; [reflexivity|]. split; [apply filled_shape; auto|].
      cbn [snd option_map]. apply filled_shape; auto.
    - cbn [bind] in H. inv_bind H m Hm. injection H as <- <-.
      eexists. split; [reflexivity|]. split; [apply filled_shape; auto|]. cbn. auto.
  Qed.

  (** ** Signal of the calls *)
  Section Sig.
    Variables (E : env B) (vw : bool -> view).
    Definition lsig (l : list (@call B)) (j : nat) : R :=
      rsum (map (fun x => call_sig E vw x j) l).
    Lemma lsig_app a b j : lsig (a ++ b) j = lsig a j + lsig b j.
    Proof. unfold lsig. rewrite map_app. apply rsum_app_. Qed.

    Lemma ghost_calls_sum maps i j : forall gs gs' bs k l,
      Forall2 (fun g g' => gh_dead g' = gh_dead g /\ gh_idx g' = gh_idx g) gs gs' ->
      Forall2 (fun g b => find_maps maps (Some (gh_idx g)) false = Ok b) gs bs ->
      ghost_calls maps i false k gs' = Ok l ->
      lsig l j = ghost_signal E i k gs bs (vw false) j.
    Proof.
      intros gs gs' bs k l F. revert bs k l.
      induction F as [|g g' gs gs' [Hd Hi] F IH]; intros bs k l F2 H; inversion F2; subst.
      - cbn in H. injection H as <-. reflexivity.
      - cbn [ghost_calls ghost_signal] in H |- *. rewrite Hd in H. destruct (gh_dead g) eqn:Eg.
        + rewrite (IH _ _ _ H4 H). ring.
        + rewrite Hi in H. rewrite H2 in H. cbn [bind] in H. inv_bind H lg Hlg. injection H as <-.
          unfold lsig. cbn [map]. rewrite rsum_cons_. fold (lsig lg j).
          rewrite (IH _ _ _ H4 Hlg). reflexivity.
    Qed.

    Lemma det_calls_sum maps d d' x bs l j : same_shape d d' ->
      find_maps maps None false = Ok x ->
      Forall2 (fun g b => find_maps maps (Some (gh_idx g)) false = Ok b) (d_ghosts d) bs ->
      det_calls maps d' false = Ok l ->
      lsig l j = own_signal E d x bs (vw false) j.
    Proof.
      intros (Hid & _ & Hg) Hx Hb H. unfold det_calls in H. rewrite Hx in H. inv_bind H gs Hgs.
      cbn [bind] in H. injection H as <-. cbn [app]. rewrite lsig_app, Hid in *.
      rewrite (ghost_calls_sum _ _ j _ _ _ _ _ Hg Hb Hgs).
      unfold own_signal, lsig. cbn [map]. rewrite rsum_cons_. unfold rsum. cbn. ring.
    Qed.

    (** With a ground template and no ghosts. *)
    Lemma det_calls_ground maps d d' x y l j : d_id d' = d_id d -> d_ghosts d' = [] ->
      find_maps maps None false = Ok x -> find_maps maps None true = Ok y ->
      det_calls maps d' true = Ok l ->
      lsig l j = e_signal E (Main (d_id d)) x (vw false) j + e_signal E (Main (d_id d)) y (vw true) j.
    Proof.
      intros Hid Hg Hx Hy H. unfold det_calls in H. rewrite Hx, Hy, Hg, Hid in H. cbn in H.
      injection H as <-. unfold lsig, rsum. cbn. ring.
    Qed.
  End Sig.

  (** ** Finding the sub-chunk of an event *)
  Lemma event_sub E O q maps cs evs e : pair_like E O q maps cs evs -> In e evs ->
    (exists c l, e = EPoint c l)
    \/ exists c sevs, sub_like E O q maps c sevs /\ In e sevs /\ incl sevs evs.
  Proof.
    intros (evss & F & ->) He. apply in_concat in He. destruct He as (l & Hl & He).
    assert (X : exists c, chunk_like E O q maps c l).
    { clear -F Hl. induction F; [destruct Hl|]. destruct Hl as [<-|Hl]; eauto. }
    destruct X as (c & bore & subs & es & _ & F2 & ->). destruct He as [<-|He]; [eauto|right].
    apply in_concat in He. destruct He as (l2 & Hl2 & He).
    assert (X : exists c, sub_like E O q maps c l2).
    { clear -F2 Hl2. induction F2; [destruct Hl2|]. destruct Hl2 as [<-|Hl2]; eauto. }
    destruct X as (c' & X). exists c', l2. do 2 (split; auto).
    intros y Hy. apply in_concat. eexists. split; [exact Hl|]. right. apply in_concat. eauto.
  Qed.

  Lemma in_calls_bin E n vw l i v t : ~ In (EBin i v t) (map (@call_event B E n vw) l).
  Proof. intros H. apply in_map_iff in H. destruct H as ([[w b] g] & H & _). discriminate. Qed.

  Lemma in_bin_event (O : opts) m d v t i v' t' : In (EBin i v' t') (bin_event O m d v t) ->
    d_id d = i /\ v' = v /\ t' = fval O m t.
  Proof.
    unfold bin_event. destruct (o_binning O); intros H; [|destruct H].
    destruct H as [H|[]]. injection H as <- <- <-. auto.
  Qed.

  Lemma fval_none (O : opts) m t : no_filters O -> fval O m t = t.
  Proof. intros H. unfold fval. rewrite H. reflexivity. Qed.

  (** ** A bin event of a sub-chunk *)
  Definition mixed (O : opts) n (f : nat -> R) (other : option (nat -> R)) : list R :=
    L_Tod.arr n (fun j => f j + match other with Some g => o_ctalk O * g j | None => 0 end).

  Lemma sub_bin_a E O (q : bpair B) n vw m la lb (a : det B) v t : no_filters O ->
    live (fst q) = Some a -> (forall b, live (snd q) = Some b -> d_id b <> d_id a) ->
    In (EBin (d_id a) v t) (sub_events E O q n vw m la lb) ->
    v = vw false
    /\ t = mixed O n (lsig E vw la) (match live (snd q) with Some _ => Some (lsig E vw lb) | None => None end).
  Proof.
    intros Hf Ha Hb H. unfold sub_events in H. cbv zeta in H. rewrite Ha in H.
    destruct (live (snd q)) as [b|] eqn:Eb.
    - unfold ctalk_on in H. rewrite Ha, Eb in H. destruct (Req_EM_T (o_ctalk O) 0) as [E0|E0].
      + repeat (apply in_app_or in H; destruct H as [H|H]);
          try (destruct (in_calls_bin _ _ _ _ _ _ _ H)); apply in_bin_event in H;
          destruct H as (Hi & Hv & Ht); [|destruct (Hb b eq_refl); auto].
        split; auto. rewrite Ht, fval_none by auto. unfold mixed. apply L_Tod.arr_ext. intros j _.
        rewrite E0. unfold lsig. ring.
      + repeat (apply in_app_or in H; destruct H as [H|H]);
          try (destruct (in_calls_bin _ _ _ _ _ _ _ H)); apply in_bin_event in H;
          destruct H as (Hi & Hv & Ht); [|destruct (Hb b eq_refl); auto].
        split; auto. rewrite Ht, fval_none by auto. reflexivity.
    - apply in_app_or in H. destruct H as [H|H]; [destruct (in_calls_bin _ _ _ _ _ _ _ H)|].
      apply in_bin_event in H. destruct H as (Hi & Hv & Ht). split; auto.
      rewrite Ht, fval_none by auto. unfold mixed. apply L_Tod.arr_ext. intros j _. unfold lsig. ring.
  Qed.

  Lemma sub_bin_b E O (q : bpair B) n vw m la lb (b : det B) v t : no_filters O ->
    live (snd q) = Some b -> (forall a, live (fst q) = Some a -> d_id a <> d_id b) ->
    In (EBin (d_id b) v t) (sub_events E O q n vw m la lb) ->
    v = vw false
    /\ t = mixed O n (lsig E vw lb) (match live (fst q) with Some _ => Some (lsig E vw la) | None => None end).
  Proof.
    intros Hf Hb Ha H. unfold sub_events in H. cbv zeta in H. rewrite Hb in H.
    destruct (live (fst q)) as [a|] eqn:Ea.
    - unfold ctalk_on in H. rewrite Hb, Ea in H. destruct (Req_EM_T (o_ctalk O) 0) as [E0|E0].
      + repeat (apply in_app_or in H; destruct H as [H|H]);
          try (destruct (in_calls_bin _ _ _ _ _ _ _ H)); apply in_bin_event in H;
          destruct H as (Hi & Hv & Ht); [destruct (Ha a eq_refl); auto|].
        split; auto. rewrite Ht, fval_none by auto. unfold mixed. apply L_Tod.arr_ext. intros j _.
        rewrite E0. unfold lsig. ring.
      + repeat (apply in_app_or in H; destruct H as [H|H]);
          try (destruct (in_calls_bin _ _ _ _ _ _ _ H)); apply in_bin_event in H;
          destruct H as (Hi & Hv & Ht); [destruct (Ha a eq_refl); auto|].
        split; auto. rewrite Ht, fval_none by auto. reflexivity.
    - apply in_app_or in H. destruct H as [H|H]; [destruct (in_calls_bin _ _ _ _ _ _ _ H)|].
      apply in_bin_event in H. destruct H as (Hi & Hv & Ht). split; auto.
      rewrite Ht, fval_none by auto. unfold mixed. apply L_Tod.arr_ext. intros j _. unfold lsig. ring.
  Qed.

  (** The main beam's scan is in the same sub-chunk, seen the same way. *)
  Lemma main_call (O : opts) maps (dd : option (det B)) g l d : live dd = Some d ->
    o_preview O = false -> calls_for O maps dd g l -> exists x, In (Main (d_id d), x, false) l.
  Proof.
    intros Hl Hp H. unfold calls_for, calls_of in H. rewrite Hl, Hp in H. destruct H as [H _].
    unfold det_calls in H. inv_bind H gs Hgs. inv_bind H gr Hgr. inv_bind H m Hm. injection H as <-.
    exists m. apply in_or_app. right. apply in_or_app. right. now left.
  Qed.
  Lemma sub_main E O (q : bpair B) n vw m maps la lb g d : o_preview O = false ->
    live (fst q) = Some d \/ live (snd q) = Some d ->
    calls_for O maps (fst q) g la -> calls_for O maps (snd q) g lb ->
    exists t0, In (EScan (Main (d_id d)) (vw false) t0) (sub_events E O q n vw m la lb).
  Proof.
    intros Hp [Hl|Hl] Ha Hb; unfold sub_events; cbv zeta.
    - destruct (main_call O maps (fst q) g la d Hl Hp Ha) as (x & Hx). rewrite Hl.
      apply (in_map (call_event E n vw)) in Hx. cbn [call_event] in Hx. eexists.
      destruct (live (snd q)); [destruct (ctalk_on O (fst q) (snd q))|]; apply in_or_app; left; exact Hx.
    - destruct (main_call O maps (snd q) g lb d Hl Hp Hb) as (x & Hx). rewrite Hl.
      apply (in_map (call_event E n vw)) in Hx. cbn [call_event] in Hx. eexists.
      destruct (live (fst q)).
      + destruct (ctalk_on O (fst q) (snd q)).
        * apply in_or_app; right. apply in_or_app; left; exact Hx.
        * apply in_or_app; right. apply in_or_app; right. apply in_or_app; left; exact Hx.
      + apply in_or_app; left; exact Hx.
  Qed.
End L.
