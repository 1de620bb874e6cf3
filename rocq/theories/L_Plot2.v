(** * Plotting: the limits of the colour scale *)
From Coq Require Import Reals String Lra Lia.
From Verif Require Import Common M_Beam M_Plot S_Plot L_Beam L_Ghost L_Round L_Plot.
Local Notation length := List.length.
Open Scope string_scope.

Definition range (d : drawing) (lo hi : val) : Prop :=
  dget (d_opts d) "min" = Some lo /\ dget (d_opts d) "max" = Some hi.

Lemma turn_range P st u m lo hi kw pf d : turn P st u m lo hi kw pf d -> p_no_limits P = false -> range d lo hi.
Proof. intros (_ & _ & _ & _ & _ & _ & _ & _ & _ & _ & T) N. destruct (T N) as (A & B & _). now split. Qed.

Lemma auto_num f m v w : auto_limit f m v = Ok w -> v <> VNone -> w = v.
Proof. destruct v; cbn; intros H N; congruence. Qed.

Lemma auto_some f m v w : auto_limit f m v = Ok w -> w <> VNone.
Proof.
  destruct v; cbn; intros H; try (injection H as <-; discriminate).
  destruct (nan_fold f m) as [x|]; [|discriminate]. apply bind_ok in H as (y & _ & H). now injection H as <-.
Qed.

Lemma loop_asked P items : p_no_limits P = false ->
  forall pidx minn maxx kw pf ds, iqu_loop P items pidx minn maxx kw pf = Ok ds ->
  forall i d, nth_error ds i = Some d ->
    match p_lim P with
    | Some (inl sym) => exists s, nth_error sym (pidx + i) = Some s /\ range d (VNum (- s)) (VNum s)
    | Some (inr lim) => exists l, nth_error lim (pidx + i) = Some l /\ range d (VNum (fst l)) (VNum (snd l))
    | None => True
    end.
Proof.
  intros NL. induction items as [|[st u] items IH]; intros pidx minn maxx kw pf ds H i d Hd.
  - injection H as <-. destruct i; discriminate.
  - apply loop_cons in H as (lo & hi & kw' & m & lo' & hi' & d0 & ds' & HL & Hm & H1 & H2 & -> & T & H).
    destruct i as [|i]; cbn in Hd.
    + injection Hd as <-. rewrite Nat.add_0_r. apply turn_range in T; [|exact NL].
      unfold limits_of in HL. destruct (p_lim P) as [[sym|lim]|]; [| |exact I];
        apply bind_ok in HL as (s & Hs & HL); injection HL as <- <- <-; apply index_ok in Hs;
        exists s; (split; [exact Hs|]); apply auto_num in H1; try discriminate; apply auto_num in H2; try discriminate;
        now subst.
    + specialize (IH _ _ _ _ _ _ H i d Hd). now rewrite Nat.add_succ_r.
Qed.

Lemma loop_kept P items : p_no_limits P = false -> p_lim P = None ->
  forall pidx minn maxx kw pf ds, minn <> VNone -> maxx <> VNone ->
  iqu_loop P items pidx minn maxx kw pf = Ok ds -> forall d, In d ds -> range d minn maxx.
Proof.
  intros NL PL. induction items as [|[st u] items IH]; intros pidx minn maxx kw pf ds N1 N2 H d Hd.
  - injection H as <-. destruct Hd.
  - apply loop_cons in H as (lo & hi & kw' & m & lo' & hi' & d0 & ds' & HL & Hm & H1 & H2 & -> & T & H).
    unfold limits_of in HL. rewrite PL in HL.
    assert (E : lo = minn /\ hi = maxx) by (destruct maxx, minn; try congruence; injection HL as <- <- <-; auto).
    destruct E as [-> ->]. apply auto_num in H1; [|exact N1]. apply auto_num in H2; [|exact N2]. subst lo' hi'.
    destruct Hd as [<-|Hd]; [now apply turn_range in T|]. now apply (IH _ _ _ _ _ _ N1 N2 H).
Qed.

Lemma loop_default P items pidx kw pf ds m :
  p_no_limits P = false -> p_lim P = None -> nth_error (p_maps P) pidx = Some m ->
  iqu_loop P items pidx VNone VNone kw pf = Ok ds -> items <> [] ->
  exists lo hi, auto_limit Rmin m (getd kw "min" (VInt (-10))) = Ok lo
    /\ auto_limit Rmax m (getd kw "max" (VInt 10)) = Ok hi
    /\ forall d, In d ds -> range d lo hi.
Proof.
  intros NL PL Hm H NI. destruct items as [|[st u] items]; [tauto|].
  apply loop_cons in H as (lo & hi & kw' & m' & lo' & hi' & d0 & ds' & HL & Hm' & H1 & H2 & -> & T & H).
  unfold limits_of in HL. rewrite PL in HL. injection HL as <- <- <-. assert (m' = m) as -> by congruence.
  exists lo', hi'. split; [exact H1|]. split; [exact H2|]. intros d [<-|Hd]; [now apply turn_range in T|].
  eapply loop_kept; try exact H; eauto using auto_some.
Qed.

Lemma asked_lim limits sym symm i lo hi : asked limits sym symm i = Some (lo, hi) ->
  match lim_of limits sym symm with
  | Some (inl l) => forall s, nth_error l i = Some s -> lo = (- s)%R /\ hi = s
  | Some (inr l) => nth_error l i = Some (lo, hi)
  | None => False
  end.
Proof.
  unfold asked, lim_of. destruct limits as [|x|l]; [destruct sym as [|y|k]|destruct sym as [|y|k]|]; intros H; try discriminate; auto.
  - destruct symm; [|discriminate]. injection H as <- <-. intros s Hs.
    destruct i as [|[|[|i]]]; cbn in Hs; try (injection Hs as <-; auto). destruct i; discriminate.
  - destruct (nth_error k i) as [s|]; [|discriminate]. injection H as <- <-. intros s' Hs. injection Hs as <-. auto.
  - destruct symm; [|discriminate]. injection H as <- <-. intros s Hs.
    destruct i as [|[|[|i]]]; cbn in Hs; try (injection Hs as <-; auto). destruct i; discriminate.
  - destruct (nth_error k i) as [s|]; [|discriminate]. injection H as <- <-. intros s' Hs. injection Hs as <-. auto.
Qed.

Lemma asked_ok maps dir tag pf lim sym symm mask tight dpi us kw ds i d lo hi :
  plot_iqu maps dir tag pf false lim sym symm mask tight dpi us kw = Ok ds ->
  nth_error ds i = Some d -> asked lim sym symm i = Some (lo, hi) ->
  dget (d_opts d) "min" = Some (VNum lo) /\ dget (d_opts d) "max" = Some (VNum hi).
Proof.
  intros H Hd Ha. apply iqu_ok in H as [_ H]. apply asked_lim in Ha.
  assert (A := fun N => loop_asked _ _ N _ _ _ _ _ _ H i d Hd). specialize (A eq_refl). cbn [p_lim] in A.
  destruct (lim_of lim sym symm) as [[l|l]|]; [| |tauto].
  - destruct A as (s & Hs & R). cbn in Hs. destruct (Ha s Hs) as [-> ->]. exact R.
  - destruct A as (s & Hs & R). cbn in Hs. rewrite Ha in Hs. injection Hs as <-. exact R.
Qed.

Lemma none_lim lim sym symm : none_asked lim sym symm -> lim_of lim sym symm = None.
Proof.
  intros (A & B & C). unfold lim_of. destruct lim as [|x|l]; [| |exfalso; now apply (A l)];
    (destruct sym as [|y|k]; [reflexivity|rewrite (C y eq_refl); reflexivity|exfalso; now apply (B k)]).
Qed.

Lemma default_ok maps dir tag pf lim sym symm mask tight dpi us kw ds m0 :
  none_asked lim sym symm -> us <> Some [] -> hd_error maps = Some m0 ->
  plot_iqu maps dir tag pf false lim sym symm mask tight dpi us kw = Ok ds ->
  exists lo hi, auto_limit Rmin m0 (getd kw "min" (VInt (-10))) = Ok lo
    /\ auto_limit Rmax m0 (getd kw "max" (VInt 10)) = Ok hi
    /\ forall d, In d ds -> range d lo hi.
Proof.
  intros Hn Hu Hm H. apply iqu_ok in H as [L H]. destruct maps as [|m maps]; [discriminate|]. injection Hm as ->.
  eapply loop_default in H; try exact H; cbn; auto using none_lim.
  destruct us as [[|u us]|]; [tauto|discriminate|]. cbn. destruct (length maps =? 3)%nat; discriminate.
Qed.

Lemma default_numbers maps dir tag pf lim sym symm mask tight dpi us kw ds :
  none_asked lim sym symm -> dget kw "min" <> Some VNone -> dget kw "max" <> Some VNone ->
  plot_iqu maps dir tag pf false lim sym symm mask tight dpi us kw = Ok ds ->
  forall d, In d ds ->
    dget (d_opts d) "min" = Some (match dget kw "min" with Some v => v | None => VInt (-10) end)
    /\ dget (d_opts d) "max" = Some (match dget kw "max" with Some v => v | None => VInt 10 end).
Proof.
  intros Hn N1 N2 H d Hd.
  assert (Hu : us <> Some []).
  { intros ->. apply iqu_ok in H as [_ H]. cbn in H. injection H as <-. destruct Hd. }
  assert (M : exists m0, hd_error maps = Some m0).
  { apply iqu_ok in H as [L _]. destruct maps; [destruct L; discriminate|]. eexists. reflexivity. }
  destruct M as [m0 M]. destruct (default_ok _ _ _ _ _ _ _ _ _ _ _ _ _ m0 Hn Hu M H) as (lo & hi & A & B & R).
  fold (getd kw "min" (VInt (-10))). fold (getd kw "max" (VInt 10)).
  apply auto_num in A; [|unfold getd; destruct (dget kw "min"); congruence].
  apply auto_num in B; [|unfold getd; destruct (dget kw "max"); congruence].
  subst. exact (R d Hd).
Qed.

Lemma nan_some f a m : nan_fold f (Some a :: m) = match nan_fold f m with Some b => Some (f a b) | None => Some a end.
Proof. reflexivity. Qed.
Lemma nan_none f m : nan_fold f (None :: m) = nan_fold f m.
Proof. reflexivity. Qed.
Lemma nan_empty f m y : nan_fold f m = None -> ~ In (Some y) m.
Proof.
  induction m as [|[c|] m IH]; intros H I; [destruct I| |].
  - rewrite nan_some in H. destruct (nan_fold f m); discriminate.
  - rewrite nan_none in H. destruct I as [|I]; [discriminate|]. now apply IH.
Qed.

Lemma fold_least m x : nan_fold Rmin m = Some x -> is_least m x.
Proof.
  revert x. induction m as [|[a|] m IH]; intros x H; [discriminate|rewrite nan_some in H|rewrite nan_none in H].
  - destruct (nan_fold Rmin m) as [b|] eqn:E.
    + injection H as <-. destruct (IH b eq_refl) as [I L]. split.
      * unfold Rmin. destruct (Rle_dec a b); [left; reflexivity|right; exact I].
      * intros y [Hy|Hy]; [injection Hy as <-; apply Rmin_l|]. apply (Rle_trans _ b); [apply Rmin_r|auto].
    + injection H as <-. split; [now left|]. intros y [Hy|Hy]; [injection Hy as <-; lra|].
      exfalso. exact (nan_empty _ _ _ E Hy).
  - destruct (IH x H) as [I L]. split; [now right|]. intros y [Hy|Hy]; [discriminate|auto].
Qed.

Lemma fold_greatest m x : nan_fold Rmax m = Some x -> is_greatest m x.
Proof.
  revert x. induction m as [|[a|] m IH]; intros x H; [discriminate|rewrite nan_some in H|rewrite nan_none in H].
  - destruct (nan_fold Rmax m) as [b|] eqn:E.
    + injection H as <-. destruct (IH b eq_refl) as [I L]. split.
      * unfold Rmax. destruct (Rle_dec a b); [right; exact I|left; reflexivity].
      * intros y [Hy|Hy]; [injection Hy as <-; apply Rmax_l|]. apply (Rle_trans _ b); [auto|apply Rmax_r].
    + injection H as <-. split; [now left|]. intros y [Hy|Hy]; [injection Hy as <-; lra|].
      exfalso. exact (nan_empty _ _ _ E Hy).
  - destruct (IH x H) as [I L]. split; [now right|]. intros y [Hy|Hy]; [discriminate|auto].
Qed.

Lemma auto_ok f (S : pixels -> R -> Prop) m v :
  (forall x, nan_fold f m = Some x -> S m x) ->
  auto_limit f m VNone = Ok v -> exists x y, S m x /\ x <> 0%R /\ rounded 1 x y /\ v = VNum y.
Proof.
  intros HS H. cbn in H. destruct (nan_fold f m) as [x|]; [|discriminate].
  apply bind_ok in H as (y & Hy & H). injection H as <-. apply round_sig_same in Hy as [N R]; [|lia].
  exists x, y. auto.
Qed.

Lemma automatic maps dir tag pf lim sym symm mask tight dpi us kw ds m0 :
  none_asked lim sym symm -> dget kw "min" = Some VNone -> dget kw "max" = Some VNone ->
  hd_error maps = Some m0 -> us <> Some [] ->
  plot_iqu maps dir tag pf false lim sym symm mask tight dpi us kw = Ok ds ->
  exists least greatest lo hi, is_least m0 least /\ is_greatest m0 greatest
    /\ rounded 1 least lo /\ rounded 1 greatest hi
    /\ forall d, In d ds -> dget (d_opts d) "min" = Some (VNum lo) /\ dget (d_opts d) "max" = Some (VNum hi).
Proof.
  intros Hn N1 N2 M Hu H. destruct (default_ok _ _ _ _ _ _ _ _ _ _ _ _ _ m0 Hn Hu M H) as (lo & hi & A & B & R).
  unfold getd in A, B. rewrite N1 in A. rewrite N2 in B.
  apply (auto_ok _ is_least) in A as (x & y & L & _ & RX & ->); [|apply fold_least].
  apply (auto_ok _ is_greatest) in B as (x2 & y2 & G & _ & RX2 & ->); [|apply fold_greatest].
  exists x, x2, y, y2. auto.
Qed.

(** ** Where it goes wrong *)

Lemma v_dropped maps dir tag pf nl lim sym symm mask tight dpi us kw ds :
  plot_iqu maps dir tag pf nl lim sym symm mask tight dpi (Some us) kw = Ok ds ->
  (length ds <= 3)%nat /\ forall d, In d ds -> d_file d <> tag ++ "_V.png".
Proof.
  intros H. apply iqu_ok in H as [_ H].
  assert (G : forall P items pidx a b k f ds, iqu_loop P items pidx a b k f = Ok ds -> length ds = length items
    /\ forall d, In d ds -> exists st u, In (st, u) items /\ d_file d = p_tag P ++ "_" ++ st ++ ".png").
  { intros P. induction items as [|[st u] items IH]; intros pidx a b k f ds0 H0.
    - injection H0 as <-. split; [reflexivity|intros d []].
    - apply loop_cons in H0 as (lo & hi & kw' & m' & lo' & hi' & d0 & ds' & _ & _ & _ & _ & -> & T & H0).
      destruct (IH _ _ _ _ _ _ H0) as [L F]. split; [cbn; lia|]. intros d [<-|Hd].
      + exists st, u. split; [now left|]. now destruct T as (_ & T & _).
      + destruct (F d Hd) as (st2 & u2 & I & E). exists st2, u2. split; [now right|exact E]. }
  apply G in H as [L F]. rewrite combine_length in L. cbn [length] in L. split; [lia|].
  intros d Hd E. destruct (F d Hd) as (st & u & I & E2). apply in_combine_l in I. rewrite E2 in E. cbn [p_tag] in E.
  assert (X : forall t a b, t ++ a = t ++ b -> a = b).
  { induction t as [|c t IH]; intros a b Hab; [exact Hab|]. apply IH. cbn in Hab. congruence. }
  apply X in E. cbn in I. destruct I as [<-|[<-|[<-|[]]]]; discriminate.
Qed.

Lemma sym_scalar_four m1 m2 m3 m4 dir tag pf nl x mask tight dpi kw ds :
  plot_iqu [m1; m2; m3; m4] dir tag pf nl LNone (LScalar x) true mask tight dpi None kw <> Ok ds.
Proof.
  intros H. apply iqu_ok in H as [_ H]. cbn -[iqu_loop] in H.
  do 3 (apply loop_cons in H as (?lo & ?hi & ?kw & ?m & ?l & ?h & ?d & ?ds & _ & _ & _ & _ & _ & _ & H)).
  apply loop_cons in H as (? & ? & ? & ? & ? & ? & ? & ? & HL & _). cbn in HL. discriminate.
Qed.

Lemma own_limits maps dir tag pf lim sym symm mask tight dpi u us kw ds k :
  a_dict u -> k = "min" \/ k = "max" -> dget u k <> None ->
  plot_iqu maps dir tag pf false lim sym symm mask tight dpi (Some (u :: us)) kw <> Ok ds.
Proof.
  intros Du Hk Hd H. apply iqu_ok in H as [_ H]. cbn [combine] in H.
  apply loop_cons in H as (lo & hi & kw' & m' & lo' & hi' & d0 & ds' & _ & _ & _ & _ & -> & T & H).
  destruct T as (_ & _ & _ & _ & _ & _ & _ & _ & _ & _ & T). destruct (T eq_refl) as (_ & _ & A & B).
  rewrite dget_dupdate in A, B by exact Du. destruct Hk as [->| ->].
  - destruct (dget u "min"); [discriminate|tauto].
  - destruct (dget u "max"); [discriminate|tauto].
Qed.

Lemma own_names maps dir tag pf nl lim sym symm mask tight dpi u us kw ds k :
  a_dict u -> In k ["map_arr"; "write_dir"; "tag"; "tight"] -> dget u k <> None ->
  plot_iqu maps dir tag pf nl lim sym symm mask tight dpi (Some (u :: us)) kw <> Ok ds.
Proof.
  intros Du Hk Hd H. apply iqu_ok in H as [_ H]. cbn [combine] in H.
  apply loop_cons in H as (lo & hi & kw' & m' & lo' & hi' & d0 & ds' & _ & _ & _ & _ & -> & T & H).
  destruct T as (_ & _ & _ & _ & _ & _ & _ & _ & _ & (_ & _ & _ & T) & _). specialize (T k Hk).
  rewrite dget_dupdate in T by exact Du. destruct (dget u k); [discriminate|tauto].
Qed.

Lemma function_leaks m1 m2 m3 dir tag pf g : exists d1 d2 d3,
  plot_iqu [m1; m2; m3] dir tag pf false LNone LNone false None false (VInt 150)
    (Some [[("plot_func", g)]; []; []]) [] = Ok [d1; d2; d3]
  /\ d_func d2 = g /\ d_func d3 = g.
Proof. do 3 eexists. split; [reflexivity|]. split; reflexivity. Qed.

Lemma dpi_ignored maps dir tag pf nl lim sym symm mask tight dpi kw ds d :
  extra_keywords kw -> plot_iqu maps dir tag pf nl lim sym symm mask tight dpi None kw = Ok ds ->
  In d ds -> d_dpi d = VInt 150.
Proof.
  intros Hx H Hd. apply pictures in H as [_ H]; [|exact Hx|intros us E; discriminate].
  apply In_nth_error in Hd as [i Hi]. destruct (H i d Hi) as (m & _ & _ & _ & _ & _ & _ & _ & D & _). exact D.
Qed.

(** ** It works *)

Lemma three_ok m1 m2 m3 dir tag pf mask tight dpi l1 l2 l3 :
  (forall k, mask = Some k -> length k = length m1 /\ length k = length m2 /\ length k = length m3) ->
  exists d1 d2 d3, plot_iqu [m1; m2; m3] dir tag pf false (LSeq [l1; l2; l3]) LNone false mask tight dpi None []
    = Ok [d1; d2; d3].
Proof.
  intros H. cbn. assert (A : forall m, In m [m1; m2; m3] -> exists m', apply_mask m mask = Ok m').
  { intros m Hm. unfold apply_mask. destruct mask as [k|]; [|eauto]. destruct (H k eq_refl) as (A & B & C).
    assert (length k = length m) as -> by (cbn in Hm; intuition congruence). rewrite Nat.eqb_refl. eauto. }
  destruct (A m1) as [a ->]; [cbn; tauto|]. destruct (A m2) as [b ->]; [cbn; tauto|].
  destruct (A m3) as [c ->]; [cbn; tauto|]. cbn. do 3 eexists. reflexivity.
Qed.
