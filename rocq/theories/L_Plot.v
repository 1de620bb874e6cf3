(** * Plotting: the loop over the maps *)
From Coq Require Import Reals String Lra Lia.
From Verif Require Import Common M_Beam M_Plot S_Plot L_Beam L_Ghost L_Round.
Local Notation length := List.length.
Open Scope string_scope.

Lemma has_none d k : dget d k = None <-> has d k = false.
Proof. unfold has. destruct (dget d k); split; congruence. Qed.

(** What one turn of the loop draws. *)
Lemma plot_map_ok m dir tag pf t kw d : plot_map m dir tag pf t kw = Ok d ->
  d_dir d = dir /\ d_file d = tag ++ ".png" /\ d_func d = pf /\ d_pix d = m /\ d_tight d = t
  /\ d_dpi d = getd kw "dpi" (VInt 150) /\ d_transparent d = getd kw "transparent" (VBool false)
  /\ (dget (d_opts d) "dpi" = None /\ dget (d_opts d) "transparent" = None
      /\ forall k, In k ["map_arr"; "write_dir"; "tag"; "tight"] -> dget kw k = None)
  /\ forall k, k <> "dpi" -> k <> "transparent" -> dget (d_opts d) k = dget kw k.
Proof.
  unfold plot_map. destruct (existsb _ _) eqn:EX; [discriminate|]. intros H. injection H as <-. cbn.
  repeat (split; [reflexivity|]). split.
  { rewrite !dget_dpop. cbn. split; [reflexivity|]. split; [reflexivity|]. intros k Hk. apply has_none.
    cbn in EX. repeat (apply Bool.orb_false_iff in EX as [? EX]).
    repeat (destruct Hk as [<-|Hk]; [assumption|]). destruct Hk. }
  intros k N1 N2. rewrite !dget_dpop.
  destruct (String.eqb_spec "transparent" k); [congruence|]. destruct (String.eqb_spec "dpi" k); [congruence|reflexivity].
Qed.

Lemma mask_ok m mask m' : apply_mask m mask = Ok m' ->
  length m' = length m
  /\ forall j x, nth_error m j = Some x -> nth_error m' j = Some (if visible mask j then x else None).
Proof.
  destruct mask as [k|]; cbn; intros H; [|injection H as <-; auto].
  destruct (Nat.eqb_spec (length k) (length m)) as [E|]; [|discriminate]. injection H as <-.
  rewrite map_length, combine_length. split; [lia|].
  revert k E. induction m as [|a m IH]; intros [|b k] E [|j] x H; try discriminate; cbn in *.
  - now injection H as <-.
  - apply IH; [lia|exact H].
Qed.

Definition turn (P : plan) (st : string) (u : dict) (m : pixels) (minn maxx : val) (kw : dict) (pf : val) (d : drawing) : Prop :=
  d_dir d = p_dir P /\ d_file d = p_tag P ++ "_" ++ st ++ ".png" /\ d_func d = getd (dupdate kw u) "plot_func" pf
  /\ d_tight d = p_tight P
  /\ length (d_pix d) = length m
  /\ (forall j x, nth_error m j = Some x -> nth_error (d_pix d) j = Some (if visible (p_mask P) j then x else None))
  /\ d_dpi d = getd (dupdate kw u) "dpi" (VInt 150)
  /\ d_transparent d = getd (dupdate kw u) "transparent" (VBool false)
  /\ (forall k, ~ In k ["plot_func"; "dpi"; "transparent"] ->
        (p_no_limits P = false -> k <> "min" /\ k <> "max") -> dget (d_opts d) k = dget (dupdate kw u) k)
  /\ (dget (d_opts d) "plot_func" = None /\ dget (d_opts d) "dpi" = None /\ dget (d_opts d) "transparent" = None
      /\ forall k, In k ["map_arr"; "write_dir"; "tag"; "tight"] -> dget (dupdate kw u) k = None)
  /\ (p_no_limits P = false -> dget (d_opts d) "min" = Some minn /\ dget (d_opts d) "max" = Some maxx
        /\ dget (dupdate kw u) "min" = None /\ dget (dupdate kw u) "max" = None).

Lemma app_tag a b c : (a ++ "_" ++ b) ++ c = a ++ "_" ++ b ++ c.
Proof.
  assert (A : forall x y z : string, (x ++ y) ++ z = x ++ (y ++ z))
    by (induction x as [|ch x IH]; intros; cbn; [reflexivity|f_equal; apply IH]).
  now rewrite !A.
Qed.

Lemma dget_min d v w k : dget (dset (dset d "min" v) "max" w) k
  = if "max" =? k then Some w else if "min" =? k then Some v else dget d k.
Proof. now rewrite !dget_dset. Qed.

Lemma draw_ok P st u m m' minn maxx kw pf d :
  apply_mask m (p_mask P) = Ok m' ->
  (let zwargs := dupdate kw u in
   let plot_func := getd zwargs "plot_func" pf in
   let zwargs := dpop zwargs "plot_func" in
   if p_no_limits P then plot_map m' (p_dir P) (p_tag P ++ "_" ++ st) plot_func (p_tight P) zwargs
   else if has zwargs "min" || has zwargs "max" then Err TypeError
   else plot_map m' (p_dir P) (p_tag P ++ "_" ++ st) plot_func (p_tight P)
          (dset (dset zwargs "min" minn) "max" maxx)) = Ok d ->
  turn P st u m minn maxx kw pf d.
Proof.
  intros Hm H. cbv zeta in H. apply mask_ok in Hm as [Lm Vm]. unfold turn.
  set (z := dupdate kw u) in *.
  assert (G : forall k w, k <> "plot_func" -> getd (dpop z "plot_func") k w = getd z k w).
  { intros k w N. unfold getd. rewrite dget_dpop. destruct (String.eqb_spec "plot_func" k); [congruence|reflexivity]. }
  destruct (p_no_limits P).
  - apply plot_map_ok in H as (-> & -> & -> & -> & -> & -> & -> & (O1 & O2 & O3) & O). rewrite app_tag.
    repeat (split; [reflexivity || assumption|]).
    split; [apply G; discriminate|]. split; [apply G; discriminate|]. split; [|split; [|discriminate]];
      [|split; [rewrite O by discriminate; now rewrite dget_dpop|]; split; [exact O1|]; split; [exact O2|];
        intros k Hk; specialize (O3 k Hk); rewrite dget_dpop in O3;
        cbn in Hk; repeat (destruct Hk as [<-|Hk]; [exact O3|]); destruct Hk].
    intros k N _. cbn in N. rewrite O by (intros ->; tauto). rewrite dget_dpop.
    destruct (String.eqb_spec "plot_func" k); [tauto|reflexivity].
  - destruct (has _ "min" || has _ "max")%bool eqn:HH; [discriminate|]. apply Bool.orb_false_iff in HH as [H1 H2].
    apply has_none in H1, H2. rewrite dget_dpop in H1, H2. cbn in H1, H2.
    apply plot_map_ok in H as (-> & -> & -> & -> & -> & -> & -> & (O1 & O2 & O3) & O). rewrite app_tag.
    assert (G2 : forall k w, k <> "plot_func" -> k <> "min" -> k <> "max" ->
      getd (dset (dset (dpop z "plot_func") "min" minn) "max" maxx) k w = getd z k w).
    { intros k w N N1 N2. rewrite <- (G k w N). unfold getd. rewrite dget_min.
      destruct (String.eqb_spec "max" k); [congruence|]. destruct (String.eqb_spec "min" k); [congruence|reflexivity]. }
    repeat (split; [reflexivity || assumption|]).
    split; [apply G2; discriminate|]. split; [apply G2; discriminate|]. split; [|split].
    + intros k N N2. destruct (N2 eq_refl) as [N3 N4]. cbn in N. rewrite O by (intros ->; tauto). rewrite dget_min, dget_dpop.
      destruct (String.eqb_spec "max" k); [congruence|]. destruct (String.eqb_spec "min" k); [congruence|].
      destruct (String.eqb_spec "plot_func" k); [tauto|reflexivity].
    + split; [rewrite O by discriminate; now rewrite dget_min, dget_dpop|]. split; [exact O1|]. split; [exact O2|].
      intros k Hk. specialize (O3 k Hk). rewrite dget_min, dget_dpop in O3.
      cbn in Hk. repeat (destruct Hk as [<-|Hk]; [exact O3|]). destruct Hk.
    + intros _. rewrite !O by discriminate. rewrite !dget_min. auto.
Qed.

(** One turn, and the rest. *)
Definition limits_of (P : plan) (pidx : nat) (minn maxx : val) (kw : dict) : res (val * val * dict) :=
  match p_lim P with
  | Some (inl sym) => do s <- index sym pidx; Ok (VNum (- s), VNum s, kw)
  | Some (inr lim) => do l <- index lim pidx; Ok (VNum (fst l), VNum (snd l), kw)
  | None =>
      match maxx, minn with
      | VNone, VNone => Ok (getd kw "min" (VInt (-10)), getd kw "max" (VInt 10), dpop (dpop kw "max") "min")
      | _, _ => Ok (minn, maxx, kw)
      end
  end.

Lemma loop_cons P st u rest pidx minn maxx kw pf ds :
  iqu_loop P ((st, u) :: rest) pidx minn maxx kw pf = Ok ds ->
  exists lo hi kw' m lo' hi' d ds', limits_of P pidx minn maxx kw = Ok (lo, hi, kw')
    /\ nth_error (p_maps P) pidx = Some m
    /\ auto_limit Rmin m lo = Ok lo' /\ auto_limit Rmax m hi = Ok hi'
    /\ ds = d :: ds' /\ turn P st u m lo' hi' kw' pf d
    /\ iqu_loop P rest (S pidx) lo' hi' kw' (getd (dupdate kw' u) "plot_func" pf) = Ok ds'.
Proof.
  cbn [iqu_loop]. intros H. apply bind_ok in H as ([[lo hi] kw'] & HL & H).
  apply bind_ok in H as (m & Hm & H). apply bind_ok in H as (lo' & Hlo & H). apply bind_ok in H as (hi' & Hhi & H).
  apply bind_ok in H as (m' & Hm' & H). apply bind_ok in H as (d & Hd & H). apply bind_ok in H as (ds' & Hds & H).
  injection H as <-. exists lo, hi, kw', m, lo', hi', d, ds'. apply index_ok in Hm.
  split; [exact HL|]. repeat (split; [assumption || reflexivity|]). split; [|exact Hds].
  eapply draw_ok; eauto.
Qed.

Lemma limits_kw P pidx minn maxx kw lo hi kw' : limits_of P pidx minn maxx kw = Ok (lo, hi, kw') ->
  forall k, k <> "min" -> k <> "max" -> dget kw' k = dget kw k.
Proof.
  unfold limits_of. intros H k N1 N2. destruct (p_lim P) as [[sym|lim]|].
  - apply bind_ok in H as (s & _ & H). now injection H as _ _ <-.
  - apply bind_ok in H as (s & _ & H). now injection H as _ _ <-.
  - assert (D : kw' = kw \/ kw' = dpop (dpop kw "max") "min")
      by (destruct maxx, minn; injection H as _ _ <-; auto).
    destruct D as [->| ->]; [reflexivity|]. rewrite !dget_dpop.
    destruct (String.eqb_spec "min" k); [congruence|]. destruct (String.eqb_spec "max" k); [congruence|reflexivity].
Qed.

(** All turns: the parts that do not depend on the limits. *)
Lemma loop_spec P items : forall pidx minn maxx kw pf ds, iqu_loop P items pidx minn maxx kw pf = Ok ds ->
  dget kw "plot_func" = None -> (forall st u, In (st, u) items -> a_dict u /\ dget u "plot_func" = None) ->
  length ds = length items
  /\ forall i d st u, nth_error ds i = Some d -> nth_error items i = Some (st, u) ->
     exists m lo hi kw', nth_error (p_maps P) (pidx + i) = Some m /\ turn P st u m lo hi kw' pf d
       /\ a_dict u /\ forall k, k <> "min" -> k <> "max" -> dget kw' k = dget kw k.
Proof.
  induction items as [|[st u] items IH]; intros pidx minn maxx kw pf ds H Hk Hu.
  - injection H as <-. split; [reflexivity|]. intros [|i]; discriminate.
  - apply loop_cons in H as (lo & hi & kw' & m & lo' & hi' & d & ds' & HL & Hm & _ & _ & -> & T & H).
    pose proof (limits_kw _ _ _ _ _ _ _ _ HL) as KW. destruct (Hu st u (or_introl eq_refl)) as [Du Fu].
    assert (PF : getd (dupdate kw' u) "plot_func" pf = pf).
    { unfold getd. rewrite dget_dupdate by exact Du. rewrite Fu, KW by discriminate. now rewrite Hk. }
    rewrite PF in H. destruct (IH _ _ _ _ _ _ H) as [L R].
    { rewrite KW by discriminate. exact Hk. }
    { intros st2 u2 I. apply (Hu st2). now right. }
    split; [cbn; lia|]. intros [|i] d2 st2 u2 Hd Hi; cbn in Hd, Hi.
    + injection Hd as <-. injection Hi as <- <-. exists m, lo', hi', kw'. rewrite Nat.add_0_r. auto.
    + destruct (R i d2 st2 u2 Hd Hi) as (m2 & l2 & h2 & k2 & A & B & C & D). exists m2, l2, h2, k2.
      replace (pidx + S i)%nat with (S pidx + i)%nat by lia. split; [exact A|]. split; [exact B|]. split; [exact C|].
      intros k N1 N2. rewrite D by auto. now apply KW.
Qed.

Definition lim_of (limits : lims (R * R)) (sym_limits : lims R) (symmetric : bool) : option (list R + list (R * R)) :=
  match limits with
  | LSeq l => Some (inr l)
  | _ => match sym_limits with
         | LSeq l => Some (inl l)
         | LScalar x => if symmetric then Some (inl [x; x; x]) else None
         | LNone => None
         end
  end.

Lemma iqu_ok maps dir tag pf nl lim sym symm mask tight dpi us kw ds :
  plot_iqu maps dir tag pf nl lim sym symm mask tight dpi us kw = Ok ds ->
  (length maps = 3%nat \/ length maps = 4%nat)
  /\ iqu_loop (mkplan maps dir tag (lim_of lim sym symm) nl mask tight)
       (combine (match us with
                 | None => if (length maps =? 4)%nat then ["I"; "Q"; "U"; "V"] else ["I"; "Q"; "U"]
                 | Some _ => ["I"; "Q"; "U"]
                 end) (match us with Some u => u | None => repeat [] (length maps) end))
       0 VNone VNone kw pf = Ok ds.
Proof.
  unfold plot_iqu. destruct ((length maps =? 3)%nat || (length maps =? 4)%nat)%bool eqn:E; cbn [negb]; [|discriminate].
  intros H. split; [|exact H]. apply Bool.orb_true_iff in E as [E|E]; apply Nat.eqb_eq in E; auto.
Qed.

Lemma iqu_items maps us i : own_settings maps us -> length maps = 3%nat \/ length maps = 4%nat ->
  let items := combine (match us with
                 | None => if (length maps =? 4)%nat then ["I"; "Q"; "U"; "V"] else ["I"; "Q"; "U"]
                 | Some _ => ["I"; "Q"; "U"]
                 end) (match us with Some u => u | None => repeat [] (length maps) end) in
  length items = length maps /\ (forall st u, In (st, u) items -> a_dict u /\ dget u "plot_func" = None)
  /\ ((i < length maps)%nat -> nth_error items i = Some (letter i, settings us i)).
Proof.
  intros Ho Hl. cbv zeta. destruct us as [us|].
  - destruct (Ho us eq_refl) as (L3 & LM & U). rewrite LM. destruct us as [|a [|b [|c [|x us]]]]; try discriminate.
    split; [reflexivity|]. split.
    + intros st u H. cbn in H. apply U. cbn. intuition congruence.
    + intros Hi. destruct i as [|[|[|i]]]; try reflexivity; lia.
  - assert (N : a_dict [] /\ dget [] "plot_func" = None) by (split; [constructor|reflexivity]).
    destruct Hl as [L|L]; rewrite L; cbn [Nat.eqb repeat combine length].
    + split; [reflexivity|]. split; [intros st u H; cbn in H; intuition congruence|].
      intros Hi. destruct i as [|[|[|i]]]; try reflexivity; lia.
    + split; [reflexivity|]. split; [intros st u H; cbn in H; intuition congruence|].
      intros Hi. destruct i as [|[|[|[|i]]]]; try reflexivity; lia.
Qed.

Lemma pictures maps dir tag pf nl lim sym symm mask tight dpi us kw ds :
  extra_keywords kw -> own_settings maps us ->
  plot_iqu maps dir tag pf nl lim sym symm mask tight dpi us kw = Ok ds ->
  length ds = length maps
  /\ forall i d, nth_error ds i = Some d -> exists m, nth_error maps i = Some m
     /\ d_dir d = dir /\ d_file d = tag ++ "_" ++ letter i ++ ".png" /\ d_func d = pf /\ d_tight d = tight
     /\ length (d_pix d) = length m
     /\ (forall j x, nth_error m j = Some x -> nth_error (d_pix d) j = Some (if visible mask j then x else None))
     /\ d_dpi d = match dget (settings us i) "dpi" with Some v => v | None => VInt 150 end
     /\ d_transparent d = match dget (settings us i) "transparent" with
                          | Some v => v
                          | None => match dget kw "transparent" with Some v => v | None => VBool false end
                          end
     /\ dget (d_opts d) "dpi" = None /\ dget (d_opts d) "transparent" = None
     /\ forall k, ~ In k ["min"; "max"; "dpi"; "transparent"] ->
          dget (d_opts d) k = match dget (settings us i) k with Some v => Some v | None => dget kw k end.
Proof.
  intros Hx Ho H. apply iqu_ok in H as [Hl H].
  destruct (iqu_items maps us 0 Ho Hl) as (Li & Ui & _).
  destruct (loop_spec _ _ _ _ _ _ _ _ H (Hx "plot_func" ltac:(cbn; tauto)) Ui) as [L R].
  split; [congruence|]. intros i d Hd.
  assert (Hi : (i < length maps)%nat) by (rewrite <- Li, <- L; apply nth_error_Some; congruence).
  destruct (iqu_items maps us i Ho Hl) as (_ & _ & Ni).
  destruct (R i d _ _ Hd (Ni Hi)) as (m & lo & hi & kw' & Hm & (T1 & T2 & T3 & T4 & T5 & T6 & T7 & T8 & T9 & (T10 & T11 & T12 & _) & _) & Du & KW).
  exists m. cbn in Hm. split; [exact Hm|]. split; [exact T1|]. split; [exact T2|].
  assert (G : forall k, k <> "min" -> k <> "max" -> dget (dupdate kw' (settings us i)) k
     = match dget (settings us i) k with Some v => Some v | None => dget kw k end).
  { intros k N1 N2. rewrite dget_dupdate by exact Du. destruct (dget _ k); [reflexivity|now apply KW]. }
  assert (SF : dget (settings us i) "plot_func" = None).
  { apply (Ui (letter i)). eapply nth_error_In. now apply Ni. }
  split; [|split; [exact T4|split; [exact T5|split; [exact T6|split; [|split; [|split; [exact T11|split; [exact T12|]]]]]]]].
  - rewrite T3. unfold getd. rewrite G by discriminate. rewrite SF. now rewrite (Hx "plot_func") by (cbn; tauto).
  - rewrite T7. unfold getd. rewrite G by discriminate. destruct (dget (settings us i) "dpi"); [reflexivity|].
    now rewrite (Hx "dpi") by (cbn; tauto).
  - rewrite T8. unfold getd. rewrite G by discriminate. now destruct (dget (settings us i) "transparent").
  - intros k Nk. cbn in Nk. destruct (String.eqb_spec k "plot_func") as [->|NP].
    + rewrite SF, (Hx "plot_func") by (cbn; tauto). exact T10.
    + rewrite T9; [apply G; intros ->; tauto|cbn; intuition congruence|split; intros ->; tauto].
Qed.
