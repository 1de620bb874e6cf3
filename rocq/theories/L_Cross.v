(** * Crosstalk ghosts *)
From Coq Require Import Reals String Lra Lia.
From Verif Require Import Common LibList M_Beam M_Focal S_Focal S_Cross L_Beam L_Ghost L_Focal L_FocalInv
  L_FocalOps L_FocalLoad L_FocalRef L_FocalThm.
Open Scope string_scope.

Definition cross_keys : list string := ["az"; "el"; "polang"; "dead"].

Lemma cross_get kw az el p d k :
  dget (dupdate kw [("az", VNum az); ("el", VNum el); ("polang", VNum p); ("dead", VBool d)]) k
  = if k =? "az" then Some (VNum az) else if k =? "el" then Some (VNum el)
    else if k =? "polang" then Some (VNum p) else if k =? "dead" then Some (VBool d) else dget kw k.
Proof.
  rewrite dget_dupdate.
  - cbn [dget]. rewrite (String.eqb_sym k "az"), (String.eqb_sym k "el"), (String.eqb_sym k "polang"),
      (String.eqb_sym k "dead").
    destruct ("az" =? k), ("el" =? k), ("polang" =? k), ("dead" =? k); reflexivity.
  - cbn. repeat constructor; cbn; intuition discriminate.
Qed.

Ltac cross_inv H b p kw' rnd' h1 :=
  apply bind_ok in H as (b & ?Hb & H); apply bind_ok in H as (p & ?Hp & H);
  apply bind_ok in H as ([kw' rnd'] & ?Hk & H); apply bind_ok in H as (h1 & ?Hh & H).

(** What is not named keeps everything, and only the list of ghosts of the
    beams changes. *)
Lemma crosstalk_other l : forall h tag rand rnd kw h', crosstalk h l tag rand rnd kw = Ok h' ->
  NoDup (map fst kw) ->
  (List.length h <= List.length h')%nat /\
  (forall x, (x < List.length h)%nat -> ~ In (Some x) (map fst l) -> nth_error h' x = nth_error h x)
  /\ forall x k, (x < List.length h)%nat -> getattr h' x k = getattr h x k.
Proof.
  induction l as [|[[r|] [az el]] l IH]; intros h tag rand rnd kw h' H ND; cbn [crosstalk] in H.
  - inversion H; subst; auto.
  - cross_inv H b p kw' rnd' h1. apply index_ok in Hb.
    assert (N : NoDup (map fst kw')) by (eapply perturb_nodup; eauto using NoDup_dupdate).
    destruct (create_ghost_heap _ _ _ _ _ _ Hh Hb N) as (g & _ & _ & _ & _ & _ & Hl & Hr & Ho).
    destruct (IH _ _ _ _ _ _ H N) as (L & O & A). split; [lia|]. split.
    + intros x Hx Hn. cbn in Hn. rewrite O by (try lia; tauto). apply Ho; [intros ->; tauto|lia].
    + intros x k Hx. rewrite A by lia. unfold getattr.
      destruct (Nat.eq_dec x r) as [->|Nx]; [now rewrite Hr, Hb|now rewrite Ho by lia].
  - discriminate.
Qed.

Lemma crosstalk_no_ghost l : forall h tag rand rnd kw h' n g, NoDup (map fst kw) ->
  nth_error h n = Some g -> ghost g = true ->
  crosstalk h l tag rand rnd kw = Ok h' -> ~ In (Some n) (map fst l).
Proof.
  induction l as [|[[q|] [az el]] l IH]; intros h tag rand rnd kw h' n g N Hg GG H X; [destruct X| |discriminate].
  cbn [crosstalk] in H. cross_inv H b p kw' rnd' h1. apply index_ok in Hb.
  assert (N' : NoDup (map fst kw')) by (eapply perturb_nodup; eauto using NoDup_dupdate).
  destruct (Nat.eq_dec q n) as [->|Nq].
  - rewrite (ghost_of_ghost _ _ _ _ _ Hg GG) in Hh. discriminate.
  - destruct X as [X|X]; [cbn in X; congruence|]. revert X. eapply IH; [exact N'| |exact GG|exact H].
    destruct (create_ghost_heap _ _ _ _ _ _ Hh Hb N') as (_ & _ & _ & _ & _ & _ & _ & _ & Ho).
    rewrite Ho; auto. assert (n < List.length h)%nat by (apply nth_error_Some; congruence). lia.
Qed.

(** Ghost number [j]: its beam and its options. *)
Lemma crosstalk_spec l : forall h tag rand rnd kw h', crosstalk h l tag rand rnd kw = Ok h' ->
  NoDup (map fst kw) -> NoDup (map fst l) ->
  forall j r az el b p, nth_error l j = Some (Some r, (az, el)) -> nth_error h r = Some b ->
  attrs b "polang" = Some (VNum p) ->
  (exists b', nth_error h' r = Some b' /\ ghosts b' = (ghosts b ++ [List.length h + j])%list%nat)
  /\ (exists g, nth_error h' (List.length h + j) = Some g /\ ghost g = true)
  /\ getattr h' (List.length h + j) "az" = Some (VNum az)
  /\ getattr h' (List.length h + j) "el" = Some (VNum el)
  /\ getattr h' (List.length h + j) "polang" = Some (VNum (p + 90))
  /\ getattr h' (List.length h + j) "dead" = Some (VBool (if Req_EM_T az 0 then true else false))
  /\ (rand = true -> forall a0, vnum (dget kw "amplitude") 1%R = Ok a0 ->
        getattr h' (List.length h + j) "amplitude" = Some (VNum (a0 + prefix_sum rnd (S j))))
  /\ forall k d, In (k, d) beam_defaults -> plain k = true -> k <> "name" -> ~ In k cross_keys ->
       (rand = true -> k <> "amplitude") ->
       getattr h' (List.length h + j) k
       = match dget kw k with
         | Some v => Some v
         | None => if existsb (fun k' => k' =? k) inherited then attrs b k else Some d
         end.
Proof.
  induction l as [|[[r0|] [az0 el0]] l IH]; intros h tag rand rnd kw h' H ND NR j r az el b p Hj Hb Hp;
    [destruct j; discriminate| |discriminate].
  cbn [crosstalk] in H. cross_inv H b0 p0 kw' rnd' h1. apply index_ok in Hb0.
  set (d0 := if Req_EM_T az0 0 then true else false) in *.
  set (kw1 := dupdate kw [("az", VNum az0); ("el", VNum el0); ("polang", VNum (p0 + 90)); ("dead", VBool d0)]) in *.
  assert (N1 : NoDup (map fst kw1)) by (now apply NoDup_dupdate).
  assert (N : NoDup (map fst kw')) by (eapply perturb_nodup; eauto).
  destruct (create_ghost_heap _ _ _ _ _ _ Hh Hb0 N) as (g & Hg & GG & _ & _ & _ & Hl & Hr & Ho).
  destruct (perturb_get _ _ _ _ _ Hk) as [PG PR].
  assert (KG : forall k, dget kw1 k = _) by (intros k; unfold kw1; apply cross_get).
  cbn [map fst] in NR. inversion NR as [|? ? Hnr Hdr]; subst.
  assert (LR0 : (r0 < List.length h)%nat) by (apply nth_error_Some; congruence).
  assert (EK : forall k, ~ In k cross_keys -> (rand = true -> k <> "amplitude") -> dget kw' k = dget kw k).
  { intros k Nk NA. assert (E2 : dget kw1 k = dget kw k).
    { rewrite KG. cbn in Nk. 
      destruct (String.eqb_spec k "az"), (String.eqb_spec k "el"), (String.eqb_spec k "polang"),
        (String.eqb_spec k "dead"); subst; tauto. }
    destruct rand; [rewrite PG by auto; exact E2|destruct PR as [-> _]; exact E2]. }
  destruct j as [|j].
  - cbn in Hj. inversion Hj; subst r0 az0 el0. rewrite Hb in Hb0. inversion Hb0; subst b0.
    rewrite Hp in Hp0. cbn in Hp0. inversion Hp0; subst p0.
    rewrite Nat.add_0_r.
    destruct (crosstalk_other _ _ _ _ _ _ _ H N) as (L & FR & _).
    assert (X : ~ In (Some (List.length h)) (map fst l)) by exact (crosstalk_no_ghost _ _ _ _ _ _ _ _ _ N Hg GG H).
    assert (PL : forall k d, In (k, d) beam_defaults -> plain k = true -> k <> "name" ->
      getattr h' (List.length h) k = match dget kw' k with Some v => Some v
        | None => if existsb (fun k' => k' =? k) inherited then attrs b k else Some d end).
    { intros k d Hd Pk Nk. rewrite <- (ghost_plain _ _ _ _ _ _ _ _ Hh Hb N Hd Pk Nk).
      unfold getattr. now rewrite FR by (try lia; auto). }
    split. { eexists. split; [rewrite FR by (try lia; auto); exact Hr|reflexivity]. }
    split. { exists g. split; [rewrite FR by (try lia; auto); exact Hg|exact GG]. }
    split. { rewrite (PL "az" (VNum 0)); [|cbn; tauto|reflexivity|discriminate].
             rewrite PG by discriminate. now rewrite KG. }
    split. { rewrite (PL "el" (VNum 0)); [|cbn; tauto|reflexivity|discriminate].
             rewrite PG by discriminate. now rewrite KG. }
    split. { rewrite (PL "polang" (VNum 0)); [|cbn; tauto|reflexivity|discriminate].
             rewrite PG by discriminate. now rewrite KG. }
    split. { rewrite (PL "dead" (VBool false)); [|cbn; tauto|reflexivity|discriminate].
             rewrite PG by discriminate. now rewrite KG. }
    split.
    { intros -> a0 Ha0. rewrite (PL "amplitude" (VNum 1)); [|cbn; tauto|reflexivity|discriminate].
      destruct PR as (x & a & -> & Ha & HA). rewrite HA. rewrite KG in Ha. cbn in Ha.
      rewrite Ha0 in Ha. inversion Ha; subst. cbn [prefix_sum]. replace (prefix_sum rnd' 0) with 0%R by (destruct rnd'; reflexivity).
      do 2 f_equal. lra. }
    intros k d Hd Pk N2 N3 N5. rewrite (PL k d Hd Pk N2). now rewrite EK by auto.
  - cbn [nth_error] in Hj.
    assert (Nr : r <> r0) by (intros ->; apply nth_error_In in Hj; apply Hnr, in_map_iff; eexists; split; [|exact Hj]; reflexivity).
    assert (Lr : (r < List.length h)%nat) by (apply nth_error_Some; congruence).
    assert (Hb1 : nth_error h1 r = Some b) by (rewrite Ho by lia; exact Hb).
    destruct (IH _ _ _ _ _ _ H N Hdr j r az el b p Hj Hb1 Hp) as (A1 & A2 & A3 & A4 & A5 & A6 & A7 & A8).
    rewrite Hl in *. replace (List.length h + S j)%nat with (S (List.length h) + j)%nat by lia.
    repeat (split; [assumption|]). split.
    { intros Er a0 Ha0. subst rand. destruct PR as (x & a & -> & Ha & HA).
      rewrite KG in Ha. cbn in Ha. rewrite Ha0 in Ha. inversion Ha; subst a.
      rewrite (A7 eq_refl (a0 + x)%R) by (rewrite HA; reflexivity).
      do 2 f_equal. change (prefix_sum (x :: rnd') (S (S j))) with (x + prefix_sum rnd' (S j))%R. lra. }
    intros k d Hd Pk N2 N3 N5. rewrite (A8 k d Hd Pk N2 N3 N5). now rewrite EK by auto.
Qed.

(** The list that the loops go through. *)
Definition cross_list (f : list pair) (offs : list ((R * R) * (R * R))) : list (slot * (R * R)) :=
  concat (map (fun po => [(fst (fst po), fst (snd po)); (snd (fst po), snd (snd po))]) (combine f offs)).

Lemma cross_list_nth f : forall offs q s p o, nth_error f q = Some p -> nth_error offs q = Some o ->
  nth_error (cross_list f offs) (place q s) = Some (part s p, part s o).
Proof.
  induction f as [|p0 f IH]; intros [|o0 offs] [|q] s p o Hp Ho; try discriminate.
  - cbn in Hp, Ho. inversion Hp; inversion Ho; subst. destruct s; reflexivity.
  - cbn [nth_error] in Hp, Ho. rewrite <- (IH offs q s p o Hp Ho).
    unfold place. replace (2 * S q)%nat with (S (S (2 * q)))%nat by lia. reflexivity.
Qed.

Lemma cross_list_in f : forall offs x, In x (map fst (cross_list f offs)) ->
  exists q s p, nth_error f q = Some p /\ (q < List.length offs)%nat /\ x = part s p.
Proof.
  induction f as [|p0 f IH]; intros [|o0 offs] x Hx; try (now destruct Hx).
  cbn in Hx. destruct Hx as [Hx|[Hx|Hx]].
  - exists 0%nat, false, p0. repeat split; auto. cbn; lia.
  - exists 0%nat, true, p0. repeat split; auto. cbn; lia.
  - destruct (IH offs x Hx) as (q & s & p & A & B & C). exists (S q), s, p. repeat split; auto. cbn; lia.
Qed.

Lemma crosstalk_none l : forall h tag rand rnd kw h' , crosstalk h l tag rand rnd kw = Ok h' ->
  forall s, In s (map fst l) -> s <> None.
Proof.
  induction l as [|[[r|] [az el]] l IH]; intros h tag rand rnd kw h' H s Hs; [destruct Hs| |discriminate].
  cbn [crosstalk] in H. cross_inv H b p kw' rnd' h1. destruct Hs as [<-|Hs]; [discriminate|].
  eapply IH; eauto.
Qed.

(** Without empty slots the beams gone through are the first beams present. *)
Lemma cross_list_refs f : forall offs, (forall s, In s (map fst (cross_list f offs)) -> s <> None) ->
  exists rest,
  flat_map (fun p => flat_map (fun s : slot => match s with Some r => [r] | None => [] end) [fst p; snd p]) f
  = (flat_map (fun s : slot => match s with Some r => [r] | None => [] end) (map fst (cross_list f offs)) ++ rest)%list.
Proof.
  induction f as [|[s1 s2] f IH]; intros [|[o1 o2] offs] H; try (eexists; reflexivity).
  destruct (IH offs) as [rest E].
  { intros s Hs. apply H. cbn. auto. }
  exists rest. cbn in E |- *. rewrite E. destruct s1, s2; reflexivity.
Qed.

Lemma flat_nodup (l : list slot) : (forall s, In s l -> s <> None) ->
  NoDup (flat_map (fun s : slot => match s with Some r => [r] | None => [] end) l) -> NoDup l.
Proof.
  induction l as [|s l IH]; intros H N; [constructor|].
  destruct s as [r|]; [|exfalso; apply (H None); cbn; auto].
  cbn in N. inversion N as [|? ? N1 N2]; subst. constructor.
  - intros X. apply N1. apply in_flat_map. exists (Some r). cbn; auto.
  - apply IH; auto. intros s Hs. apply H. cbn; auto.
Qed.

Lemma cross_history os st offs tag rand rnd kw st' :
  history (fun st o => adds_once st o /\ is_input o = false /\ loads_separate o) empty_inst os st ->
  NoDup (map fst kw) -> create_crosstalk_ghosts st offs tag rand rnd kw = Ok st' ->
  fp st' = fp st /\ ndet st' = ndet st
  /\ (forall x k, (x < List.length (objs st))%nat -> getattr (objs st') x k = getattr (objs st) x k)
  /\ (forall x, (x < List.length (objs st))%nat ->
        (forall q s p, (q < List.length offs)%nat -> nth_error (fp st) q = Some p -> part s p <> Some x) ->
        ghosts_of (objs st') x = ghosts_of (objs st) x)
  /\ forall q s pr r off az el p, nth_error (fp st) q = Some pr -> part s pr = Some r ->
  nth_error offs q = Some off -> part s off = (az, el) ->
  getattr (objs st) r "polang" = Some (VNum p) ->
  exists g, ghosts_of (objs st') r = (ghosts_of (objs st) r ++ [g])%list
  /\ getattr (objs st') g "az" = Some (VNum az)
  /\ getattr (objs st') g "el" = Some (VNum el)
  /\ getattr (objs st') g "polang" = Some (VNum (p + 90))
  /\ (az <> 0%R -> getattr (objs st') g "dead" = Some (VBool false))
  /\ (az = 0%R -> getattr (objs st') g "dead" = Some (VBool true))
  /\ (rand = true -> forall a0, vnum (dget kw "amplitude") 1%R = Ok a0 ->
        getattr (objs st') g "amplitude" = Some (VNum (a0 + prefix_sum rnd (S (place q s)))))
  /\ forall k d, In (k, d) options -> plain k = true -> k <> "name" -> ~ In k ["az"; "el"; "polang"; "dead"] ->
       (rand = true -> k <> "amplitude") ->
       getattr (objs st') g k
       = match dget kw k with
         | Some v => Some v
         | None => if existsb (fun k' => k' =? k) taken_over then getattr (objs st) r k else Some d
         end.
Proof.
  intros H N E. unfold create_crosstalk_ghosts in E. fold (cross_list (fp st) offs) in E.
  apply bind_ok in E as (h & Hh & E). inversion E; subst. cbn [objs fp ndet].
  split; [reflexivity|]. split; [reflexivity|].
  destruct (crosstalk_other _ _ _ _ _ _ _ Hh N) as (_ & O & A). split; [exact A|]. split.
  { intros x Hx Nx. unfold ghosts_of. rewrite O; auto. intros X. 
    destruct (cross_list_in _ _ _ X) as (q & s & p & P1 & P2 & P3). exact (Nx q s p P2 P1 (eq_sym P3)). }
  intros q s pr r off az el p Hq Hs Ho Hso Hp.
  pose proof (cross_list_nth _ _ _ s _ _ Hq Ho) as Hj. rewrite Hs, Hso in Hj.
  destruct (idx_from_empty _ _ H) as [ND _].
  assert (NR : NoDup (map fst (cross_list (fp st) offs))).
  { apply flat_nodup; [exact (crosstalk_none _ _ _ _ _ _ _ Hh)|].
    destruct (cross_list_refs (fp st) offs (crosstalk_none _ _ _ _ _ _ _ Hh)) as [rest ER].
    assert (ND2 : NoDup (flat_map (fun s : slot => match s with Some r => [r] | None => [] end) (map fst (cross_list (fp st) offs)) ++ rest)) by (rewrite <- ER; exact ND).
    clear - ND2. revert ND2. generalize (flat_map (fun s : slot => match s with Some r => [r] | None => [] end) (map fst (cross_list (fp st) offs))).
    intros l; induction l as [|x l IH]; cbn; intros N; constructor; inversion N; subst; auto. intros X; apply H1, in_or_app; auto. }
  unfold getattr in Hp. destruct (nth_error (objs st) r) as [b|] eqn:Eb; [|discriminate].
  destruct (crosstalk_spec _ _ _ _ _ _ _ Hh N NR _ r az el b p Hj Eb Hp)
    as ((b' & B1 & B2) & _ & R1 & R2 & R3 & R4 & R5 & R6).
  exists (List.length (objs st) + place q s)%nat.
  split; [now rewrite (ghosts_of_nth _ _ _ B1), (ghosts_of_nth _ _ _ Eb)|].
  split; [exact R1|]. split; [exact R2|]. split; [exact R3|].
  split. { intros Z. rewrite R4. destruct (Req_EM_T az 0); [contradiction|reflexivity]. }
  split. { intros Z. rewrite R4. destruct (Req_EM_T az 0); [reflexivity|contradiction]. }
  split; [exact R5|].
  intros k d K1 K2 K3 K4 K5.
  replace (getattr (objs st) r k) with (attrs b k); [exact (R6 k d K1 K2 K3 K4 K5)|]. unfold getattr. now rewrite Eb.
Qed.

(** Every place with an empty partner stops the creation. *)
Lemma cross_empty st offs tag rand rnd kw q s p off : 
  nth_error (fp st) q = Some p -> part s p = None -> nth_error offs q = Some off ->
  forall st', create_crosstalk_ghosts st offs tag rand rnd kw <> Ok st'.
Proof.
  intros Hq Hs Ho st' E. unfold create_crosstalk_ghosts in E. fold (cross_list (fp st) offs) in E.
  apply bind_ok in E as (h & Hh & E).
  pose proof (cross_list_nth _ _ _ s _ _ Hq Ho) as Hj. apply nth_error_In in Hj.
  refine (crosstalk_none _ _ _ _ _ _ _ Hh (part s p) _ Hs). apply in_map_iff. eexists. split; [|exact Hj]. reflexivity.
Qed.

(** ** Witnesses *)
Definition cross_pair : list op := [NewBeam []; NewBeam []; Add (Pairs [(Some 0%nat, Some 1%nat)]) true].
Definition cross_pair_state : inst := get (run empty_inst cross_pair).
Definition cross_single : list op := [NewBeam []; Add (One 0%nat) true].
Definition cross_single_state : inst := get (run empty_inst cross_single).

Lemma cross_pair_history :
  history (fun st o => adds_once st o /\ is_input o = false /\ loads_separate o) empty_inst cross_pair cross_pair_state.
Proof. apply check_history; [exact sane_idx|]. vm_compute. reflexivity. Qed.

Lemma cross_single_history :
  history (fun st o => adds_once st o /\ is_input o = false /\ loads_separate o) empty_inst cross_single cross_single_state.
Proof. apply check_history; [exact sane_idx|]. vm_compute. reflexivity. Qed.

Lemma cross_pair_runs offs az el az' el' : offs = [((az, el), (az', el'))] ->
  exists st', create_crosstalk_ghosts cross_pair_state offs "x" false [] [] = Ok st'.
Proof.
  intros ->. unfold create_crosstalk_ghosts. cbn [fp cross_pair_state].
  change (fp cross_pair_state) with [(Some 0%nat, Some 1%nat)]. cbn [combine map concat app fst snd crosstalk].
  destruct (Req_EM_T az 0); destruct (Req_EM_T az' 0); eexists; vm_compute; reflexivity.
Qed.

Lemma cross_single_raises az el az' el' :
  create_crosstalk_ghosts cross_single_state [((az, el), (az', el'))] "x" false [] [] = Err AttributeError.
Proof.
  unfold create_crosstalk_ghosts. change (fp cross_single_state) with [(Some 0%nat, @None nat)].
  cbn [combine map concat app fst snd crosstalk].
  destruct (Req_EM_T az 0); vm_compute; reflexivity.
Qed.

Lemma cross_azimuth_zero el : exists st' g,
  create_crosstalk_ghosts cross_pair_state [((0, el), (1, 1))%R] "x" false [] [] = Ok st'
  /\ ghosts_of (objs st') 0 = [g]
  /\ getattr (objs st') g "az" = Some (VNum 0) /\ getattr (objs st') g "el" = Some (VNum el)
  /\ getattr (objs st') g "dead" = Some (VBool true).
Proof.
  destruct (cross_pair_runs _ 0 el 1 1 eq_refl) as [st' E].
  assert (N : NoDup (map fst (@nil (string * val)))) by constructor.
  destruct (cross_history _ _ _ _ _ _ _ _ cross_pair_history N E) as (_ & _ & _ & _ & F).
  destruct (F 0%nat false (Some 0%nat, Some 1%nat) 0%nat _ 0%R el 0%R eq_refl eq_refl eq_refl eq_refl eq_refl)
    as (g & G1 & G2 & G3 & _ & _ & G4 & _).
  exists st', g. split; [exact E|]. split; [exact G1|]. auto.
Qed.

(** Random amplitudes accumulate: the ghosts of a pair. *)
Lemma cross_amplitudes a0 x y st' :
  create_crosstalk_ghosts cross_pair_state [((1, 1), (1, 1))%R] "x" true [x; y] [("amplitude", VNum a0)] = Ok st' ->
  exists g1, ghosts_of (objs st') 1 = [g1]
  /\ getattr (objs st') g1 "amplitude" = Some (VNum (a0 + (x + y))).
Proof.
  intros E.
  assert (N : NoDup (map fst [("amplitude", VNum a0)])) by (repeat constructor; cbn; tauto).
  destruct (cross_history _ _ _ _ _ _ _ _ cross_pair_history N E) as (_ & _ & _ & _ & F).
  destruct (F 0%nat true (Some 0%nat, Some 1%nat) 1%nat _ 1%R 1%R 0%R eq_refl eq_refl eq_refl eq_refl eq_refl)
    as (g & G1 & _ & _ & _ & _ & _ & G4 & _).
  exists g. split; [exact G1|]. rewrite (G4 eq_refl a0 eq_refl). cbn. do 2 f_equal. lra.
Qed.

Lemma cross_rand_runs az el az' el' x y a0 : exists st',
  create_crosstalk_ghosts cross_pair_state [((az, el), (az', el'))] "x" true [x; y] [("amplitude", VNum a0)] = Ok st'.
Proof.
  unfold create_crosstalk_ghosts. change (fp cross_pair_state) with [(Some 0%nat, Some 1%nat)].
  cbn [combine map concat app fst snd crosstalk].
  destruct (Req_EM_T az 0); destruct (Req_EM_T az' 0); eexists; vm_compute; reflexivity.
Qed.
