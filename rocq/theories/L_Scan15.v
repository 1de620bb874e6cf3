(** * Where the boresight comes from; the whole scan *)
From Coq Require Import Reals Lra.
From Verif Require Import Common LibList M_Chunks M_Steps M_Hwp M_Mpi M_Detpair M_Scan
  S_Chunks S_Detpair S_Scan S_Saved L_Chunks L_Steps L_Hwp L_Mpi L_Detpair L_Scan L_Scan2 L_Scan3 L_Scan4 L_Scan5
  L_Scan6 L_Scan7 L_Scan8 L_Scan10 L_Scan11 L_Scan12 L_Scan13 L_Scan14.
Open Scope R_scope.

(** ** Elevation steps alone *)
Definition elop (arr : list R) (e : option elsteps) : res (list R * option elsteps) :=
  match e with
  | None => Ok (arr, None)
  | Some e => if negb (el_on e) then Ok (arr, Some e)
              else do (l, d) <- step_array Rplus arr (el_st e); Ok (l, Some (mkel (el_on e) (el_steps e) d))
  end.
Definition with_el (u : strat) e := mkstrat (sg_fsamp u) (sg_rot u) (sg_hwp u) e.

Lemma run_el arr u : run_op (OEl arr) u
  = match elop arr (sg_el u) with Ok (l, e) => (Ok (XEl l), with_el u e) | Err x => (Err x, u) end.
Proof.
  destruct u as [f r h [e|]]; cbn; auto. destruct (el_on e) eqn:Eo; cbn; auto.
  - destruct (step_array _ _ _) as [[l d]|]; reflexivity.
Qed.
Lemma course_point_el elev c u l e : elop (elev c) (sg_el u) = Ok (l, e) ->
  course_point false elev c u = Ok (l, with_el u e).
Proof. intros H. unfold course_point. rewrite run_el, H. reflexivity. Qed.

Lemma elop_sim arr e e' l' e1' : sim_el e e' -> elop arr e' = Ok (l', e1') ->
  exists e1, elop arr e = Ok (l', e1) /\ sim_el e1 e1'.
Proof.
  intros H Hr.
  pose (i := mkirot (mkrot false 0 0) 0 [] 0 (angle_gen [])).
  pose (hh := mkhwp NoMode None 0 [] (mksteps 0%nat 0 0%nat (angle_gen []))).
  destruct (sim_run_op (OEl arr) (mkstrat 0 i hh e) (mkstrat 0 i hh e')) as [A Bs].
  { split; auto. }
  rewrite !run_el in A, Bs. cbn [sg_el] in A, Bs. rewrite Hr in A, Bs.
  destruct (elop arr e) as [[l e1]|]; cbn [fst snd] in A, Bs; [|discriminate].
  injection A as ->. exists e1. split; auto. apply Bs.
Qed.
Lemma elop_reset arr e l e1 : elop arr e = Ok (l, e1) -> sim_el (reset_el_steps e1) (reset_el_steps e).
Proof.
  intros H.
  pose (i := mkirot (mkrot false 0 0) 0 [] 0 (angle_gen [])).
  pose (hh := mkhwp NoMode None 0 [] (mksteps 0%nat 0 0%nat (angle_gen []))).
  assert (X := reset_after_op (OEl arr) (mkstrat 0 i hh e)).
  rewrite run_el in X. cbn [sg_el] in X. rewrite H in X. apply X.
Qed.

Lemma step_loop_length {A} add n : forall (arr : list A) i size a g arr' j a' g',
  step_loop add n arr i size a g = Ok (arr', j, a', g') -> length arr' = length arr.
Proof.
  induction n as [|n IH]; intros arr i size a g arr' j a' g' H; cbn [step_loop] in H.
  - injection H as <- _ _ _. reflexivity.
  - destruct (next g) as [[b g1]|]; cbn [bind] in H; [|discriminate]. apply IH in H. rewrite H.
    apply add_slice_length.
Qed.
Lemma step_array_length {A} add (arr : list A) d l d' : step_array add arr d = Ok (l, d') -> length l = length arr.
Proof.
  unfold step_array. destruct (st_size d =? 0)%nat; [discriminate|]. cbv zeta.
  destruct (_ =? 1)%nat.
  - destruct (length arr <=? st_rem d)%nat.
    + intros H. injection H as <- _. apply add_slice_length.
    + destruct (next (st_gen d)) as [[b g1]|]; cbn [bind]; [|discriminate].
      intros H. injection H as <- _. rewrite !add_slice_length. reflexivity.
  - match goal with |- context [step_loop add ?n ?a ?i ?s ?x ?g] => destruct (step_loop add n a i s x g) as [[[[arr1 j] a1] g1]|] eqn:Es end;
      cbn [bind]; [|discriminate].
    destruct (next g1) as [[b g2]|]; cbn [bind]; [|discriminate].
    intros H. injection H as <- _. rewrite add_slice_length. apply step_loop_length in Es. rewrite Es.
    destruct (st_rem d =? 0)%nat; auto. apply add_slice_length.
Qed.
Lemma elop_length arr e l e1 : elop arr e = Ok (l, e1) -> length l = length arr.
Proof.
  unfold elop. destruct e as [e|]; [|intros H; injection H as <- _; reflexivity].
  destruct (negb (el_on e)); [intros H; injection H as <- _; reflexivity|].
  destruct (step_array Rplus arr (el_st e)) as [[l0 d]|] eqn:Es; cbn [bind]; [|discriminate].
  intros H. injection H as <- _. eapply step_array_length; eauto.
Qed.

Lemma Forall2_weaken {A B} (P Q : A -> B -> Prop) l l' : (forall a b, P a b -> Q a b) -> Forall2 P l l' -> Forall2 Q l l'.
Proof. intros H F. induction F; constructor; auto. Qed.

Fixpoint points (elev : chunk -> list R) (cs : list chunk) (e : option elsteps)
  : res (list (list R) * option elsteps) :=
  match cs with
  | [] => Ok ([], e)
  | c :: r => do (b, e) <- elop (elev c) e; do (bs, e) <- points elev r e; Ok (b :: bs, e)
  end.
Lemma points_app elev a b e : points elev (a ++ b) e
  = do (x, e) <- points elev a e; do (y, e) <- points elev b e; Ok (x ++ y, e).
Proof.
  revert e; induction a as [|c a IH]; intros e; cbn [app points bind].
  - destruct (points elev b e) as [[]|]; reflexivity.
  - destruct (elop (elev c) e) as [[l e1]|]; cbn [bind]; auto. rewrite IH.
    destruct (points elev a e1) as [[x e2]|]; cbn [bind]; auto.
    destruct (points elev b e2) as [[y e3]|]; cbn [bind]; auto.
Qed.

Section L.
  Context {B : Type}.
  Implicit Types (s : state B) (E : env B) (d : det B) (p q : bpair B).

  Lemma not_about_views i evs : (forall e, In e evs -> ~ about i e) ->
    sky_views i evs = [] /\ bin_views i evs = [].
  Proof.
    induction evs as [|e evs IH]; intros H; [auto|].
    destruct IH as [I1 I2]; [intros; apply H; now right|]. specialize (H e (or_introl eq_refl)).
    destruct e as [c l|[j|j k] v t|j v t]; cbn in *; auto.
    - destruct (Z.eqb_spec j i); [destruct H; auto|]. auto.
    - destruct (Z.eqb_spec j i); [destruct H; auto|]. auto.
  Qed.

  Definition fits (m : list R) (c : chunk) (b : list R) : Prop :=
    slice m (Z.to_nat (c_start c)) (Z.to_nat (c_end c)) = b.

  Section Rules.
    Variables (E : env B) (O : opts) (bidx : nat) (cs0 : list chunk) (st0 : strat) (n : Z).
    Definition el_ok s : Prop := sim_el (reset_el_steps (sg_el (s_strat s))) (sg_el st0).

    Definition I_ext (r : list chunk) (u : strat) s : Prop := el_ok s.

    Definition I_write (r : list chunk) (u : strat) s : Prop :=
      sim_el (sg_el u) (sg_el (s_strat s)) /\ el_ok s /\ (bidx = 0%nat \/ s_mmap s = None)
      /\ forall m, s_mmap s = Some m ->
           exists done bs lo, cs0 = done ++ r /\ points (e_elev E) done (sg_el st0) = Ok (bs, sg_el u)
             /\ tiles lo n (map span r) /\ (0 <= lo)%Z /\ length m = Z.to_nat n
             /\ Forall2 (fun c b => (0 <= c_start c)%Z /\ (c_end c <= lo)%Z /\ fits m c b) done bs.

    Definition I_read m (r : list chunk) (u : strat) s : Prop :=
      s_mmap s = Some m /\ el_ok s
      /\ exists done bs bs1 bs2 e, cs0 = done ++ r /\ points (e_elev E) done (sg_el st0) = Ok (bs, sg_el u)
           /\ points (e_elev E) cs0 (sg_el st0) = Ok (bs1 ++ bs2, e) /\ length bs1 = length done
           /\ Forall2 (fits m) r bs2.

    Lemma ext_rule c r u s s1 pre gr : e_ext E = true -> I_ext (c :: r) u s -> implement_scan E pre gr c s = Ok s1 ->
      exists bore u1, course_point (e_ext E) (e_elev E) c u = Ok (bore, u1) /\ s_bore s1 = bore
         /\ forall u' s', sg_el u' = sg_el u1 -> sg_el (s_strat s') = sg_el (s_strat s1) -> s_mmap s' = s_mmap s1 ->
              I_ext r u' s'.
    Proof.
      intros He HI H. unfold implement_scan in H. rewrite He in *. injection H as <-.
      exists (e_elev E c), u. split; [reflexivity|]. split; [reflexivity|].
      intros u' s' _ H2 _. unfold I_ext, el_ok in *. rewrite H2. exact HI.
    Qed.

    Lemma fits_splice m i b c x : (Z.to_nat (c_end c) <= i)%nat -> (i + length b <= length m)%nat ->
      fits m c x -> fits (splice m i b) c x.
    Proof.
      unfold fits. intros H1 H2 <-.
      rewrite <- (slice_firstn (splice m i b)), <- (slice_firstn m).
      f_equal. eapply firstn_less; [exact H1|]. apply splice_firstn. exact H2.
    Qed.

    Lemma write_rule c r u s s1 gr : e_ext E = false ->
      (forall c, In c cs0 -> length (e_elev E c) = csize c) ->
      I_write (c :: r) u s -> implement_scan E (negb (bidx =? 0)%nat) gr c s = Ok s1 ->
      exists bore u1, course_point (e_ext E) (e_elev E) c u = Ok (bore, u1) /\ s_bore s1 = bore
         /\ forall u' s', sg_el u' = sg_el u1 -> sg_el (s_strat s') = sg_el (s_strat s1) -> s_mmap s' = s_mmap s1 ->
              I_write r u' s'.
    Proof.
      intros He Hlen (Hs & Hel & Hb & Hm) H. unfold implement_scan in H. rewrite He in *.
      assert (X : (if negb (bidx =? 0)%nat then s_mmap s else None) = None).
      { destruct Hb as [-> | ->]; [reflexivity|]. destruct (negb _); reflexivity. }
      rewrite X in H. clear X. inv_bind H y Hy. destruct y as [y s0]. injection H as <-.
      apply lift_op_inv in Hy. destruct Hy as (st & Hy & ->). rewrite run_el in Hy.
      destruct (elop (e_elev E c) (sg_el (s_strat s))) as [[l e1]|] eqn:El; [|discriminate].
      injection Hy as <- <-. destruct (elop_sim _ _ _ _ _ Hs El) as (e2 & El2 & Se).
      exists l, (with_el u e2). split; [apply course_point_el; auto|].
      split; [destruct gr; reflexivity|]. intros u' s' U1 U2 U3. cbn [sg_el with_el] in U1.
      assert (U2' : sg_el (s_strat s') = e1) by (rewrite U2; destruct gr; reflexivity).
      assert (U3' : s_mmap s' = option_map (fun m => splice m (Z.to_nat (c_start c)) l) (s_mmap s))
        by (rewrite U3; destruct gr; reflexivity).
      unfold I_write, el_ok. rewrite U1, U2', U3'. split; auto. split.
      { unfold el_ok in Hel. assert (Y := elop_reset _ _ _ _ El).
        assert (Z1 : sim (mkstrat 0 (sg_rot st0) (sg_hwp st0) (reset_el_steps e1))
                        (mkstrat 0 (sg_rot st0) (sg_hwp st0) (reset_el_steps (sg_el (s_strat s))))) by (split; auto).
        assert (Z2 : sim (mkstrat 0 (sg_rot st0) (sg_hwp st0) (reset_el_steps (sg_el (s_strat s))))
                        (mkstrat 0 (sg_rot st0) (sg_hwp st0) (sg_el st0))) by (split; auto).
        apply (sim_trans _ _ _ Z1 Z2). }
      split.
      { destruct Hb as [Hb|Hb]; auto. rewrite Hb. auto. }
      intros m' Hm'. destruct (s_mmap s) as [m|] eqn:Em; [|discriminate]. injection Hm' as <-.
      destruct (Hm m eq_refl) as (done & bs & lo & Ec & Ep & T & Hlo & Lm & F).
      cbn in T. destruct c as [a b ci nr]. cbn in T. destruct T as (-> & Hab & T). set (c := mkchunk lo b ci nr) in *.
      exists (done ++ [c]), (bs ++ [l]), b. split; [rewrite <- app_assoc; exact Ec|].
      split.
      { rewrite points_app, Ep. cbn [bind points]. rewrite El2. reflexivity. }
      split; auto. split; [lia|].
      assert (Tn : (b <= n)%Z) by (eapply tiles_le; exact T).
      assert (Ll : length l = csize c).
      { rewrite (elop_length _ _ _ _ El). apply Hlen. rewrite Ec. apply in_or_app. right. now left. }
      assert (Fit : (Z.to_nat (c_start c) + length l <= length m)%nat).
      { rewrite Ll, Lm. unfold csize. cbn. lia. }
      split; [rewrite splice_length; auto|].
      apply Forall2_app.
      - eapply Forall2_weaken; [|exact F]. intros c' b' (A0 & A1 & A2). split; auto. split; [cbn; lia|].
        apply fits_splice; auto. cbn. lia.
      - constructor; [|constructor]. split; [cbn; lia|]. split; [cbn; lia|]. unfold fits.
        replace (Z.to_nat (c_end c)) with (Z.to_nat (c_start c) + length l)%nat
          by (rewrite Ll; unfold csize; cbn; lia).
        apply slice_spliced. exact Fit.
    Qed.

    Lemma read_rule m c r u s s1 gr : e_ext E = false -> bidx <> 0%nat ->
      I_read m (c :: r) u s -> implement_scan E (negb (bidx =? 0)%nat) gr c s = Ok s1 ->
      exists bore u1, course_point (e_ext E) (e_elev E) c u = Ok (bore, u1) /\ s_bore s1 = bore
         /\ forall u' s', sg_el u' = sg_el u1 -> sg_el (s_strat s') = sg_el (s_strat s1) -> s_mmap s' = s_mmap s1 ->
              I_read m r u' s'.
    Proof.
      intros He Hbi (Hm & Hel & done & bs & bs1 & bs2 & e & Ec & Ep & Ep0 & Lb & F) H.
      unfold implement_scan in H. rewrite He in *. rewrite (proj2 (Nat.eqb_neq bidx 0) Hbi) in H.
      cbn [negb] in H. rewrite Hm in H. injection H as <-.
      inversion F as [|? b ? bs2' Fc F' Ea]. subst.
      assert (P := Ep0). rewrite Ec, points_app, Ep in P. cbn [bind points] in P.
      inv_bind P x Hx. destruct x as [y e1]. inv_bind Hx z Hz. destruct z as [b' e2].
      inv_bind Hx z Hz'. destruct z as [ys e3]. injection Hx as <- <-. injection P as Eb Ee.
      assert (Lbs : length bs = length done).
      { clear -Ep. revert bs Ep. generalize (sg_el st0) (sg_el u). induction done as [|c done IH]; intros a b bs H; cbn in H.
        - injection H as <- _. reflexivity.
        - inv_bind H x Hx. destruct x. inv_bind H y Hy. destruct y. injection H as <- _. cbn. f_equal. eapply IH; eauto. }
      assert (bs = bs1 /\ b' :: ys = b :: bs2') as [-> Eq].
      { clear -Eb Lbs Lb. assert (L : length bs = length bs1) by congruence. clear Lbs Lb.
        revert bs1 L Eb. induction bs as [|x bs IH]; intros [|y bs1] L Eb; try discriminate; auto.
        cbn in Eb. injection Eb as -> Eb. destruct (IH bs1) as [-> Q]; auto. }
      injection Eq as -> ->.
      exists b, (with_el u e2). split; [apply course_point_el; auto|]. split; [exact Fc|].
      intros u' s' U1 U2 U3. cbn [sg_el with_el] in U1. split; [rewrite U3; exact Hm|].
      split; [unfold el_ok in *; rewrite U2; exact Hel|].
      exists (done ++ [c]), (bs1 ++ [b]), (bs1 ++ [b]), bs2', e3. rewrite <- !app_assoc. split; auto. split.
      { rewrite points_app, Ep. cbn [bind points]. rewrite Hz, U1. reflexivity. }
      split; [rewrite <- Ee in Ep0; exact Ep0|]. split; [rewrite !app_length; cbn; lia|exact F'].
    Qed.
  End Rules.

  (** ** Pairs *)
  Definition mm_ok E O (cs : list chunk) (st0 : strat) (n : Z) (bidx : nat) s : Prop :=
    if e_ext E then True
    else if o_memmap O then
      exists m, s_mmap s = Some m
        /\ if (bidx =? 0)%nat then length m = Z.to_nat n
           else exists bs e, points (e_elev E) cs (sg_el st0) = Ok (bs, e) /\ Forall2 (fits m) cs bs
    else s_mmap s = None.

  Lemma pair_course E O bidx w s s' cs st0 n :
    (o_ground O = true -> o_preview O = false) -> o_preview O = false ->
    apart (pair_at s w) -> no_stale O (chunks_of s) -> used_chunks E s = Ok cs ->
    pos_chunks cs -> numbered cs -> rot_fine (ir_rot (sg_rot (s_strat s))) ->
    tiles 0 n (map span cs) -> (forall c, In c cs -> length (e_elev E c) = csize c) ->
    h_mode (sg_hwp st0) <> OtherMode -> sim (reset st0) st0 ->
    (bidx = 0%nat -> s_strat s = st0) -> sim (reset (s_strat s)) st0 -> mm_ok E O cs st0 n bidx s ->
    scan_pair E O bidx w s = Ok s' ->
    exists evs V u', s_log s' = s_log s ++ evs /\ course (e_ext E) (e_elev E) cs st0 = Ok (V, u')
      /\ sim (reset (s_strat s')) st0 /\ mm_ok E O cs st0 n (S bidx) s'
      /\ forall i, live_id (pair_at s w) i -> sky_views i evs = V /\ (o_binning O = true -> bin_views i evs = V).
  Proof.
    intros Hg Hp Hap Hst Hcs Hpos Hnum Hrot T Hlen Hm Hfr H0 Hre Hmm H.
    destruct (deep_pair _ _ _ _ _ _ _ Hst Hcs H) as (q & s2 & Sa & Sb & S2 & L2 & D2 & _ & MM2 & F2 & _ & N2 & _ & _ & _ & H2).
    assert (Hs2 : sim (s_strat s2) st0).
    { rewrite S2. destruct (Nat.eqb_spec bidx 0); [rewrite H0 by auto; apply sim_refl|exact Hre]. }
    assert (C2 : core st0 (s_strat s2)).
    { destruct Hs2 as (A1 & A2 & A3 & _). constructor; congruence. }
    assert (Re2 : sim (reset (s_strat s2)) st0).
    { eapply sim_trans; [apply reset_sim; exact Hs2|exact Hfr]. }
    assert (El2 : el_ok st0 s2) by apply Re2.
    assert (Hrot2 : rot_fine (ir_rot (sg_rot (s_strat s2)))).
    { rewrite S2. destruct (bidx =? 0)%nat; auto. apply reset_fine; auto. }
    assert (Hapq : apart q) by (eapply same_apart; eauto).
    assert (Fin : forall evs V, (forall d, is_live q d -> sky_views (d_id d) evs = V /\ (o_binning O = true -> bin_views (d_id d) evs = V)) ->
              forall i, live_id (pair_at s w) i -> sky_views i evs = V /\ (o_binning O = true -> bin_views i evs = V)).
    { intros evs V HV i Hi.
      assert (Sym : forall x y : option (det B), same_odet x y ->
                match live x, live y with Some d, Some d' => d_id d = d_id d' | None, None => True | _, _ => False end).
      { intros x y Hxy. apply same_live in Hxy. destruct (live x), (live y); auto. destruct Hxy as [Hxy _]. congruence. }
      apply Sym in Sa, Sb. destruct Hi as (d & [Hd|Hd] & <-); [rewrite Hd in Sa|rewrite Hd in Sb].
      - destruct (live (fst q)) as [d'|] eqn:Eq; [|contradiction]. rewrite Sa. apply HV. left. auto.
      - destruct (live (snd q)) as [d'|] eqn:Eq; [|contradiction]. rewrite Sb. apply HV. right. auto. }
    assert (Join : forall (I : list chunk -> strat -> state B -> Prop),
      (forall c r u s s1, I (c :: r) u s -> implement_scan E (negb (bidx =? 0)%nat) (o_ground O) c s = Ok s1 ->
       exists bore u1, course_point (e_ext E) (e_elev E) c u = Ok (bore, u1) /\ s_bore s1 = bore
         /\ forall u' s', sg_el u' = sg_el u1 -> sg_el (s_strat s') = sg_el (s_strat s1) -> s_mmap s' = s_mmap s1 ->
              I r u' s') ->
      (forall u' s', I [] u' s' -> el_ok st0 s' /\ mm_ok E O cs st0 n (S bidx) s') ->
      I cs st0 s2 ->
      exists evs V u', s_log s' = s_log s ++ evs /\ course (e_ext E) (e_elev E) cs st0 = Ok (V, u')
      /\ sim (reset (s_strat s')) st0 /\ mm_ok E O cs st0 n (S bidx) s'
      /\ forall i, live_id (pair_at s w) i -> sky_views i evs = V /\ (o_binning O = true -> bin_views i evs = V)).
    { intros I Hstep Hend HI.
      destruct (chunks_course E O bidx q I Hg Hp Hapq Hstep cs [] s2 s' st0)
        as (evs & V & u' & L & Cr & C3 & I3 & R3 & Vs); auto.
      destruct (Hend _ _ I3) as [He Hmm'].
      exists evs, V, u'. split; [congruence|]. split; auto. split.
      { destruct C3 as [A1 A2 A3]. assert (R4 := sim_trans _ _ _ R3 Hfr). destruct R4 as (B1 & B2 & B3 & _).
        cbn in B1, B2, B3. split; [cbn; congruence|]. split; [cbn; congruence|]. split; [cbn; congruence|exact He]. }
      split; auto. }
    unfold mm_ok in Hmm. destruct (e_ext E) eqn:Ee.
    - apply (Join (I_ext st0)).
      + intros c r u sa sb HI Hi. rewrite <- Ee. eapply ext_rule; eauto.
      + intros u' sa HI. split; [exact HI|]. unfold mm_ok. rewrite Ee. exact I.
      + exact El2.
    - assert (Write : bidx = 0%nat \/ s_mmap s2 = None -> (s_mmap s2 = None <-> o_memmap O = false) ->
                (forall m, s_mmap s2 = Some m -> length m = Z.to_nat n) -> 
         exists evs V u', s_log s' = s_log s ++ evs /\ course false (e_elev E) cs st0 = Ok (V, u')
      /\ sim (reset (s_strat s')) st0 /\ mm_ok E O cs st0 n (S bidx) s'
      /\ forall i, live_id (pair_at s w) i -> sky_views i evs = V /\ (o_binning O = true -> bin_views i evs = V)).
      { intros Hb Hiff Hml.
        apply (Join (fun r u sa => I_write E bidx cs st0 n r u sa /\ (s_mmap sa = None <-> o_memmap O = false))).
        - intros c r u sa sb (HI & Hi2) Hi.
          destruct (write_rule E bidx cs st0 n c r u sa sb (o_ground O) Ee Hlen HI Hi) as (bore & u1 & W1 & W2 & W3). rewrite Ee in W1.
          exists bore, u1. split; auto. split; auto. intros ua sc G1 G2 G3. split; [apply W3; auto|].
          rewrite G3. refine (iff_trans _ Hi2). unfold implement_scan in Hi. rewrite Ee in Hi.
          destruct HI as (_ & _ & Hb' & _).
          assert (X : (if negb (bidx =? 0)%nat then s_mmap sa else None) = None).
          { destruct Hb' as [-> | ->]; [reflexivity|]. destruct (negb _); reflexivity. }
          rewrite X in Hi. inv_bind Hi y Hy. destruct y as [y s0]. injection Hi as <-.
          apply lift_op_inv in Hy. destruct Hy as (st & Hy & ->).
          destruct (o_ground O); cbn; destruct (s_mmap sa); cbn; split; congruence.
        - intros u' sa ((Hs & He & Hb' & Hmm') & Hi2). split; auto. unfold mm_ok. rewrite Ee.
          destruct (o_memmap O) eqn:Eo.
          + destruct (s_mmap sa) as [m|] eqn:Em; [|destruct Hi2 as [Hi2 _]; discriminate (Hi2 eq_refl)].
            exists m. split; auto. cbn [Nat.eqb]. destruct (Hmm' m eq_refl) as (done & bs & lo & Ec & Ep & _ & _ & _ & F).
            rewrite app_nil_r in Ec. subst done. exists bs, (sg_el u'). split; auto.
            eapply Forall2_weaken; [|exact F]. intros c b (_ & _ & X). exact X.
          + apply Hi2. reflexivity.
        - split; [|exact Hiff]. split; [|split; [exact El2|split; [exact Hb|]]].
          + destruct (sim_sym _ _ Hs2) as (_ & _ & _ & X). exact X.
          + intros m Em. exists [], [], 0%Z. split; auto. split; auto. split; auto. split; [lia|]. split; auto. }
      destruct (o_memmap O) eqn:Eo.
      + destruct Hmm as (m & Em & Hmm). rewrite MM2 in Write.
        destruct (Nat.eq_dec bidx 0) as [Hb0|Hb0];
          [rewrite (proj2 (Nat.eqb_eq bidx 0) Hb0) in Hmm|rewrite (proj2 (Nat.eqb_neq bidx 0) Hb0) in Hmm].
        * apply Write; auto.
          -- rewrite Em. split; discriminate.
          -- intros m' E'. rewrite Em in E'. injection E' as <-. exact Hmm.
        * destruct Hmm as (bs & e & Ep & F).
          apply (Join (I_read E cs st0 m)).
          -- intros c r u sa sb HI Hi. rewrite <- Ee. apply (read_rule E bidx cs st0 m c r u sa sb (o_ground O)); auto.
          -- intros u' sa (M1 & E1 & _). split; auto. unfold mm_ok. rewrite Ee, Eo. exists m. split; auto.
             cbn [Nat.eqb]. eauto.
          -- split; [congruence|]. split; [exact El2|]. exists [], [], [], bs, e. repeat split; auto.
      + apply Write; rewrite MM2, Hmm; auto; try discriminate. split; auto.
  Qed.

  Lemma pairs_course E O cs st0 n (bs : list (bpair B)) :
    (o_ground O = true -> o_preview O = false) -> o_preview O = false ->
    pos_chunks cs -> numbered cs -> NoDup (map d_id (dets bs)) -> tiles 0 n (map span cs) ->
    (forall c, In c cs -> length (e_elev E c) = csize c) ->
    h_mode (sg_hwp st0) <> OtherMode -> sim (reset st0) st0 ->
    forall ws bidx s s', NoDup (somes ws) ->
    (forall w, In w ws -> pair_at s w = at_ bs w) ->
    no_stale O (chunks_of s) -> used_chunks E s = Ok cs ->
    rot_fine (ir_rot (sg_rot (s_strat s))) ->
    (bidx = 0%nat -> s_strat s = st0) -> sim (reset (s_strat s)) st0 -> mm_ok E O cs st0 n bidx s ->
    scan_pairs E O bidx ws s = Ok s' ->
    exists evs, s_log s' = s_log s ++ evs
      /\ (forall i, (forall w, In w ws -> ~ live_id (at_ bs w) i) -> sky_views i evs = [] /\ bin_views i evs = [])
      /\ forall w i, In w ws -> live_id (at_ bs w) i ->
           exists V u', course (e_ext E) (e_elev E) cs st0 = Ok (V, u')
             /\ sky_views i evs = V /\ (o_binning O = true -> bin_views i evs = V).
  Proof.
    intros Hg Hp Hpos Hnum ND T Hlen Hm Hfr.
    induction ws as [|w ws IH]; intros bidx s s' NW Hat Hst Hcs Hrot H0 Hre Hmm H; cbn [scan_pairs] in H.
    { injection H as <-. exists []. rewrite app_nil_r. split; auto. split; auto. intros ? ? []. }
    inv_bind H s1 H1.
    assert (Pw : pair_at s w = at_ bs w) by (apply Hat; now left).
    assert (Apw : apart (pair_at s w)).
    { rewrite Pw. destruct w as [j|]; cbn; [|intros a b Ha; discriminate].
      destruct (nth_error bs j) as [q|] eqn:Ej; [|intros a b Ha; discriminate].
      intros a b Ha Hb. destruct (dets_split bs j q Ej) as (l1 & l2 & Ed). rewrite Ed in ND.
      destruct q as [[a0|] [b0|]]; cbn in Ha, Hb; try discriminate.
      destruct (d_dead a0); [discriminate|]. destruct (d_dead b0); [discriminate|].
      injection Ha as <-. injection Hb as <-. rewrite !map_app in ND. cbn in ND.
      apply NoDup_remove_2 in ND. intros E0. apply ND. apply in_or_app. right. left. auto. }
    assert (X := H1). apply (pair_course E O bidx w s s1 cs st0 n) in X; auto.
    destruct X as (e1 & V & u' & L1 & Cr & Re1 & Mm1 & Vs). rewrite Pw in Vs.
    eapply scan_pair_like in H1; eauto. destruct H1 as (e1' & L1' & Pr & Bm & C1 & N1 & F1).
    assert (e1' = e1) by (rewrite L1 in L1'; apply app_inv_head in L1'; auto). subst e1'. rewrite Pw in Pr.
    assert (NW' : NoDup (somes ws)).
    { destruct w; cbn in NW; auto. inversion NW; auto. }
    assert (Wn : forall j, w = Some j -> In (Some j) ws -> False).
    { intros j -> Hj. cbn in NW. inversion NW; subst. match goal with K : ~ In _ _ |- _ => apply K end.
      apply somes_in. auto. }
    apply (IH _ s1) in H; auto; try discriminate.
    2:{ intros w' Hw'. rewrite <- Hat by now right. destruct w' as [j|]; cbn; auto. rewrite Bm; auto.
        intros ->. apply (Wn j); auto. }
    destruct H as (e2 & L2 & None2 & Vs2).
    assert (None1 : forall i, ~ live_id (at_ bs w) i -> sky_views i e1 = [] /\ bin_views i e1 = []).
    { intros i Hi. apply not_about_views. intros e He.
      destruct Pr as (q' & maps & Lk & Sa & Sb & _). eapply pair_untouched; [|exact Lk|exact He].
      eapply same_untouched; [exact Sa|exact Sb|]. split; intros d Hd E0; apply Hi; exists d; unfold is_live; auto. }
    exists (e1 ++ e2). split; [rewrite L2, L1, app_assoc; reflexivity|]. split.
    { intros i Hi. rewrite sky_app, binv_app. destruct (None1 i) as [-> ->]; [apply Hi; now left|].
      destruct (None2 i) as [-> ->]; auto. intros w' Hw'. apply Hi. now right. }
    assert (Apart : forall w' i, In w' ws -> live_id (at_ bs w) i -> live_id (at_ bs w') i -> False).
    { intros w' i Hw' (d & Hd & Hi) (d' & Hd' & Hi').
      destruct w as [j|]; [|cbn in Hd; destruct Hd; discriminate].
      destruct w' as [j'|]; [|cbn in Hd'; destruct Hd'; discriminate].
      assert (Hjj : j <> j') by (intros ->; apply (Wn j'); auto).
      cbn in Hd, Hd'. destruct (nth_error bs j) as [q|] eqn:Ej; [|destruct Hd; discriminate].
      destruct (nth_error bs j') as [q'|] eqn:Ej'; [|destruct Hd'; discriminate].
      apply (dets_apart bs j j' q q' d d'); auto; try (apply live_in; auto). congruence. }
    intros w' i [<-|Hw'] Hi; rewrite sky_app, binv_app.
    - exists V, u'. split; auto. destruct (Vs i Hi) as [-> V2].
      destruct (None2 i) as [-> ->]; [intros w' Hw' Hl; eapply Apart; eauto|]. rewrite !app_nil_r. auto.
    - destruct (None1 i) as [-> ->]; [intros Hl; eapply Apart; eauto|]. cbn [app]. eapply Vs2; eauto.
  Qed.
End L.
