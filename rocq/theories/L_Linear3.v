(** * Lemmas: superposition in the scan loop (C89) *)
From Coq Require Import Reals Lra.
From Verif Require Import Common LibList Cplx M_Chunks M_Steps M_Hwp M_Mpi M_Detpair M_Scan S_Linear L_Linear.
From Verif Require M_Tod.
Open Scope R_scope.

Section Mix.
  Context {B : Type} (a b : R).

  Definition MR (x y z : R) : Prop := z = a * x + b * y.
  Definition MV := F3 MR.
  Definition MO (x y z : option (list R)) : Prop :=
    match x, y, z with
    | None, None, None => True
    | Some x, Some y, Some z => MV x y z
    | _, _, _ => False
    end.
  Definition ME (x y z : event) : Prop :=
    match x, y, z with
    | EPoint c l, EPoint c' l', EPoint c'' l'' => c = c' /\ c = c'' /\ l = l' /\ l = l''
    | EScan w v t, EScan w' v' t', EScan w'' v'' t'' => w = w' /\ w = w'' /\ v = v' /\ v = v'' /\ MV t t' t''
    | EBin w v t, EBin w' v' t', EBin w'' v'' t'' => w = w' /\ w = w'' /\ v = v' /\ v = v'' /\ MV t t' t''
    | _, _, _ => False
    end.

  Inductive MS : state B -> state B -> state B -> Prop :=
  | mkMS st be ch ma mm bo gb hw t t' t'' qo d d' d'' po hs l l' l'' :
      MO t t' t'' -> (forall i k, MO (d i k) (d' i k) (d'' i k)) -> F3 ME l l' l'' ->
      MS (mkstate st be ch ma mm bo gb hw t qo d po hs l)
         (mkstate st be ch ma mm bo gb hw t' qo d' po hs l')
         (mkstate st be ch ma mm bo gb hw t'' qo d'' po hs l'').

  (** A value and a state. *)
  Definition PS {X Y Z} (P : X -> Y -> Z -> Prop) (x : X * state B) (y : Y * state B) (z : Z * state B) : Prop :=
    P (fst x) (fst y) (fst z) /\ MS (snd x) (snd y) (snd z).
  Definition same3 {X} (x y z : X) : Prop := x = y /\ x = z.

  Lemma MV_radd x y z x' y' z' : MV x y z -> MV x' y' z' ->
    R3 MV (M_Tod.radd_arr x x') (M_Tod.radd_arr y y') (M_Tod.radd_arr z z').
  Proof.
    intros H K. unfold M_Tod.radd_arr.
    destruct (F3_length _ _ _ _ H) as [E1 E2], (F3_length _ _ _ _ K) as [E3 E4].
    rewrite <- E1, <- E2, <- E3, <- E4. destruct (_ =? _)%nat; [|apply R3_err].
    cbn. eapply F3_zipwith; [|exact H|exact K]. unfold MR. intros; subst; ring.
  Qed.
  Lemma MV_zeros n : MV (repeat 0 n) (repeat 0 n) (repeat 0 n).
  Proof. apply F3_repeat. unfold MR; ring. Qed.
  Lemma MV_splice x y z x' y' z' i : MV x y z -> MV x' y' z' -> MV (splice x i x') (splice y i y') (splice z i z').
  Proof.
    intros H K. unfold splice. destruct (F3_length _ _ _ _ K) as [E1 E2]. rewrite <- E1, <- E2.
    apply F3_app; [now apply F3_firstn|]. apply F3_app; [exact K|]. now apply F3_skipn.
  Qed.
  Lemma MV_scale r x y z : MV x y z -> MV (map (Rmult r) x) (map (Rmult r) y) (map (Rmult r) z).
  Proof. apply F3_map. unfold MR; intros; subst; ring. Qed.

  Lemma store_mix add t t' t'' s s' s'' : MV t t' t'' -> MS s s' s'' ->
    R3 MS (store_tod add t s) (store_tod add t' s') (store_tod add t'' s'').
  Proof.
    intros H [st be ch ma mm bo gb hw u u' u'' qo d d' d'' po hs l l' l'' U D L].
    unfold store_tod, set_tod. cbn [s_tod s_strat s_beams s_chunks s_maps s_mmap s_bore s_gbore s_hwp s_qoff s_data s_point s_hwps s_log].
    destruct add; [|cbn; now constructor].
    destruct u as [u|], u' as [u'|], u'' as [u''|]; cbn [MO] in U; try contradiction; [|cbn; now constructor].
    eapply R3_bind; [exact (MV_radd _ _ _ _ _ _ U H)|]. intros; cbn; now constructor.
  Qed.

  (** The surroundings of the three scans. *)
  Context (f1 f2 f3 : who -> B -> view -> nat -> R) (el : chunk -> list R) (ext : bool) (ns : Z) (mpi : bool)
    (size rank : nat) (pos : Z -> view -> nat -> Z * R).
  Context (Hf : forall w x v i, f3 w x v i = a * f1 w x v i + b * f2 w x v i).
  Let E1 := mkenv f1 el ext ns mpi size rank pos.
  Let E2 := mkenv f2 el ext ns mpi size rank pos.
  Let E3 := mkenv f3 el ext ns mpi size rank pos.

  Ltac open H := destruct H as [st be ch ma mm bo gb hw u u' u'' qo dt dt' dt'' po hs lg lg' lg'' U D L].
  Ltac fields := cbn [s_tod s_strat s_beams s_chunks s_maps s_mmap s_bore s_gbore s_hwp s_qoff s_data s_point s_hwps s_log
     set_strat set_beams set_chunks set_maps set_mmap set_bore set_gbore set_hwp set_tod set_qoff set_data set_point set_hwps add_log
     e_signal e_elev e_ext e_nsamp e_mpi e_size e_rank e_pos fst snd].

  Lemma log_mix s s' s'' e e' e'' : MS s s' s'' -> ME e e' e'' -> MS (add_log s e) (add_log s' e') (add_log s'' e'').
  Proof. intros H K. open H. unfold add_log; fields. constructor; auto. apply F3_app; auto. repeat constructor; auto. Qed.

  Lemma tod_mix s s' s'' : MS s s' s'' -> MV (match s_tod s with Some t => t | None => [] end)
     (match s_tod s' with Some t => t | None => [] end) (match s_tod s'' with Some t => t | None => [] end).
  Proof.
    intros H. open H. fields. destruct u as [u|], u' as [u'|], u'' as [u''|]; cbn [MO] in U; try contradiction; auto. constructor.
  Qed.

  Lemma scan_mix3 w dead gidx add rt rp skip ground c s s' s'' : MS s s' s'' ->
    R3 (PS MV) (scan E1 w dead gidx add rt rp skip ground c s) (scan E2 w dead gidx add rt rp skip ground c s')
      (scan E3 w dead gidx add rt rp skip ground c s'').
  Proof.
    intros H. unfold scan. destruct dead; [apply R3_err|]. destruct (skip && _); [apply R3_err|]. cbv zeta.
    assert (H0 : MS (match w with Main d => set_qoff s (upd (s_qoff s) d (Some (ir_angle (sg_rot (s_strat s))))) | Ghost _ _ => s end)
      (match w with Main d => set_qoff s' (upd (s_qoff s') d (Some (ir_angle (sg_rot (s_strat s'))))) | Ghost _ _ => s' end)
      (match w with Main d => set_qoff s'' (upd (s_qoff s'') d (Some (ir_angle (sg_rot (s_strat s''))))) | Ghost _ _ => s'' end)).
    { destruct w; [|exact H]. open H. unfold set_qoff; fields. now constructor. }
    assert (HA : ir_angle (sg_rot (s_strat s)) = ir_angle (sg_rot (s_strat s')) /\ ir_angle (sg_rot (s_strat s)) = ir_angle (sg_rot (s_strat s''))) by (open H; now split).
    destruct HA as [A1 A2]. rewrite <- A1, <- A2 in H0 |- *. clear A1 A2. revert H0. generalize (ir_angle (sg_rot (s_strat s))) as ang. intros ang.
    clear H.
    generalize (match w with Main d => set_qoff s (upd (s_qoff s) d (Some ang)) | Ghost _ _ => s end) as z.
    generalize (match w with Main d => set_qoff s' (upd (s_qoff s') d (Some ang)) | Ghost _ _ => s' end) as z'.
    generalize (match w with Main d => set_qoff s'' (upd (s_qoff s'') d (Some ang)) | Ghost _ _ => s'' end) as z''.
    clear s s' s''. intros s'' s' s H.
    destruct skip.
    { eapply R3_bind; [exact (store_mix add _ _ _ _ _ _ (MV_zeros _) H)|]. intros x y z K. cbn. split; [constructor|exact K]. }
    eapply R3_bind with (P := same3); [open H; fields; apply R3_same|]. intros x ? ? [<- <-].
    eapply R3_bind with (P := same3); [open H; fields; apply R3_same|]. intros arr0 ? ? [<- <-].
    eapply R3_bind with (P := same3); [open H; unfold chunk_slice, plain_chunks; fields; apply R3_same|]. intros bore ? ? [<- <-].
    destruct (negb _); [apply R3_err|].
    assert (HH : s_hwp s = s_hwp s' /\ s_hwp s = s_hwp s'') by (open H; now split). destruct HH as [A1 A2]. rewrite <- A1, <- A2.
    assert (T : MV (map (e_signal E1 w x (mkview ground ang (s_hwp s) bore (c_start c))) (seq 0 (csize c)))
      (map (e_signal E2 w x (mkview ground ang (s_hwp s) bore (c_start c))) (seq 0 (csize c)))
      (map (e_signal E3 w x (mkview ground ang (s_hwp s) bore (c_start c))) (seq 0 (csize c)))).
    { apply F3_map_fixed. intros i. unfold MR, E1, E2, E3. fields. apply Hf. }
    eapply R3_bind; [exact (store_mix add _ _ _ _ _ _ T H)|]. intros y y' y'' K. cbn. split; fields; [now apply tod_mix|].
    apply log_mix; [exact K|]. cbn. auto.
  Qed.

  Lemma ghosts_mix d gs : forall k n skip ground c s s' s'', MS s s' s'' ->
    R3 (PS same3) (scan_ghosts E1 d k n gs skip ground c s) (scan_ghosts E2 d k n gs skip ground c s')
      (scan_ghosts E3 d k n gs skip ground c s'').
  Proof.
    induction gs as [|g gs IH]; intros k n skip ground c s s' s'' H; cbn [scan_ghosts].
    - cbn. split; [now split|exact H].
    - destruct (gh_dead g); [now apply IH|]. eapply R3_bind; [apply scan_mix3; exact H|].
      intros [x y] [x' y'] [x'' y''] [_ K]. now apply IH.
  Qed.

  Lemma put_mix d c t t' t'' s s' s'' : MV t t' t'' -> MS s s' s'' ->
    R3 MS (put_tod d c t s) (put_tod d c t' s') (put_tod d c t'' s'').
  Proof.
    intros T H. open H. unfold put_tod, plain_chunks. fields.
    eapply R3_bind with (P := same3); [apply R3_same|]. intros [i j] ? ? [<- <-].
    destruct (c_cidx c) as [ci|]; [|apply R3_err]. pose proof (D ci d) as D0.
    destruct (dt ci d) as [x|], (dt' ci d) as [x'|], (dt'' ci d) as [x''|]; cbn [MO] in D0; try contradiction; [|apply R3_err].
    destruct (i <? 0)%Z; [apply R3_err|]. cbn. unfold set_data; fields. constructor; auto.
    intros i0 k0. unfold upd2. destruct (_ && _); [|apply D]. cbn. now apply MV_splice.
  Qed.
  Lemma putp_mix d c s s' s'' : MS s s' s'' -> R3 MS (put_point E1 d c s) (put_point E2 d c s') (put_point E3 d c s'').
  Proof.
    intros H. open H. unfold put_point, plain_chunks, chunk_slice, E1, E2, E3. fields.
    eapply R3_bind with (P := same3); [apply R3_same|]. intros [i j] ? ? [<- <-].
    destruct (c_cidx c) as [ci|]; [|apply R3_err]. destruct (i <? 0)%Z; [apply R3_err|].
    eapply R3_bind with (P := same3); [apply R3_same|]. intros bore ? ? [<- <-].
    eapply R3_bind with (P := same3); [apply R3_same|]. intros h ? ? [<- <-].
    cbn. unfold set_hwps, set_point; fields. now constructor.
  Qed.

  (** The options of the three scans: the same, with a linear filter. *)
  Context (O : opts) (Hfilter : forall h x y z, MV x y z -> R3 MV (o_filter O h x) (o_filter O h y) (o_filter O h z)).

  Lemma detector_mix d ground c s s' s'' : MS s s' s'' ->
    R3 MS (scan_detector E1 O d ground c s) (scan_detector E2 O d ground c s') (scan_detector E3 O d ground c s'').
  Proof.
    intros H. unfold scan_detector. cbv zeta. destruct (d_ghost d); [apply R3_err|]. destruct (o_preview O && _); [apply R3_err|].
    eapply R3_bind; [apply ghosts_mix; exact H|]. intros [n x] [n' x'] [n'' x''] [[? ?] K]. cbn [fst snd] in *. subst n' n''.
    eapply R3_bind with (P := PS same3).
    { destruct ground; [|cbn; now split].
      eapply R3_bind; [apply scan_mix3; exact K|]. intros [t y] [t' y'] [t'' y''] [_ J].
      destruct (o_save_point O); [apply R3_err|]. cbn. now split. }
    clear K. intros [te y] [te' y'] [te'' y''] [[? ?] K]. cbn [fst snd] in *. subst te' te''.
    eapply R3_bind; [apply scan_mix3; exact K|]. clear K. intros [t z] [t' z'] [t'' z''] [T K]. cbn [fst snd] in *.
    eapply R3_bind with (P := MS). { destruct (o_save_tod O); [now apply put_mix|exact K]. }
    clear K. intros q q' q'' K. destruct (o_save_point O); [now apply putp_mix|exact K].
  Qed.

  Lemma bin_mix d t t' t'' c s s' s'' : MO t t' t'' -> MS s s' s'' ->
    R3 (PS MV) (bin_tod O d t c s) (bin_tod O d t' c s') (bin_tod O d t'' c s'').
  Proof.
    intros T H. open H. unfold bin_tod, chunk_slice, plain_chunks. fields.
    destruct hw as [h|]; [|apply R3_err].
    eapply R3_bind with (P := same3); [apply R3_same|]. intros bore ? ? [<- <-].
    destruct (qo (d_id d)) as [ang|]; [|apply R3_err].
    destruct t as [t|], t' as [t'|], t'' as [t''|]; cbn [MO] in T; try contradiction.
    - cbn [bind]. eapply R3_bind; [apply Hfilter; exact T|]. intros r r' r'' K. cbn. split; fields; [exact K|].
      unfold add_log; fields. constructor; auto. apply F3_app; auto. repeat constructor; auto.
    - eapply R3_bind with (P := MV).
      { destruct u as [u|], u' as [u'|], u'' as [u''|]; cbn [MO] in U; try contradiction; [exact U|apply R3_err]. }
      intros x x' x'' X. eapply R3_bind; [apply Hfilter; exact X|]. intros r r' r'' K. cbn. split; fields; [exact K|].
      unfold add_log, set_tod; fields. constructor; auto. apply F3_app; auto. repeat constructor; auto.
  Qed.

  Lemma lift_mix o s s' s'' : MS s s' s'' -> R3 (PS same3) (lift_op o s) (lift_op o s') (lift_op o s'').
  Proof.
    intros H. open H. unfold lift_op. fields. destruct (run_op o st) as [[x|e] q]; [|apply R3_err].
    cbn. split; [now split|]. unfold set_strat; fields. now constructor.
  Qed.

  Lemma implement_mix pre ground c s s' s'' : MS s s' s'' ->
    R3 MS (implement_scan E1 pre ground c s) (implement_scan E2 pre ground c s') (implement_scan E3 pre ground c s'').
  Proof.
    intros H. unfold implement_scan, E1, E2, E3. fields.
    assert (P1 : forall s s' s'' l, MS s s' s'' -> MS (add_log (set_bore s l) (EPoint c l)) (add_log (set_bore s' l) (EPoint c l)) (add_log (set_bore s'' l) (EPoint c l))).
    { clear H s s' s''. intros s s' s'' q H. apply log_mix; [|cbn; auto]. open H. unfold set_bore; fields. now constructor. }
    destruct ext; [cbn; now apply P1|].
    assert (HM : s_mmap s = s_mmap s' /\ s_mmap s = s_mmap s'') by (open H; now split). destruct HM as [M1 M2]. rewrite <- M1, <- M2.
    destruct (if pre then _ else _) as [m|]; [cbn; now apply P1|].
    eapply R3_bind; [apply lift_mix; exact H|]. intros [x y] [x' y'] [x'' y''] [[? ?] K]. cbn [fst snd] in *. subst x' x''.
    apply P1. open K. destruct ground; unfold set_mmap, set_gbore; fields; now constructor.
  Qed.

  Lemma alloc_hwp_mix c s s' s'' : MS s s' s'' -> R3 MS (allocate_hwp O c s) (allocate_hwp O c s') (allocate_hwp O c s'').
  Proof.
    intros H. unfold allocate_hwp. destruct (o_save_point O); [|exact H]. destruct (c_cidx c); [|apply R3_err].
    open H. cbn. unfold set_hwps; fields. now constructor.
  Qed.
  Lemma alloc_mix d c s s' s'' : MS s s' s'' -> R3 MS (allocate O d c s) (allocate O d c s') (allocate O d c s'').
  Proof.
    intros H. unfold allocate. destruct (c_cidx c); [|apply R3_err].
    open H. cbn. unfold set_data, set_point; fields. constructor; auto.
    intros i k. unfold upd2. destruct (_ && _); [|apply D]. destruct (o_save_tod O); cbn; auto. apply MV_zeros.
  Qed.
  Lemma on_live_mix d f s s' s'' : (forall d s s' s'', MS s s' s'' -> R3 MS (f d s) (f d s') (f d s'')) -> MS s s' s'' ->
    R3 MS (on_live d f s) (on_live d f s') (on_live d f s'').
  Proof. intros K H. unfold on_live. destruct (live d); [now apply K|exact H]. Qed.

  Lemma MV_rscale r x y z : MV x y z -> MV (M_Tod.rscale r x) (M_Tod.rscale r y) (M_Tod.rscale r z).
  Proof. apply F3_map. unfold MR; intros; subst; ring. Qed.
  Lemma cross_mix x x' x'' y y' y'' r : MV x x' x'' -> MV y y' y'' ->
    R3 (fun p q t => MV (fst p) (fst q) (fst t) /\ MV (snd p) (snd q) (snd t))
      (M_Tod.cross_talk x y r) (M_Tod.cross_talk x' y' r) (M_Tod.cross_talk x'' y'' r).
  Proof.
    intros H K. unfold M_Tod.cross_talk.
    eapply R3_bind; [exact (MV_radd _ _ _ _ _ _ H K)|]. intros z z' z'' Z. cbv zeta.
    eapply R3_bind; [apply MV_radd; apply MV_rscale; eassumption|]. intros p p' p'' P.
    eapply R3_bind; [apply MV_radd; apply MV_rscale; eassumption|]. intros q q' q'' Q.
    cbn. now split.
  Qed.

  Definition MOS := PS MO.

  Lemma sub_mix p ground c s s' s'' : MS s s' s'' ->
    R3 MS (scan_sub E1 O p ground c s) (scan_sub E2 O p ground c s') (scan_sub E3 O p ground c s'').
  Proof.
    intros H. unfold scan_sub. destruct p as [pa pb].
    eapply R3_bind with (P := PS same3). { destruct (c_norot c); [cbn; now split|now apply lift_mix]. }
    clear H. intros [x0 s0] [x0' s0'] [x0'' s0''] [_ H]. cbn [snd] in H. clear x0 x0' x0''.
    eapply R3_bind; [apply lift_mix; exact H|]. clear H. intros [x s1] [x' s1'] [x'' s1''] [[Q1 Q2] H].
    cbn [fst snd] in *. subst x' x''. cbv zeta.
    match goal with |- R3 _ (bind (match live pa with None => Ok (None, ?z) | _ => _ end) _)
       (bind (match live pa with None => Ok (None, ?z') | _ => _ end) _) (bind (match live pa with None => Ok (None, ?z'') | _ => _ end) _) =>
      assert (K : MS z z' z'') by (destruct x; try exact H; try (match goal with h : hwp_out |- _ => destruct h end); try exact H; open H; unfold set_hwp; fields; now constructor);
      revert K; generalize z z' z'' end.
    clear s s' s'' s0 s0' s0'' H. intros s s' s'' H.
    eapply R3_bind with (P := PS MO).
    { destruct (live pa) as [da|]; [|cbn; now split].
      eapply R3_bind; [apply detector_mix; exact H|]. clear H. intros q q' q'' H.
      destruct (match live pb with Some _ => _ | None => _ end).
      - cbn. split; fields; [now apply tod_mix|exact H].
      - destruct (o_binning O); [|cbn; now split].
        eapply R3_bind; [apply bin_mix; [exact I|exact H]|]. intros [t y] [t' y'] [t'' y''] [_ K]. cbn. now split. }
    clear H. intros [ca y] [ca' y'] [ca'' y''] [C H]. cbn [fst snd] in *.
    eapply R3_bind with (P := MS).
    { destruct (live pb) as [db|]; [|exact H].
      eapply R3_bind; [apply detector_mix; exact H|]. clear H. intros q q' q'' H.
      destruct ca, ca', ca''; cbn [MO] in C; try contradiction; [exact H|].
      destruct (o_binning O); [|exact H].
      eapply R3_bind; [apply bin_mix; [exact I|exact H]|]. intros [t z] [t' z'] [t'' z''] [_ K]. exact K. }
    clear H. intros z z' z'' H.
    destruct ca as [ca|], ca' as [ca'|], ca'' as [ca''|]; cbn [MO] in C; try contradiction; [|exact H].
    destruct (live pa) as [da|]; [|exact H]. destruct (live pb) as [db|]; [|exact H].
    eapply R3_bind; [apply cross_mix; [exact C|now apply tod_mix]|].
    intros [ta tb] [ta' tb'] [ta'' tb''] [TA TB]. cbn [fst snd] in *.
    assert (ST : forall z z' z'' t t' t'', MS z z' z'' -> MV t t' t'' -> MS (set_tod z (Some t)) (set_tod z' (Some t')) (set_tod z'' (Some t''))).
    { clear. intros z z' z'' t t' t'' H T. open H. unfold set_tod; fields. now constructor. }
    eapply R3_bind with (P := MS).
    { destruct (o_save_tod O); [|now apply ST].
      eapply R3_bind; [apply put_mix; [exact TA|apply ST; [exact H|exact TB]]|]. intros. now apply put_mix. }
    clear H. intros w w' w'' H. destruct (o_binning O); [|exact H].
    eapply R3_bind; [apply bin_mix; [exact TA|exact H]|]. clear H. intros [? v] [? v'] [? v''] [_ H]. cbn [snd] in H.
    eapply R3_bind; [apply bin_mix; [exact TB|exact H]|]. clear H. intros [t q] [t' q'] [t'' q''] [T H]. cbn [fst snd] in *.
    now apply ST.
  Qed.

  Lemma subs_mix p l : forall s s' s'', MS s s' s'' ->
    R3 MS (scan_subs E1 O p l s) (scan_subs E2 O p l s') (scan_subs E3 O p l s'').
  Proof.
    induction l as [|[c g] l IH]; intros s s' s'' H; cbn [scan_subs]; [exact H|].
    eapply R3_bind; [apply sub_mix; exact H|]. auto.
  Qed.

  Lemma chunk_mix bidx p k s s' s'' : MS s s' s'' ->
    R3 MS (scan_chunk E1 O bidx p k s) (scan_chunk E2 O bidx p k s') (scan_chunk E3 O bidx p k s'').
  Proof.
    intros H. unfold scan_chunk.
    assert (HC : s_chunks s = s_chunks s' /\ s_chunks s = s_chunks s'') by (open H; now split). destruct HC as [C1 C2].
    rewrite <- C1, <- C2. destruct (nth_error _ k) as [[c g]|]; [|exact H]. clear C1 C2.
    eapply R3_bind; [apply implement_mix; exact H|]. clear H. intros q q' q'' H. clear s s' s''.
    eapply R3_bind with (P := MS). { destruct (bidx =? 0)%nat; [now apply alloc_hwp_mix|exact H]. }
    clear H. intros s s' s'' H. clear q q' q''.
    eapply R3_bind; [apply on_live_mix; [intros; apply alloc_mix; eassumption|exact H]|]. clear H. intros q q' q'' H. clear s s' s''.
    eapply R3_bind; [apply on_live_mix; [intros; apply alloc_mix; eassumption|exact H]|]. clear H. intros s s' s'' H. clear q q' q''. cbv zeta.
    assert (HC : s_strat s = s_strat s' /\ s_strat s = s_strat s'') by (open H; now split). destruct HC as [C1 C2].
    rewrite <- C1, <- C2. clear C1 C2.
    eapply R3_bind; [apply lift_mix; exact H|]. intros [x q] [x' q'] [x'' q''] [[? ?] K]. cbn [fst snd] in *. subst x' x''.
    destruct (rot_period _); [now apply subs_mix|]. apply subs_mix.
    destruct (o_ground O); [|exact K]. open K. unfold set_chunks; fields. now constructor.
  Qed.

  Lemma chunks_mix bidx p l : forall s s' s'', MS s s' s'' ->
    R3 MS (scan_chunks E1 O bidx p l s) (scan_chunks E2 O bidx p l s') (scan_chunks E3 O bidx p l s'').
  Proof.
    induction l as [|k l IH]; intros s s' s'' H; cbn [scan_chunks]; [exact H|].
    eapply R3_bind; [apply chunk_mix; exact H|]. auto.
  Qed.

  Lemma pair_mix bidx w s s' s'' : MS s s' s'' ->
    R3 MS (scan_pair E1 O bidx w s) (scan_pair E2 O bidx w s') (scan_pair E3 O bidx w s'').
  Proof.
    intros H. unfold scan_pair. cbv zeta.
    assert (K : MS (if (bidx =? 0)%nat then s else set_strat s (reset (s_strat s)))
      (if (bidx =? 0)%nat then s' else set_strat s' (reset (s_strat s'))) (if (bidx =? 0)%nat then s'' else set_strat s'' (reset (s_strat s'')))).
    { destruct (bidx =? 0)%nat; [exact H|]. open H. unfold set_strat; fields. now constructor. }
    revert K.
    generalize (if (bidx =? 0)%nat then s else set_strat s (reset (s_strat s))) as z.
    generalize (if (bidx =? 0)%nat then s' else set_strat s' (reset (s_strat s'))) as z'.
    generalize (if (bidx =? 0)%nat then s'' else set_strat s'' (reset (s_strat s''))) as z''.
    clear H s s' s''. intros s'' s' s H.
    assert (HC : s_beams s = s_beams s' /\ s_beams s = s_beams s'' /\ s_maps s = s_maps s' /\ s_maps s = s_maps s'') by (open H; auto).
    destruct HC as (C1 & C2 & C3 & C4). rewrite <- C1, <- C2, <- C3, <- C4.
    eapply R3_bind with (P := PS same3).
    { assert (Z : forall p : bpair B, R3 (PS same3) (Ok (p, s)) (Ok (p, s')) (Ok (p, s''))) by (intros; cbn; now split).
      assert (Y : forall pa pb : option (det B), R3 (PS same3)
        (do (m, p) <- init_detpair pa pb (o_ground O); Ok (p, match w with Some i => set_beams (set_maps s (Some m)) (put_pair (s_beams (set_maps s (Some m))) i p) | None => set_maps s (Some m) end))
        (do (m, p) <- init_detpair pa pb (o_ground O); Ok (p, match w with Some i => set_beams (set_maps s' (Some m)) (put_pair (s_beams (set_maps s' (Some m))) i p) | None => set_maps s' (Some m) end))
        (do (m, p) <- init_detpair pa pb (o_ground O); Ok (p, match w with Some i => set_beams (set_maps s'' (Some m)) (put_pair (s_beams (set_maps s'' (Some m))) i p) | None => set_maps s'' (Some m) end))).
      { intros pa pb. eapply R3_bind with (P := same3); [apply R3_same|]. intros [m p] ? ? [<- <-].
        cbn. split; [now split|]. fields. clear C1 C2 C3 C4 Z. open H. destruct w; unfold set_beams, set_maps; fields; now constructor. }
      destruct (match w with Some i => match nth_error (s_beams s) i with Some p => p | None => (None, None) end | None => (None, None) end) as [[pa|] [pb|]]; auto;
        (destruct (o_preview O); [apply Z|]; destruct (_ && o_reuse O); [apply Z|]; apply Y). }
    clear H C1 C2 C3 C4. intros [p q] [p' q'] [p'' q''] [[Q1 Q2] H]. cbn [fst snd] in *. subst p' p''.
    eapply R3_bind with (P := MS).
    { assert (HC : s_chunks q = s_chunks q' /\ s_chunks q = s_chunks q'') by (open H; now split). destruct HC as [C1 C2].
      rewrite <- C1, <- C2. destruct (s_chunks q); [exact H|]. unfold E1, E2, E3. fields.
      eapply R3_bind with (P := same3); [apply R3_same|]. intros l ? ? [<- <-]. cbn.
      clear C1 C2. open H. unfold set_chunks; fields. now constructor. }
    clear H. intros r r' r'' H.
    assert (HC : plain_chunks r = plain_chunks r' /\ plain_chunks r = plain_chunks r'') by (open H; now split).
    destruct HC as [C1 C2]. rewrite <- C1, <- C2.
    eapply R3_bind with (P := same3); [apply R3_same|]. intros _ _ _ _. now apply chunks_mix.
  Qed.

  Lemma pairs_mix l : forall bidx s s' s'', MS s s' s'' ->
    R3 MS (scan_pairs E1 O bidx l s) (scan_pairs E2 O bidx l s') (scan_pairs E3 O bidx l s'').
  Proof.
    induction l as [|k l IH]; intros bidx s s' s'' H; cbn [scan_pairs]; [exact H|].
    eapply R3_bind; [apply pair_mix; exact H|]. auto.
  Qed.

  Lemma instrument_mix s s' s'' : MS s s' s'' ->
    R3 MS (scan_instrument E1 O s) (scan_instrument E2 O s') (scan_instrument E3 O s'').
  Proof.
    intros H. unfold scan_instrument. destruct (negb (o_alm O) && _); [apply R3_err|].
    destruct (o_preview O && _); [apply R3_err|]. cbv zeta.
    assert (K : forall b, MS (if b : bool then set_mmap s (Some (repeat 0 (Z.to_nat ns))) else s)
      (if b then set_mmap s' (Some (repeat 0 (Z.to_nat ns))) else s') (if b then set_mmap s'' (Some (repeat 0 (Z.to_nat ns))) else s'')).
    { intros []; [|exact H]. open H. unfold set_mmap; fields. now constructor. }
    specialize (K (o_memmap O && negb ext)). 
    change (e_ext E1) with ext. change (e_ext E2) with ext. change (e_ext E3) with ext.
    change (e_nsamp E1) with ns. change (e_nsamp E2) with ns. change (e_nsamp E3) with ns.
    change (e_mpi E2) with (e_mpi E1). change (e_mpi E3) with (e_mpi E1). change (e_size E2) with (e_size E1). change (e_size E3) with (e_size E1).
    change (e_rank E2) with (e_rank E1). change (e_rank E3) with (e_rank E1).
    revert K. generalize (if o_memmap O && negb ext then set_mmap s (Some (repeat 0 (Z.to_nat ns))) else s) as z.
    generalize (if o_memmap O && negb ext then set_mmap s' (Some (repeat 0 (Z.to_nat ns))) else s') as z'.
    generalize (if o_memmap O && negb ext then set_mmap s'' (Some (repeat 0 (Z.to_nat ns))) else s'') as z''.
    clear H s s' s''. intros s'' s' s H.
    assert (HC : s_beams s = s_beams s' /\ s_beams s = s_beams s'') by (open H; auto). destruct HC as (C1 & C2).
    rewrite <- C1, <- C2. now apply pairs_mix.
  Qed.
End Mix.
