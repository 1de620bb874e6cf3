(** * Saved positions and HWP angles follow the trace *)
From Coq Require Import Reals Lra.
From Verif Require Import Common LibList M_Chunks M_Steps M_Hwp M_Mpi M_Detpair M_Scan
  S_Chunks S_Detpair S_Scan S_Saved L_Chunks L_Hwp L_Mpi L_Detpair L_Scan L_Scan2 L_Scan3 L_Scan4 L_Scan5
  L_Scan6 L_Scan7 L_Scan8 L_Scan12 L_Scan13.
Open Scope R_scope.

(** ** Writes into an array *)
Definition apply {A} (ws : list (nat * list A)) (ar : list A) : list A :=
  fold_left (fun a w => splice a (fst w) (snd w)) ws ar.
Lemma apply_app {A} (a b : list (nat * list A)) ar : apply (a ++ b) ar = apply b (apply a ar).
Proof. apply fold_left_app. Qed.

Definition hwp_deg (v : view) (n : nat) : list R :=
  match ret_hwp (v_hwp v) n with Ok l => l | Err _ => [] end.

(** The samples of an event begin in this chunk. *)
Definition begins_in (c : chunk) (v : view) : bool := (c_start c <=? v_start v)%Z && (v_start v <? c_end c)%Z.
Definition offset (c : chunk) (v : view) : nat := Z.to_nat (v_start v - c_start c).

Fixpoint point_writes (pos : Z -> view -> nat -> Z * R) (i : Z) (c : chunk) (evs : list event)
  : list (nat * list (Z * R)) :=
  match evs with
  | [] => []
  | EScan (Main d) v t :: r =>
      if (d =? i)%Z && negb (v_ground v) && begins_in c v
      then (offset c v, map (pos d v) (seq 0 (length t))) :: point_writes pos i c r
      else point_writes pos i c r
  | _ :: r => point_writes pos i c r
  end.
Fixpoint hwp_writes (c : chunk) (evs : list event) : list (nat * list R) :=
  match evs with
  | [] => []
  | EScan (Main d) v t :: r =>
      if negb (v_ground v) && begins_in c v
      then (offset c v, hwp_deg v (length t)) :: hwp_writes c r
      else hwp_writes c r
  | _ :: r => hwp_writes c r
  end.
Lemma point_writes_app pos i c a b : point_writes pos i c (a ++ b) = point_writes pos i c a ++ point_writes pos i c b.
Proof.
  induction a as [|e a IH]; cbn; auto. destruct e as [|[d|] v t|]; auto.
  destruct ((d =? i)%Z && negb (v_ground v) && begins_in c v); cbn; rewrite IH; reflexivity.
Qed.
Lemma hwp_writes_app c a b : hwp_writes c (a ++ b) = hwp_writes c a ++ hwp_writes c b.
Proof.
  induction a as [|e a IH]; cbn; auto. destruct e as [|[d|] v t|]; auto.
  destruct (negb (v_ground v) && begins_in c v); cbn; rewrite IH; reflexivity.
Qed.

Section L.
  Context {B : Type}.
  Implicit Types (s : state B) (E : env B) (d : det B) (p q : bpair B).

  (** From [s] to [s'], inside chunk [c] number [k]: the trace grows, and the
      arrays change as the trace says. *)
  Definition sound_write (P : Z -> Prop) (c : chunk) (e : event) : Prop :=
    match e with
    | EScan (Main d) v t =>
        v_ground v = true
        \/ P d /\ (c_start c <= v_start v)%Z /\ (v_start v < v_start v + Z.of_nat (length t) <= c_end c)%Z
           /\ ret_hwp (v_hwp v) (length t) = Ok (hwp_deg v (length t)) /\ length (v_bore v) = length t
    | _ => True
    end.

  Definition follows E (P : Z -> Prop) (c : chunk) (k : nat) s s' : Prop :=
    plain_chunks s' = plain_chunks s
    /\ exists evs, s_log s' = s_log s ++ evs
      /\ (forall e, In e evs -> sound_write P c e)
      /\ (forall ci i, s_point s' ci i = if (ci =? k)%nat then apply (point_writes (e_pos E) i c evs) (s_point s ci i)
                                         else s_point s ci i)
      /\ (forall ci, s_hwps s' ci = if (ci =? k)%nat then apply (hwp_writes c evs) (s_hwps s ci) else s_hwps s ci).

  Lemma follows_trans E P c k s1 s2 s3 : follows E P c k s1 s2 -> follows E P c k s2 s3 -> follows E P c k s1 s3.
  Proof.
    intros (P1 & e1 & L1 & W1 & A1 & B1) (P2 & e2 & L2 & W2 & A2 & B2). split; [congruence|].
    exists (e1 ++ e2). split; [rewrite L2, L1, app_assoc; reflexivity|].
    split; [intros e He; apply in_app_or in He; destruct He; auto|]. split.
    - intros ci i. rewrite A2, A1, point_writes_app, apply_app. destruct (ci =? k)%nat; reflexivity.
    - intros ci. rewrite B2, B1, hwp_writes_app, apply_app. destruct (ci =? k)%nat; reflexivity.
  Qed.

  (** Only events that write nothing. *)
  Lemma follows_quiet E P c k s s' evs : plain_chunks s' = plain_chunks s -> s_point s' = s_point s ->
    s_hwps s' = s_hwps s -> s_log s' = s_log s ++ evs ->
    (forall e, In e evs -> match e with EScan (Main _) v _ => v_ground v = true | _ => True end) ->
    follows E P c k s s'.
  Proof.
    intros PC A H L Q. split; auto. exists evs. split; auto.
    split; [intros e He; specialize (Q e He); destruct e as [|[d|] v t|]; cbn; auto|]. rewrite A, H.
    assert (X : (forall i, point_writes (e_pos E) i c evs = []) /\ hwp_writes c evs = []).
    { clear L. induction evs as [|e evs IH]; [split; reflexivity|].
      destruct IH as [I1 I2]; [intros; apply Q; now right|].
      assert (Qe := Q e (or_introl eq_refl)). destruct e as [|[d|] v t|]; cbn; auto.
      rewrite Qe. cbn. split; auto. intros i. rewrite andb_false_r. cbn. auto. }
    destruct X as [X1 X2]. split; intros; rewrite ?X1, ?X2; cbn; destruct (ci =? k)%nat; reflexivity.
  Qed.
  Lemma follows_same E P c k s s' : plain_chunks s' = plain_chunks s -> s_point s' = s_point s ->
    s_hwps s' = s_hwps s -> s_log s' = s_log s -> follows E P c k s s'.
  Proof. intros PC A H L. apply follows_quiet with (evs := []); auto; [rewrite app_nil_r; auto|intros e []]. Qed.

  Lemma follows_lift E P c k o s x s' : lift_op o s = Ok (x, s') -> follows E P c k s s'.
  Proof.
    intros H. apply lift_op_inv in H. destruct H as (st & _ & ->). apply follows_same; reflexivity.
  Qed.
  Lemma follows_bin E P c k O d tod x s t s' : bin_tod O d tod x s = Ok (t, s') -> follows E P c k s s'.
  Proof.
    unfold bin_tod. intros H. destruct (s_hwp s); [|discriminate]. inv_bind H bore Hb.
    destruct (s_qoff s (d_id d)); [|discriminate]. inv_bind H t0 H0. inv_bind H t1 H1. injection H as <- <-.
    destruct tod; (eapply follows_quiet; [..|cbn; reflexivity|]; [reflexivity..|]; intros e [<-|[]]; exact I).
  Qed.
  Lemma follows_put E P c k i x t s s' : put_tod i x t s = Ok s' -> follows E P c k s s'.
  Proof.
    unfold put_tod. intros H. inv_bind H ij Hij. destruct ij as [a b]. destruct (c_cidx x); [|discriminate].
    destruct (s_data s n i); [|discriminate]. destruct (a <? 0)%Z; [discriminate|]. injection H as <-.
    apply follows_same; reflexivity.
  Qed.

  Lemma scan_ghosts_quiet E i x : forall gs j n s n' s', scan_ghosts E i j n gs false false x s = Ok (n', s') ->
    s_point s' = s_point s /\ s_hwps s' = s_hwps s /\ plain_chunks s' = plain_chunks s
    /\ exists evs, s_log s' = s_log s ++ evs /\ forall e, In e evs -> match e with EScan (Main _) _ _ => False | _ => True end.
  Proof.
    induction gs as [|g gs IH]; intros j n s n' s' H; cbn [scan_ghosts] in H.
    - injection H as <- <-. do 3 (split; auto). exists []. rewrite app_nil_r. split; auto. intros e [].
    - destruct (gh_dead g); [eapply IH; eauto|]. inv_bind H y Hy. destruct y as [t s1].
      apply scan_spec in Hy. destruct Hy as (_ & b & a & bore & _ & _ & _ & _ & -> & _).
      apply IH in H. destruct H as (A & C & P & evs & L & Q). cbn in A, C, P, L.
      split; auto. split; auto. split; auto. eexists. split; [rewrite L, <- app_assoc; reflexivity|].
      intros e [<-|He]; [exact I|exact (Q e He)].
  Qed.

  (** ** One detector *)
  Lemma follows_detector E (P : Z -> Prop) O d (c : chunk) k x s s' : P (d_id d) ->
    o_save_point O = true ->
    nth_error (plain_chunks s) k = Some c -> c_cidx x = Some k ->
    (c_start c <= c_start x)%Z -> (c_start x < c_end x)%Z -> (c_end x <= c_end c)%Z ->
    scan_detector E O d false x s = Ok s' -> follows E P c k s s'.
  Proof.
    intros HP Hsp Hk Hx H1 H2 H3 H. unfold scan_detector in H. rewrite Hsp in H.
    destruct (d_ghost d); [discriminate|]. rewrite orb_true_r in H.
    destruct (o_preview O); cbn [andb] in H; [discriminate|].
    inv_bind H ns Hns. destruct ns as [n s1]. cbn [bind] in H.
    apply scan_ghosts_quiet in Hns. destruct Hns as (A1 & C1 & P1 & evs & L1 & Q1).
    inv_bind H ts Hts. destruct ts as [t s2]. apply scan_spec in Hts.
    destruct Hts as (_ & b & a & bore & _ & Hbo & Hsl & Hlen & Es2 & _).
    injection Hbo as <-.
    inv_bind H s3 H4.
    assert (S3 : exists dat, s3 = set_data s2 dat).
    { destruct (o_save_tod O).
      - unfold put_tod in H4. inv_bind H4 ij Hij. destruct ij as [i j]. rewrite Hx in H4.
        destruct (s_data s2 k (d_id d)); [|discriminate]. destruct (i <? 0)%Z; [discriminate|].
        injection H4 as <-. eauto.
      - injection H4 as <-. exists (s_data s2). destruct s2; reflexivity. }
    destruct S3 as (dat & ->). clear H4.
    set (v := view_of false bore x s1) in *.
    set (tod := arr (csize x) (e_signal E (Main (d_id d)) b v)) in *.
    assert (Lt : length tod = csize x) by apply L_Tod.arr_len.
    assert (C2 : chunk2idx (plain_chunks s) x = Ok (c_start x - c_start c, c_end x - c_start c)%Z).
    { unfold chunk2idx. rewrite Hx, Hk. reflexivity. }
    unfold put_point in H.
    assert (P2 : plain_chunks (set_data s2 dat) = plain_chunks s).
    { rewrite Es2. exact P1. }
    rewrite P2, C2, Hx in H. cbn [bind] in H.
    destruct (Z.ltb_spec (c_start x - c_start c) 0) as [|_]; [lia|].
    inv_bind H bore' Hb'.
    assert (bore' = bore).
    { assert (X : chunk_slice s1 x (s_bore s1) = Ok bore').
      { rewrite Es2 in Hb'. unfold chunk_slice in *. cbn in Hb'. exact Hb'. }
      congruence. }
    subst bore'. inv_bind H h Hh. injection H as <-.
    assert (Ev : mkview false (ir_angle (sg_rot (s_strat s2))) (s_hwp s2) bore (c_start x) = v).
    { rewrite Es2. reflexivity. }
    rewrite Ev.
    assert (Sh : s_hwp (set_data s2 dat) = v_hwp v) by (rewrite Es2; reflexivity). rewrite Sh in Hh.
    split; [exact P2|]. exists (evs ++ [EScan (Main (d_id d)) v tod]).
    assert (Qw : (forall i, point_writes (e_pos E) i c evs = []) /\ hwp_writes c evs = []).
    { clear - Q1. induction evs as [|e evs IH]; [split; reflexivity|].
      destruct IH as [I1 I2]; [intros; apply Q1; now right|].
      assert (Qe := Q1 e (or_introl eq_refl)). destruct e as [|[?|] ? ?|]; cbn; auto. contradiction. }
    destruct Qw as [Q2 Q3].
    split.
    { cbn. rewrite Es2. cbn. rewrite L1, <- app_assoc. reflexivity. }
    split.
    { intros e He. apply in_app_or in He. destruct He as [He|[<-|[]]].
      - specialize (Q1 e He). destruct e as [|[?|] ? ?|]; cbn; tauto.
      - right. split; auto. rewrite Lt. unfold hwp_deg. rewrite Hh. change (v_start v) with (c_start x).
        change (v_bore v) with bore. unfold csize in *. repeat split; lia. }
    assert (Bi : begins_in c v = true).
    { unfold begins_in. change (v_start v) with (c_start x).
      destruct (Z.leb_spec (c_start c) (c_start x)); [|lia]. destruct (Z.ltb_spec (c_start x) (c_end c)); [reflexivity|lia]. }
    split.
    - intros ci i. cbn. rewrite point_writes_app, Q2. cbn [app point_writes]. rewrite Bi, andb_true_r.
      change (negb (v_ground v)) with true. rewrite andb_true_r.
      assert (S2 : forall ci i, s_point s2 ci i = s_point s ci i) by (intros; rewrite Es2; cbn; rewrite A1; reflexivity).
      unfold upd2. rewrite !S2. destruct (Nat.eqb_spec ci k) as [-> |Hc]; cbn [andb]; [|reflexivity].
      rewrite Z.eqb_sym. destruct (Z.eqb_spec (d_id d) i) as [-> |Hi]; [|reflexivity].
      cbn. rewrite Lt. reflexivity.
    - intros ci. cbn. rewrite hwp_writes_app, Q3. cbn [app hwp_writes]. rewrite Bi, andb_true_r.
      change (negb (v_ground v)) with true. cbv iota.
      assert (S2 : forall ci, s_hwps s2 ci = s_hwps s ci) by (intros; rewrite Es2; cbn; rewrite C1; reflexivity).
      rewrite !S2. destruct (Nat.eqb_spec ci k) as [-> |Hc]; [|reflexivity].
      cbn. unfold hwp_deg. rewrite Lt, Hh. reflexivity.
  Qed.

  (** ** Sub-chunks *)
  Lemma follows_sub E (P : Z -> Prop) O p (c : chunk) k x s s' : (forall d, is_live p d -> P (d_id d)) ->
    o_save_point O = true ->
    nth_error (plain_chunks s) k = Some c -> c_cidx x = Some k ->
    (c_start c <= c_start x)%Z -> (c_start x < c_end x)%Z -> (c_end x <= c_end c)%Z ->
    scan_sub E O p false x s = Ok s' -> follows E P c k s s'.
  Proof.
    intros HP Hsp Hk Hx H1 H2 H3 H. unfold scan_sub in H. destruct p as [oa ob]. unfold is_live in HP. cbn [fst snd] in HP.
    inv_bind H x0 Hx0. destruct x0 as [x0 s1].
    assert (F1 : follows E P c k s s1).
    { destruct (c_norot x); [injection Hx0 as <- <-; apply follows_same; reflexivity|eapply follows_lift; eauto]. }
    inv_bind H y Hy. destruct y as [y s2].
    set (s3 := match y with XHwp HStale => s2 | XHwp h => set_hwp s2 (Some h) | _ => s2 end) in H.
    assert (F3 : follows E P c k s s3).
    { eapply follows_trans; [exact F1|]. eapply follows_trans; [eapply follows_lift; exact Hy|].
      unfold s3. destruct y as [| |[]| |]; apply follows_same; reflexivity. }
    clearbody s3. clear F1 Hx0 Hy s1 s2 x0 y.
    assert (Det : forall d u u', P (d_id d) -> follows E P c k s u -> scan_detector E O d false x u = Ok u' -> follows E P c k s u').
    { intros d u u' Pd Fu Hu. eapply follows_trans; [exact Fu|]. eapply follows_detector; eauto.
      rewrite (proj1 Fu). exact Hk. }
    inv_bind H z Hz. destruct z as [ca s4].
    assert (F4 : follows E P c k s s4).
    { destruct (live oa) as [a|]; [|injection Hz as <- <-; exact F3].
      inv_bind Hz s5 H5. apply Det in H5; auto. cbv zeta in Hz.
      destruct (match live ob with Some _ => if Req_EM_T (o_ctalk O) 0 then false else true | None => false end);
        [injection Hz as <- <-; exact H5|].
      destruct (o_binning O); [|injection Hz as <- <-; exact H5].
      inv_bind Hz w Hw. destruct w as [w s6]. injection Hz as <- <-.
      eapply follows_trans; [exact H5|eapply follows_bin; exact Hw]. }
    inv_bind H s5 H5.
    assert (F5 : follows E P c k s s5).
    { destruct (live ob) as [b|]; [|injection H5 as <-; exact F4].
      inv_bind H5 s6 H6. apply Det in H6; auto. destruct ca; [injection H5 as <-; exact H6|].
      destruct (o_binning O); [|injection H5 as <-; exact H6].
      inv_bind H5 w Hw. destruct w as [w s7]. injection H5 as <-.
      eapply follows_trans; [exact H6|eapply follows_bin; exact Hw]. }
    destruct ca as [ta|]; [|injection H as <-; exact F5].
    destruct (live oa) as [a|]; [|injection H as <-; exact F5].
    destruct (live ob) as [b|]; [|injection H as <-; exact F5]. cbv zeta in H.
    inv_bind H tts Htt. destruct tts as [ta' tb'].
    inv_bind H s6 H6.
    assert (F6 : follows E P c k s s6).
    { assert (F : follows E P c k s (set_tod s5 (Some tb'))).
      { eapply follows_trans; [exact F5|apply follows_same; reflexivity]. }
      destruct (o_save_tod O); [|injection H6 as <-; exact F].
      inv_bind H6 s7 H7. eapply follows_trans; [exact F|]. eapply follows_trans; eapply follows_put; eauto. }
    destruct (o_binning O); [|injection H as <-; exact F6].
    inv_bind H w Hw. destruct w as [w s7]. inv_bind H w' Hw'. destruct w' as [w' s8]. injection H as <-.
    eapply follows_trans; [exact F6|]. eapply follows_trans; [eapply follows_bin; exact Hw|].
    eapply follows_trans; [eapply follows_bin; exact Hw'|]. apply follows_same; reflexivity.
  Qed.

  Lemma follows_subs E (P : Z -> Prop) O p (c : chunk) k : (forall d, is_live p d -> P (d_id d)) -> o_save_point O = true -> forall subs a s s',
    tiles a (c_end c) (map span subs) -> (c_start c <= a)%Z ->
    (forall x, In x subs -> c_cidx x = Some k) -> nth_error (plain_chunks s) k = Some c ->
    scan_subs E O p (map (fun c => (c, false)) subs) s = Ok s' -> follows E P c k s s'.
  Proof.
    intros HP Hsp. induction subs as [|x subs IH]; intros a s s' T Hle Hci Hk H; cbn [map scan_subs] in H.
    { injection H as <-. apply follows_same; reflexivity. }
    inv_bind H s1 H1. cbn [map] in T. destruct x as [xa xb xc xn]. cbn in T. destruct T as (-> & Hlt & T).
    assert (Tle : (xb <= c_end c)%Z) by (eapply tiles_le; exact T).
    assert (F : follows E P c k s s1).
    { eapply follows_sub; [..|exact H1]; cbn; auto. apply (Hci (mkchunk a xb xc xn)). now left. }
    eapply follows_trans; [exact F|]. eapply (IH xb); eauto.
    - lia.
    - intros y Hy. apply Hci. now right.
    - rewrite (proj1 F). exact Hk.
  Qed.
End L.
