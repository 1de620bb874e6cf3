(** * What a scan does for each detector *)
From Coq Require Import Reals Lra.
From Verif Require Import Common LibList M_Chunks M_Steps M_Hwp M_Mpi M_Detpair M_Scan
  S_Chunks S_Mpi S_Detpair S_Scan L_Chunks L_Hwp L_Mpi L_Detpair L_Scan L_Scan2 L_Scan3 L_Scan4
  L_Scan5 L_Scan6.
Open Scope R_scope.

Section L.
  Context {B : Type}.
  Implicit Types (s : state B) (E : env B) (d : det B).

  Lemma mission_used E s : covers_mission E s ->
    exists cs, used_chunks E s = Ok cs /\ tiles 0 (e_nsamp E) (map span cs).
  Proof.
    intros [Hn Hc]. unfold used_chunks. destruct (s_chunks s) as [l|].
    - exists (map fst l). split; auto. destruct (Hc l eq_refl) as [T _]. rewrite map_map. exact T.
    - destruct (partition_mission_ok (e_nsamp E) None Hn I) as (cs & Hcs & T & _).
      exists cs. auto.
  Qed.

  Lemma scan_process E O s s' :
    (o_ground O = true -> o_preview O = false) ->
    covers_mission E s -> rotation_ok s -> chunks_unmarked O s -> filters_keep_length O ->
    NoDup (map d_id (dets (s_beams s))) ->
    scan_instrument E O s = Ok s' ->
    exists new, s_log s' = s_log s ++ new
      /\ forall i p d, nth_error (s_beams s) i = Some p -> In d (pair_dets p) ->
         (In (Some i) (my_pairs E O s) -> d_dead d = false ->
            handled_once (e_nsamp E) O d new)
         /\ (~ In (Some i) (my_pairs E O s) \/ d_dead d = true -> left_alone d new).
  Proof.
    intros Hg Hm Hr Hu Hf ND H.
    destruct (mission_used E s Hm) as (cs & Hcs & T).
    destruct (scan_instrument_like E O s s' cs) as (evss & HL & F); auto.
    { unfold no_stale, chunks_of. destruct (s_chunks s) as [l|] eqn:El.
      - intros Ho. apply (Hu l El Ho).
      - intros _ cg [].  }
    { intros c Hc. apply (tiles_pos _ _ _ _ T Hc). }
    exists (concat evss). split; auto. intros i p d Hp Hd.
    assert (F' : Forall2 (fun w => pair_run E O (at_ (s_beams s) w) cs) (my_pairs E O s) evss) by exact F.
    assert (NW : NoDup (somes (my_pairs E O s))) by (apply rank_nodup; apply seq_NoDup).
    split.
    - intros Hin Hl. split.
      + assert (X := fun w g Hw => read_scanned E O (s_beams s) cs (e_nsamp E) (my_pairs E O s) evss
                                     T ND NW F' i p d Hp Hd w g Hin Hl Hw).
        destruct (o_preview O) eqn:Ep.
        * intros g k. split.
          -- apply (X (Main (d_id d)) g); auto. unfold hits. rewrite Ep. reflexivity.
          -- apply (X (Ghost (d_id d) k) g); eauto. unfold hits. rewrite Ep. reflexivity.
        * unfold generated_once.
          assert (XM := fun g => X (Main (d_id d)) g (or_introl eq_refl)).
          assert (XG := fun k g => X (Ghost (d_id d) k) g (or_intror (ex_intro _ k eq_refl))).
          unfold hits in XM, XG. rewrite Ep, Z.eqb_refl in XM. rewrite Ep in XG.
          split; [apply (proj1 (XM false)); reflexivity|].
          split.
          { destruct (o_ground O); apply (XM true); reflexivity. }
          intros k. split.
          { specialize (XG k (o_ground O)). rewrite Z.eqb_refl, eqb_reflx in XG. cbn [andb] in XG.
            destruct (nth_error (d_ghosts d) k) as [g|]; [|apply XG; reflexivity].
            destruct (gh_dead g); apply XG; reflexivity. }
          { specialize (XG k (negb (o_ground O))). rewrite Z.eqb_refl in XG.
            rewrite eqb_negb2 in XG. apply XG. reflexivity. }
      + destruct (read_binned E O (s_beams s) cs (e_nsamp E) (my_pairs E O s) evss
                   T ND NW F' i p d Hp Hd Hf Hin Hl) as [X1 X2].
        destruct (o_binning O); auto.
    - intros [Hn|Hdead] e He.
      + apply (not_mine E O (s_beams s) cs (my_pairs E O s) evss ND F' i p d Hp Hd e Hn He).
      + apply (dead_untouched E O (s_beams s) cs (my_pairs E O s) evss ND F' i p d Hp Hd e Hdead He).
  Qed.

  (** Without MPI, one process does everything. *)
  Lemma in_my_pairs E O s i : e_mpi E = false -> e_size E = 1%nat -> e_rank E = 0%nat ->
    (i < length (s_beams s))%nat -> In (Some i) (my_pairs E O s).
  Proof.
    intros Hm Hs Hr Hi. unfold my_pairs. rewrite Hm, Hs, Hr. apply (proj1 (somes_in _ i)).
    assert (X := scan_no_mpi (seq 0 (length (s_beams s))) (o_scatter O)). unfold rank_pairs in X.
    rewrite X. apply in_seq. lia.
  Qed.

  Lemma scan_single E O s s' :
    e_mpi E = false -> e_size E = 1%nat -> e_rank E = 0%nat ->
    (o_ground O = true -> o_preview O = false) ->
    covers_mission E s -> rotation_ok s -> chunks_unmarked O s -> filters_keep_length O ->
    NoDup (map d_id (dets (s_beams s))) ->
    scan_instrument E O s = Ok s' ->
    exists new, s_log s' = s_log s ++ new
      /\ forall d, In d (dets (s_beams s)) ->
         if d_dead d then left_alone d new else handled_once (e_nsamp E) O d new.
  Proof.
    intros Hm Hs Hr Hg Hc Hro Hu Hf ND H.
    destruct (scan_process E O s s') as (new & HL & X); auto.
    exists new. split; auto. intros d Hd.
    unfold dets in Hd. apply in_flat_map in Hd. destruct Hd as (p & Hp & Hd).
    apply In_nth_error in Hp. destruct Hp as (i & Hp).
    destruct (X i p d Hp Hd) as [X1 X2]. destruct (d_dead d); auto.
    apply X1; auto. apply in_my_pairs; auto. apply nth_error_Some. congruence.
  Qed.

  (** Over all ranks of a communicator, exactly one rank does it. *)
  Lemma scan_all_ranks (E : nat -> env B) O s (s' : nat -> state B) size n :
    (0 < size)%nat -> o_scatter O = true ->
    (forall r, e_mpi (E r) = true /\ e_size (E r) = size /\ e_rank (E r) = r /\ e_nsamp (E r) = n) ->
    (o_ground O = true -> o_preview O = false) ->
    (forall r, covers_mission (E r) s) -> rotation_ok s -> chunks_unmarked O s ->
    filters_keep_length O -> NoDup (map d_id (dets (s_beams s))) ->
    (forall r, (r < size)%nat -> scan_instrument (E r) O s = Ok (s' r)) ->
    exists new, (forall r, (r < size)%nat -> s_log (s' r) = s_log s ++ new r)
      /\ forall d, In d (dets (s_beams s)) ->
         if d_dead d then forall r, (r < size)%nat -> left_alone d (new r)
         else exists r, (r < size)%nat /\ handled_once n O d (new r)
                        /\ forall r', (r' < size)%nat -> r' <> r -> left_alone d (new r').
  Proof.
    intros Hsz Hsc He Hg Hc Hro Hu Hf ND H.
    assert (C : exists new, forall r, (r < size)%nat ->
        s_log (s' r) = s_log s ++ new r
        /\ forall i p d, nth_error (s_beams s) i = Some p -> In d (pair_dets p) ->
             (In (Some i) (my_pairs (E r) O s) -> d_dead d = false -> handled_once n O d (new r))
             /\ (~ In (Some i) (my_pairs (E r) O s) \/ d_dead d = true -> left_alone d (new r))).
    { exists (fun r => skipn (length (s_log s)) (s_log (s' r))). intros r Hr.
      destruct (scan_process (E r) O s (s' r)) as (new & HL & X); auto.
      destruct (He r) as (_ & _ & _ & En). rewrite En in X.
      rewrite HL, skipn_app, skipn_all, Nat.sub_diag. cbn. auto. }
    destruct C as (new & C). exists new. split; [intros r Hr; apply C; auto|].
    intros d Hd. unfold dets in Hd. apply in_flat_map in Hd. destruct Hd as (p & Hp & Hd).
    apply In_nth_error in Hp. destruct Hp as (i & Hp).
    destruct (d_dead d) eqn:Ed.
    { intros r Hr. apply (proj2 (C r Hr) i p d Hp Hd). auto. }
    assert (Hi : (i < length (s_beams s))%nat) by (apply nth_error_Some; congruence).
    set (idx := seq 0 (length (s_beams s))).
    assert (My : forall r, In (Some i) (my_pairs (E r) O s) <-> In i (rank_pairs true true size r idx idx)).
    { intros r. unfold my_pairs. destruct (He r) as (-> & -> & -> & _). rewrite Hsc.
      unfold rank_pairs. symmetry. apply somes_in. }
    pose proof (scan_covers size idx Hsz) as Cov. unfold covers, on_ranks in Cov.
    assert (Ex : exists r, (r < size)%nat /\ In i (rank_pairs true true size r idx idx)).
    { assert (Hin : In i (concat (map (fun r => rank_pairs true true size r idx idx) (seq 0 size)))).
      { rewrite Cov. apply in_seq. lia. }
      apply in_concat in Hin. destruct Hin as (l & Hl & Hin). apply in_map_iff in Hl.
      destruct Hl as (r & <- & Hr). apply in_seq in Hr. exists r. split; auto. lia. }
    destruct Ex as (r & Hr & Hin). exists r. split; auto. split.
    { apply (proj2 (C r Hr) i p d Hp Hd); auto. apply My. auto. }
    intros r' Hr' Hne. apply (proj2 (C r' Hr') i p d Hp Hd). left. rewrite My. intros Hin'.
    assert (NDc : NoDup (concat (map (fun r => rank_pairs true true size r idx idx) (seq 0 size)))).
    { rewrite Cov. apply seq_NoDup. }
    assert (Gen : forall l (f : nat -> list nat), NoDup (concat (map f l)) -> In r l -> In r' l ->
                  In i (f r) -> In i (f r') -> False).
    { clear -Hne. induction l as [|x l IH]; intros f ND Hr Hr' Hi Hi'; [destruct Hr|].
      cbn in ND.
      assert (Cross : forall u v, In i u -> In i v -> NoDup (u ++ v) -> False).
      { clear. induction u as [|h u IHu]; intros v Hu Hv H; [destruct Hu|]. cbn in H. inversion H; subst.
        destruct Hu as [->|Hu]; [|eapply IHu; eauto]. apply H2. apply in_or_app. auto. }
      destruct Hr as [<-|Hr], Hr' as [<-|Hr'].
      - congruence.
      - apply (Cross (f x) (concat (map f l))); auto. apply in_concat. exists (f r'). split; auto.
        apply in_map. auto.
      - apply (Cross (f x) (concat (map f l))); auto. apply in_concat. exists (f r). split; auto.
        apply in_map. auto.
      - apply nodup_r in ND. eapply (IH f); eauto. }
    apply (Gen _ _ NDc); auto; apply in_seq; lia.
  Qed.
End L.
