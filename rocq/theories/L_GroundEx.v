(** * Scans with a ground template, with and without a memory map *)
From Coq Require Import Reals Lra.
From Verif Require Import Common LibList M_Chunks M_Steps M_Hwp M_Mpi M_Detpair M_Scan
  S_Chunks S_Detpair S_Scan S_Ground L_ScanEx L_Ground.
Open Scope R_scope.

(** Two detectors, each on its own, and two chunks of two samples, the second at
    a higher elevation. *)
Definition gr_b : det nat := mkdet 4 false false [] None (Ok 2%nat).
Definition gr_env : env nat :=
  mkenv (fun _ b _ i => INR (b + i)) (fun c => repeat (IZR (c_start c)) (csize c)) false 4 false 1 0
    (fun d v j => (d + v_start v + Z.of_nat j, v_rot v)%Z).
Definition gr_opts (memmap : bool) : opts :=
  mkopts true true true memmap true false true false 0 false (fun _ t => Ok t).
Definition gr_chunks : list (chunk * bool) :=
  [(mkchunk 0 2 (Some 0%nat) false, false); (mkchunk 2 4 (Some 1%nat) false, false)].
Definition gr_state : state nat :=
  mkstate ex_strat [(Some ex_b, None); (Some gr_b, None)] (Some gr_chunks) None None [] None None None
    (fun _ => None) (fun _ _ => None) (fun _ _ => []) (fun _ => []) [].

Lemma gr_covers : covers_mission gr_env gr_state.
Proof.
  split; [cbn; lia|]. intros l H. injection H as <-. split.
  - cbn. repeat (split; [reflexivity || lia|]); lia.
  - intros [|[|k]] cg H; cbn in H; try (injection H as <-; reflexivity). destruct k; discriminate.
Qed.
Lemma gr_rotation : rotation_ok gr_state.
Proof. intros _. cbn. lia. Qed.
Lemma gr_unmarked O : chunks_unmarked O gr_state.
Proof. intros l H _ cg Hc. injection H as <-. destruct Hc as [<-|[<-|[]]]; reflexivity. Qed.

Lemma gr_runs : exists s', scan_instrument gr_env (gr_opts false) gr_state = Ok s'.
Proof. eexists. run. reflexivity. Qed.

Lemma gr_stale : exists s' v vg t tg l1 l2,
  scan_instrument gr_env (gr_opts true) gr_state = Ok s'
  /\ s_log s' = s_log gr_state
       ++ (l1 ++ EPoint (mkchunk 0 2 (Some 0%nat) false) [0; 0]
              :: EScan (Main 4) vg tg :: EScan (Main 4) v t :: l2)
  /\ v_ground v = false /\ v_ground vg = true /\ v_start v = 0%Z /\ v_start vg = 0%Z
  /\ v_bore v = [0; 0] /\ v_bore vg = [2; 2].
Proof.
  eexists. exists (mkview false 0 (Some (HScalar (0 * PI / 180))) [0; 0] 0),
    (mkview true 0 (Some (HScalar (0 * PI / 180))) [2; 2] 0), [INR 2; INR 3], [INR 2; INR 3].
  let x := eval cbv -[Rplus Rmult IZR INR Req_EM_T Rminus Rdiv Ropp PI] in
    (match scan_instrument gr_env (gr_opts true) gr_state with Ok s' => s_log s' | Err _ => [] end) in
  let y := eval cbv [firstn] in (firstn 11 x) in let z := eval cbv [skipn] in (skipn 14 x) in
  exists y, z.
  split; [run; reflexivity|]. split; [reflexivity|]. repeat split.
Qed.

Lemma gr_not_seen v t : v_bore v = [2; 2] -> ~ seen_at (Some (mkchunk 0 2 (Some 0%nat) false, [0; 0])) v (length (t : list R)).
Proof.
  intros Hv (c & b & Eq & _ & Hb). injection Eq as <- <-. rewrite Hv in Hb.
  assert (X : In 2 [0; 0]).
  { assert (Y : In 2 (firstn (length t) (skipn (Z.to_nat (v_start v - 0)) [0; 0]))) by (cbn [c_start] in Hb; rewrite <- Hb; now left).
    assert (F : forall n (l : list R) x, In x (firstn n l) -> In x l)
      by (intros n l x Hx; rewrite <- (firstn_skipn n l); apply in_or_app; auto).
    assert (G : forall n (l : list R) x, In x (skipn n l) -> In x l)
      by (intros n l x Hx; rewrite <- (firstn_skipn n l); apply in_or_app; auto).
    apply F in Y. apply G in Y. exact Y. }
  destruct X as [X|[X|[]]]; lra.
Qed.

Lemma looks_suffix gr l1 : forall now l2, looks_where_pointed gr now (l1 ++ l2) ->
  looks_where_pointed gr (after now l1) l2.
Proof.
  induction l1 as [|e l1 IH]; intros now l2 H; cbn in *; auto.
  destruct e; [apply IH; exact H|apply IH; apply H|apply IH; exact H].
Qed.

Lemma gr_refuted : exists (E : env nat) O s s' new,
  o_memmap O = true /\ o_ground O = true /\ o_preview O = false /\ e_ext E = false /\ s_mmap s = None
  /\ covers_mission E s /\ rotation_ok s /\ chunks_unmarked O s
  /\ scan_instrument E O s = Ok s' /\ s_log s' = s_log s ++ new
  /\ ~ looks_where_pointed true None new
  /\ exists d v vg t tg, In (EScan (Main d) v t) new /\ In (EScan (Main d) vg tg) new
       /\ v_ground v = false /\ v_ground vg = true /\ v_start v = v_start vg
       /\ v_bore v = [0; 0] /\ v_bore vg = [2; 2].
Proof.
  destruct gr_stale as (s' & v & vg & t & tg & l1 & l2 & Hr & Hl & H1 & H2 & H3 & H4 & H5 & H6).
  exists gr_env, (gr_opts true), gr_state, s'. eexists.
  do 5 (split; [reflexivity|]). split; [exact gr_covers|]. split; [exact gr_rotation|].
  split; [apply gr_unmarked|]. split; [exact Hr|]. split; [exact Hl|]. split.
  - intros H. apply looks_suffix in H. cbn in H. destruct H as [H _].
    exact (gr_not_seen _ _ H6 (H H2)).
  - exists 4%Z, v, vg, t, tg. split; [apply in_or_app; right; cbn; tauto|].
    split; [apply in_or_app; right; cbn; tauto|]. rewrite H3, H4. auto.
Qed.
