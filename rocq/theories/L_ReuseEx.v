(** * Reused spin maps: concrete runs *)
From Coq Require Import Reals Lra.
From Verif Require Import Common LibList M_Chunks M_Steps M_Hwp M_Mpi M_Detpair M_Scan
  S_Chunks S_Detpair S_Scan S_Reuse L_ScanEx.
Open Scope R_scope.

Definition re_a (i : Z) (b : nat) : det nat := mkdet i false false [mkgh false 0%nat None (Ok 3%nat)] None (Ok b).
Definition re_state (b : nat) : state nat := ex_state [(Some (re_a 0 1), None); (Some (re_a 1 b), Some ex_dead)].

Definition seen (i : Z) (l : list event) : list (list R) :=
  flat_map (fun e => match e with EScan (Main d) _ t => if (d =? i)%Z then [t] else [] | _ => [] end) l.

Lemma re_settings b p : In p (s_beams (re_state b)) -> from_settings p.
Proof.
  intros [<-|[<-|[]]] d Hd; cbn in Hd.
  - destruct Hd as [<-|[]]. split; [reflexivity|]. intros g [<-|[]]; split; [reflexivity|discriminate].
  - destruct Hd as [<-|[<-|[]]]; (split; [reflexivity|]); [|intros g []].
    intros g [<-|[]]; split; [reflexivity|discriminate].
Qed.

Lemma re_one : one_beam ex_env (ex_opts false false) (re_state 1).
Proof.
  split; [apply re_settings|].
  intros i j p q _ _ Hi Hj _ _. destruct i as [|[|i]], j as [|[|j]]; cbn in Hi, Hj;
    try (destruct i; discriminate); try (destruct j; discriminate);
    injection Hi as <-; injection Hj as <-; split; reflexivity.
Qed.

Lemma re_runs b : exists s', scan_instrument ex_env (ex_opts false false) (re_state b) = Ok s'.
Proof. eexists. run. reflexivity. Qed.

Lemma re_other : exists (E : env nat) O s s1 s2,
  o_preview O = false /\ o_reuse O = false /\ covers_mission E s /\ rotation_ok s /\ chunks_unmarked O s
  /\ (forall p, In p (s_beams s) -> from_settings p) /\ s_maps s = None
  /\ scan_instrument E O s = Ok s1 /\ scan_instrument E (reusing O) s = Ok s2 /\ s_log s1 <> s_log s2.
Proof.
  exists ex_env, (ex_opts false false), (re_state 2).
  destruct (re_runs 2) as [s1 H1].
  assert (R2 : exists s2, scan_instrument ex_env (reusing (ex_opts false false)) (re_state 2) = Ok s2)
    by (eexists; run; reflexivity).
  destruct R2 as [s2 H2]. exists s1, s2.
  do 2 (split; [reflexivity|]). split; [apply ex_covers; reflexivity|]. split; [apply ex_rotation|].
  split; [apply ex_unmarked|]. split; [apply re_settings|]. split; [reflexivity|].
  split; [exact H1|]. split; [exact H2|]. intros E.
  assert (A : option_map (hd 0) (hd_error (seen 1 (s_log s1))) = Some (INR 2)).
  { revert H1. run. intros H1. injection H1 as <-. reflexivity. }
  assert (A2 : option_map (hd 0) (hd_error (seen 1 (s_log s2))) = Some (INR 1)).
  { revert H2. run. intros H2. injection H2 as <-. reflexivity. }
  rewrite E, A2 in A. injection A as A. cbn in A. lra.
Qed.

Lemma re_twice : exists s1 t',
  scan_instrument ex_env (ex_opts false false) (re_state 1) = Ok s1
  /\ s_beams s1 = s_beams (re_state 1) /\ covers_mission ex_env s1 /\ rotation_ok s1
  /\ chunks_unmarked (ex_opts false true) s1
  /\ scan_instrument ex_env (ex_opts false true) s1 = Ok t'.
Proof.
  do 2 eexists. split; [run; reflexivity|]. split; [reflexivity|]. split; [|split; [|split]].
  - split; [cbn; lia|]. intros l H. injection H as <-. split.
    + cbn. repeat (split; [reflexivity || lia|]); lia.
    + intros [|[|k]] cg H; cbn in H; try (injection H as <-; reflexivity). destruct k; discriminate.
  - intros _. cbn. lia.
  - intros l H _ cg Hc. injection H as <-. destruct Hc as [<-|[<-|[]]]; reflexivity.
  - run. reflexivity.
Qed.
