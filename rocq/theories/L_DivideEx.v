(** * Concrete divisions of the mission *)
From Coq Require Import Reals QArith Lra Lia.
From Verif Require Import Common LibList M_Chunks M_Sched M_Steps M_Hwp M_Mpi M_Detpair M_Scan M_Divide
  S_Chunks S_Detpair S_Scan S_Saved S_Divide L_ScanEx L_ScanEx2 L_ScanEx3 L_ScanEx4 L_LeftEx L_Divide.
Open Scope R_scope.

Definition dv_c0 : chunk := mkchunk 0 2 (Some 0%nat) false.
Definition dv_c1 : chunk := mkchunk 2 4 (Some 1%nat) false.
Definition dv_c2 : chunk := mkchunk 4 5 (Some 2%nat) false.
(** Scans of two and three seconds. *)
Definition dv_rows : list ces := [mkces 0 2 0 10 45; mkces 2 5 10 0 45].

Lemma dv_scans : exists s1 s2 s3 r r2, scan_instrument ex_env (lf_opts true) (lf_state 0) = Ok s1
  /\ divide ex_env (Some 2%Z) s1 = Ok s2 /\ scan_instrument ex_env (lf_opts true) s2 = Ok s3
  /\ s_beams s2 = one_b /\ s_strat s2 = lf_strat 0
  /\ s_chunks s2 = Some [(dv_c0, false); (dv_c1, false); (dv_c2, false)]
  /\ data_tod s1 dv_c0 1 = Ok r /\ length r = 5%nat /\ data_tod s3 dv_c1 1 = Ok r2.
Proof.
  do 5 eexists. split; [runs; reflexivity|]. split; [runs; reflexivity|]. split; [runs; reflexivity|].
  do 5 (split; [reflexivity|]). reflexivity.
Qed.

Lemma dv_case : exists s s1 s2 r r2, divide ex_env (Some 2%Z) s = Ok s1 /\ campaign s1 s2
  /\ data_tod s dv_c0 1 = Ok r /\ length r = 5%nat /\ data_tod s2 dv_c1 1 = Ok r2.
Proof.
  destruct dv_scans as (s1 & s2 & s3 & r & r2 & H1 & H2 & H3 & Hb & Hs & Hc & Hr & Hl & Hr2).
  exists s1, s2, s3, r, r2. split; [exact H2|]. split; [|auto].
  eapply camp_scan; [apply camp_none|..|exact H3].
  - discriminate.
  - reflexivity.
  - split; [cbn; lia|]. intros l H. rewrite Hc in H. injection H as <-. split.
    + cbn. repeat (split; [reflexivity || lia|]); lia.
    + intros [|[|[|[|k]]]] cg H; cbn in H; try (injection H as <-; reflexivity); discriminate.
  - unfold rotation_ok. rewrite Hs. discriminate.
  - intros l H _ cg Hcg. rewrite Hc in H. injection H as <-.
    destruct Hcg as [<-|[<-|[<-|[]]]]; reflexivity.
  - rewrite Hb. repeat constructor; cbn; intuition discriminate.
Qed.

Lemma dv_sched : exists s1 s2 s3 a, scan_instrument ex_env (lf_opts true) (lf_state 0) = Ok s1
  /\ divide_schedule ex_env dv_rows None 1 s1 = Ok s2 /\ scan_instrument ex_env (lf_opts false) s2 = Ok s3
  /\ s_chunks s3 = Some [(dv_c0, false); (mkchunk 2 5 (Some 1%nat) false, false)]
  /\ data_hwp s3 dv_c0 = Ok a /\ length a = 5%nat.
Proof.
  do 4 eexists. split; [runs; reflexivity|]. split; [runs; reflexivity|]. split; [runs; reflexivity|].
  do 2 (split; [reflexivity|]). reflexivity.
Qed.

Lemma sched_stale : exists (E : env nat) O1 O2 rows n fs s s1 s2 s3 l c g a,
  scan_instrument E O1 s = Ok s1 /\ divide_schedule E rows n fs s1 = Ok s2
  /\ scan_instrument E O2 s2 = Ok s3 /\ s_chunks s3 = Some l /\ In (c, g) l
  /\ data_hwp s3 c = Ok a /\ ~ right_size s3 c.
Proof.
  destruct dv_sched as (s1 & s2 & s3 & a & H1 & H2 & H3 & Hc & Ha & Hl).
  exists ex_env, (lf_opts true), (lf_opts false), dv_rows, None, 1%Q, (lf_state 0), s1, s2, s3.
  eexists _, dv_c0, false, a. do 3 (split; [eassumption|]). split; [exact Hc|]. split; [now left|].
  split; [exact Ha|]. intros (_ & _ & R). specialize (R a Ha). rewrite Hl in R. discriminate.
Qed.

Lemma dv_fresh : exists s1 s2 r, divide_schedule ex_env dv_rows None 1 (lf_state 0) = Ok s1
  /\ scan_instrument ex_env (lf_opts true) s1 = Ok s2
  /\ s_beams s1 = one_b /\ s_strat s1 = lf_strat 0
  /\ s_chunks s1 = Some [(dv_c0, false); (mkchunk 2 5 (Some 1%nat) false, false)]
  /\ data_hwp s2 dv_c0 = Ok r.
Proof.
  do 3 eexists. split; [runs; reflexivity|]. split; [runs; reflexivity|].
  do 3 (split; [reflexivity|]). reflexivity.
Qed.

Lemma dv_fresh_case : exists s1 s2 r, (forall c, no_data (lf_state 0) c)
  /\ divide_schedule ex_env dv_rows None 1 (lf_state 0) = Ok s1 /\ campaign s1 s2 /\ data_hwp s2 dv_c0 = Ok r.
Proof.
  destruct dv_fresh as (s1 & s2 & r & H1 & H2 & Hb & Hs & Hc & Hr).
  exists s1, s2, r. split; [|split; [exact H1|split; [|exact Hr]]].
  - clear. intros c. unfold no_data, data_tod, data_point, data_hwp. cbn. destruct (c_cidx c); auto.
  - eapply camp_scan; [apply camp_none|..|exact H2].
    + discriminate 1.
    + reflexivity.
    + split; [cbn; lia|]. intros l H. rewrite Hc in H. injection H as <-. split.
      * cbn. repeat (split; [reflexivity || lia|]); lia.
      * intros [|[|[|k]]] cg H; cbn in H; try (injection H as <-; reflexivity); discriminate H.
    + unfold rotation_ok. rewrite Hs. discriminate 1.
    + intros l H _ cg Hcg. rewrite Hc in H. injection H as <-. destruct Hcg as [<-|[<-|[]]]; reflexivity.
    + rewrite Hb. repeat constructor; cbn; intuition discriminate.
Qed.
