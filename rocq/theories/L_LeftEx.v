(** * A concrete second scan *)
From Coq Require Import Reals Lra.
From Verif Require Import Common LibList M_Chunks M_Steps M_Hwp M_Mpi M_Detpair M_Scan
  S_Chunks S_Detpair S_Hwp S_Scan S_Saved L_Hwp L_ScanEx L_ScanEx2 L_ScanEx3 L_ScanEx4.
Open Scope R_scope.

(** The HWP does not move; its angle is [a]. *)
Definition lf_cfg (a : R) : config := mkconfig 1 0 None 0 (Some [0]) NoMode None a (Some [0]) None.
Definition lf_strat (a : R) : strat :=
  mkstrat 1 (mkirot (mkrot false 0 0) 0 [0] 0 (angle_gen [0]))
    (mkhwp NoMode None a [0] (mksteps 0 a 0 (angle_gen [0]))) None.
Lemma lf_configured a : configure (lf_cfg a) = Ok (lf_strat a).
Proof. unfold configure, lf_cfg, set_hwp_mod, set_instr_rot. cbn -[trunc].
  reflexivity. Qed.
Definition lf_opts (save : bool) : opts := mkopts true false true false true false save save 1 false (fun _ t => Ok t).
Definition lf_state (a : R) : state nat :=
  mkstate (lf_strat a) one_b None None None [] None None None (fun _ => None) (fun _ _ => None) (fun _ _ => []) (fun _ => []) [].


Lemma lf_both : exists s1 s2 new r1 r2 v, scan_instrument ex_env (lf_opts true) (lf_state 0) = Ok s1
  /\ scan_instrument ex_env (lf_opts false) (set_strat s1 (lf_strat 30)) = Ok s2
  /\ s_beams s1 = one_b /\ s_chunks s1 = Some [(whole, false)]
  /\ s_log s2 = s_log s1 ++ new /\ In v (sky_views 1 new) /\ v_hwp v = Some (HScalar (radians 30))
  /\ v_start v = 0%Z /\ length (v_bore v) = 5%nat
  /\ data_tod s1 whole 1 = Ok r1 /\ data_hwp s2 whole = Ok (degrees (radians 0) :: r2).
Proof.
  do 6 eexists. split; [runs; reflexivity|]. split; [runs; reflexivity|]. split; [reflexivity|].
  split; [reflexivity|]. split; [cbn [s_log]; cbn [app]; repeat f_equal|].
  split; [left; reflexivity|]. do 4 (split; [reflexivity|]). reflexivity.
Qed.

Lemma lf_after s1 : s_beams s1 = one_b -> s_chunks s1 = Some [(whole, false)] ->
  let u := set_strat s1 (lf_strat 30) in
  covers_mission ex_env u /\ rotation_ok u /\ chunks_unmarked (lf_opts false) u
  /\ chunks_used ex_env u = Ok [whole] /\ observes ex_env (lf_opts false) u ex_b.
Proof.
  intros Hb Hc u. split; [|split; [|split; [|split]]].
  - split; [cbn; lia|]. intros l H. cbn in H. rewrite Hc in H. injection H as <-. split.
    + cbn. repeat (split; [reflexivity || lia|]); lia.
    + intros [|[|k]] cg H; cbn in H; try (injection H as <-; reflexivity); discriminate.
  - discriminate.
  - intros l H _ cg Hcg. cbn in H. rewrite Hc in H. injection H as <-. destruct Hcg as [<-|[]]. reflexivity.
  - unfold chunks_used. cbn. rewrite Hc. reflexivity.
  - split; [reflexivity|]. exists 0%nat, (Some ex_b, None). cbn [u set_strat s_beams]. rewrite Hb.
    split; [reflexivity|]. split; [now left|]. unfold my_pairs. cbn [u set_strat s_beams]. rewrite Hb. cbn; auto.
Qed.

Lemma lf_case : exists s1 s2 r, let u := set_strat s1 (lf_strat 30) in
  scan_instrument ex_env (lf_opts true) (lf_state 0) = Ok s1
  /\ covers_mission ex_env u /\ rotation_ok u /\ chunks_unmarked (lf_opts false) u
  /\ scan_instrument ex_env (lf_opts false) u = Ok s2 /\ chunks_used ex_env u = Ok [whole]
  /\ observes ex_env (lf_opts false) u ex_b /\ data_tod u whole (d_id ex_b) = Ok r.
Proof.
  destruct lf_both as (s1 & s2 & new & r1 & r2 & v & H1 & H2 & Hb & Hc & _ & _ & _ & _ & _ & Hd & _).
  exists s1, s2, r1. cbv zeta. destruct (lf_after s1 Hb Hc) as (A1 & A2 & A3 & A4 & A5).
  split; [exact H1|]. split; [exact A1|]. split; [exact A2|]. split; [exact A3|]. split; [exact H2|].
  split; [exact A4|]. split; [exact A5|]. exact Hd.
Qed.

Lemma hwp_stale : exists (E : env nat) O1 O2 s s1 cf st s2 new chunks d v c ar,
  scan_instrument E O1 s = Ok s1 /\ configure cf = Ok st
  /\ scan_instrument E O2 (set_strat s1 st) = Ok s2 /\ s_log s2 = s_log s1 ++ new
  /\ chunks_used E (set_strat s1 st) = Ok chunks /\ In c chunks
  /\ observes E O2 (set_strat s1 st) d /\ In v (sky_views (d_id d) new)
  /\ o_save_point O2 = false /\ data_hwp s2 c = Ok ar
  /\ ~ saved_in chunks (data_hwp s2) (v_start v) (map (hwp_reading v) (seq 0 (length (v_bore v)))).
Proof.
  destruct lf_both as (s1 & s2 & new & r1 & r2 & v & H1 & H2 & Hb & Hc & Hl & Hv & Hh & Hst & Hle & _ & Hd).
  destruct (lf_after s1 Hb Hc) as (A1 & A2 & A3 & A4 & A5).
  exists ex_env, (lf_opts true), (lf_opts false), (lf_state 0), s1, (lf_cfg 30), (lf_strat 30), s2, new, [whole], ex_b, v, whole.
  eexists. split; [exact H1|]. split; [apply lf_configured|]. split; [exact H2|]. split; [exact Hl|].
  split; [exact A4|]. split; [now left|]. split; [exact A5|]. split; [exact Hv|]. split; [reflexivity|].
  split; [exact Hd|].
  intros (k & c & ar & Hk & Hg & _ & _ & _ & Hn).
  destruct k as [|k]; [|destruct k; discriminate]. cbn in Hk. injection Hk as <-.
  rewrite Hd in Hg. injection Hg as <-. rewrite Hle, Hst in Hn. specialize (Hn 0%nat).
  rewrite map_length, seq_length in Hn. specialize (Hn ltac:(lia)).
  cbn -[radians degrees hwp_reading] in Hn. injection Hn as Hn. unfold hwp_reading in Hn. rewrite Hh in Hn.
  assert (G : forall x, x * 180 / PI = degrees x) by reflexivity.
  rewrite ?G, ?degrees_radians in Hn. lra.
Qed.

(** Detector 1 is taken out after the first scan, and detector 4 put in. *)
Definition lf_other : det nat := mkdet 4 false false [] None (Ok 2%nat).
Lemma lf_swap : exists s1 s2 r r4,
  scan_instrument ex_env (lf_opts true) (lf_state 0) = Ok s1
  /\ s_strat s1 = lf_strat 0 /\ s_chunks s1 = Some [(whole, false)]
  /\ scan_instrument ex_env (lf_opts true) (set_beams s1 [(Some lf_other, None)]) = Ok s2
  /\ data_point s1 whole 1 = Ok r /\ data_point s2 whole 4 = Ok r4.
Proof.
  do 4 eexists. split; [runs; reflexivity|]. do 2 (split; [reflexivity|]). split; [runs; reflexivity|].
  split; reflexivity.
Qed.

Lemma lf_swap_case : exists s1 s2 r r4, let u := set_beams s1 [(Some lf_other, None)] in
  scan_instrument ex_env (lf_opts true) (lf_state 0) = Ok s1
  /\ covers_mission ex_env u /\ rotation_ok u /\ chunks_unmarked (lf_opts true) u
  /\ NoDup (map d_id (dets (s_beams u))) /\ chunks_used ex_env u = Ok [whole]
  /\ scan_instrument ex_env (lf_opts true) u = Ok s2
  /\ (forall d, observes ex_env (lf_opts true) u d -> d_id d <> 1%Z)
  /\ data_point u whole 1 = Ok r /\ data_point s2 whole 4 = Ok r4.
Proof.
  destruct lf_swap as (s1 & s2 & r & r4 & H1 & Hs & Hc & H2 & Hr & Hr4).
  exists s1, s2, r, r4. cbv zeta. split; [exact H1|]. split; [|split; [|split; [|split; [|split; [|split; [exact H2|split; [|split]]]]]]].
  - split; [cbn; lia|]. intros l H. cbn in H. rewrite Hc in H. injection H as <-. split.
    + cbn. repeat (split; [reflexivity || lia|]); lia.
    + intros [|[|k]] cg H; cbn in H; try (injection H as <-; reflexivity); discriminate.
  - unfold rotation_ok. cbn [set_beams s_strat]. rewrite Hs. discriminate.
  - intros l H _ cg Hcg. cbn in H. rewrite Hc in H. injection H as <-. destruct Hcg as [<-|[]]. reflexivity.
  - cbn. repeat constructor; cbn; tauto.
  - unfold chunks_used. cbn. rewrite Hc. reflexivity.
  - clear. intros d (_ & j & p & Ej & Hp & _). cbn [set_beams s_beams] in Ej.
    destruct j as [|[|j]]; [|discriminate Ej..]. injection Ej as <-. destruct Hp as [<-|[]]. intros X. discriminate X.
  - exact Hr.
  - exact Hr4.
Qed.
