(** * The course of a scan, sample by sample *)
From Coq Require Import Reals Lra.
From Verif Require Import Common LibList M_Chunks M_Steps M_Hwp M_Mpi M_Detpair M_Scan
  S_Chunks S_Hwp S_Detpair S_Scan S_Saved L_Chunks L_Steps L_Hwp L_Mpi L_Detpair L_Scan L_Scan2 L_Scan3 L_Scan4 L_Scan5
  L_Scan6 L_Scan7 L_Scan8 L_Scan10 L_Scan11 L_Scan12 L_Scan13 L_Scan14 L_Scan15.
Open Scope R_scope.

Section L.
  Context {B : Type}.
  Implicit Types (s : state B) (E : env B) (d : det B) (p q : bpair B).

  Lemma used_facts E s : covers_mission E s -> exists cs, used_chunks E s = Ok cs /\ chunks_used E s = Ok cs
    /\ tiles 0 (e_nsamp E) (map span cs) /\ numbered cs.
  Proof.
    intros Hm. destruct (mission_used E s Hm) as (cs & Hcs & T). exists cs. split; auto. split; [exact Hcs|]. split; auto.
    destruct Hm as [Hn Hc]. unfold used_chunks in Hcs. destruct (s_chunks s) as [l|].
    - injection Hcs as <-. destruct (Hc l eq_refl) as [_ Hk]. intros k c Ek. rewrite nth_error_map in Ek.
      destruct (nth_error l k) as [cg|] eqn:El; [|discriminate]. injection Ek as <-. apply Hk. auto.
    - destruct (partition_mission_ok (e_nsamp E) None Hn I) as (cs' & Hcs' & _ & Hk).
      rewrite Hcs in Hcs'. injection Hcs' as <-. intros k c Ek. apply Hk. auto.
  Qed.

  Lemma elev_len E c : Z.of_nat (length (e_elev E c)) = Z.max 0 (c_end c - c_start c) -> length (e_elev E c) = csize c.
  Proof. intros H. unfold csize. lia. Qed.

  Lemma live_of (p : bpair B) d : In d (pair_dets p) -> d_dead d = false -> is_live p d.
  Proof.
    intros Hd Hl. unfold is_live, live. destruct p as [[a|] [b|]]; cbn in *; intuition subst; rewrite ?Hl; auto.
  Qed.

  Lemma scan_course E O s s' : well_set E O s -> scan_instrument E O s = Ok s' ->
    exists new chunks, s_log s' = s_log s ++ new /\ chunks_used E s = Ok chunks
      /\ forall d, observes E O s d ->
           exists u, course (e_ext E) (e_elev E) chunks (s_strat s) = Ok (sky_views (d_id d) new, u)
             /\ (o_binning O = true -> bin_views (d_id d) new = sky_views (d_id d) new).
  Proof.
    intros W H. destruct W as [Hm Hr Hu ND (cf & Hcf) Hmode Hp Hmm Hel].
    destruct (used_facts E s Hm) as (cs & Hcs & Hcs' & T & Hnum).
    assert (Hst : no_stale O (chunks_of s)).
    { unfold no_stale, chunks_of. destruct (s_chunks s) as [l|] eqn:El.
      - intros Ho. apply (Hu l El Ho).
      - intros _ cg []. }
    assert (Hpos : pos_chunks cs) by (intros c Hc; apply (tiles_pos _ _ _ _ T Hc)).
    unfold scan_instrument in H.
    destruct (negb (o_alm O) && negb (o_preview O)); [discriminate|].
    destruct (o_preview O && (o_save_tod O || o_save_point O)); [discriminate|].
    set (s0 := if o_memmap O && negb (e_ext E) then _ else s) in H.
    assert (X : s_log s0 = s_log s /\ s_beams s0 = s_beams s /\ s_chunks s0 = s_chunks s
                /\ s_strat s0 = s_strat s /\ mm_ok E O cs (s_strat s) (e_nsamp E) 0 s0).
    { unfold s0, mm_ok. destruct (e_ext E); [rewrite andb_false_r; auto|]. rewrite andb_true_r.
      destruct (o_memmap O).
      - do 4 (split; [reflexivity|]). eexists. split; [reflexivity|]. cbn. apply repeat_length.
      - do 4 (split; [reflexivity|]). destruct Hmm as [Hmm|[Hmm|Hmm]]; try discriminate. exact Hmm. }
    destruct X as (L0 & B0 & C0 & S0 & M0). clearbody s0.
    apply (pairs_course E O cs (s_strat s) (e_nsamp E) (s_beams s)) in H; auto.
    - destruct H as (evs & L & _ & V). exists evs, cs. split; [congruence|]. split; auto.
      intros d (Hd & i & p & Ep & Hin & Hi).
      destruct (V (Some i) (d_id d)) as (V' & u & Cr & V1 & V2).
      { rewrite B0. exact Hi. }
      { cbn. rewrite Ep. exists d. split; auto. apply live_of; auto. }
      subst V'. exists u. auto.
    - intros c _. apply elev_len. apply Hel.
    - eapply configured_is_reset; eauto.
    - apply rank_nodup. apply seq_NoDup.
    - intros w _. unfold pair_at, at_. rewrite B0. reflexivity.
    - unfold chunks_of in *. rewrite C0. auto.
    - unfold used_chunks in *. rewrite C0. auto.
    - rewrite S0. auto.
    - rewrite S0. eapply configured_is_reset; eauto.
  Qed.
End L.

(** ** Taking a course apart *)

(** Boresight angles of successive stretches. *)
Fixpoint turns (per : bool) (norot : list bool) (a : R) (g : gen R) : res (list R * (R * gen R)) :=
  match norot with
  | [] => Ok ([], (a, g))
  | b :: r =>
      do (a, g) <- (if b || negb per then Ok (a, g) else next g);
      do (l, e) <- turns per r a g; Ok (a :: l, e)
  end.

Lemma turns_app per x y a g : turns per (x ++ y) a g
  = do (l, e) <- turns per x a g; do (l', e) <- turns per y (fst e) (snd e); Ok (l ++ l', e).
Proof.
  revert a g; induction x as [|b x IH]; intros a g; cbn [app turns bind fst snd].
  - destruct (turns per y a g) as [[]|]; reflexivity.
  - destruct (if b || negb per then Ok (a, g) else next g) as [[a1 g1]|]; cbn [bind]; auto. rewrite IH.
    destruct (turns per x a1 g1) as [[l [a2 g2]]|]; cbn [bind fst snd]; auto.
    destruct (turns per y a2 g2) as [[l' e']|]; reflexivity.
Qed.

Definition cut c (bore : list R) x := slice bore (Z.to_nat (c_start x - c_start c)) (Z.to_nat (c_end x - c_start c)).

Lemma course_subs_apart c bore : forall subs u V u', course_subs c bore subs u = Ok (V, u') ->
  exists outs,
    map v_start V = map c_start subs
    /\ map v_bore V = map (cut c bore) subs
    /\ map v_hwp V = map Some outs
    /\ rotate_hwps (sg_fsamp u) (map csize subs) (sg_hwp u) = Ok (outs, sg_hwp u')
    /\ sg_fsamp u' = sg_fsamp u /\ sg_el u' = sg_el u /\ ir_rot (sg_rot u') = ir_rot (sg_rot u)
    /\ turns (rot_period (ir_rot (sg_rot u))) (map c_norot subs) (ir_angle (sg_rot u)) (ir_gen (sg_rot u))
       = Ok (map v_rot V, (ir_angle (sg_rot u'), ir_gen (sg_rot u'))).
Proof.
  induction subs as [|x subs IH]; intros u V u' H; cbn [course_subs] in H.
  { injection H as <- <-. exists []. cbn. auto 10. }
  cbv zeta in H. change (Z.to_nat (c_end x - c_start x)) with (csize x) in H.
  destruct u as [uf ur uh ue]. cbn [sg_fsamp sg_rot sg_hwp sg_el].
  inv_bind H o Ho.
  assert (X : exists i, snd (if c_norot x then (Ok XNone, mkstrat uf ur uh ue) else run_op ORotate (mkstrat uf ur uh ue)) = mkstrat uf i uh ue
                /\ ir_rot i = ir_rot ur
                /\ (if c_norot x || negb (rot_period (ir_rot ur)) then Ok (ir_angle ur, ir_gen ur) else next (ir_gen ur)) = Ok (ir_angle i, ir_gen i)).
  { destruct (c_norot x); [exists ur; auto|]. cbn in Ho |- *. unfold rotate_instr in *. destruct (rot_period (ir_rot ur)); cbn in *; [|eauto].
    destruct (next (ir_gen ur)) as [[a g]|]; cbn in *; [|discriminate]. eexists; split; [reflexivity|]. auto. }
  destruct X as (i & Ei & Er & Et). rewrite Ei in H. cbn [run_op sg_fsamp sg_hwp sg_rot sg_el] in H.
  destruct (rotate_hwp uf None (csize x) uh) as [[oh h1]|] eqn:Eh; cbn [fst snd bind] in H; [|discriminate].
  inv_bind H y Hy. destruct y as [l u2]. injection H as <- <-.
  apply IH in Hy. destruct Hy as (outs & S1 & S2 & S3 & S4 & S5 & S6 & S7 & S8).
  cbn [sg_fsamp sg_hwp sg_rot sg_el] in S4, S5, S6, S7, S8.
  exists (oh :: outs). cbn [map v_start v_bore v_hwp v_rot rotate_hwps turns sg_rot]. rewrite Eh. cbn [bind]. rewrite S4.
  rewrite Et. cbn [bind]. rewrite <- Er, S8. cbn [bind]. rewrite S1, S2, S3, S5, S6, S7. auto 10.
Qed.

Definition bores (ext : bool) (elev : chunk -> list R) (cs : list chunk) (e : option elsteps)
  : res (list (list R) * option elsteps) :=
  if ext then Ok (map elev cs, e) else points elev cs e.

Lemma rotate_hwps_app f a b h : rotate_hwps f (a ++ b) h
  = do (x, h) <- rotate_hwps f a h; do (y, h) <- rotate_hwps f b h; Ok (x ++ y, h).
Proof.
  revert h; induction a as [|n a IH]; intros h; cbn [app rotate_hwps bind].
  - destruct (rotate_hwps f b h) as [[]|]; reflexivity.
  - destruct (rotate_hwp f None n h) as [[o h1]|]; cbn [bind]; auto. rewrite IH.
    destruct (rotate_hwps f a h1) as [[x h2]|]; cbn [bind]; auto.
    destruct (rotate_hwps f b h2) as [[y h3]|]; cbn [bind]; auto.
Qed.

Lemma subpart_period r c subs r1 : subpart_chunk r c = Ok (subs, r1) ->
  rot_period r1 = rot_period r /\ rot_chunk_size r1 = rot_chunk_size r.
Proof.
  unfold subpart_chunk. destruct (negb (rot_period r)); [intros H; injection H as _ <-; auto|].
  destruct (_ =? _)%Z; [discriminate|]. cbv zeta.
  repeat match goal with |- context [if ?b then _ else _] => destruct b
         | |- context [let (_, _) := ?e in _] => destruct e end;
  intros H; injection H as _ <-; auto.
Qed.

Lemma course_chunk_apart ext elev c u V u' : course_chunk ext elev c u = Ok (V, u') ->
  exists bore e1 subs r1 outs,
    bores ext elev [c] (sg_el u) = Ok ([bore], e1)
    /\ subpart_chunk (ir_rot (sg_rot u)) c = Ok (subs, r1)
    /\ map v_start V = map c_start subs /\ map v_bore V = map (cut c bore) subs
    /\ map v_hwp V = map Some outs
    /\ rotate_hwps (sg_fsamp u) (map csize subs) (sg_hwp u) = Ok (outs, sg_hwp u')
    /\ sg_fsamp u' = sg_fsamp u /\ sg_el u' = e1 /\ ir_rot (sg_rot u') = r1
    /\ turns (rot_period (ir_rot (sg_rot u))) (map c_norot subs) (ir_angle (sg_rot u)) (ir_gen (sg_rot u))
       = Ok (map v_rot V, (ir_angle (sg_rot u'), ir_gen (sg_rot u'))).
Proof.
  intros H. unfold course_chunk in H. inv_bind H x Hx. destruct x as [bore u1].
  assert (P : exists e1, bores ext elev [c] (sg_el u) = Ok ([bore], e1) /\ u1 = with_el u e1).
  { unfold course_point in Hx. unfold bores. destruct ext.
    - injection Hx as <- <-. exists (sg_el u). split; [reflexivity|]. destruct u; reflexivity.
    - rewrite run_el in Hx. cbn [points]. destruct (elop (elev c) (sg_el u)) as [[l e]|]; cbn in Hx |- *; [|discriminate].
      injection Hx as <- <-. eauto. }
  destruct P as (e1 & P1 & ->). cbn [run_op with_el sg_rot sg_fsamp sg_hwp sg_el] in H.
  destruct (subpart_chunk (ir_rot (sg_rot u)) c) as [[subs r1]|] eqn:Es; cbn [fst snd bind] in H; [|discriminate].
  destruct (subpart_period _ _ _ _ Es) as [Ep _].
  apply course_subs_apart in H.
  destruct H as (outs & S1 & S2 & S3 & S4 & S5 & S6 & S7 & S8). cbn in S4, S5, S6, S7, S8.
  exists bore, e1, subs, r1, outs. rewrite <- Ep. auto 12.
Qed.

Lemma bores_cons ext elev c cs e : bores ext elev (c :: cs) e
  = do (x, e) <- bores ext elev [c] e; do (y, e) <- bores ext elev cs e; Ok (x ++ y, e).
Proof.
  unfold bores. destruct ext; [reflexivity|]. cbn [points].
  destruct (elop (elev c) e) as [[b e1]|]; cbn [bind]; auto.
Qed.

Lemma course_apart ext elev : forall cs u V u', course ext elev cs u = Ok (V, u') ->
  exists bs e1 subss r1 outs t,
    bores ext elev cs (sg_el u) = Ok (bs, e1)
    /\ subpart_all (ir_rot (sg_rot u)) cs = Ok (subss, r1)
    /\ map v_start V = map c_start (concat subss)
    /\ map v_bore V = concat (map (fun x => map (cut (fst (fst x)) (snd (fst x))) (snd x)) (combine (combine cs bs) subss))
    /\ map v_hwp V = map Some outs
    /\ rotate_hwps (sg_fsamp u) (map csize (concat subss)) (sg_hwp u) = Ok (outs, sg_hwp u')
    /\ turns (rot_period (ir_rot (sg_rot u))) (map c_norot (concat subss)) (ir_angle (sg_rot u)) (ir_gen (sg_rot u))
       = Ok (map v_rot V, t).
Proof.
  induction cs as [|c cs IH]; intros u V u' H; cbn [course] in H.
  { injection H as <- <-. exists [], (sg_el u), [], (ir_rot (sg_rot u)), [], (ir_angle (sg_rot u), ir_gen (sg_rot u)). cbn. repeat split; auto.
    unfold bores. destruct ext; reflexivity. }
  inv_bind H x Hx. destruct x as [V1 u1]. inv_bind H y Hy. destruct y as [V2 u2]. injection H as <- <-.
  apply course_chunk_apart in Hx; auto.
  destruct Hx as (bore & e1 & subs & r1 & outs & A1 & A2 & A3 & A4 & A5 & A6 & A7 & A8 & A9 & A10).
  apply IH in Hy. destruct Hy as (bs & e2 & subss & r2 & outs2 & t & B1 & B2 & B3 & B4 & B5 & B6 & B7).
  exists (bore :: bs), e2, (subs :: subss), r2, (outs ++ outs2), t. subst e1 r1.
  destruct (subpart_period _ _ _ _ A2) as [Ep _].
  split; [rewrite bores_cons, A1; cbn [bind]; rewrite B1; reflexivity|].
  split; [cbn [subpart_all]; rewrite A2; cbn [bind]; rewrite B2; reflexivity|].
  cbn [concat combine map fst snd]. rewrite !map_app, A3, A4, A5, B3, B4, B5. do 3 (split; [reflexivity|]).
  split.
  - rewrite rotate_hwps_app, A6. cbn [bind]. rewrite <- A7, B6. reflexivity.
  - rewrite turns_app, A10. cbn [bind fst snd]. rewrite <- Ep, B7. reflexivity.
Qed.
