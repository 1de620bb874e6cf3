(** * Concrete scans with saved positions and HWP angles *)
From Coq Require Import Reals Lra.
From Verif Require Import Common LibList M_Chunks M_Steps M_Hwp M_Mpi M_Detpair M_Scan
  S_Chunks S_Detpair S_Scan S_Saved L_Hwp L_ScanEx L_ScanEx2 L_ScanEx3.
Open Scope R_scope.

(** Only the outcome is computed, not the states (their arrays are functions). *)
Definition succeeds {A} (r : res A) : bool := match r with Ok _ => true | Err _ => false end.
Lemma succeeded {A} (r : res A) : succeeds r = true -> exists x, r = Ok x.
Proof. destruct r; [eauto|discriminate]. Qed.

Lemma point_runs : exists s', scan_instrument ex_env (ex_opts false true) (ex_state ex_beams) = Ok s'.
Proof. apply succeeded. lazy -[Rplus Rmult IZR INR Req_EM_T Rminus Rdiv Ropp PI radians degrees rmod Rinv]. reflexivity. Qed.

Definition hwp_two : state nat :=
  mkstate (hwp_strat Stepped) two_b None None None [] None None None (fun _ => None) (fun _ _ => None) (fun _ _ => []) (fun _ => []) [].
Lemma two_well : well_set ex_env (ex_opts false true) hwp_two.
Proof.
  constructor.
  - split; [cbn; lia|]. discriminate.
  - discriminate.
  - discriminate.
  - cbn. repeat constructor; cbn; intuition discriminate.
  - exists (hwp_cfg Stepped). apply hwp_configured.
  - discriminate.
  - reflexivity.
  - right; right; reflexivity.
  - apply ex_elev. auto.
Qed.
(** One pair, from any arrays and trace; the settings after it, the events and
    the HWP angles saved. *)
Definition whole : chunk := mkchunk 0 5 (Some 0%nat) false.
Definition stage (b w : nat) (u u' : strat) (ch : option (list (chunk * bool))) (evs : list event) (h : list R) : Prop :=
  forall mp bo gb hp td q dat pt hw lg, exists mp' bo' gb' hp' td' q' dat' pt' hw' lg' t,
    scan_pair ex_env (ex_opts false true) b (Some w) (mkstate u two_b ch mp None bo gb hp td q dat pt hw lg)
    = Ok (mkstate u' two_b (Some [(whole, false)]) mp' None bo' gb' hp' td' q' dat' pt' hw' lg')
    /\ lg' = lg ++ evs /\ hw' 0%nat = h ++ t.
Ltac run_pair :=
  lazy -[scan_sub Rplus Rmult IZR INR Req_EM_T Rminus Rdiv Ropp PI radians degrees rmod Rinv];
  match goal with |- context [scan_sub ?E ?O ?p ?g ?c ?s] =>
    let s' := fresh "s'" in evar (s' : state nat);
    let H := fresh "H" in assert (H : scan_sub E O p g c s = Ok s');
    [ unfold scan_sub; cbn [c_norot];
      match goal with |- context [lift_op ORotate ?s] =>
        let L := fresh "L" in eassert (L : lift_op ORotate s = Ok _) by (runs; reflexivity); rewrite L; clear L end;
      cbn [bind];
      match goal with |- context [lift_op (OHwp None ?n) ?s] =>
        let L := fresh "L" in eassert (L : lift_op (OHwp None n) s = Ok _) by
          (runs; let H := fresh in destruct (Req_EM_T (/ 2) 0) as [H|_]; [lra|reflexivity]); rewrite L; clear L end;
      runs; subst s'; reflexivity
    | rewrite H; clear H; subst s' ] end.
Ltac run_stage :=
  unfold stage; intros mp bo gb hp td q dat pt hw lg; destruct mp;
  (do 11 eexists; split; [run_pair; reflexivity|]; split;
   [etransitivity; [symmetry; apply (app_assoc (lg ++ [_]) [_] [_])|];
    etransitivity; [symmetry; apply (app_assoc lg [_] ([_] ++ [_]))|]; reflexivity
   | reflexivity]).

Definition hwp_at (a : R) (r p : nat) : strat :=
  mkstrat 1 (mkirot (mkrot false 0 0) 0 [0] 0 (angle_gen [0]))
    (mkhwp Stepped (Some (/ 2)) 0 [0; 30] (mksteps 2 a r (mkgen [0; 30] p))) None.
Definition turned : R := degrees (rmod (radians (0 + 0)) (2 * PI)).
Definition deg5 (l : list R) : list R := map (fun a => degrees (radians a)) l.
Definition saw (i : Z) (l : list R) : list event :=
  let v := mkview false 0 (Some (HArray (map radians l))) [0; 0; 0; 0; 0] 0 in
  let t := [INR 2; INR 3; INR 4; INR 5; INR 6] in
  [EPoint whole [0; 0; 0; 0; 0]; EScan (Main i) v t; EBin i v t].
Definition from0 : list R := [0 + 0; 0 + 0; 0 + 30; 0 + 30; 0 + 0].
Lemma stage1 : stage 0 0 (hwp_strat Stepped) (hwp_at turned 1 1) None (saw 1 from0) (deg5 from0).
Proof. run_stage. Qed.
Lemma stage2 : stage 1 1 (hwp_at turned 1 1) (hwp_at turned 1 1) (Some [(whole, false)]) (saw 4 from0) (deg5 from0).
Proof. run_stage. Qed.
Definition later : list R := [0 + turned; 0 + 30; 0 + 30; 0 + 0; 0 + 0].
Lemma stage3 : stage 0 0 (hwp_at turned 1 1) (hwp_at turned 0 1) (Some [(whole, false)]) (saw 1 later) (deg5 later).
Proof. run_stage. Qed.
Lemma stage4 : stage 1 1 (hwp_at turned 0 1) (hwp_at turned 1 1) (Some [(whole, false)]) (saw 4 from0) (deg5 from0).
Proof. run_stage. Qed.

Definition ready u ch hw lg (s : state nat) : Prop :=
  exists mp bo gb hp td q dat pt, s = mkstate u two_b ch mp None bo gb hp td q dat pt hw lg.
Lemma both u u1 u2 ch e1 e2 h1 h2 : stage 0 0 u u1 ch e1 h1 -> stage 1 1 u1 u2 (Some [(whole, false)]) e2 h2 ->
  forall hw lg s, ready u ch hw lg s -> exists s' hw' t, scan_instrument ex_env (ex_opts false true) s = Ok s'
    /\ ready u2 (Some [(whole, false)]) hw' (lg ++ e1 ++ e2) s' /\ hw' 0%nat = h2 ++ t.
Proof.
  intros A1 A2 hw lg s (mp & bo & gb & hp & td & q & dat & pt & ->).
  destruct (A1 mp bo gb hp td q dat pt hw lg) as (mp1 & bo1 & gb1 & hp1 & td1 & q1 & dat1 & pt1 & hw1 & lg1 & t1 & R1 & -> & _).
  destruct (A2 mp1 bo1 gb1 hp1 td1 q1 dat1 pt1 hw1 (lg ++ e1)) as (mp2 & bo2 & gb2 & hp2 & td2 & q2 & dat2 & pt2 & hw2 & lg2 & t2 & R2 & -> & T2).
  eexists _, hw2, t2. split; [|split; [|exact T2]].
  - unfold scan_instrument. cbn [o_alm ex_opts o_preview negb andb o_memmap]. cbv zeta.
    change (rank_iterations _ _ _ _ _ _) with [Some 0%nat; Some 1%nat]. cbn [scan_pairs].
    rewrite R1. cbn [bind]. rewrite R2. cbn [bind]. reflexivity.
  - rewrite <- app_assoc. unfold ready. do 8 eexists. reflexivity.
Qed.
Lemma start_ready : ready (hwp_strat Stepped) None (fun _ => []) [] hwp_two.
Proof. unfold ready. do 8 eexists. reflexivity. Qed.

Lemma two_runs : exists s', scan_instrument ex_env (ex_opts false true) hwp_two = Ok s'.
Proof. destruct (both _ _ _ _ _ _ _ _ stage1 stage2 _ _ _ start_ready) as (s' & _ & _ & R & _). eauto. Qed.
Lemma two_observes : observes ex_env (ex_opts false true) hwp_two ex_b /\ observes ex_env (ex_opts false true) hwp_two ex_c.
Proof.
  split; (split; [reflexivity|]).
  - exists 0%nat, (Some ex_b, None). split; [reflexivity|]. split; [now left|]. cbn; auto.
  - exists 1%nat, (Some ex_c, None). split; [reflexivity|]. split; [now left|]. cbn; auto.
Qed.

Lemma second_hwp_wrong : exists (E : env nat) O s s1 s2 new chunks d v,
  well_set E O s /\ o_save_point O = true /\ o_ground O = false
  /\ scan_instrument E O s = Ok s1 /\ scan_instrument E O s1 = Ok s2
  /\ s_log s2 = s_log s1 ++ new /\ chunks_used E s1 = Ok chunks
  /\ observes E O s1 d /\ In v (sky_views (d_id d) new)
  /\ ~ saved_in chunks (data_hwp s2) (v_start v) (map (hwp_reading v) (seq 0 (length (v_bore v)))).
Proof.
  destruct (both _ _ _ _ _ _ _ _ stage1 stage2 _ _ _ start_ready) as (s1 & hw1 & t1 & R1 & (mp1 & bo1 & gb1 & hp1 & td1 & q1 & dat1 & pt1 & E1) & _).
  assert (X : ready (hwp_at turned 1 1) (Some [(whole, false)]) hw1 ([] ++ saw 1 from0 ++ saw 4 from0) s1) by (unfold ready; eauto 10).
  destruct (both _ _ _ _ _ _ _ _ stage3 stage4 _ _ _ X) as (s2 & hw2 & t2 & R2 & (mp2 & bo2 & gb2 & hp2 & td2 & q2 & dat2 & pt2 & E2) & T2).
  exists ex_env, (ex_opts false true), hwp_two, s1, s2, (saw 1 later ++ saw 4 from0), [whole], ex_b,
    (mkview false 0 (Some (HArray (map radians later))) [0; 0; 0; 0; 0] 0).
  split; [exact two_well|]. do 2 (split; [reflexivity|]). split; [exact R1|]. split; [exact R2|].
  split; [rewrite E1, E2; reflexivity|]. split; [rewrite E1; reflexivity|].
  split; [rewrite E1; split; [reflexivity|]; exists 0%nat, (Some ex_b, None); split; [reflexivity|]; split; [now left|]; cbn; auto|].
  split; [cbn; left; reflexivity|].
  intros (k & c & ar & Hk & Hg & _ & _ & _ & Hn).
  destruct k as [|k]; [|destruct k; discriminate]. cbn in Hk. injection Hk as <-.
  rewrite E2 in Hg. unfold data_hwp in Hg. cbn [c_cidx whole s_hwps] in Hg. rewrite T2 in Hg.
  cbn [deg5 from0 map app] in Hg. injection Hg as <-. specialize (Hn 1%nat).
  rewrite map_length, seq_length in Hn. specialize (Hn ltac:(cbn; lia)). cbn -[radians degrees] in Hn.
  injection Hn as Hn. assert (G : forall x, x * 180 / PI = degrees x) by reflexivity.
  rewrite ?G, ?degrees_radians in Hn. lra.
Qed.
