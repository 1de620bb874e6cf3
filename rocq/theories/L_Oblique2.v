(** * Stacks that give out more light than they receive *)
From Coq Require Import Reals Lra Psatz.
From Verif Require Import Common Cplx Mat M_Mueller S_Mueller M_Transfer S_Transfer L_Mueller L_Jones L_Layer L_Layer2 L_Power
  L_Stack L_Stack2 L_Waveplate L_Plate L_Normal L_Axis L_Oblique.
Open Scope R_scope.

(** A stack of one layer in air. *)
Lemma one_layer (m : material) t chi f th M : transferMatrix m t f (sin th) chi = Ok M ->
  exists x, stackTransferMatrix (stack_of [(t, m, chi)]) f th 0 1 1 = Ok x
    /\ st_total x = M /\ st_inputIndex x = 1 /\ st_exitIndex x = 1 /\ st_incidenceAngle x = th
    /\ st_exitAngle x = Some (asin (sin th)).
Proof.
  intros E. destruct (stack_product [(t, m, chi)] f th 0 1 1 [M]) as (x & EX & _ & P & A & B & D & F).
  { constructor; [|constructor]. cbn [fst snd]. now rewrite Rmult_1_r, Rplus_0_r. }
  exists x. split; [exact EX|]. split; [rewrite P; apply mmul4_eye_r|]. repeat (split; [assumption|]).
  rewrite F by discriminate. do 2 f_equal. field.
Qed.

(** ** A plate that amplifies *)
Definition bright : material := Material (29 / 25) (29 / 35 * sqrt (9608 / 641)) 0 0.
Definition bright_f : R := 1000000000 * (1499 / 6).

Lemma bright_root : sqrt (9608 / 641) ^ 2 = 9608 / 641.
Proof. apply pow2_sqrt. lra. Qed.
Lemma bright_root_bounds : 387 / 100 < sqrt (9608 / 641) < 388 / 100.
Proof.
  pose proof bright_root as E. pose proof (sqrt_pos (9608 / 641)) as P. split; nra.
Qed.

Lemma bright_transparent : transparent (4 / 5) bright /\ passive bright /\ lossless bright.
Proof.
  pose proof bright_root_bounds. unfold transparent, passive, lossless, bright. cbn [ordinaryIndex extraIndex ordinaryLoss extraLoss].
  rewrite Rabs_right by lra. repeat split; lra.
Qed.

Lemma bright_index : extra_index bright (4 / 5) (PI / 4) = 20 / 7.
Proof.
  destruct (extra_index_sq bright (4 / 5) (PI / 4)) as (P & E & _); [apply bright_transparent|].
  rewrite cos_PI4 in E. cbn [bright ordinaryIndex extraIndex] in E.
  assert (S2 : (1 / sqrt 2) ^ 2 = 1 / 2).
  { assert (0 < sqrt 2) by (apply sqrt_lt_R0; lra). assert (F2 : sqrt 2 * sqrt 2 = 2) by (apply sqrt_sqrt; lra).
    apply (Rmult_eq_reg_r (sqrt 2 * sqrt 2)); [field_simplify; lra|nra]. }
  rewrite S2, Rpow_mult_distr, bright_root in E. fold bright in E.
  set (z := extra_index bright (4 / 5) (PI / 4)) in *. clearbody z.
  assert (F : (z - 20 / 7) * (z + 20 / 7) = 0) by (replace ((z - 20 / 7) * (z + 20 / 7)) with (z ^ 2 - 400 / 49) by field; lra).
  apply Rmult_integral in F. lra.
Qed.

Definition bright_matrix : rmat4 :=
  V4 (V4 (-1250000 / 1689569) 0 (439569 / 1689569) 0)
     (V4 0 (-343351 / 894601) 0 (1051250 / 894601))
     (V4 (2939569 / 1689569) 0 (1250000 / 1689569) 0)
     (V4 0 (649152 / 894601) 0 (343351 / 894601)).

Lemma bright_layer : transferMatrix bright (35 / 1000) bright_f (4 / 5) (PI / 4) = Ok (cmat bright_matrix).
Proof.
  destruct bright_transparent as (T & _ & L).
  rewrite (half_wave bright (4 / 5) (35 / 1000) bright_f (21 / 29) (24 / 25) 24 80); try assumption; try lra;
    rewrite ?bright_index; cbn [bright ordinaryIndex].
  - do 2 f_equal. unfold flip, bright_matrix. apply v4_eq; apply v4_eq; mcbn; field.
  - field.
  - field.
  - unfold wavenumber, bright_f. rewrite INR_IZR_INZ. cbn [Z.of_nat Pos.of_succ_nat Pos.succ]. field.
  - unfold wavenumber, bright_f. rewrite INR_IZR_INZ. cbn [Z.of_nat Pos.of_succ_nat Pos.succ]. field.
Qed.

Definition slant : R := asin (4 / 5).
Lemma slant_sin : sin slant = 4 / 5.
Proof. apply sin_asin. lra. Qed.
Lemma slant_cos : cos slant = 3 / 5.
Proof.
  unfold slant. rewrite cos_asin by lra. replace (1 - (4 / 5)²) with ((3 / 5) ^ 2) by (unfold Rsqr; field).
  apply sqrt_pow2. lra.
Qed.

Definition bright_stack : list layer := [(35 / 1000, bright, PI / 4)].
Definition bright_J : mat2 :=
  V2 (V2 (RtoC (-1698366455719 / 2893234221394)) (RtoC (1721093758365 / 2893234221394)))
     (V2 (RtoC (17029116563307 / 14466171106970)) (RtoC (1698366455719 / 2893234221394))).
Definition bright_K : mat2 :=
  V2 (V2 (RtoC (159924533625 / 2893234221394)) (RtoC (536893407135 / 2893234221394)))
     (V2 (RtoC (3734088132843 / 14466171106970)) (RtoC (159924533625 / 2893234221394))).

Lemma bright_jones rfl : Jones (stack_of bright_stack) bright_f slant 0 1 1 rfl = Ok (if rfl then bright_K else bright_J).
Proof.
  pose proof bright_layer as E. rewrite <- slant_sin in E.
  destruct (one_layer _ _ _ _ _ _ E) as (x & EX & TT & N1 & N3 & TH & EA). fold bright_stack in EX. fold slant in EA.
  rewrite slant_sin in EA. fold slant in EA.
  destruct (jones_solves x slant) as (J & K & EJ & SC).
  { exact EA. } { rewrite N1. lra. } { rewrite TH, slant_cos. lra. }
  { intros D. destruct (denominator_emits x slant) as (t & r & NZ & SC); try assumption.
    { rewrite N1. lra. } { rewrite TH, slant_cos. lra. }
    apply NZ. rewrite TT, N1, N3, TH in SC. unfold scatters, fields, no_wave in SC. rewrite slant_cos in SC.
    destruct t as [[a a'] [b b']], r as [[c c'] [d d']]. unfold bright_matrix in SC. revert SC. mcbn. cexpand.
    intros SC. injection SC as E1 E2 E3 E4 E5 E6 E7 E8. unfold no_wave, RtoC. repeat f_equal; lra. }
  rewrite TT, N1, N3, TH in SC.
  assert (S : forall e, scatters (cmat bright_matrix) 1 slant 1 slant e (mvec2 bright_J e) (mvec2 bright_K e)).
  { intros [[a a'] [b b']]. unfold scatters, fields, bright_matrix, bright_J, bright_K, no_wave. rewrite slant_cos.
    apply v4_eq; mcbn; apply C_eq; cexpand; field. }
  unfold Jones. rewrite EX. cbn [bind]. rewrite EJ. cbn [bind]. f_equal.
  destruct rfl; apply mat2_ext; intros e; destruct (proj1 (SC _ _ _) (S e)); now symmetry.
Qed.

Lemma bright_exit : asin (sin slant * 1 / 1) = slant.
Proof. replace (sin slant * 1 / 1) with (sin slant) by field. now rewrite slant_sin. Qed.

Lemma bright_ok : bright_stack <> [] /\ 0 <= bright_f /\ 0 < cos slant /\ Rabs (sin slant * 1) < 1
  /\ forall x, In x bright_stack -> transparent (sin slant * 1) (snd (fst x)) /\ lossless (snd (fst x)) /\ 0 <= fst (fst x).
Proof.
  rewrite slant_cos, slant_sin, Rmult_1_r, Rabs_right by lra.
  split; [discriminate|]. split; [unfold bright_f; lra|]. split; [lra|]. split; [lra|].
  intros x [<-|[]]. cbn [fst snd]. destruct bright_transparent as (A & _ & B). repeat split; try apply A; try apply B. lra.
Qed.

(** Light in the plane of incidence comes out with more than 1.7 times its power. *)
Lemma power_gained : exists (l : list layer) (f th : R) (J K : mat2) (e : v2 C), let th3 := asin (sin th * 1 / 1) in
  l <> [] /\ 0 <= f /\ 0 < cos th /\ Rabs (sin th * 1) < 1
  /\ (forall x, In x l -> transparent (sin th * 1) (snd (fst x)) /\ lossless (snd (fst x)) /\ 0 <= fst (fst x))
  /\ Jones (stack_of l) f th 0 1 1 false = Ok J /\ Jones (stack_of l) f th 0 1 1 true = Ok K
  /\ 17 / 10 * (1 * cos th * intensity e) < 1 * cos th3 * intensity (mvec2 J e) + 1 * cos th * intensity (mvec2 K e)
  /\ 0 < intensity e.
Proof.
  exists bright_stack, bright_f, slant, bright_J, bright_K, ex.
  destruct bright_ok as (A & B & D & E & F). cbv zeta. repeat (split; [assumption|]).
  split; [apply (bright_jones false)|]. split; [apply (bright_jones true)|].
  rewrite bright_exit, slant_cos. unfold intensity, Cnorm2, ex, bright_J, bright_K. mcbn. cexpand. lra.
Qed.

(** Unpolarised light is transmitted with more than 1.2 times its power. *)
Lemma light_gained : exists (l : list layer) (f th : R) (T : rmat4), let th3 := asin (sin th * 1 / 1) in
  l <> [] /\ 0 <= f /\ 0 < cos th /\ Rabs (sin th * 1) < 1
  /\ (forall x, In x l -> transparent (sin th * 1) (snd (fst x)) /\ lossless (snd (fst x)) /\ 0 <= fst (fst x))
  /\ Mueller (stack_of l) f th 0 1 1 false = Ok T
  /\ 12 / 10 * (1 * cos th * e0 (V4 1 0 0 0)) < 1 * cos th3 * e0 (rmvec4 T (V4 1 0 0 0)).
Proof.
  exists bright_stack, bright_f, slant, (JonesToMueller bright_J).
  destruct bright_ok as (A & B & D & E & F). cbv zeta. repeat (split; [assumption|]).
  split; [apply mueller_of_jones, (bright_jones false)|].
  rewrite bright_exit, slant_cos.
  assert (X : e0 (rmvec4 (JonesToMueller bright_J) (V4 1 0 0 0)) = e0 (e0 (JonesToMueller bright_J))).
  { generalize (JonesToMueller bright_J). intros m. mcbn. destruct m as [[]]. ring. }
  rewrite X, mueller_II. unfold intensity, Cnorm2, ex, ey, bright_J. mcbn. cexpand. lra.
Qed.

(** The same plate in front of a detector away from the centre. *)
Lemma hwp_away : exists az freq t nO nE a s T, 0 < az < 90 /\ 0 < freq /\ 0 < t /\ 1 < nO /\ 1 < nE
  /\ set_hwp_mueller az 0 freq (HwpArgs None (Some [t]) (Some [[nO; nE]]) (Some [[0; 0]]) (Some [a])) = Ok (s, T)
  /\ 12 / 10 < e0 (rmvec4 T (V4 1 0 0 0)).
Proof.
  exists (slant * 180 / PI), (1499 / 6), 35, (29 / 25), (29 / 35 * sqrt (9608 / 641)), (PI / 4),
    (stack_of bright_stack), (JonesToMueller bright_J).
  pose proof PI_RGT_0 as PP. pose proof bright_root_bounds as RB.
  assert (S0 : 0 < slant < PI / 2).
  { pose proof slant_sin as Q. unfold slant in *. pose proof (asin_bound_lt (4 / 5)) as AB.
    split; [|apply AB; lra]. apply Rnot_le_lt. intros H.
    assert (0 <= sin (- asin (4 / 5))); [apply sin_ge_0; lra|]. rewrite sin_neg in *. lra. }
  assert (A0 : slant * 180 / PI * PI / 180 = slant) by (field; lra).
  assert (A1 : 0 < slant * 180 / PI < 90).
  { split; [apply Rdiv_lt_0_compat; lra|]. apply (Rmult_lt_reg_r PI); [assumption|].
    replace (slant * 180 / PI * PI) with (slant * 180) by (field; lra). lra. }
  split; [assumption|]. split; [lra|]. split; [lra|]. split; [lra|]. split; [lra|]. split.
  - unfold set_hwp_mueller. cbn [a_model a_thick a_indices a_losses a_angles].
    pose proof (builder_ok [(35, (29 / 25, 29 / 35 * sqrt (9608 / 641)), (0, 0), PI / 4)]) as B.
    cbn [map fst snd] in B. unfold row_of in B. cbn [map fst snd] in B. rewrite B. cbn [bind]. clear B.
    replace (0 ^ 2 + (slant * 180 / PI) ^ 2) with ((slant * 180 / PI) ^ 2) by ring.
    rewrite sqrt_pow2 by lra. rewrite A0. unfold compute_mueller.
    fold bright bright_stack bright_f. rewrite (mueller_of_jones _ _ _ _ _ _ _ _ (bright_jones false)). reflexivity.
  - assert (X : e0 (rmvec4 (JonesToMueller bright_J) (V4 1 0 0 0)) = e0 (e0 (JonesToMueller bright_J))).
    { generalize (JonesToMueller bright_J). intros m. mcbn. destruct m as [[]]. ring. }
    rewrite X, mueller_II. unfold intensity, Cnorm2, ex, ey, bright_J. mcbn. cexpand. lra.
Qed.

(** ** A plate that shines by itself *)
Definition glow_sin : R := sqrt (11762 / 12337).
Definition glow : material := Material (glow_sin * (13 / 12)) (glow_sin * 13 * sqrt (313 / 4850)) 0 0.
Definition glow_f : R := 30 / glow_sin * 299800000.
Definition glow_th : R := asin glow_sin.

Lemma glow_pos : 0 < glow_sin < 1 /\ glow_sin ^ 2 = 11762 / 12337.
Proof.
  assert (0 < glow_sin) by (apply sqrt_lt_R0; lra).
  assert (glow_sin ^ 2 = 11762 / 12337) by (apply pow2_sqrt; lra). split; [split|]; nra.
Qed.

Lemma glow_angle : sin glow_th = glow_sin /\ 0 < cos glow_th /\ cos glow_th ^ 2 = 575 / 12337.
Proof.
  destruct glow_pos as (P & E). unfold glow_th. rewrite sin_asin, cos_asin by lra. split; [reflexivity|].
  replace (1 - glow_sin²) with (575 / 12337) by (rewrite Rsqr_pow2, E; field).
  split; [apply sqrt_lt_R0; lra|apply pow2_sqrt; lra].
Qed.

Lemma glow_root : 25 / 100 < sqrt (313 / 4850) /\ sqrt (313 / 4850) ^ 2 = 313 / 4850.
Proof.
  assert (E : sqrt (313 / 4850) ^ 2 = 313 / 4850) by (apply pow2_sqrt; lra).
  pose proof (sqrt_pos (313 / 4850)). split; [nra|exact E].
Qed.

Lemma glow_transparent : transparent glow_sin glow /\ lossless glow.
Proof.
  destruct glow_pos as (P & _), glow_root as (Q & _). unfold transparent, lossless, glow.
  cbn [ordinaryIndex extraIndex ordinaryLoss extraLoss]. rewrite Rabs_right by lra. repeat split; nra.
Qed.

Lemma glow_index : extra_index glow glow_sin (PI / 4) = glow_sin * (13 / 5).
Proof.
  destruct (extra_index_sq glow glow_sin (PI / 4)) as (P & E & _); [apply glow_transparent|].
  destruct glow_pos as (P1 & _), glow_root as (_ & Q).
  rewrite cos_PI4 in E.
  assert (S2 : (1 / sqrt 2) ^ 2 = 1 / 2).
  { assert (0 < sqrt 2) by (apply sqrt_lt_R0; lra). assert (F2 : sqrt 2 * sqrt 2 = 2) by (apply sqrt_sqrt; lra).
    apply (Rmult_eq_reg_r (sqrt 2 * sqrt 2)); [field_simplify; lra|nra]. }
  rewrite S2 in E.
  set (z := extra_index glow glow_sin (PI / 4)) in *. clearbody z. cbn [glow ordinaryIndex extraIndex] in E.
  rewrite !Rpow_mult_distr, Q in E.
  assert (E' : z ^ 2 = (glow_sin * (13 / 5)) ^ 2) by (rewrite E; field; lra).
  assert (F : (z - glow_sin * (13 / 5)) * (z + glow_sin * (13 / 5)) = 0).
  { replace ((z - glow_sin * (13 / 5)) * (z + glow_sin * (13 / 5))) with (z ^ 2 - (glow_sin * (13 / 5)) ^ 2) by ring. lra. }
  apply Rmult_integral in F. lra.
Qed.

Lemma glow_layer : transferMatrix glow 1 glow_f glow_sin (PI / 4)
  = Ok (cmat (flip (48 / 25) (263 / 313) (338 / 313) (14400 / 52897))).
Proof.
  destruct glow_transparent as (T & L). destruct glow_pos as (P & _).
  rewrite (half_wave glow glow_sin 1 glow_f (5 / 13) (12 / 13) 12 72); try assumption; try lra;
    rewrite ?glow_index; cbn [glow ordinaryIndex].
  - assert (A : glow_sin / (glow_sin * (13 / 12)) = 12 / 13) by (field; lra).
    assert (B : glow_sin / (glow_sin * (13 / 5)) = 5 / 13) by (field; lra).
    rewrite A, B. do 2 f_equal. f_equal; field.
  - field. lra.
  - field. lra.
  - unfold wavenumber, glow_f. rewrite INR_IZR_INZ. cbn [Z.of_nat Pos.of_succ_nat Pos.succ]. field. lra.
  - unfold wavenumber, glow_f. rewrite INR_IZR_INZ. cbn [Z.of_nat Pos.of_succ_nat Pos.succ]. field. lra.
Qed.

Lemma glowing : exists (l : list layer) (f th : R) (x : stackTransfer) (t r : v2 C), let th3 := asin (sin th * 1 / 1) in
  l <> [] /\ 0 <= f /\ 0 < cos th /\ Rabs (sin th * 1) < 1
  /\ (forall y, In y l -> transparent (sin th * 1) (snd (fst y)) /\ lossless (snd (fst y)) /\ 0 <= fst (fst y))
  /\ stackTransferMatrix (stack_of l) f th 0 1 1 = Ok x
  /\ scatters (st_total x) 1 th 1 th3 no_wave t r /\ 0 < intensity t.
Proof.
  pose proof glow_layer as E. destruct glow_angle as (SS & CP & CC). destruct glow_pos as (GP & _).
  rewrite <- SS in E. destruct (one_layer _ _ _ _ _ _ E) as (x & EX & TT & _).
  pose (c := cos glow_th).
  pose (t0 := 1 - 48 / 25 + 338 / 313 * (c * c)). pose (t1 := c * (48 / 25 + 263 / 313)).
  pose (r0 := - (263 / 313) * t0 + 338 / 313 * c * t1). pose (r1 := (1 + 48 / 25) * c * t0 + 48 / 25 * t1).
  exists [(1, glow, PI / 4)], glow_f, glow_th, x, (V2 (RtoC t0) (RtoC t1)), (V2 (RtoC r0) (RtoC r1)). cbv zeta.
  assert (TH : asin (sin glow_th * 1 / 1) = glow_th).
  { replace (sin glow_th * 1 / 1) with (sin glow_th) by field. rewrite SS. reflexivity. }
  rewrite TH, SS, Rmult_1_r, Rabs_right by lra.
  destruct glow_transparent as (T & L).
  split; [discriminate|]. split.
  { unfold glow_f. apply Rmult_le_pos; [|lra]. left. apply Rdiv_lt_0_compat; lra. }
  split; [assumption|]. split; [lra|]. split.
  { intros y [<-|[]]. cbn [fst snd]. repeat split; try apply T; try apply L. lra. }
  split; [exact EX|]. rewrite TT. split.
  - unfold scatters, fields, flip, no_wave. fold c.
    assert (CC' : c * c = 575 / 12337) by (unfold c; lra).
    assert (T0 : t0 = 1 - 48 / 25 + 338 / 313 * (575 / 12337)) by (unfold t0; now rewrite CC').
    assert (C3 : c * c * c = 575 / 12337 * c) by now rewrite CC'. clearbody c.
    apply v4_eq; mcbn; apply C_eq; cexpand; unfold r0, r1, t1; rewrite T0; lra.
  - assert (0 < t1) by (unfold t1, c; nra). unfold intensity, Cnorm2. mcbn. cexpand. nra.
Qed.

(** ** Stacks with any axes *)
Lemma stack_determined (l : list layer) f th rot n1 n3 :
  l <> [] -> 0 < n1 -> 0 < n3 -> 0 < cos th ->
  (forall x, In x l -> transparent (sin th * n1) (snd (fst x))) ->
  exists x, let th3 := asin (sin th * n1 / n3) in
    stackTransferMatrix (stack_of l) f th rot n1 n3 = Ok x
    /\ ((forall t r, scatters (st_total x) n1 th n3 th3 no_wave t r -> t = no_wave)
        <-> exists J K, Jones (stack_of l) f th rot n1 n3 false = Ok J
            /\ Jones (stack_of l) f th rot n1 n3 true = Ok K
            /\ (forall e t r, scatters (st_total x) n1 th n3 th3 e t r <-> t = mvec2 J e /\ r = mvec2 K e)).
Proof.
  intros NE N1 N3 CT HL. destruct (stack_matrices f (sin th * n1) rot l HL) as (ts & E & _).
  rewrite !stack_spec. rewrite E. cbn [bind]. eexists. cbv zeta. split; [reflexivity|].
  set (x := StackTransfer _ _ _ _ _ _).
  assert (EX : stackTransferMatrix (stack_of l) f th rot n1 n3 = Ok x) by (rewrite stack_spec, E; reflexivity).
  assert (EA : st_exitAngle x = Some (asin (sin th * n1 / n3))) by (cbn; destruct l; [tauto|reflexivity]).
  split.
  - intros H. destruct (Ceq_dec (jones_denominator x (asin (sin th * n1 / n3))) (RtoC 0)) as [D|D].
    + destruct (denominator_emits x _ ltac:(cbn; lra) ltac:(cbn; lra) D) as (t & r & NZ & SC).
      elim NZ. exact (H t r SC).
    + destruct (jones_solves x _ EA ltac:(cbn; lra) ltac:(cbn; lra) D) as (J & K & EJ & SC).
      exists J, K. unfold Jones. rewrite EX. cbn [bind]. rewrite EJ. split; [reflexivity|]. split; [reflexivity|exact SC].
  - intros (J & K & _ & _ & SC) t r S. apply SC in S. destruct S as [-> _].
    destruct J as [[[a a'] [b b']] [[c c'] [d d']]]. unfold no_wave. apply v2_eq; mcbn; apply C_eq; cexpand; ring.
Qed.

Lemma glowing_undetermined : exists (l : list layer) (f th : R) (x : stackTransfer), let th3 := asin (sin th * 1 / 1) in
  l <> [] /\ 0 <= f /\ 0 < cos th /\ Rabs (sin th * 1) < 1
  /\ (forall y, In y l -> transparent (sin th * 1) (snd (fst y)) /\ lossless (snd (fst y)) /\ 0 <= fst (fst y))
  /\ stackTransferMatrix (stack_of l) f th 0 1 1 = Ok x
  /\ (exists t r, scatters (st_total x) 1 th 1 th3 no_wave t r /\ 0 < intensity t)
  /\ ~ exists J K, forall e t r, scatters (st_total x) 1 th 1 th3 e t r <-> t = mvec2 J e /\ r = mvec2 K e.
Proof.
  destruct glowing as (l & f & th & x & t & r & A & B & D & E & F & G & SC & P).
  exists l, f, th, x. cbv zeta in *. repeat (split; [assumption|]). split; [eauto|].
  intros (J & K & H). apply H in SC. destruct SC as [-> _].
  assert (Z : mvec2 J no_wave = no_wave).
  { destruct J as [[[a a'] [b b']] [[c c'] [d d']]]. unfold no_wave. apply v2_eq; mcbn; apply C_eq; cexpand; ring. }
  rewrite Z, intensity_no_wave in P. lra.
Qed.
