(** * Maps from pairs with cross-talk *)
From Coq Require Import Reals String Lra Lia Permutation.
From Verif Require Import Common LibList M_Chunks M_Quat M_Hwp M_Detpair M_Scan M_Bin S_Chunks S_Quat S_Hwp S_Detpair S_Scan S_Saved S_Contrib
  L_Quat L_Chunks L_Mpi L_Detpair L_Scan L_Scan2 L_Scan3 L_Scan4 L_Scan5 L_Scan6 L_Scan7 L_Scan8 L_Scan9 L_Scan16 L_Scan17 L_Contrib L_Contrib2.
From Verif Require Import M_Tod S_Tod L_Tod L_Tod2 L_Tod3 S_Bin S_Talk L_Bin L_Bin2 Cplx.
From Verif Require M_Solve S_Solve L_Solve.
Local Notation length := List.length.
Open Scope R_scope.

Section R.
  Context (P : optics) (npix : nat) (SD : sound P npix).

  Lemma talk_seen m0 m2 err E O s s' new c o : length m0 = npix -> length m2 = npix ->
    observed_pairs P m0 m2 err E O s s' new -> In c (bin_calls_of P new) -> In o (M_Solve.c_samples c) ->
    S_Solve.seen_from (fun p => talked (o_ctalk O) (stokes (x_sign P) m0 m2 (err + 2 * x_varphi P) p)) o /\ S_Solve.on_circle o.
  Proof.
    intros L0 L2 [W Rt SK RD PA DS MP SG H L] Hc Ho.
    destruct (in_bin_calls P new c Hc) as (i & v & t & Hin & -> & _) in Ho.
    apply in_bin_from in Ho. destruct Ho as (j & Hj & ->). cbn [plus].
    destruct (bin_observes E O s s' new i v t W SK H L Hin) as (d & <- & Hd & OB).
    destruct (bin_shape E O s s' new (d_id d) v t W Rt SK H L Hin) as (VG & LT & AN).
    destruct OB as (Dd & k & p & Hp & Hdp & _).
    destruct (RD p d (nth_error_In _ _ Hp) Hdp Dd) as (a & ob & -> & PR).
    destruct (PA a ob (nth_error_In _ _ Hp)) as [(b & -> & Da & Db & QO & PL)|Dead]; [|rewrite (Dead d Hdp) in Dd; discriminate].
    destruct (contribution E O s s' new k a (Some b) W SK H L Hp PR) as (x & ba & bb & MB & GA & GB & X).
    specialize (X d Hdp Dd v t (proj2 (bins_in (d_id d) new v t) Hin)).
    assert (SM := MP a _ x (nth_error_In _ _ Hp) MB).
    assert (INab : In a (dets (s_beams s)) /\ In b (dets (s_beams s))).
    { unfold dets. split; apply in_flat_map; exists (Some a, Some b); (split; [eapply nth_error_In; exact Hp|cbn; auto]). }
    destruct INab as [Ia Ib]. destruct (DS a Ia Da) as [NGa ERa]. destruct (DS b Ib Db) as [NGb ERb].
    assert (VAL : forall d', In d' [a; b] -> e_signal E (Main (d_id d')) x v j =
       let at_ := x_look P (scan_q_det P (d_id d') v j) in Re (nth (fst at_) m0 (RtoC 0))
         + Re (nth (fst at_) m2 (RtoC 0)
               * cis (2 * (snd at_ * PI / 180 + polang_truth P (d_id d') * PI / 180 + 2 * bin_hwp v j)))%C).
    { intros d' _. destruct (seen_tod P npix SD m0 m2 x (d_id d') v SM L0 L2 AN) as (tod & VT & LN & VAL).
      rewrite (SG (d_id d') x v _ j VG VT). change (RtoC 0) with ((fun r => RtoC r) 0). rewrite map_nth. cbn [RtoC Re fst].
      apply VAL. lia. }
    assert (Va := VAL a (or_introl eq_refl)). assert (Vb := VAL b (or_intror (or_introl eq_refl))). clear VAL. cbv zeta in Va, Vb.
    assert (SC : scan_q_det P (d_id b) v j = scan_q_det P (d_id a) v j) by (unfold scan_q_det; now rewrite QO).
    assert (NE : (d_id b =? d_id a)%Z = false).
    { apply Z.eqb_neq. intros Eq. destruct (dets_split (s_beams s) k _ Hp) as (l1 & l2 & Eab).
      assert (ND' := ws_ids _ _ _ W). rewrite Eab, !map_app in ND'. apply nodup_middle in ND'. cbn in ND'.
      inversion ND' as [|? ? Hnot _]; subst. apply Hnot. rewrite <- Eq. now left. }
    rewrite SC in Vb.
    set (A := e_signal E (Main (d_id a)) x v j) in *. set (B := e_signal E (Main (d_id b)) x v j) in *.
    assert (HV : nth j t 0 = if (d_id d =? d_id a)%Z then A + o_ctalk O * B else B + o_ctalk O * A).
    { rewrite X, nth_map_seq by exact Hj. unfold own_signal. cbn [live]. rewrite Da, Db, NGa, NGb. cbn [ghost_signal].
      fold A B. destruct (_ =? _)%Z; ring. }
    set (pt := x_look P (scan_q_det P (d_id a) v j)) in *.
    set (w := snd pt * PI / 180 + polang_truth P (d_id a) * PI / 180 + 2 * bin_hwp v j) in *.
    set (z0 := nth (fst pt) m0 (RtoC 0)) in *. set (z2 := nth (fst pt) m2 (RtoC 0)) in *.
    assert (Vb' : B = Re z0 - Re (z2 * cis (2 * w))%C).
    { rewrite Vb. replace (2 * (snd pt * PI / 180 + polang_truth P (d_id b) * PI / 180 + 2 * bin_hwp v j)) with (2 * w + PI).
      - unfold cis. rewrite neg_cos, neg_sin. destruct z0, z2. unfold Cmul, Re, Im. cbn [fst snd]. ring.
      - unfold w, polang_truth. rewrite PL, ERa, ERb. field. }
    assert (HV2 : nth j t 0 = (1 + o_ctalk O) * Re z0
      + (1 - o_ctalk O) * Re (z2 * cis (2 * (snd pt * PI / 180 + polang_truth P (d_id d) * PI / 180 + 2 * bin_hwp v j)))%C
      /\ x_look P (scan_q_det P (d_id d) v j) = pt /\ x_error P (d_id d) = err).
    { destruct Hdp as [<-|[<-|[]]].
      - rewrite Z.eqb_refl in HV. rewrite HV, Va, Vb'. fold w. repeat split; [ring|exact ERa].
      - rewrite NE in HV. rewrite SC. fold pt. repeat split; [|exact ERb]. rewrite HV, Va, Vb'.
        replace (2 * (snd pt * PI / 180 + polang_truth P (d_id b) * PI / 180 + 2 * bin_hwp v j)) with (2 * w + PI).
        + unfold cis. rewrite neg_cos, neg_sin. destruct z0, z2. unfold Cmul, Re, Im. cbn [fst snd]. ring.
        + unfold w, polang_truth. rewrite PL, ERa, ERb. field. }
    destruct HV2 as (HV2 & PT & ER). clear HV X.
    destruct (bin_angle P npix SD (d_id d) v j (nth j t 0)) as (psi & Op & Ov & Oc & Os & SA). rewrite PT in Op, SA.
    destruct (sd_sign _ _ SD) as [Sg|Sg].
    all: split; [|unfold S_Solve.on_circle; rewrite Oc, Os, Sg; pose proof (sin2_cos2 (2 * psi)) as Q; unfold Rsqr in Q; lra].
    all: unfold S_Solve.seen_from, talked, stokes; cbv zeta; rewrite Op, Ov, Oc, Os, HV2; fold z0 z2.
    all: match goal with |- context [cis (2 * (?u + ?y + ?z))] =>
           replace (cis (2 * (u + y + z))) with (cis (2 * (psi + (err + 2 * x_varphi P) * PI / 180))) end;
      [|apply cis_angle; destruct SA as [n ->]; exists n; unfold polang_truth; rewrite ER; field].
    all: rewrite Rmult_plus_distr_l; unfold cis; rewrite cos_plus, sin_plus, Sg;
      destruct z0, z2; unfold Cmul, Re, Im; cbn [fst snd]; ring.
  Qed.

  Lemma talk_solved m0 m2 err nside (ranks : list nat) (maps0 : nat -> M_Solve.maps) (E : nat -> env spindict) O
    (s s' : nat -> state spindict) new gs well cond fill p :
    npix = (12 * nside ^ 2)%nat -> length m0 = npix -> length m2 = npix ->
    ranks <> [] -> (forall r, In r ranks -> observed_pairs P m0 m2 err (E r) O (s r) (s' r) (new r)) ->
    (forall r, In r ranks -> M_Solve.own_flag (maps0 r) = None) ->
    Forall2 (S_Solve.rank_maps nside) (map (fun r => (maps0 r, bin_calls_of P (new r))) ranks) gs ->
    (p < npix)%nat ->
    let seen := S_Solve.ranks_used (map (fun r => (maps0 r, bin_calls_of P (new r))) ranks) in
    S_Solve.three_angles p seen -> well (S_Solve.angle_sums (S_Solve.in_pixel p seen)) = true ->
    exists m c Q, M_Solve.solve_for_map well cond true 0 gs fill = (Some m, c, Some Q)
      /\ nth_error m p = Some (talked (o_ctalk O) (stokes (x_sign P) m0 m2 (err + 2 * x_varphi P) p)).
  Proof.
    intros Np L0 L2 NE OB OF F Hp seen T3 Wl.
    destruct (L_Solve.solve_root well cond fill nside _ gs
      (fun p => talked (o_ctalk O) (stokes (x_sign P) m0 m2 (err + 2 * x_varphi P) p)) p F) as (m & c & Q & H1 & H2 & _); auto.
    - intros X. apply map_eq_nil in X. auto.
    - intros o Ho. unfold S_Solve.ranks_used in Ho. rewrite map_map in Ho. apply in_concat in Ho.
      destruct Ho as (l & Hl & Ho). apply in_map_iff in Hl. destruct Hl as (r & <- & Hr). cbn [fst snd] in Ho.
      unfold S_Solve.all_used in Ho. apply in_concat in Ho. destruct Ho as (l & Hl & Ho).
      apply in_map_iff in Hl. destruct Hl as (c & <- & Hc).
      apply (talk_seen m0 m2 err (E r) O (s r) (s' r) (new r) c o L0 L2 (OB r Hr) Hc).
      unfold S_Solve.used in Ho. destruct (in_bin_calls P _ c Hc) as (d & v & t & _ & _ & FL).
      rewrite FL, (OF r Hr) in Ho. exact Ho.
    - rewrite <- Np. exact Hp.
    - exists m, c, Q. auto.
  Qed.
End R.

Lemma talk_samples P npix m0 m2 err E O s s' new c o :
  sound P npix -> length m0 = npix -> length m2 = npix ->
  observed_pairs P m0 m2 err E O s s' new -> In c (bin_calls_of P new) -> In o (M_Solve.c_samples c) ->
  let '(i, q, u) := stokes (x_sign P) m0 m2 (err + 2 * x_varphi P) (M_Solve.o_pix o) in
  M_Solve.o_val o
  = (1 + o_ctalk O) * i + (1 - o_ctalk O) * (q * M_Solve.o_cos o + u * M_Solve.o_sin o).
Proof.
  intros SD L0 L2 OB Hc Ho. destruct (talk_seen P npix SD m0 m2 err E O s s' new c o L0 L2 OB Hc Ho) as [S _].
  unfold S_Solve.seen_from in S. destruct (stokes _ _ _ _ _) as [[i q] u]. cbn [talked] in S. rewrite S. ring.
Qed.
