(** * From the scan to the solved map *)
From Coq Require Import Reals String Lra Lia Permutation.
From Verif Require Import Common LibList M_Chunks M_Quat M_Hwp M_Detpair M_Scan M_Bin S_Chunks S_Quat S_Hwp S_Detpair S_Scan S_Saved S_Contrib
  L_Quat L_Chunks L_Mpi L_Detpair L_Scan L_Scan2 L_Scan3 L_Scan4 L_Scan5 L_Scan6 L_Scan7 L_Scan8 L_Scan9 L_Scan16 L_Scan17 L_Contrib L_Contrib2.
From Verif Require Import M_Tod S_Tod L_Tod L_Tod2 L_Tod3 S_Bin L_Bin Cplx.
From Verif Require M_Solve S_Solve L_Solve.
Local Notation length := List.length.
Open Scope R_scope.

Lemma sky_view_ground d log v : In v (sky_views d log) -> v_ground v = false.
Proof.
  induction log as [|[c b|[d'|d' k] v' t|d' v' t] r IH]; cbn [sky_views In]; auto; [intros []|].
  destruct (d' =? d)%Z; cbn [andb]; auto. destruct (v_ground v') eqn:Eg; cbn [negb]; auto.
  intros [<-|H]; auto.
Qed.

Section O.
  Context {B : Type}.
  Implicit Types (s : state B) (E : env B).

  (** Who is binned observes. *)
  Lemma bin_observes E O s s' new i v t : well_set E O s -> sky_only O -> scan_instrument E O s = Ok s' ->
    s_log s' = s_log s ++ new -> In (EBin i v t) new -> exists d, d_id d = i /\ In d (dets (s_beams s)) /\ observes E O s d.
  Proof.
    intros W SK H L Hin. assert (Hk := bins_known E O s s' new i v t W H L Hin).
    apply in_map_iff in Hk. destruct Hk as (d & <- & Hd). exists d. split; [reflexivity|]. split; [exact Hd|].
    unfold dets in Hd. apply in_flat_map in Hd. destruct Hd as (p & Hp & Hd).
    apply In_nth_error in Hp. destruct Hp as (k & Hp).
    destruct SK as (_ & _ & _ & HF).
    destruct (scan_process E O s s') as (nw & Ln & Y); try apply W; auto.
    { intros _. apply W. }
    { intros m u u' Z. rewrite HF in Z. congruence. }
    rewrite L in Ln. apply app_inv_head in Ln. subst nw. destruct (Y k p d Hp Hd) as [_ Y2].
    assert (D : {In (Some k) (my_pairs E O s)} + {~ In (Some k) (my_pairs E O s)}).
    { apply in_dec. decide equality. apply Nat.eq_dec. }
    destruct (d_dead d) eqn:Dd.
    { exfalso. apply (Y2 (or_intror eq_refl) _ Hin). reflexivity. }
    split; [exact Dd|]. destruct D as [D|D].
    - exists k, p. auto.
    - exfalso. apply (Y2 (or_introl D) _ Hin). reflexivity.
  Qed.

  (** Length of what is binned, and of the plate's angles. *)
  Lemma bin_shape E O s s' new i v t : well_set E O s -> 0 < sg_fsamp (s_strat s) -> sky_only O ->
    scan_instrument E O s = Ok s' -> s_log s' = s_log s ++ new -> In (EBin i v t) new ->
    v_ground v = false /\ length t = length (v_bore v) /\ angles_for (length (v_bore v)) (view_hwp v).
  Proof.
    intros W Rt SK H L Hin. destruct (bin_observes E O s s' new i v t W SK H L Hin) as (d & <- & _ & OB).
    assert (BV : bin_views (d_id d) new = sky_views (d_id d) new).
    { apply (binned_as_scanned E O s s' new d W H L OB). apply SK. }
    destruct (mission_used E s (ws_mission _ _ _ W)) as (cs & Hcs & _).
    assert (Hcs' : chunks_used E s = Ok cs) by exact Hcs.
    destruct (ws_fresh _ _ _ W) as (cf & Hcf).
    pose proof (laws_of E O s s' new cs d cf W Hcf H L Hcs' OB) as LW.
    assert (Hv : In v (sky_views (d_id d) new)).
    { rewrite <- BV, <- bins_views. apply in_map_iff. exists (v, t). split; [reflexivity|]. now apply bins_in. }
    split; [now apply sky_view_ground in Hv|]. split.
    - pose proof (bins_cover E O s s' new d W SK H L OB) as T1. rewrite <- bins_binned in T1.
      pose proof (lw_tiles _ _ _ _ _ _ LW) as T2. rewrite <- BV, <- bins_views, map_map in T2.
      assert (G : map (fun x => length (snd x)) (bins (d_id d) new)
                = map (fun x => length (snd x)) (map (fun x : view * list R => (fst x, v_bore (fst x))) (bins (d_id d) new))).
      { apply (same_lengths _ _ 0 (e_nsamp E)); [|exact T1|].
        - rewrite map_map. reflexivity.
        - rewrite map_map. cbn [fst snd]. exact T2. }
      rewrite map_map in G. cbn [snd fst] in G. apply bins_in in Hin. clear -G Hin.
      induction (bins (d_id d) new) as [|x l IH]; [destruct Hin|]. cbn [map] in G. injection G as G1 G2.
      destruct Hin as [->|Hin]; [exact G1|auto].
    - assert (FS : cf_fsamp cf = sg_fsamp (s_strat s)).
      { unfold configure in Hcf. inv_bind Hcf h Hh. inv_bind Hcf e He. inversion Hcf. reflexivity. }
      assert (ST : cf_mode cf = NoMode \/ ~ on (cf_freq cf) -> angles_for (length (v_bore v)) (view_hwp v)).
      { intros X. pose proof (lw_hwp_still _ _ _ _ _ _ LW X v Hv) as Hw. unfold view_hwp. rewrite Hw. exact I. }
      assert (AR : forall l, v_hwp v = Some (HArray l) -> length l = length (v_bore v) ->
                   angles_for (length (v_bore v)) (view_hwp v)).
      { intros l Hl Ln. unfold view_hwp. rewrite Hl. destruct l as [|a [|b l]]; cbn; auto. }
      destruct (cf_mode cf) eqn:Em.
      + apply ST. now left.
      + destruct (cf_freq cf) as [f|] eqn:Ef.
        * destruct (lw_hwp_stepped _ _ _ _ _ _ LW f Em Ef v Hv) as (l & Hl & Ln & _). eauto.
        * apply ST. right. intros (x & X & _). discriminate.
      + destruct (cf_freq cf) as [f|] eqn:Ef.
        * destruct (Req_EM_T f 0) as [->|Nz].
          { apply ST. right. intros (x & X & N). inversion X. auto. }
          apply In_nth_error in Hv. destruct Hv as (k & Hv).
          assert (Fs : 0 < cf_fsamp cf) by lra.
          destruct (lw_hwp_spinning _ _ _ _ _ _ LW f Em Ef Nz Fs k v Hv) as (l & Hl & Ln & _). eauto.
        * apply ST. right. intros (x & X & _). discriminate.
      + exfalso. apply (ws_mode _ _ _ W). unfold configure in Hcf. inv_bind Hcf h Hh. inv_bind Hcf e He.
        inversion Hcf. cbn. unfold set_hwp_mod in Hh. rewrite Em in Hh. inversion Hh. reflexivity.
  Qed.
End O.

Lemma nth_map_seq (f : nat -> R) n j : (j < n)%nat -> nth j (map f (seq 0 n)) 0 = f j.
Proof.
  intros H. rewrite (nth_indep _ 0 (f 0%nat)) by (rewrite map_length, seq_length; exact H).
  now rewrite map_nth, seq_nth.
Qed.
Lemma in_bin_from P d v : forall t k o, In o (bin_from P d v k t) ->
  exists j, (j < length t)%nat /\ o = bin_sample P d v (k + j) (nth j t 0).
Proof.
  induction t as [|x t IH]; intros k o; cbn [bin_from]; [intros []|]. intros [<-|H].
  - exists 0%nat. split; [cbn; lia|]. now rewrite Nat.add_0_r.
  - destruct (IH _ _ H) as (j & Hj & ->). exists (S j). split; [cbn; lia|]. cbn [nth]. f_equal. lia.
Qed.
Lemma in_bin_calls P log c : In c (bin_calls_of P log) -> exists d v t, In (EBin d v t) log
  /\ M_Solve.c_samples c = bin_from P d v 0 t /\ M_Solve.c_flag c = M_Solve.FNone.
Proof.
  induction log as [|[c' b|w v t|d v t] r IH]; cbn [bin_calls_of In]; [intros []| | |].
  - intros H. destruct (IH H) as (d & v & t & X & Y). eauto 6.
  - intros H. destruct (IH H) as (d & v' & t' & X & Y). eauto 6.
  - intros [<-|H].
    + exists d, v, t. cbn. auto.
    + destruct (IH H) as (d' & v' & t' & X & Y). eauto 6.
Qed.

Section R.
  Context (P : optics) (npix : nat) (SD : sound P npix).

  (** Every sample that is binned is seen from the sky. *)
  Lemma bin_seen m0 m2 err E O s s' new c o : length m0 = npix -> length m2 = npix ->
    observed P m0 m2 err E O s s' new -> In c (bin_calls_of P new) -> In o (M_Solve.c_samples c) ->
    S_Solve.seen_from (stokes (x_sign P) m0 m2 (err + 2 * x_varphi P)) o /\ S_Solve.on_circle o.
  Proof.
    intros L0 L2 [W Rt SK CT RD DS MP SG H L] Hc Ho.
    destruct (in_bin_calls P new c Hc) as (i & v & t & Hin & -> & _) in Ho.
    apply in_bin_from in Ho. destruct Ho as (j & Hj & ->). cbn [plus].
    destruct (bin_observes E O s s' new i v t W SK H L Hin) as (d & <- & Hd & OB).
    destruct (bin_shape E O s s' new (d_id d) v t W Rt SK H L Hin) as (VG & LT & AN).
    destruct OB as (Dd & k & p & Hp & Hdp & _).
    destruct (RD p d (nth_error_In _ _ Hp) Hdp Dd) as (a & ob & -> & PR).
    destruct (contribution E O s s' new k a ob W SK H L Hp PR) as (x & ba & bb & MB & GA & GB & X).
    specialize (X d Hdp Dd v t (proj2 (bins_in (d_id d) new v t) Hin)).
    assert (SM := MP a ob x (nth_error_In _ _ Hp) MB).
    destruct (DS d Hd Dd) as [NG ER].
    destruct (seen_tod P npix SD m0 m2 x (d_id d) v SM L0 L2 AN) as (tod & VT & LN & VAL).
    assert (HV : nth j t 0 = e_signal E (Main (d_id d)) x v j).
    { rewrite X, nth_map_seq by exact Hj. rewrite CT.
      assert (C : d = a \/ exists b, ob = Some b /\ d = b).
      { destruct ob as [b|]; cbn in Hdp; intuition eauto. }
      destruct (Z.eqb_spec (d_id d) (d_id a)) as [Eq|Ne].
      - assert (Own : own_signal E a x ba v j = e_signal E (Main (d_id d)) x v j).
        { rewrite Eq. unfold own_signal. destruct C as [<-|(b & -> & ->)].
          - rewrite NG. cbn. ring.
          - (* two detectors of a pair do not share an identity *)
            exfalso. destruct (dets_split (s_beams s) k _ Hp) as (l1 & l2 & Eab).
            assert (ND' := ws_ids _ _ _ W). rewrite Eab, !map_app in ND'. apply nodup_middle in ND'. cbn in ND'.
            inversion ND' as [|? ? Hnot _]; subst. apply Hnot. rewrite <- Eq. now left. }
        rewrite Own. destruct (live ob); ring.
      - destruct C as [->|(b & -> & ->)]; [congruence|]. unfold own_signal at 1. rewrite NG. cbn [ghost_signal].
        destruct (d_dead a); ring. }
    rewrite (SG (d_id d) x v _ j VG VT) in HV.
    assert (Hj' : (j < length (v_bore v))%nat) by lia.
    change (RtoC 0) with ((fun r => RtoC r) 0) in HV. rewrite map_nth in HV. cbn [RtoC Re fst] in HV.
    rewrite (VAL j Hj') in HV. clear VAL.
    destruct (bin_angle P npix SD (d_id d) v j (nth j t 0)) as (psi & Op & Ov & Oc & Os & SA).
    destruct (sd_sign _ _ SD) as [Sg|Sg].
    all: split; [|unfold S_Solve.on_circle; rewrite Oc, Os, Sg; pose proof (sin2_cos2 (2 * psi)) as Q; unfold Rsqr in Q; lra].
    all: unfold S_Solve.seen_from, stokes; cbv zeta; rewrite Op, Ov, Oc, Os, HV.
    all: generalize (nth (fst (x_look P (scan_q_det P (d_id d) v j))) m0 (RtoC 0))
                    (nth (fst (x_look P (scan_q_det P (d_id d) v j))) m2 (RtoC 0)); intros z0 z2.
    all: match goal with |- context [cis (2 * ?w)] => replace (cis (2 * w)) with (cis (2 * (psi + (err + 2 * x_varphi P) * PI / 180))) end;
      [|apply cis_angle; destruct SA as [n ->]; exists n; unfold polang_truth; rewrite ER; field].
    all: rewrite Rmult_plus_distr_l; unfold cis; rewrite cos_plus, sin_plus, Sg;
      destruct z0, z2; unfold Cmul, Re, Im; cbn [fst snd]; ring.
  Qed.

  Lemma solved m0 m2 err nside (ranks : list nat) (maps0 : nat -> M_Solve.maps) (E : nat -> env spindict) O
    (s s' : nat -> state spindict) new gs well cond fill p :
    npix = (12 * nside ^ 2)%nat -> length m0 = npix -> length m2 = npix ->
    ranks <> [] -> (forall r, In r ranks -> observed P m0 m2 err (E r) O (s r) (s' r) (new r)) ->
    (forall r, In r ranks -> M_Solve.own_flag (maps0 r) = None) ->
    Forall2 (S_Solve.rank_maps nside) (map (fun r => (maps0 r, bin_calls_of P (new r))) ranks) gs ->
    (p < npix)%nat ->
    let seen := S_Solve.ranks_used (map (fun r => (maps0 r, bin_calls_of P (new r))) ranks) in
    S_Solve.three_angles p seen -> well (S_Solve.angle_sums (S_Solve.in_pixel p seen)) = true ->
    exists m c Q, M_Solve.solve_for_map well cond true 0 gs fill = (Some m, c, Some Q)
      /\ nth_error m p = Some (stokes (x_sign P) m0 m2 (err + 2 * x_varphi P) p).
  Proof.
    intros Np L0 L2 NE OB OF F Hp seen T3 Wl.
    destruct (L_Solve.solve_root well cond fill nside _ gs (stokes (x_sign P) m0 m2 (err + 2 * x_varphi P)) p F) as (m & c & Q & H1 & H2 & _); auto.
    - intros X. apply map_eq_nil in X. auto.
    - intros o Ho. unfold S_Solve.ranks_used in Ho. rewrite map_map in Ho. apply in_concat in Ho.
      destruct Ho as (l & Hl & Ho). apply in_map_iff in Hl. destruct Hl as (r & <- & Hr). cbn [fst snd] in Ho.
      unfold S_Solve.all_used in Ho. apply in_concat in Ho. destruct Ho as (l & Hl & Ho).
      apply in_map_iff in Hl. destruct Hl as (c & <- & Hc).
      apply (bin_seen m0 m2 err (E r) O (s r) (s' r) (new r) c o L0 L2 (OB r Hr) Hc).
      unfold S_Solve.used in Ho. destruct (in_bin_calls P _ c Hc) as (d & v & t & _ & _ & FL).
      rewrite FL, (OF r Hr) in Ho. exact Ho.
    - rewrite <- Np. exact Hp.
    - exists m, c, Q. auto.
  Qed.
End R.

Lemma solved_true P nside m0 m2 ranks maps0 E O s s' new gs well cond fill p :
  sound P (12 * nside ^ 2) -> length m0 = (12 * nside ^ 2)%nat -> length m2 = (12 * nside ^ 2)%nat ->
  ranks <> [] -> x_varphi P = 0 ->
  (forall r, In r ranks -> observed P m0 m2 0 (E r) O (s r) (s' r) (new r)) ->
  (forall r, In r ranks -> M_Solve.own_flag (maps0 r) = None) ->
  Forall2 (S_Solve.rank_maps nside) (map (fun r : nat => (maps0 r, bin_calls_of P (new r))) ranks) gs ->
  (p < 12 * nside ^ 2)%nat ->
  let seen := S_Solve.ranks_used (map (fun r => (maps0 r, bin_calls_of P (new r))) ranks) in
  S_Solve.three_angles p seen -> well (S_Solve.angle_sums (S_Solve.in_pixel p seen)) = true ->
  exists m c Q, M_Solve.solve_for_map well cond true 0 gs fill = (Some m, c, Some Q)
    /\ nth_error m p = Some (Re (nth p m0 (RtoC 0)), Re (nth p m2 (RtoC 0)), - (x_sign P * Im (nth p m2 (RtoC 0)))).
Proof.
  intros SD L0 L2 NE Vp OB OF F Hp seen T Wl.
  destruct (solved P _ SD m0 m2 0 nside ranks maps0 E O s s' new gs well cond fill p eq_refl L0 L2 NE OB OF F Hp T Wl) as (m & c & Q & H1 & H2).
  exists m, c, Q. split; [exact H1|]. rewrite H2. unfold stokes. rewrite Vp.
  replace (2 * ((0 + 2 * 0) * PI / 180)) with 0 by field.
  unfold cis. rewrite cos_0, sin_0. destruct (nth p m2 (RtoC 0)) as [a b]. unfold Cmul, Re, Im. cbn [fst snd].
  cbv zeta. cbn [fst snd]. repeat f_equal; ring.
Qed.

Lemma plate_bin v j a : plate_at v j a -> bin_hwp v j = a.
Proof.
  intros H. unfold bin_hwp, view_hwp. destruct H as [-> |a [-> | ->] |l a -> Hl]; auto.
  destruct l as [|x [|y l]].
  - destruct j; discriminate.
  - destruct j as [|[|j]]; cbn in Hl; try discriminate. congruence.
  - apply nth_error_nth with (d := 0) in Hl. exact Hl.
Qed.
Lemma bin_plate P npix d v j x theta : sound P npix -> plate_at v j theta ->
  let o := bin_sample P d v j x in let seen := x_look P (scan_q_det P d v j) in
  exists psi, M_Solve.o_pix o = fst seen /\ M_Solve.o_val o = x
    /\ M_Solve.o_cos o = cos (2 * psi) /\ M_Solve.o_sin o = x_sign P * sin (2 * psi)
    /\ same_angle psi (snd seen * PI / 180 + x_polang P d * PI / 180 + 2 * theta - 2 * (x_varphi P * PI / 180)).
Proof. intros SD H. rewrite <- (plate_bin _ _ _ H). exact (bin_angle P npix SD d v j x). Qed.
