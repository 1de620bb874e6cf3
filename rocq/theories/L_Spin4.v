(** * Timestreams behind a half-wave plate *)
From Coq Require Import Reals String Lra Lia.
From Verif Require Import Common Cplx LibList Mat M_Alm M_Blm M_Mueller S_Mueller M_Tod M_Spin
  S_Alm S_Tod S_Spin L_Alm L_Blm L_Mueller L_Blmxhwp L_Tod L_Tod2 L_Tod3 L_Spin L_Spin2 L_Spin3.
Open Scope R_scope.

Lemma field_zero Y L s p : field Y L s (fun _ _ => RtoC 0) p = RtoC 0.
Proof.
  replace (field Y L s (fun _ _ => RtoC 0) p) with (field Y L s (fun l m => RtoC 0 * RtoC 0)%C p)
    by (apply field_ext; intros; ring).
  rewrite field_scal. ring.
Qed.

Lemma convolved_ext Y L f g g' spins q psi :
  (forall l s, (l <= L)%nat -> g l s = g' l s) ->
  convolved Y L f g spins q psi = convolved Y L f g' spins q psi.
Proof.
  intros H. unfold convolved. apply csum_map_eq. intros s _. f_equal. apply field_ext.
  intros l k Hl _. rewrite H by exact Hl. reflexivity.
Qed.

Lemma displaced_0 g k l s : displaced g k (RtoC 0) l s = RtoC 0.
Proof. unfold displaced. destruct (_ <=? _)%Z; [ring|reflexivity]. Qed.

Lemma convolved_0 Y L f g spins q psi : (forall l s, g l s = RtoC 0) ->
  convolved Y L f g spins q psi = RtoC 0.
Proof.
  intros H. unfold convolved.
  rewrite (csum_map_eq _ (fun s : Z => RtoC 0 * RtoC 0)%C).
  - rewrite csum_scal. ring.
  - intros s _. rewrite (field_ext Y L s _ (fun _ _ => RtoC 0)) by (intros; rewrite H; ring).
    rewrite field_zero. ring.
Qed.

Lemma Bmap_0 Y npix L a b s : (forall l s, b l s = RtoC 0) ->
  Forall (fun z => z = RtoC 0) (Bmap Y npix L a b s).
Proof.
  intros H. apply Forall_forall. intros z Hz. unfold Bmap in Hz. apply in_map_iff in Hz.
  destruct Hz as (p & <- & _).
  rewrite (field_ext Y L s _ (fun _ _ => RtoC 0)) by (intros; rewrite H; ring). apply field_zero.
Qed.
Lemma Bmaps_0 Y npix L a b spins : (forall l s, b l s = RtoC 0) ->
  Forall (Forall (fun z => z = RtoC 0)) (map (Bmap Y npix L a b) spins).
Proof.
  intros H. apply Forall_forall. intros x Hx. apply in_map_iff in Hx. destruct Hx as (s & <- & _).
  apply Bmap_0. exact H.
Qed.

Section T.
Variables (Y : Z -> nat -> Z -> nat -> C) (npix L : nat).
Variables (a2m : list C -> list R) (a2ms : list C -> list C -> Z -> list R * list R).
Hypothesis HY : conj_symmetric Y.
Hypothesis HP : healpix Y npix L a2m a2ms.
Variables aI aE aB bI bm bp : nat -> nat -> C.
Hypothesis RI : real_m0 aI.
Hypothesis RE : real_m0 aE.
Hypothesis RB : real_m0 aB.
Hypothesis Rb : real_m0 bI.
Hypothesis Hb : forall l, bm l 0%nat = Cconj (bp l 0%nat).
Hypothesis H4 : (4 <= L)%nat.
Variable m : rmat4.
Hypothesis SQ : e0 (e1 m) = e1 (e0 m).
Hypothesis SU : e0 (e2 m) = e2 (e0 m).
Variables (symmetric : bool) (S : nat).
Hypothesis HS : (S <= L)%nat.
Variables (n : nat) (qs : list nat) (pa : list R) (polang : R) (h : hwpang).
Hypothesis Lq : List.length qs = n.
Hypothesis La : List.length pa = n.
Hypothesis Hh : angles_for n h.
Hypothesis Hq : Forall (fun q => (q < npix)%nat) qs.

Let P := mode (plus2 aE aB) (minus2 aE aB).
Let g02 := displaced (mode bp bm) (-2) (c02 m).
Let S' := if symmetric then 0%nat else S.

Lemma leak_both : leak_spins symmetric S = spins_both S'.
Proof. unfold leak_spins, S'. destruct symmetric; reflexivity. Qed.

Lemma bI'_real : real_m0 (bI' bI m).
Proof. intros l. specialize (Rb l). unfold bI'. destruct (bI l 0%nat). cbn in *. subst. ring. Qed.

Lemma mode_bI' l s : mode (bI' bI m) (bI' bI m) l s = (mode bI bI l s * RtoC (e0 (e0 m)))%C.
Proof.
  destruct (Z_le_gt_dec (Z.abs s) (Z.of_nat l)) as [I|I]; [|rewrite !mode_out by lia; ring].
  destruct (Z_le_gt_dec 0 s) as [Q|N].
  - rewrite !mode_pos by lia. reflexivity.
  - rewrite !mode_neg by lia. unfold bI'. rewrite Cconj_mul, Cconj_R. apply sg_mul_l.
Qed.

Lemma tod_plate : exists d tod,
  make_spinmaps a2m a2ms [of_modes L L aI; of_modes L L aE; of_modes L L aB]
    [of_modes L L bI; of_modes L L bm; of_modes L L bp] S symmetric (Some (cmat m)) false false = Ok d
  /\ scan_tod n d (map Pix qs) pa polang h = Ok (map RtoC tod) /\ List.length tod = n
  /\ forall i, (i < n)%nat ->
     let q := nth i qs 0%nat in
     let psi := PI - nth i pa 0 * (PI / 180) in
     nth i tod 0
     = Re (convolved Y L (mode aI aI) (fun l s => mode bI bI l s * RtoC (e0 (e0 m)))%C (both_spins symmetric S) q psi)
       + Re (convolved Y L P (displaced (mode bp bm) (-4) (c24 m)) (pol_spins symmetric S) q psi
             * cis (4 * angle_at h i + 2 * (polang * (PI / 180))))%C
       + Re (convolved Y L P (displaced (mode bm bp) 0 (c20 m)) (pol_spins symmetric S) q psi)
       + Re (coded_sum polang (map (Bmap Y npix L (mode aI aI) g02) (leak_spins symmetric S)) S' (Pix q) psi
             * cis (2 * angle_at h i))%C
       + Re (convolved Y L P (displaced (mode bI bI) (-2) (c22 m)) (pol_spins symmetric S) q psi
             * cis (2 * angle_at h i))%C.
Proof.
  pose proof (plate Y npix L a2m a2ms HY HP aI aE aB bI bm bp RI RE RB Rb Hb H4 m SQ SU symmetric S HS) as E.
  match type of E with _ = Ok ?x => set (d := x) in E end.
  match eval cbv delta [d] in d with [(_, ?e00); (_, ?e24); (_, ?e02); (_, ?e22); (_, ?e20)] =>
  destruct (timestream_new npix n (map Pix qs) pa polang h d e00 e24 e20 e02 e22 S') as (tod & E1 & E2 & V) end; auto.
  - rewrite map_length. exact Lq.
  - apply Forall_forall. intros p Hp. apply in_map_iff in Hp. destruct Hp as (q & <- & Iq).
    cbn. rewrite Forall_forall in Hq. apply Hq. exact Iq.
  - unfold five_sets, d. split; [|cbn [In]; tauto]. cbn [map fst].
    repeat constructor; cbn; intuition discriminate.
  - repeat apply Forall_cons; [| | | | |constructor];
      (apply ws_maps; [auto using unpol_ne, pol_ne, leak_ne|intros; auto using Imap_len, Bmap_len]).
  - cbn [ss_svals]. eapply Forall_impl; [|apply (unpol_range L symmetric S HS)]. cbn. lia.
  - apply leak_both.
  - exists d, tod. split; [exact E|]. split; [exact E1|]. split; [exact E2|]. intros i Hi q psi.
    rewrite V by exact Hi. fold psi. cbn [ss_maps ss_svals].
    assert (Eq : nth i (map Pix qs) (Pix 0) = Pix q) by apply (map_nth Pix).
    assert (Lt : (q < npix)%nat) by (unfold q; rewrite Forall_forall in Hq; apply Hq, nth_In; lia).
    rewrite Eq. rewrite !Bmap_sum by exact Lt.
    pose proof (Imap_sum' Y npix L HY aI RI (bI' bI m) symmetric S q psi Lt HS bI'_real) as I0.
    rewrite (convolved_ext Y L _ _ (fun l s => mode bI bI l s * RtoC (e0 (e0 m)))%C) in I0
      by (intros; apply mode_bI').
    rewrite <- I0. reflexivity.
Qed.
End T.

Definition spins_I (symmetric : bool) (S : nat) : list Z := if symmetric then [0%Z] else spins_both S.
Definition spins_P (symmetric : bool) (S : nat) : list Z := if symmetric then [2%Z] else spins_both S.

(** A detector at 180 z degrees behind any plate with M_IQ = M_QI, M_IU = M_UI. *)
Lemma aligned_plate Y npix Ls Lb a2m a2ms aI aE aB bI bm bp (m : rmat4) symmetric S n qs pa z h :
  let L := Nat.min Ls Lb in
  conj_symmetric Y -> healpix Y npix L a2m a2ms ->
  real_m0 aI -> real_m0 aE -> real_m0 aB -> real_m0 bI ->
  (forall l, bm l 0%nat = Cconj (bp l 0%nat)) -> (S <= L)%nat -> (4 <= L)%nat ->
  e0 (e1 m) = e1 (e0 m) -> e0 (e2 m) = e2 (e0 m) ->
  List.length qs = n -> List.length pa = n -> angles_for n h -> Forall (fun q => (q < npix)%nat) qs ->
  exists d tod,
  init_spinmaps1 a2m a2ms (sky_arrays Ls aI aE aB) (beam_arrays Lb bI bm bp) S symmetric (Some (cmat m)) false false
  = Maps d
  /\ scan_tod n d (map Pix qs) pa (180 * IZR z) h = Ok (map RtoC tod) /\ List.length tod = n
  /\ forall i, (i < n)%nat ->
     let q := nth i qs 0%nat in
     let psi := PI - nth i pa 0 * (PI / 180) in
     let a := angle_at h i in
     let sky := mode (plus2 aE aB) (minus2 aE aB) in
     let sI := if symmetric then [0%Z] else spins_both S in
     let sP := if symmetric then [2%Z] else spins_both S in
     let k24 := (1/2 * (e1 (e1 m) - e2 (e2 m)), 1/2 * (e1 (e2 m) + e2 (e1 m))) in
     let k20 := (1/2 * (e1 (e1 m) + e2 (e2 m)), - (1/2) * (e1 (e2 m) - e2 (e1 m))) in
     let k02 := (e0 (e1 m), - e0 (e2 m)) in
     let k22 := (e1 (e0 m), e2 (e0 m)) in
     nth i tod 0
     = Re (convolved Y L (mode aI aI) (fun l s => mode bI bI l s * RtoC (e0 (e0 m)))%C sI q psi)
       + Re (convolved Y L sky (displaced (mode bp bm) (-4) k24) sP q psi * cis (4 * a))%C
       + Re (convolved Y L sky (displaced (mode bm bp) 0 k20) sP q psi)
       + Re (convolved Y L (mode aI aI) (displaced (mode bp bm) (-2) k02) sI q psi * cis (2 * a))%C
       + Re (convolved Y L sky (displaced (mode bI bI) (-2) k22) sP q psi * cis (2 * a))%C.
Proof.
  intros L HY HP RI RE RB Rb Hb HS H4 SQ SU Lq La Hh Hq.
  destruct (tod_plate Y npix L a2m a2ms HY HP aI aE aB bI bm bp RI RE RB Rb Hb H4 m SQ SU symmetric S HS
     n qs pa (180 * IZR z) h Lq La Hh Hq) as (d & tod & E & E1 & E2 & V).
  exists d, tod. split; [rewrite init_is_make; fold L; rewrite E; reflexivity|].
  split; [exact E1|]. split; [exact E2|]. intros i Hi q psi a sky sI sP k24 k20 k02 k22.
  rewrite V by exact Hi. fold q psi a.
  assert (Lt : (q < npix)%nat) by (unfold q; rewrite Forall_forall in Hq; apply Hq, nth_In; lia).
  rewrite cis_add, cis_turns.
  rewrite coded_aligned.
  2:{ rewrite map_length, leak_both. unfold spins_both. rewrite map_length, seq_length. reflexivity. }
  2:{ apply cis_turns. }
  rewrite <- leak_both, Bmap_sum by exact Lt.
  assert (U : forall x : C, (x * RtoC 1)%C = x) by (intros; ring). rewrite U. reflexivity.
Qed.

(** Identity plate. *)
Lemma identity_plate Y npix Ls Lb a2m a2ms aI aE aB bI bm bp symmetric S n qs pa polang h :
  let L := Nat.min Ls Lb in
  conj_symmetric Y -> healpix Y npix L a2m a2ms ->
  real_m0 aI -> real_m0 aE -> real_m0 aB -> real_m0 bI ->
  (forall l, bm l 0%nat = Cconj (bp l 0%nat)) -> (S <= L)%nat -> (4 <= L)%nat ->
  List.length qs = n -> List.length pa = n -> angles_for n h -> Forall (fun q => (q < npix)%nat) qs ->
  exists d tod,
  init_spinmaps1 a2m a2ms (sky_arrays Ls aI aE aB) (beam_arrays Lb bI bm bp) S symmetric (Some (cmat reye4)) false false
  = Maps d
  /\ scan_tod n d (map Pix qs) pa polang h = Ok (map RtoC tod) /\ List.length tod = n
  /\ forall i, (i < n)%nat ->
     let q := nth i qs 0%nat in
     let psi := PI - nth i pa 0 * (PI / 180) in
     nth i tod 0
     = Re (convolved Y L (mode aI aI) (mode bI bI) (if symmetric then [0%Z] else spins_both S) q psi)
       + Re (convolved Y L (mode (plus2 aE aB) (minus2 aE aB)) (mode bm bp)
               (if symmetric then [2%Z] else spins_both S) q psi).
Proof.
  intros L HY HP RI RE RB Rb Hb HS H4 Lq La Hh Hq.
  destruct (tod_plate Y npix L a2m a2ms HY HP aI aE aB bI bm bp RI RE RB Rb Hb H4 reye4 eq_refl eq_refl symmetric S HS
     n qs pa polang h Lq La Hh Hq) as (d & tod & E & E1 & E2 & V).
  exists d, tod. split; [rewrite init_is_make; fold L; rewrite E; reflexivity|].
  split; [exact E1|]. split; [exact E2|]. intros i Hi q psi.
  rewrite V by exact Hi. fold q psi.
  assert (K24 : c24 reye4 = RtoC 0) by (apply C_eq; cbn; field).
  assert (K20 : c20 reye4 = RtoC 1) by (apply C_eq; cbn; field).
  assert (K02 : c02 reye4 = RtoC 0) by (apply C_eq; cbn; field).
  assert (K22 : c22 reye4 = RtoC 0) by (apply C_eq; cbn; field).
  rewrite K24, K20, K02, K22.
  rewrite (convolved_0 Y L _ (displaced (mode bp bm) (-4) (RtoC 0))) by (intros; apply displaced_0).
  rewrite (convolved_0 Y L _ (displaced (mode bI bI) (-2) (RtoC 0))) by (intros; apply displaced_0).
  rewrite zero_coded.
  2:{ apply Bmaps_0. intros; apply displaced_0. }
  2:{ rewrite map_length, leak_both. unfold spins_both. rewrite map_length, seq_length. reflexivity. }
  rewrite (convolved_ext Y L _ _ (mode bI bI)) by (intros; cbn [e0 reye4 diag4]; ring).
  rewrite (convolved_ext Y L _ (displaced (mode bm bp) 0 (RtoC 1)) (mode bm bp)).
  2:{ intros l s Hl. unfold displaced. destruct (Z.leb_spec (Z.abs s) (Z.of_nat l)).
      - rewrite Z.add_0_r. ring.
      - rewrite mode_out by lia. reflexivity. }
  unfold both_spins, pol_spins.
  assert (ZZ : forall x : C, Re (RtoC 0 * x)%C = 0) by (intros [? ?]; cbn; ring).
  rewrite !ZZ. ring.
Qed.

(** Ideal plate and a co-polarised beam. *)
Lemma copol_zero b l : real_m0 b -> copol_m2 b l 0%nat = Cconj (copol_p2 b l 0%nat).
Proof.
  intros Rb. unfold copol_m2, copol_p2. destruct (l <? 2)%nat; [rewrite Cconj_R; reflexivity|].
  cbn [Z.of_nat]. rewrite Z.sub_0_l, Z.add_0_l. rewrite coef_real by exact Rb. reflexivity.
Qed.

Lemma copol_flip b l s : real_m0 b -> band b ->
  displaced (mode (copol_p2 b) (copol_m2 b)) (-4) (RtoC 1) l s = mode (copol_m2 b) (copol_p2 b) l s.
Proof.
  intros Rb Bd. unfold displaced. destruct (Z.leb_spec (Z.abs s) (Z.of_nat l)); [|rewrite mode_out by lia; reflexivity].
  assert (U : forall x : C, (x * RtoC 1)%C = x) by (intros; ring). rewrite U.
  destruct (Nat.ltb_spec l 2) as [S1|S1].
  - rewrite mode_out by lia. unfold mode, coef. destruct (Z.ltb_spec (Z.of_nat l) (Z.abs s)); [reflexivity|].
    unfold copol_m2, copol_p2. destruct (Nat.ltb_spec l 2); [|lia].
    rewrite Cconj0, Copp0. destruct (0 <=? s)%Z, (Z.even s); reflexivity.
  - unfold mode at 2. rewrite coef_m2 by (assumption || lia).
    destruct (Z_le_gt_dec (Z.abs (s + -4)) (Z.of_nat l)) as [K|K].
    + unfold mode. rewrite coef_p2 by (assumption || lia). f_equal. lia.
    + rewrite mode_out by lia. rewrite coef_high; auto; lia.
Qed.

Lemma ideal_plate Y npix Ls Lb a2m a2ms aI aE aB bI symmetric S n qs pa polang h :
  let L := Nat.min Ls Lb in
  conj_symmetric Y -> healpix Y npix L a2m a2ms ->
  real_m0 aI -> real_m0 aE -> real_m0 aB -> real_m0 bI -> band bI -> (S <= L)%nat -> (4 <= L)%nat ->
  List.length qs = n -> List.length pa = n -> angles_for n h -> Forall (fun q => (q < npix)%nat) qs ->
  exists m2 p2,
  unpol2pol (RtoC 0) Cconj Copp (of_modes Lb Lb bI) = Ok (m2, p2)
  /\ let sky := sky_arrays Ls aI aE aB in
     let beam := [map Some (of_modes Lb Lb bI); map Some m2; map Some p2] in
     exists d d' tod,
     init_spinmaps1 a2m a2ms sky beam S symmetric (Some (cmat ideal_hwp)) false false = Maps d
     /\ init_spinmaps1 a2m a2ms sky beam S symmetric None false false = Maps d'
     /\ scan_tod n d (map Pix qs) pa polang h = Ok tod
     /\ scan_tod n d' (map Pix qs) pa polang h = Ok tod.
Proof.
  intros L HY HP RI RE RB Rb Bd HS H4 Lq La Hh Hq.
  exists (of_modes Lb Lb (copol_m2 bI)), (of_modes Lb Lb (copol_p2 bI)).
  assert (HL1 : (1 <= Lb)%nat) by (unfold L in H4; lia).
  split; [exact (unpol2pol_spec (RtoC 0) Cconj Copp Lb bI HL1)|].
  cbv zeta. change [map Some (of_modes Lb Lb bI); map Some (of_modes Lb Lb (copol_m2 bI)); map Some (of_modes Lb Lb (copol_p2 bI))]
    with (beam_arrays Lb bI (copol_m2 bI) (copol_p2 bI)).
  destruct (tod_plate Y npix L a2m a2ms HY HP aI aE aB bI (copol_m2 bI) (copol_p2 bI) RI RE RB Rb
     (fun l => copol_zero bI l Rb) H4 ideal_hwp eq_refl eq_refl symmetric S HS
     n qs pa polang h Lq La Hh Hq) as (d & tod & E & E1 & E2 & V).
  destruct (convolution Y npix Ls Lb a2m a2ms aI aE aB bI (copol_m2 bI) (copol_p2 bI) symmetric S n qs pa polang h
     HY HP RI RE RB Rb (fun l => copol_zero bI l Rb) HS ltac:(fold L; lia) Lq La Hh Hq) as (d' & tod' & E' & E1' & E2' & V').
  exists d, d', (map RtoC tod).
  split; [rewrite init_is_make; fold L; rewrite E; reflexivity|].
  split; [exact E'|]. split; [exact E1|]. rewrite E1'. f_equal. f_equal.
  apply (nth_ext _ _ 0 0); [congruence|]. intros i Hi. rewrite E2' in Hi.
  rewrite V, V' by lia. cbv zeta. fold L.
  assert (K24 : c24 ideal_hwp = RtoC 1) by (apply C_eq; cbn; field).
  assert (K20 : c20 ideal_hwp = RtoC 0) by (apply C_eq; cbn; field).
  assert (K02 : c02 ideal_hwp = RtoC 0) by (apply C_eq; cbn; field).
  assert (K22 : c22 ideal_hwp = RtoC 0) by (apply C_eq; cbn; field).
  rewrite K24, K20, K02, K22.
  rewrite (convolved_0 Y L _ (displaced (mode (copol_m2 bI) (copol_p2 bI)) 0 (RtoC 0))) by (intros; apply displaced_0).
  rewrite (convolved_0 Y L _ (displaced (mode bI bI) (-2) (RtoC 0))) by (intros; apply displaced_0).
  rewrite zero_coded.
  2:{ apply Bmaps_0. intros; apply displaced_0. }
  2:{ rewrite map_length, leak_both. unfold spins_both. rewrite map_length, seq_length. reflexivity. }
  rewrite (convolved_ext Y L _ (fun l s => mode bI bI l s * RtoC (e0 (e0 ideal_hwp)))%C (mode bI bI))
    by (intros; cbn [e0 ideal_hwp diag4]; ring).
  rewrite (convolved_ext Y L _ (displaced (mode (copol_p2 bI) (copol_m2 bI)) (-4) (RtoC 1)) (mode (copol_m2 bI) (copol_p2 bI)))
    by (intros; apply copol_flip; assumption).
  unfold both_spins, pol_spins.
  assert (ZZ : forall x : C, Re (RtoC 0 * x)%C = 0) by (intros [? ?]; cbn; ring).
  rewrite !ZZ. cbn [Re RtoC fst]. ring.
Qed.

(** ** The check for non-finite coefficients (C48) *)
Lemma finite_get (x : raw) i : (i < List.length x)%nat -> finite (nth i x []) = false -> forallb finite x = false.
Proof.
  intros Hi F. destruct (forallb finite x) eqn:E; [|reflexivity].
  rewrite forallb_forall in E. rewrite (E (nth i x [])) in F by (apply nth_In; exact Hi). discriminate.
Qed.

(** The first bad component. *)
Lemma crash_loop_first x k : (k < List.length x)%nat -> finite (nth k x []) = false ->
  (forall j, (j < k)%nat -> finite (nth j x []) = true) ->
  forall n i, (i <= k)%nat -> (List.length x <= n + i)%nat -> crash_loop x n i = (true, S k).
Proof.
  intros Hk Fk Fj. induction n as [|n IH]; intros i Hi Hn; [lia|]. cbn [crash_loop].
  destruct (Nat.ltb_spec i (List.length x)); [|lia].
  destruct (Nat.eq_dec i k) as [->|N].
  - rewrite Fk. reflexivity.
  - rewrite Fj by lia. cbn [negb]. apply IH; lia.
Qed.

Lemma first_bad x : forallb finite x = false -> exists k, (k < List.length x)%nat /\ finite (nth k x []) = false
  /\ forall j, (j < k)%nat -> finite (nth j x []) = true.
Proof.
  induction x as [|a x IH]; [discriminate|]. cbn [forallb]. intros H. destruct (finite a) eqn:E.
  - destruct (IH H) as (k & K1 & K2 & K3). exists (S k). split; [cbn; lia|]. split; [exact K2|].
    intros [|j] Hj; [exact E|]. apply K3. lia.
  - exists 0%nat. split; [cbn; lia|]. split; [exact E|]. intros; lia.
Qed.

Lemma sky_rejected a2m a2ms (alm blm : raw) S symmetric hwp iv bv :
  forallb finite alm = false ->
  (iv = true -> List.length alm = 4%nat) -> (bv = true -> List.length blm = 4%nat) ->
  exists i, init_spinmaps1 a2m a2ms alm blm S symmetric hwp iv bv = NotFinite "alm" i.
Proof.
  intros F Hi Hb. destruct (first_bad alm F) as (k & K1 & K2 & K3).
  unfold init_spinmaps1.
  assert ((negb (List.length alm =? 4)%nat && iv)%bool = false) as ->.
  { destruct iv; [rewrite (Hi eq_refl); reflexivity|apply andb_false_r]. }
  assert ((negb (List.length blm =? 4)%nat && bv)%bool = false) as ->.
  { destruct bv; [rewrite (Hb eq_refl); reflexivity|apply andb_false_r]. }
  unfold nan_check.
  rewrite (crash_loop_first alm k K1 K2 K3) by lia.
  destruct (crash_loop blm (List.length blm) (Datatypes.S k)) as [cb i]. cbn [orb]. eexists. reflexivity.
Qed.

(** The component named is right if the beam has no more components than
    precede the end of the sky's bad one. *)
Lemma crash_loop_out x n i : (List.length x <= i)%nat -> crash_loop x n i = (false, i).
Proof. intros H. destruct n; [reflexivity|]. cbn [crash_loop]. destruct (Nat.ltb_spec i (List.length x)); [lia|reflexivity]. Qed.

Lemma sky_last_named a2m a2ms (alm blm : raw) S symmetric hwp k :
  (k < List.length alm)%nat -> finite (nth k alm []) = false ->
  (forall j, (j < k)%nat -> finite (nth j alm []) = true) -> (List.length blm <= k + 1)%nat ->
  init_spinmaps1 a2m a2ms alm blm S symmetric hwp false false = NotFinite "alm" k.
Proof.
  intros K1 K2 K3 HB. unfold init_spinmaps1. rewrite !andb_false_r. unfold nan_check.
  rewrite (crash_loop_first alm k K1 K2 K3) by lia.
  rewrite crash_loop_out by lia. cbn [orb]. f_equal. lia.
Qed.

Lemma sky_named_wrong a2m a2ms (alm blm : raw) S symmetric hwp k :
  (k < List.length alm)%nat -> finite (nth k alm []) = false ->
  (forall j, (j < k)%nat -> finite (nth j alm []) = true) ->
  forallb finite blm = true -> (k + 1 < List.length blm)%nat ->
  init_spinmaps1 a2m a2ms alm blm S symmetric hwp false false = NotFinite "alm" (List.length blm - 1).
Proof.
  intros K1 K2 K3 FB HB. unfold init_spinmaps1. rewrite !andb_false_r. unfold nan_check.
  rewrite (crash_loop_first alm k K1 K2 K3) by lia.
  rewrite crash_loop_fine by (auto; lia). cbn [orb]. f_equal. lia.
Qed.

(** A beam with no more components than the sky is never looked at. *)
Lemma beam_unchecked a2m a2ms (alm blm : raw) S symmetric hwp :
  forallb finite alm = true -> (List.length blm <= List.length alm)%nat -> forallb finite blm = false ->
  init_spinmaps1 a2m a2ms alm blm S symmetric hwp false false = Poisoned.
Proof.
  intros FA HL FB. unfold init_spinmaps1. rewrite !andb_false_r. unfold nan_check.
  rewrite (crash_loop_fine alm FA) by lia. rewrite crash_loop_out by lia. cbn [orb].
  rewrite FA, FB. reflexivity.
Qed.

(** ** A transform with the required property exists for every harmonics *)
Definition modes_of (L : nat) (x : list C) (l m : nat) : C := nth (off L m + (l - m)) x (RtoC 0).

Lemma modes_of_modes L f l m : (m <= l <= L)%nat -> modes_of L (of_modes L L f) l m = f l m.
Proof.
  intros H. unfold modes_of. pose proof (nth_modes L L f l m ltac:(lia) H) as E.
  apply nth_error_nth with (d := RtoC 0) in E. exact E.
Qed.

Lemma transforms_exist Y npix L : exists a2m a2ms, healpix Y npix L a2m a2ms.
Proof.
  exists (fun x => map (fun p => Re (field Y L 0 (mode (modes_of L x) (modes_of L x)) p)) (seq 0 npix)).
  exists (fun x y s =>
    let f := field Y L s (mode (fun l m => - (modes_of L x l m + Ci * modes_of L y l m))%C
                               (fun l m => - (modes_of L x l m - Ci * modes_of L y l m))%C) in
    (map (fun p => Re (f p)) (seq 0 npix), map (fun p => Im (f p)) (seq 0 npix))).
  split.
  - intros a _. apply map_ext. intros p. f_equal. apply field_ext. intros l m Hl Hm.
    apply mode_ext; intros; apply modes_of_modes; lia.
  - intros ap am s _ _ _. cbv zeta. f_equal; apply map_ext; intros p; f_equal; apply field_ext;
      intros l m Hl Hm; apply mode_ext; intros; rewrite !modes_of_modes by lia; reflexivity.
Qed.

Definition toyY (s : Z) (l : nat) (m : Z) (p : nat) : C := if Z.even (s + m) then RtoC 1 else Ci.
Lemma toyY_sym : conj_symmetric toyY.
Proof.
  intros s l m p. unfold toyY. replace (- s + - m)%Z with (- (s + m))%Z by lia. rewrite Z.even_opp.
  destruct (Z.even (s + m)); apply C_eq; cbn; ring.
Qed.

(** ** In terms of [None] *)
Lemma bad_one x : In None x -> finite x = false.
Proof.
  intros H. destruct (finite x) eqn:E; [|reflexivity]. unfold finite in E. rewrite forallb_forall in E.
  specialize (E None H). discriminate.
Qed.
Lemma good_one x : ~ In None x -> finite x = true.
Proof.
  intros H. unfold finite. apply forallb_forall. intros [c|] Hc; [reflexivity|contradiction].
Qed.
Lemma bad_raw (a : raw) : (exists x, In x a /\ In None x) -> forallb finite a = false.
Proof.
  intros (x & Hx & N). destruct (forallb finite a) eqn:E; [|reflexivity].
  rewrite forallb_forall in E. specialize (E x Hx). rewrite (bad_one x N) in E. discriminate.
Qed.
Lemma good_raw (a : raw) : (forall x, In x a -> ~ In None x) -> forallb finite a = true.
Proof. intros H. apply forallb_forall. intros x Hx. apply good_one. auto. Qed.
Lemma wrong_index k n : (k + 1 < n)%nat -> (n - 1)%nat <> k.
Proof. lia. Qed.
Lemma finite_accepted a2m a2ms (alm blm : raw) S symmetric hwp iv bv :
  forallb finite alm = true -> forallb finite blm = true ->
  forall name i, init_spinmaps1 a2m a2ms alm blm S symmetric hwp iv bv <> NotFinite name i.
Proof.
  intros FA FB name i. unfold init_spinmaps1. destruct (_ && _)%bool; [discriminate|].
  destruct (_ && _)%bool; [discriminate|]. rewrite nan_check_fine by assumption. rewrite FA, FB. cbn [andb].
  destruct (bind _ _); discriminate.
Qed.
