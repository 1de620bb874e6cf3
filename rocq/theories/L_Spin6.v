(** * Timestreams behind a plate that only modulates, for any detector angle *)
From Coq Require Import Reals String Lra Lia.
From Verif Require Import Common Cplx LibList Mat M_Alm M_Blm M_Mueller S_Mueller M_Tod M_Spin
  S_Alm S_Tod S_Spin L_Alm L_Blm L_Mueller L_Blmxhwp L_Tod L_Tod2 L_Tod3 L_Spin L_Spin2 L_Spin3 L_Spin4.
Open Scope R_scope.

Lemma modulator_plate Y npix Ls Lb a2m a2ms aI aE aB bI bm bp (m : rmat4) symmetric S n qs pa polang h :
  let L := Nat.min Ls Lb in
  conj_symmetric Y -> healpix Y npix L a2m a2ms ->
  real_m0 aI -> real_m0 aE -> real_m0 aB -> real_m0 bI ->
  (forall l, bm l 0%nat = Cconj (bp l 0%nat)) -> (S <= L)%nat -> (4 <= L)%nat ->
  e0 (e1 m) = 0 -> e1 (e0 m) = 0 -> e0 (e2 m) = 0 -> e2 (e0 m) = 0 ->
  e2 (e2 m) = - e1 (e1 m) -> e2 (e1 m) = e1 (e2 m) ->
  List.length qs = n -> List.length pa = n -> angles_for n h -> Forall (fun q => (q < npix)%nat) qs ->
  exists d tod,
  init_spinmaps1 a2m a2ms (sky_arrays Ls aI aE aB) (beam_arrays Lb bI bm bp) S symmetric (Some (cmat m)) false false
  = Maps d
  /\ scan_tod n d (map Pix qs) pa polang h = Ok (map RtoC tod) /\ List.length tod = n
  /\ forall i, (i < n)%nat ->
     let q := nth i qs 0%nat in
     let psi := PI - nth i pa 0 * (PI / 180) in
     nth i tod 0
     = Re (convolved Y L (mode aI aI) (fun l s => mode bI bI l s * RtoC (e0 (e0 m)))%C
             (if symmetric then [0%Z] else spins_both S) q psi)
       + Re (convolved Y L (mode (plus2 aE aB) (minus2 aE aB))
               (displaced (mode bp bm) (-4) (e1 (e1 m), e1 (e2 m)))
               (if symmetric then [2%Z] else spins_both S) q psi
             * cis (4 * angle_at h i + 2 * (polang * (PI / 180))))%C.
Proof.
  intros L HY HP RI RE RB Rb Hb HS H4 M01 M10 M02 M20 M22 M21 Lq La Hh Hq.
  assert (SQ : e0 (e1 m) = e1 (e0 m)) by congruence.
  assert (SU : e0 (e2 m) = e2 (e0 m)) by congruence.
  destruct (tod_plate Y npix L a2m a2ms HY HP aI aE aB bI bm bp RI RE RB Rb Hb H4 m SQ SU symmetric S HS
     n qs pa polang h Lq La Hh Hq) as (d & tod & E & E1 & E2 & V).
  exists d, tod. split; [rewrite init_is_make; fold L; rewrite E; reflexivity|].
  split; [exact E1|]. split; [exact E2|]. intros i Hi q psi.
  rewrite V by exact Hi. fold q psi.
  assert (K24 : c24 m = (e1 (e1 m), e1 (e2 m))) by (apply C_eq; cbn; rewrite ?M22, ?M21; field).
  assert (K20 : c20 m = RtoC 0) by (apply C_eq; cbn; rewrite ?M22, ?M21; field).
  assert (K02 : c02 m = RtoC 0) by (apply C_eq; cbn; rewrite ?M01, ?M02; field).
  assert (K22 : c22 m = RtoC 0) by (apply C_eq; cbn; rewrite ?M10, ?M20; field).
  rewrite K24, K20, K02, K22.
  rewrite (convolved_0 Y L _ (displaced (mode bm bp) 0 (RtoC 0))) by (intros; apply displaced_0).
  rewrite (convolved_0 Y L _ (displaced (mode bI bI) (-2) (RtoC 0))) by (intros; apply displaced_0).
  rewrite zero_coded.
  2:{ apply Bmaps_0. intros; apply displaced_0. }
  2:{ rewrite map_length, leak_both. unfold spins_both. rewrite map_length, seq_length. reflexivity. }
  match goal with |- ?a + ?b + ?c + ?e + ?f = _ =>
    replace c with 0 by (cbn; ring); replace e with 0 by (cbn; ring); replace f with 0 by (cbn; ring) end.
  rewrite !Rplus_0_r. reflexivity.
Qed.
