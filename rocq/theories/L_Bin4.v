(** * The ideal plate given by its Mueller matrix, from the sky to spin maps *)
From Coq Require Import Reals String Permutation Lia.
From Verif Require Import Common LibList Mat M_Alm M_Blm M_Mueller S_Mueller M_Tod M_Spin S_Alm S_Tod S_Spin
  L_Alm L_Blm L_Blmxhwp L_Spin L_Spin2 L_Spin4 S_Bin L_Bin3 Cplx.
Open Scope R_scope.

Lemma ideal_smoothed Y npix Ls Lb a2m a2ms aI aE aB bI S :
  let L := Nat.min Ls Lb in
  conj_symmetric Y -> healpix Y npix L a2m a2ms ->
  real_m0 aI -> real_m0 aE -> real_m0 aB -> real_m0 bI ->
  (forall l m, (1 <= m)%nat -> bI l m = RtoC 0) -> (S <= L)%nat -> (4 <= L)%nat ->
  exists bm2 bp2 d m0 m2,
  unpol2pol (RtoC 0) Cconj Copp (of_modes Lb Lb bI) = Ok (bm2, bp2)
  /\ init_spinmaps1 a2m a2ms (sky_arrays Ls aI aE aB) [map Some (of_modes Lb Lb bI); map Some bm2; map Some bp2]
       S true (Some (cmat ideal_hwp)) false false = Maps d
  /\ seen_as m0 m2 d /\ List.length m0 = npix /\ List.length m2 = npix
  /\ forall p, (p < npix)%nat ->
     nth p m0 (RtoC 0) = field Y L 0 (fun l m => mode aI aI l m * bI l 0%nat)%C p
     /\ nth p m2 (RtoC 0) = field Y L 2 (fun l m => mode (plus2 aE aB) (minus2 aE aB) l m * (if (2 <=? l)%nat then bI l 0%nat else RtoC 0))%C p.
Proof.
  intros L HY HP RI RE RB Rb Bd HS H4.
  assert (Bd' : band bI) by (intros l m H1 _; apply Bd; exact H1).
  assert (IP := fun n qs pa polang h => ideal_plate Y npix Ls Lb a2m a2ms aI aE aB bI true S n qs pa polang h
                  HY HP RI RE RB Rb Bd' HS H4). cbv zeta in IP.
  assert (HL1 : (1 <= Lb)%nat) by (unfold L in H4; lia).
  assert (EU := unpol2pol_spec (RtoC 0) Cconj Copp Lb bI HL1).
  change (unpol2pol (RtoC 0) Cconj Copp (of_modes Lb Lb bI) = Ok (of_modes Lb Lb (copol_m2 bI), of_modes Lb Lb (copol_p2 bI))) in EU.
  destruct (symmetric_smoothed Y npix Ls Lb a2m a2ms aI aE aB bI (copol_m2 bI) (copol_p2 bI) S HY HP RI RE RB Rb
     (fun l => copol_zero bI l Rb) HS ltac:(fold L; lia)) as (d' & m0 & m2 & E' & Sy & L0 & L2 & V).
  destruct (IP 0%nat [] [] 0 (Fixed 0) eq_refl eq_refl I (Forall_nil _)) as (x2 & y2 & EU0 & d & d0 & _ & E & _).
  rewrite EU in EU0. injection EU0 as <- <-.
  exists (of_modes Lb Lb (copol_m2 bI)), (of_modes Lb Lb (copol_p2 bI)), d, m0, m2.
  split; [exact EU|]. split; [exact E|]. split.
  { exists d'. split; [exact Sy|]. intros n qs pa polang h Lq La Hh Hq. rewrite L0 in Hq.
    destruct (IP n qs pa polang h Lq La Hh Hq) as (x2 & y2 & EU1 & d1 & d2 & tod & F1 & F2 & T1 & T2).
    rewrite EU in EU1. injection EU1 as <- <-. rewrite E in F1. injection F1 as <-.
    unfold beam_arrays in E'. rewrite E' in F2. injection F2 as <-. congruence. }
  split; [exact L0|]. split; [exact L2|]. intros p Hp. destruct (V p Hp) as [V0 V2]. split; [exact V0|].
  rewrite V2. apply field_ext. intros l m Hl Hm. f_equal. unfold copol_m2.
  destruct (Nat.leb_spec 2 l), (Nat.ltb_spec l 2); try lia; [|reflexivity].
  change (Z.of_nat 2 - 2)%Z with 0%Z. unfold coef. cbn [Z.abs Z.leb Z.compare Z.to_nat].
  destruct (Z.ltb_spec (Z.of_nat l) 0); [lia|reflexivity].
Qed.
