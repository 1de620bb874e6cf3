(** * The spin maps of a symmetric beam are the smoothed sky *)
From Coq Require Import Reals String Permutation Lia.
From Verif Require Import Common LibList M_Alm M_Mueller M_Tod M_Spin S_Alm S_Tod S_Spin L_Spin L_Spin2 S_Bin Cplx.
Open Scope R_scope.

Lemma symmetric_smoothed Y npix Ls Lb a2m a2ms aI aE aB bI bm bp S :
  let L := Nat.min Ls Lb in
  conj_symmetric Y -> healpix Y npix L a2m a2ms ->
  real_m0 aI -> real_m0 aE -> real_m0 aB -> real_m0 bI ->
  (forall l, bm l 0%nat = Cconj (bp l 0%nat)) -> (S <= L)%nat -> (2 <= L)%nat ->
  exists d m0 m2,
  init_spinmaps1 a2m a2ms (sky_arrays Ls aI aE aB) (beam_arrays Lb bI bm bp) S true None false false = Maps d
  /\ symmetric_maps m0 m2 d /\ List.length m0 = npix /\ List.length m2 = npix
  /\ forall p, (p < npix)%nat ->
     nth p m0 (RtoC 0) = field Y L 0 (fun l m => mode aI aI l m * bI l 0%nat)%C p
     /\ nth p m2 (RtoC 0) = field Y L 2 (fun l m => mode (plus2 aE aB) (minus2 aE aB) l m * (if (2 <=? l)%nat then bm l 2%nat else RtoC 0))%C p.
Proof.
  intros L HY HP RI RE RB Rb Hb HS H2.
  pose proof (no_plate Y npix L a2m a2ms HY HP aI aE aB RI RE RB bI bm bp true S Rb Hb HS H2) as E.
  eexists _, _, _. split; [rewrite init_is_make; fold L; rewrite E; reflexivity|].
  split; [apply Permutation_refl|].
  unfold Imap, Pmap. rewrite !map_length, !seq_length. split; [reflexivity|]. split; [reflexivity|].
  intros p Hp. rewrite !nth_map_seq by exact Hp. split; apply field_ext; intros l m Hl Hm; f_equal; unfold mode, coef; cbn [Z.abs Z.leb Z.compare Z.to_nat].
  - destruct (Z.ltb_spec (Z.of_nat l) 0) as [I|I]; [exfalso; lia|reflexivity].
  - destruct (Z.ltb_spec (Z.of_nat l) 2) as [I|I], (Nat.leb_spec 2 l) as [J|J]; try reflexivity; exfalso; lia.
Qed.
