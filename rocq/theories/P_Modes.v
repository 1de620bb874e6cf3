(** * Theorems about the azimuthal orders of a beam: C105 *)
From Coq Require Import Reals String Lia.
From Verif Require Import Common Cplx Mat M_Mueller S_Mueller M_Tod M_Spin M_Modes S_Alm S_Tod S_Spin S_Modes
  L_Spin4 L_Modes L_Modes2.
Open Scope R_scope.

(** C105: two settings of symmetric, mmax and max_spin that both compute all
    azimuthal orders the beam has (and, behind a plate, those the plate brings
    them to) give the same timestream, for every sky, pointing, detector angle
    and plate angle. *)
Theorem C105_same_timestream :
  forall Y npix Ls Lb alm2map alm2map_spin aI aE aB bI bm bp hwp o1 o2 n qs pa polang h,
  let L := Nat.min Ls Lb in
  conj_symmetric Y -> healpix Y npix L alm2map alm2map_spin ->
  real_m0 aI -> real_m0 aE -> real_m0 aB -> real_m0 bI ->
  (forall l, bm l 0%nat = Cconj (bp l 0%nat)) ->
  (mmax o1 <= L)%nat -> (mmax o2 <= L)%nat -> plate_ok L hwp ->
  enough (has hwp) L bI bm bp o1 -> enough (has hwp) L bI bm bp o2 ->
  List.length qs = n -> List.length pa = n -> angles_for n h -> Forall (fun q => (q < npix)%nat) qs ->
  exists d1 d2 tod,
  main_spinmaps alm2map alm2map_spin (sky_arrays Ls aI aE aB) (beam_arrays Lb bI bm bp)
    (mmax o1) (max_spin o1) (declared o1) (mueller hwp) false false = Maps d1
  /\ main_spinmaps alm2map alm2map_spin (sky_arrays Ls aI aE aB) (beam_arrays Lb bI bm bp)
    (mmax o2) (max_spin o2) (declared o2) (mueller hwp) false false = Maps d2
  /\ scan_tod n d1 (map Pix qs) pa polang h = Ok (map RtoC tod)
  /\ scan_tod n d2 (map Pix qs) pa polang h = Ok (map RtoC tod) /\ List.length tod = n.
Proof. exact same_orders. Qed.
Print Assumptions C105_same_timestream.

(** An axisymmetric beam may be declared symmetric or not, with or without a
    plate, as long as order 2 is computed. *)
Theorem C105_axisymmetric :
  forall Y npix Ls Lb alm2map alm2map_spin aI aE aB bI bm bp hwp mmax1 mmax2 max_spin1 max_spin2 n qs pa polang h,
  let L := Nat.min Ls Lb in
  conj_symmetric Y -> healpix Y npix L alm2map alm2map_spin ->
  real_m0 aI -> real_m0 aE -> real_m0 aB -> real_m0 bI ->
  (forall l, bm l 0%nat = Cconj (bp l 0%nat)) -> plate_ok L hwp ->
  axisymmetric bI bm bp -> (mmax1 <= L)%nat -> (2 <= mmax2 <= L)%nat -> (2 <= max_spin2)%nat ->
  List.length qs = n -> List.length pa = n -> angles_for n h -> Forall (fun q => (q < npix)%nat) qs ->
  exists d1 d2 tod,
  main_spinmaps alm2map alm2map_spin (sky_arrays Ls aI aE aB) (beam_arrays Lb bI bm bp)
    mmax1 max_spin1 true (mueller hwp) false false = Maps d1
  /\ main_spinmaps alm2map alm2map_spin (sky_arrays Ls aI aE aB) (beam_arrays Lb bI bm bp)
    mmax2 max_spin2 false (mueller hwp) false false = Maps d2
  /\ scan_tod n d1 (map Pix qs) pa polang h = Ok (map RtoC tod)
  /\ scan_tod n d2 (map Pix qs) pa polang h = Ok (map RtoC tod) /\ List.length tod = n.
Proof. exact axisymmetric_same. Qed.
Print Assumptions C105_axisymmetric.

(** For a beam without orders above M, raising mmax or max_spin changes nothing
    from M on without a plate, and from M + 4 on behind one. *)
Theorem C105_band_limit :
  forall Y npix Ls Lb alm2map alm2map_spin aI aE aB bI bm bp hwp M mmax1 mmax2 max_spin1 max_spin2 n qs pa polang h,
  let L := Nat.min Ls Lb in
  conj_symmetric Y -> healpix Y npix L alm2map alm2map_spin ->
  real_m0 aI -> real_m0 aE -> real_m0 aB -> real_m0 bI ->
  (forall l, bm l 0%nat = Cconj (bp l 0%nat)) -> plate_ok L hwp ->
  order_limited M bI bm bp -> let M' := (M + if has hwp then 4 else 0)%nat in
  (M' <= mmax1 <= L)%nat -> (M' <= max_spin1)%nat -> (M' <= mmax2 <= L)%nat -> (M' <= max_spin2)%nat ->
  List.length qs = n -> List.length pa = n -> angles_for n h -> Forall (fun q => (q < npix)%nat) qs ->
  exists d1 d2 tod,
  main_spinmaps alm2map alm2map_spin (sky_arrays Ls aI aE aB) (beam_arrays Lb bI bm bp)
    mmax1 max_spin1 false (mueller hwp) false false = Maps d1
  /\ main_spinmaps alm2map alm2map_spin (sky_arrays Ls aI aE aB) (beam_arrays Lb bI bm bp)
    mmax2 max_spin2 false (mueller hwp) false false = Maps d2
  /\ scan_tod n d1 (map Pix qs) pa polang h = Ok (map RtoC tod)
  /\ scan_tod n d2 (map Pix qs) pa polang h = Ok (map RtoC tod) /\ List.length tod = n.
Proof. exact limited_same. Qed.
Print Assumptions C105_band_limit.

(** Behind a plate the beam's own mmax is not enough, and since max_spin cannot
    raise it the orders above are lost: an unpolarised beam with nothing above
    order 0 and mmax = 0 behind a partial polariser, for which no max_spin gives
    the timestream with all orders. *)
Theorem C105_mmax_behind_plate_refuted :
  exists Y npix L alm2map alm2map_spin aI aE aB bI bm bp m qs pa polang,
  conj_symmetric Y /\ healpix Y npix L alm2map alm2map_spin
  /\ real_m0 aI /\ real_m0 aE /\ real_m0 aB /\ real_m0 bI /\ (forall l, bm l 0%nat = Cconj (bp l 0%nat))
  /\ plate_ok L (Some m) /\ order_limited 0 bI bm bp
  /\ forall max_spin, exists d d' tod tod',
     main_spinmaps alm2map alm2map_spin (sky_arrays L aI aE aB) (beam_arrays L bI bm bp) 0 max_spin false
       (Some (cmat m)) false false = Maps d
     /\ main_spinmaps alm2map alm2map_spin (sky_arrays L aI aE aB) (beam_arrays L bI bm bp) L L false
       (Some (cmat m)) false false = Maps d'
     /\ scan_tod 1 d (map Pix qs) pa polang (Fixed 0) = Ok tod
     /\ scan_tod 1 d' (map Pix qs) pa polang (Fixed 0) = Ok tod'
     /\ tod <> tod'.
Proof. exact mmax_cuts. Qed.
Print Assumptions C105_mmax_behind_plate_refuted.

(** An axisymmetric beam with intensity 2^-l and a co-polarised part, behind a
    partial polariser: declared symmetric, or with five orders. *)
Example C105_case : exists alm2map alm2map_spin d1 d2 tod,
  let bI := (fun l m : nat => if (m =? 0)%nat then RtoC (/ 2 ^ l) else RtoC 0) in
  let bm := (fun l m : nat => if (m =? 2)%nat then RtoC (/ 2 ^ l) else RtoC 0) in
  main_spinmaps alm2map alm2map_spin (sky_arrays 9 E20 E20 nothing) (beam_arrays 6 bI bm nothing) 6 5 true
    (Some (cmat polariser)) false false = Maps d1
  /\ main_spinmaps alm2map alm2map_spin (sky_arrays 9 E20 E20 nothing) (beam_arrays 6 bI bm nothing) 6 5 false
    (Some (cmat polariser)) false false = Maps d2
  /\ scan_tod 3 d1 (map Pix [0; 1; 0]%nat) [10; 20; 30] 35 (Fixed 1) = Ok (map RtoC tod)
  /\ scan_tod 3 d2 (map Pix [0; 1; 0]%nat) [10; 20; 30] 35 (Fixed 1) = Ok (map RtoC tod) /\ List.length tod = 3%nat.
Proof.
  destruct (transforms_exist toyY 2 6) as (a2m & a2ms & HP). exists a2m, a2ms.
  set (bI := fun l m : nat => if (m =? 0)%nat then RtoC (/ 2 ^ l) else RtoC 0).
  set (bm := fun l m : nat => if (m =? 2)%nat then RtoC (/ 2 ^ l) else RtoC 0).
  assert (A : axisymmetric bI bm nothing).
  { intros l m. unfold bI, bm. repeat split; intros; try reflexivity;
      [destruct (Nat.eqb_spec m 0)|destruct (Nat.eqb_spec m 2)]; congruence. }
  destruct (C105_axisymmetric toyY 2 9 6 a2m a2ms E20 E20 nothing bI bm nothing (Some polariser)
    6 6 5 5 3 [0; 1; 0]%nat [10; 20; 30] 35 (Fixed 1)) as (d1 & d2 & tod & H);
    try exact toyY_sym; try exact HP; try exact E20_real; try exact nothing_real; try exact A;
    try reflexivity; try (cbv [Nat.min]; lia).
  - intros l. unfold bm, nothing. cbn [Nat.eqb]. symmetry. apply (Cconj_R 0).
  - split; [cbv [Nat.min]; lia|]. split; reflexivity.
  - repeat constructor.
  - exists d1, d2, tod. exact H.
Qed.
