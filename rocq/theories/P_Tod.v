(** * Properties of timestreams: C23, C24, C25, C53 *)
From Coq Require Import Reals String Lra Lia.
From Verif Require Import Common Cplx M_Tod S_Tod L_Tod L_Tod2 L_Tod3.
Open Scope R_scope.

(** C23: cross-talk of amplitude [c] adds c times the other timestream, sample
    by sample; timestreams of different lengths are refused. *)
Theorem C23_cross_talk : forall (a b : list R) (c : R),
  List.length a = List.length b ->
  exists a' b', cross_talk a b c = Ok (a', b')
  /\ List.length a' = List.length a /\ List.length b' = List.length b
  /\ forall i, nth i a' 0 = nth i a 0 + c * nth i b 0
            /\ nth i b' 0 = nth i b 0 + c * nth i a 0.
Proof. exact cross_talk_ok. Qed.
Print Assumptions C23_cross_talk.

Theorem C23_lengths : forall (a b : list R) (c : R),
  List.length a <> List.length b -> cross_talk a b c = Err ValueError.
Proof. exact cross_talk_err. Qed.
Print Assumptions C23_lengths.

Example C23_case : cross_talk [1; 2] [3; 4] (1 / 10)
  = Ok ([1 * (1 - 1 / 10) + (1 + 3) * (1 / 10); 2 * (1 - 1 / 10) + (2 + 4) * (1 / 10)],
        [3 * (1 - 1 / 10) + (1 + 3) * (1 / 10); 4 * (1 - 1 / 10) + (2 + 4) * (1 / 10)]).
Proof. reflexivity. Qed.

(** C24: a set of spin maps adds sum_s map_s(p) exp(-i s psi) to the
    timestream, for any list of spins. *)
Theorem C24_spin_sum : forall npix tod pix pa e,
  List.length pix = List.length tod -> List.length pa = List.length tod ->
  Forall (on_map npix) pix -> well_sized npix e ->
  exists r, scan_modulate_pa tod pix pa (ss_maps e) (ss_svals e) false = Ok r
  /\ List.length r = List.length tod
  /\ forall i, (i < List.length tod)%nat ->
       nth i r (RtoC 0)
       = (nth i tod (RtoC 0) + spin_sum (ss_maps e) (ss_svals e) (nth i pix (Pix 0)) (nth i pa 0%R))%C.
Proof. exact modulate_complex. Qed.
Print Assumptions C24_spin_sum.

(** In real mode the terms of non-zero spin count twice. *)
Theorem C24_real_mode : forall npix (tod : list R) pix pa e,
  List.length pix = List.length tod -> List.length pa = List.length tod ->
  Forall (on_map npix) pix -> well_sized npix e ->
  Forall (fun s => 0 <= s)%Z (ss_svals e) ->
  exists r, scan_modulate_pa (map RtoC tod) pix pa (ss_maps e) (ss_svals e) true = Ok (map RtoC r)
  /\ List.length r = List.length tod
  /\ forall i, (i < List.length tod)%nat ->
       nth i r 0
       = nth i tod 0 + two_sided_sum (ss_maps e) (ss_svals e) (nth i pix (Pix 0)) (nth i pa 0).
Proof. exact modulate_real. Qed.
Print Assumptions C24_real_mode.

Theorem C24_negative_spin_in_real_mode : forall tod pix pa maps spins,
  Exists (fun s => s < 0)%Z spins ->
  scan_modulate_pa tod pix pa maps spins true = Err ValueError.
Proof. exact modulate_negative. Qed.
Print Assumptions C24_negative_spin_in_real_mode.

(** The timestream of a detector (no plate or an ideal one): unpolarised signal
    plus the polarised one turned by four times the plate angle and twice the
    detector angle.  [pa] is the position angle in degrees as the pointing
    library gives it (HEALPix convention, hence pi minus it). *)
Theorem C24_timestream : forall npix n pix pa polang h d e00 e24,
  List.length pix = n -> List.length pa = n -> angles_for n h -> Forall (on_map npix) pix ->
  NoDup (map fst d) ->
  (forall k, In k (map fst d) <-> k = "s0a0"%string \/ k = "s2a4"%string) ->
  In ("s0a0"%string, e00) d -> In ("s2a4"%string, e24) d ->
  well_sized npix e00 -> well_sized npix e24 ->
  Forall (fun s => 0 <= s)%Z (ss_svals e00) ->
  exists tod, scan_tod n d pix pa polang h = Ok (map RtoC tod) /\ List.length tod = n
  /\ forall i, (i < n)%nat ->
     let p := nth i pix (Pix 0) in
     let psi := PI - nth i pa 0 * (PI / 180) in
     nth i tod 0
     = two_sided_sum (ss_maps e00) (ss_svals e00) p psi
       + Re (spin_sum (ss_maps e24) (ss_svals e24) p psi
             * cis (4 * angle_at h i + 2 * (polang * (PI / 180))))%C.
Proof. exact timestream_old. Qed.
Print Assumptions C24_timestream.

Example C24_case :
  let e00 := {| ss_maps := [[RtoC 5; RtoC 6]; [(1, 2); (3, 4)]]; ss_svals := [0; 1]%Z |} in
  let e24 := {| ss_maps := [[(1, 1); (2, 2)]; [(3, 3); (4, 4)]; [(5, 5); (6, 6)]]; ss_svals := [-1; 0; 3]%Z |} in
  let d := [("s2a4", e24); ("s0a0", e00)]%string in
  Forall (on_map 2) [Pix 1; Interp [(1 / 2, 0%nat); (1 / 2, 1%nat)]]
  /\ NoDup (map fst d) /\ (forall k, In k (map fst d) <-> k = "s0a0"%string \/ k = "s2a4"%string)
  /\ well_sized 2 e00 /\ well_sized 2 e24 /\ Forall (fun s => 0 <= s)%Z (ss_svals e00)
  /\ angles_for 2 (Sampled [1; 2]).
Proof.
  cbv zeta. repeat split.
  - repeat constructor; cbn; lia.
  - repeat constructor; cbn; intuition discriminate.
  - cbn. intuition congruence.
  - cbn. intuition congruence.
  - discriminate.
  - repeat constructor.
  - discriminate.
  - repeat constructor.
  - repeat constructor; cbn; lia.
Qed.

(** C25: with map_{-s} = conj map_s the real mode over 0, ..., S gives the
    complex sum over -S, ..., S, which is real. *)
Theorem C25_real_mode_is_two_sided : forall npix n pix pa S (half full : list (list C)),
  List.length pix = n -> List.length pa = n -> Forall (on_map npix) pix ->
  List.length half = (S + 1)%nat -> List.length full = (2 * S + 1)%nat ->
  Forall (fun m => List.length m = npix) half -> Forall (fun m => List.length m = npix) full ->
  (forall k, (k <= S)%nat -> nth (S + k) full [] = nth k half []
                         /\ nth (S - k) full [] = map Cconj (nth k half [])) ->
  exists tod,
    scan_modulate_pa (repeat (RtoC 0) n) pix pa full (spins_both S) false = Ok (map RtoC tod)
    /\ scan_modulate_pa (repeat (RtoC 0) n) pix pa half (spins_upto S) true = Ok (map RtoC tod)
    /\ List.length tod = n.
Proof. exact modulate_two_sided. Qed.
Print Assumptions C25_real_mode_is_two_sided.

Example C25_case :
  let half := [[RtoC 5]; [(1, 2)]] in
  let full := [[(1, - (2))]; [RtoC 5]; [(1, 2)]] in
  (forall k, (k <= 1)%nat -> nth (1 + k) full [] = nth k half []
                         /\ nth (1 - k) full [] = map Cconj (nth k half []))
  /\ spins_both 1 = [-1; 0; 1]%Z /\ spins_upto 1 = [0; 1]%Z.
Proof.
  split; [|split; reflexivity]. intros [|[|k]] H; [| |lia]; split; try reflexivity.
  cbn. unfold Cconj, RtoC. cbn. rewrite Ropp_0. reflexivity.
Qed.

(** C53: behind any plate the timestream is the physical signal, if the
    detector angle is a multiple of 180 degrees ... *)
Theorem C53_aligned_detector_partial : forall npix n pix pa z h d e00 e24 e20 e02 e22 S,
  List.length pix = n -> List.length pa = n -> angles_for n h -> Forall (on_map npix) pix ->
  five_sets d e00 e24 e20 e02 e22 ->
  Forall (well_sized npix) [e00; e24; e20; e02; e22] ->
  Forall (fun s => 0 <= s)%Z (ss_svals e00) -> ss_svals e02 = spins_both S ->
  exists tod, scan_tod n d pix pa (180 * IZR z) h = Ok (map RtoC tod) /\ List.length tod = n
  /\ forall i, (i < n)%nat ->
     nth i tod 0
     = signal e00 e24 e20 e02 e22 (nth i pix (Pix 0)) (PI - nth i pa 0 * (PI / 180))
         (180 * IZR z * (PI / 180)) (angle_at h i).
Proof. exact timestream_aligned. Qed.
Print Assumptions C53_aligned_detector_partial.

(** ... or, at any angle, if there is neither unmodulated polarisation nor
    leakage of intensity into polarisation. *)
Theorem C53_any_angle_partial : forall npix n pix pa polang h d e00 e24 e20 e02 e22 S,
  List.length pix = n -> List.length pa = n -> angles_for n h -> Forall (on_map npix) pix ->
  five_sets d e00 e24 e20 e02 e22 ->
  Forall (well_sized npix) [e00; e24; e20; e02; e22] ->
  Forall (fun s => 0 <= s)%Z (ss_svals e00) -> ss_svals e02 = spins_both S ->
  Forall (Forall (fun z => z = RtoC 0)) (ss_maps e20) ->
  Forall (Forall (fun z => z = RtoC 0)) (ss_maps e02) ->
  exists tod, scan_tod n d pix pa polang h = Ok (map RtoC tod) /\ List.length tod = n
  /\ forall i, (i < n)%nat ->
     nth i tod 0
     = signal e00 e24 e20 e02 e22 (nth i pix (Pix 0)) (PI - nth i pa 0 * (PI / 180))
         (polang * (PI / 180)) (angle_at h i).
Proof. exact timestream_unleaked. Qed.
Print Assumptions C53_any_angle_partial.

(** An axisymmetric beam looking at one pixel: the leakage of intensity into
    polarisation should follow Re (l exp(2i (a + polang))) but is
    cos(2 polang) Re (l exp(2i a)): a detector at 45 degrees sees none.  And
    unmodulated polarisation does not follow the detector angle at all. *)
Theorem C53_axisymmetric : forall i p p0 l l2 pa polang a,
  let d := [("s0a0", {| ss_maps := [[i]]; ss_svals := [0%Z] |});
            ("s2a4", {| ss_maps := [[p]]; ss_svals := [2%Z] |});
            ("s2a0", {| ss_maps := [[p0]]; ss_svals := [2%Z] |});
            ("s0a2", {| ss_maps := [[l]]; ss_svals := [0%Z] |});
            ("s2a2", {| ss_maps := [[l2]]; ss_svals := [2%Z] |})]%string in
  let psi := PI - pa * (PI / 180) in
  let pol := polang * (PI / 180) in
  exists t, scan_tod 1 d [Pix 0] [pa] polang (Fixed a) = Ok [RtoC t]
  /\ t = Re i + Re (p * cis (- (2 * psi)) * cis (4 * a + 2 * pol))%C
         + Re (p0 * cis (- (2 * psi)))%C
         + cos (2 * pol) * Re (l * cis (2 * a))%C
         + Re (l2 * cis (- (2 * psi)) * cis (2 * a))%C.
Proof. exact axisym_tod. Qed.
Print Assumptions C53_axisymmetric.

Theorem C53_intensity_leakage_refuted :
  exists l polang a t,
    scan_tod 1 [("s0a0", {| ss_maps := [[RtoC 0]]; ss_svals := [0%Z] |});
                ("s2a4", {| ss_maps := [[RtoC 0]]; ss_svals := [2%Z] |});
                ("s2a0", {| ss_maps := [[RtoC 0]]; ss_svals := [2%Z] |});
                ("s0a2", {| ss_maps := [[l]]; ss_svals := [0%Z] |});
                ("s2a2", {| ss_maps := [[RtoC 0]]; ss_svals := [2%Z] |})]%string
      [Pix 0] [0] polang (Fixed a) = Ok [RtoC t]
    /\ t <> Re (l * cis (2 * a + 2 * (polang * (PI / 180))))%C.
Proof. exact leakage_wrong. Qed.
Print Assumptions C53_intensity_leakage_refuted.

Theorem C53_unmodulated_polarisation_refuted :
  exists p0 polang t,
    scan_tod 1 [("s0a0", {| ss_maps := [[RtoC 0]]; ss_svals := [0%Z] |});
                ("s2a4", {| ss_maps := [[RtoC 0]]; ss_svals := [2%Z] |});
                ("s2a0", {| ss_maps := [[p0]]; ss_svals := [2%Z] |});
                ("s0a2", {| ss_maps := [[RtoC 0]]; ss_svals := [0%Z] |});
                ("s2a2", {| ss_maps := [[RtoC 0]]; ss_svals := [2%Z] |})]%string
      [Pix 0] [180] polang (Fixed 0) = Ok [RtoC t]
    /\ t <> Re (p0 * cis (2 * (polang * (PI / 180))))%C.
Proof. exact unmodulated_wrong. Qed.
Print Assumptions C53_unmodulated_polarisation_refuted.

Example C53_case :
  let e s := {| ss_maps := [[(1, 2)]]; ss_svals := [s] |} in
  let d := [("s0a0", e 0%Z); ("s2a4", e 2%Z); ("s2a0", e 2%Z); ("s0a2", e 0%Z); ("s2a2", e 2%Z)]%string in
  five_sets d (e 0%Z) (e 2%Z) (e 2%Z) (e 0%Z) (e 2%Z)
  /\ Forall (well_sized 1) [e 0%Z; e 2%Z; e 2%Z; e 0%Z; e 2%Z]
  /\ ss_svals (e 0%Z) = spins_both 0.
Proof.
  cbn. split; [|split; [|reflexivity]].
  - split; [|cbn; tauto]. repeat constructor; cbn; intuition discriminate.
  - repeat constructor; cbn; discriminate.
Qed.
