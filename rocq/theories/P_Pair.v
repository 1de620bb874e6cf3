(** * Detectors at different angles: C103 *)
From Coq Require Import Reals List ZArith String Lra Lia.
Import ListNotations.
From Verif Require Import Common Cplx M_Tod S_Tod S_Pair L_Pair.
Open Scope R_scope.

(** C103: a detector and its partner turned by 90 degrees, with the same
    pointing.  Half the sum of their timestreams is the unpolarised signal, half
    their difference is the polarised signal of the first; for every beam, sky,
    scan, plate angle and detector angle, without plate or with an ideal one. *)
Theorem C103_pair : forall npix n pix pa h d e00 e24 polang,
  pointing npix n pix pa h -> ideal_sets npix d e00 e24 ->
  exists ta tb, scan_tod n d pix pa polang h = Ok (map RtoC ta) /\ scan_tod n d pix pa (polang + 90) h = Ok (map RtoC tb)
    /\ List.length ta = n /\ List.length tb = n
    /\ forall i, (i < n)%nat ->
       nth i ta 0 + nth i tb 0
       = 2 * two_sided_sum (ss_maps e00) (ss_svals e00) (nth i pix (Pix 0)) (PI - rad (nth i pa 0))
       /\ nth i ta 0 - nth i tb 0
       = 2 * Re (spin_sum (ss_maps e24) (ss_svals e24) (nth i pix (Pix 0)) (PI - rad (nth i pa 0%R))
                 * cis (4 * angle_at h i + 2 * rad polang))%C.
Proof. exact pair_ideal. Qed.
Print Assumptions C103_pair.

(** Behind any plate a timestream is a constant plus terms in the cosine and
    sine of twice the detector angle, so three angles determine all others. *)
Theorem C103_any_plate : forall npix n pix pa h d e00 e24 e20 e02 e22 S,
  pointing npix n pix pa h -> plate_sets npix d e00 e24 e20 e02 e22 S ->
  exists i0 q u : nat -> R, forall polang, exists tod,
    scan_tod n d pix pa polang h = Ok (map RtoC tod) /\ List.length tod = n
    /\ forall i, (i < n)%nat -> nth i tod 0 = i0 i + q i * cos (2 * rad polang) + u i * sin (2 * rad polang).
Proof. exact law_plate. Qed.
Print Assumptions C103_any_plate.

(** The sum over a pair is then the same for pairs at any angle ... *)
Theorem C103_same_sum : forall npix n pix pa h d e00 e24 e20 e02 e22 S polang polang',
  pointing npix n pix pa h -> plate_sets npix d e00 e24 e20 e02 e22 S ->
  exists ta tb ta' tb',
    scan_tod n d pix pa polang h = Ok (map RtoC ta) /\ scan_tod n d pix pa (polang + 90) h = Ok (map RtoC tb)
    /\ scan_tod n d pix pa polang' h = Ok (map RtoC ta') /\ scan_tod n d pix pa (polang' + 90) h = Ok (map RtoC tb')
    /\ forall i, (i < n)%nat -> nth i ta 0 + nth i tb 0 = nth i ta' 0 + nth i tb' 0.
Proof. exact same_sum. Qed.
Print Assumptions C103_same_sum.

(** ... but need not be free of polarisation: behind a plate that lets
    polarisation through unmodulated the sum is not zero although there is no
    intensity. *)
Theorem C103_plate_refuted : exists d e00 e24 e20 e02 e22,
  plate_sets 1 d e00 e24 e20 e02 e22 0 /\ Forall (Forall (fun z => z = RtoC 0)) (ss_maps e00)
  /\ exists ta tb, scan_tod 1 d [Pix 0] [180] 0 (Fixed 0) = Ok [RtoC ta]
    /\ scan_tod 1 d [Pix 0] [180] (0 + 90) (Fixed 0) = Ok [RtoC tb] /\ ta + tb <> 0.
Proof. exact plate_pair_wrong. Qed.
Print Assumptions C103_plate_refuted.

(** A detector turned by 180 degrees sees the same. *)
Theorem C103_half_turn : forall npix n pix pa h d polang,
  pointing npix n pix pa h ->
  (exists e00 e24, ideal_sets npix d e00 e24) \/ (exists e00 e24 e20 e02 e22 S, plate_sets npix d e00 e24 e20 e02 e22 S) ->
  scan_tod n d pix pa (polang + 180) h = scan_tod n d pix pa polang h.
Proof. exact scan_half_turn. Qed.
Print Assumptions C103_half_turn.

(** Crosstalk between the two scales sum and difference and mixes nothing. *)
Theorem C103_crosstalk : forall a b c a' b', cross_talk a b c = Ok (a', b') ->
  forall i, (i < List.length a)%nat ->
    nth i a' 0 + nth i b' 0 = (1 + c) * (nth i a 0 + nth i b 0)
    /\ nth i a' 0 - nth i b' 0 = (1 - c) * (nth i a 0 - nth i b 0).
Proof. exact crosstalk_pair. Qed.
Print Assumptions C103_crosstalk.

(** Two samples, one interpolated, a turning plate, beams with several
    azimuthal modes; with the five sets of a plate as well. *)
Example C103_case :
  let e00 := {| ss_maps := [[RtoC 5; RtoC 6]; [(1, 2); (3, 4)]]; ss_svals := [0; 1]%Z |} in
  let e24 := {| ss_maps := [[(1, 1); (2, 2)]; [(3, 3); (4, 4)]; [(5, 5); (6, 6)]]; ss_svals := [-1; 0; 3]%Z |} in
  let e02 := {| ss_maps := [[(1, 1); (2, 2)]; [(3, 3); (4, 4)]; [(5, 5); (6, 6)]]; ss_svals := [-1; 0; 1]%Z |} in
  pointing 2 2 [Pix 1; Interp [(1 / 2, 0%nat); (1 / 2, 1%nat)]] [10; 20] (Sampled [1; 2])
  /\ ideal_sets 2 [("s2a4", e24); ("s0a0", e00)]%string e00 e24
  /\ plate_sets 2 [("s2a4", e24); ("s0a0", e00); ("s2a0", e24); ("s0a2", e02); ("s2a2", e24)]%string e00 e24 e24 e02 e24 1
  /\ exists a' b', cross_talk [1; 2] [3; 5] (1 / 10) = Ok (a', b').
Proof.
  cbv zeta. split; [|split; [|split]].
  - do 3 (split; [reflexivity|]). repeat constructor; cbn; lia.
  - split; [repeat constructor; cbn; intuition discriminate|]. split; [cbn; intuition congruence|].
    split; [cbn; tauto|]. split; [cbn; tauto|].
    split; [split; [discriminate|split; [reflexivity|repeat constructor]]|].
    split; [split; [discriminate|split; [reflexivity|repeat constructor]]|]. repeat constructor; cbn; lia.
  - split; [split; [repeat constructor; cbn; intuition discriminate|cbn; tauto]|].
    split; [|split; [repeat constructor; cbn; lia|reflexivity]].
    repeat (constructor; [split; [discriminate|split; [reflexivity|repeat constructor]]|]). constructor.
  - do 2 eexists. reflexivity.
Qed.
