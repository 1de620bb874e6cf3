(** * Options of the L2 scan *)
From Coq Require Import Reals Lra Lia.
From Verif Require Import Common M_Hwp M_Quat S_Quat M_L2 S_L2 L_L2 L_L2b L_L2c.
Open Scope R_scope.

Lemma l2_options ta tb fa fb sr j c0 fs i :
  let t := INR i / fs + c0 in
  let axis := spin_axis (ecliptic (used_phase t)) (deg 45) (2 * PI / (192.348 * 60) * t + 3 / 2 * PI) in
  off_pole (boresight (ecliptic (used_phase t)) (deg 45) (deg 50) (2 * PI / (192.348 * 60) * t + 3 / 2 * PI)
              (2 * PI * 0.05 / 60 * t + PI)) ->
  exists ra dec psi, l2_scan ta tb fa fb sr j (l2_ctime c0 fs i 1) = Ok [(ra, dec, psi)]
    /\ dot axis (ecliptic (used_phase t)) = cos (deg 45)
    /\ dot (vscale (-1) (direction (deg ra) (deg dec))) axis = cos (deg 50).
Proof.
  intros t axis H.
  assert (P : 192.348 <> 0) by (apply Rgt_not_eq; lra).
  destruct (ctime2bore_one t 45 50 192.348 0.05 ltac:(lra) P H) as (ra & dec & psi & E & D & _).
  exists ra, dec, psi. split; [exact E|].
  destruct (boresight_angles (used_phase t) (deg 45) (deg 50) (2 * PI / (192.348 * 60) * t + 3 / 2 * PI)
              (2 * PI * 0.05 / 60 * t + PI)) as (_ & _ & A1 & A2).
  split; [exact A1|]. rewrite D, <- A2. fold axis.
  destruct (boresight _ _ _ _ _) as [[x y] z]. destruct axis as [[a b] c]. cbn. ring.
Qed.
