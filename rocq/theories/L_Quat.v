(** * Proofs about the quaternion helpers *)
From Coq Require Import Reals Lra Field.
From Verif Require Import M_Quat S_Quat.
Open Scope R_scope.

Lemma quat_eq (p q : quat) :
  q0 p = q0 q -> q1 p = q1 q -> q2 p = q2 q -> q3 p = q3 q -> p = q.
Proof. destruct p, q; cbn; intros; subst; reflexivity. Qed.

Ltac qeq :=
  apply quat_eq; cbn [q0 q1 q2 q3 quat_left_mult quat_conj quat_div add scale
    qone qi qj qk qzero pure].

Lemma left_mult_hamilton : hamilton quat_left_mult.
Proof. constructor; intros; qeq; ring. Qed.

(** Hamilton's rules determine the product. *)
Lemma hamilton_unique m : hamilton m -> forall p q, m p q = quat_left_mult p q.
Proof.
  intros H p q.
  assert (Hneg : forall a, scale (-1) (scale (-1) a) = a) by (intros; qeq; ring).
  assert (s1 : forall a, scale 1 a = a) by (intros; qeq; ring).
  pose proof (ham_ii m H) as ii. pose proof (ham_jj m H) as jj.
  pose proof (ham_kk m H) as kk. pose proof (ham_ijk m H) as ijk.
  pose proof (ham_assoc m H) as As. pose proof (ham_scale_l m H) as Sl.
  pose proof (ham_scale_r m H) as Sr. pose proof (ham_one_l m H) as Ol.
  pose proof (ham_one_r m H) as Or.
  (* ij = k *)
  assert (ij : m qi qj = qk).
  { assert (E : m (m (m qi qj) qk) qk = scale (-1) qk).
    { rewrite ijk, Sl, Ol. reflexivity. }
    rewrite <- As, kk, Sr, Or in E.
    rewrite <- (Hneg (m qi qj)), E, Hneg. reflexivity. }
  assert (jk : m qj qk = qi).
  { assert (E : m qi (m (m qi qj) qk) = scale (-1) qi).
    { rewrite ijk, Sr, Or. reflexivity. }
    rewrite <- As, As, ii, Sl, Ol in E.
    rewrite <- (Hneg (m qj qk)), E, Hneg. reflexivity. }
  assert (ik : m qi qk = scale (-1) qj).
  { rewrite <- ij, As, ii, Sl, Ol. reflexivity. }
  assert (kj : m qk qj = scale (-1) qi).
  { rewrite <- ij, <- As, jj, Sr, Or. reflexivity. }
  assert (ji : m qj qi = scale (-1) qk).
  { rewrite <- jk, As, jj, Sl, Ol. reflexivity. }
  assert (ki : m qk qi = qj).
  { rewrite <- jk. rewrite As, kj, Sl, ik. apply Hneg. }
  assert (dec : forall a, a = add (scale (q0 a) qone) (add (scale (q1 a) qi)
                    (add (scale (q2 a) qj) (scale (q3 a) qk)))).
  { intros; qeq; ring. }
  rewrite (dec p), (dec q) at 1.
  rewrite !(ham_add_l m H), !(ham_add_r m H), !Sl, !Sr, !Ol, !Or, ii, jj, kk, ij, jk, ik, kj, ji, ki.
  qeq; ring.
Qed.

Lemma norm_mult p q : len2 (quat_left_mult p q) = len2 p * len2 q.
Proof. unfold len2; cbn; ring. Qed.

Lemma conj_mult p q :
  quat_conj (quat_left_mult p q) = quat_left_mult (quat_conj q) (quat_conj p).
Proof. qeq; ring. Qed.

Lemma conj_conj q : quat_conj (quat_conj q) = q.
Proof. qeq; ring. Qed.

Lemma conj_self q : quat_left_mult q (quat_conj q) = scale (len2 q) qone.
Proof. unfold len2. qeq; ring. Qed.

Lemma len2_neq q : q <> qzero -> len2 q <> 0.
Proof.
  intros H E. apply H. destruct q as [a b c d]. unfold len2 in E. cbn in E.
  assert (a = 0) by nra. assert (b = 0) by nra. assert (c = 0) by nra. assert (d = 0) by nra.
  subst. reflexivity.
Qed.

Lemma sumsq_conj q : sumsq (quat_conj q) = len2 q.
Proof. unfold sumsq, len2; cbn; ring. Qed.

Lemma quat_inv_len q : quat_inv q = quat_div (quat_conj q) (len2 q).
Proof. unfold quat_inv; cbv zeta. now rewrite sumsq_conj. Qed.

Lemma inv_spec q : q <> qzero ->
  quat_left_mult q (quat_inv q) = qone /\ quat_left_mult (quat_inv q) q = qone.
Proof.
  intros H. apply len2_neq in H. rewrite quat_inv_len.
  destruct q as [a b c d]. unfold len2 in *. cbn [q0 q1 q2 q3] in *.
  split; qeq; field; exact H.
Qed.

Lemma norm_spec q (inplace : bool) : q <> qzero ->
  let (r, after) := quat_norm q inplace in
  r = scale (/ sqrt (len2 q)) q /\ len2 r = 1
  /\ after = (if inplace then r else q).
Proof.
  intros H. apply len2_neq in H. unfold quat_norm.
  assert (E : sumsq q = len2 q) by (unfold sumsq, len2; ring).
  rewrite E.
  assert (P : 0 < len2 q).
  { assert (0 <= len2 q) by (unfold len2; nra). lra. }
  assert (S : sqrt (len2 q) <> 0).
  { intros Z. apply sqrt_eq_0 in Z; lra. }
  assert (R : quat_div q (sqrt (len2 q)) = scale (/ sqrt (len2 q)) q).
  { qeq; field; exact S. }
  assert (N : len2 (scale (/ sqrt (len2 q)) q) = 1).
  { transitivity (/ sqrt (len2 q) * / sqrt (len2 q) * len2 q).
    - set (i := / sqrt (len2 q)). unfold len2. cbn [q0 q1 q2 q3 scale]. ring.
    - rewrite <- Rinv_mult. rewrite sqrt_sqrt by lra. field. lra. }
  cbv zeta. rewrite R. destruct inplace; auto.
Qed.

Lemma conj_by_len q p : p <> qzero -> len2 (quat_conj_by q p) = len2 q.
Proof.
  intros H. unfold quat_conj_by. rewrite !norm_mult.
  assert (E : len2 p * len2 (quat_inv p) = 1).
  { rewrite <- norm_mult. rewrite (proj1 (inv_spec p H)). unfold len2; cbn; ring. }
  rewrite <- Rmult_assoc, (Rmult_comm (len2 p)), Rmult_assoc, E. ring.
Qed.

Lemma inv_mult p q : p <> qzero -> q <> qzero ->
  quat_inv (quat_left_mult p q) = quat_left_mult (quat_inv q) (quat_inv p).
Proof.
  intros Hp Hq. apply len2_neq in Hp, Hq.
  rewrite !quat_inv_len, norm_mult, conj_mult.
  set (a := len2 p) in *. set (b := len2 q) in *. clearbody a b.
  qeq; field; auto.
Qed.

Lemma mult_neq p q : p <> qzero -> q <> qzero -> quat_left_mult p q <> qzero.
Proof.
  intros Hp Hq E. apply len2_neq in Hp, Hq.
  assert (Z : len2 (quat_left_mult p q) = 0) by (rewrite E; unfold len2; cbn; ring).
  rewrite norm_mult in Z. apply Rmult_integral in Z. tauto.
Qed.

Lemma conj_by_conj_by q p p' : p <> qzero -> p' <> qzero ->
  quat_conj_by (quat_conj_by q p) p' = quat_conj_by q (quat_left_mult p' p).
Proof.
  intros Hp Hp'. unfold quat_conj_by. rewrite inv_mult by assumption.
  rewrite !(ham_assoc _ left_mult_hamilton). reflexivity.
Qed.

Lemma conj_by_mult p a b : p <> qzero ->
  quat_conj_by (quat_left_mult a b) p
  = quat_left_mult (quat_conj_by a p) (quat_conj_by b p).
Proof.
  intros H. unfold quat_conj_by.
  rewrite !(ham_assoc _ left_mult_hamilton).
  rewrite <- (ham_assoc _ left_mult_hamilton (quat_left_mult p a) (quat_inv p) p).
  rewrite (proj2 (inv_spec p H)), (ham_one_r _ left_mult_hamilton). reflexivity.
Qed.

Lemma rotor_len n t : dot n n = 1 -> len2 (rotor n t) = 1.
Proof.
  destruct n as [[x y] z]. cbn [dot]. intros N. unfold len2, rotor. cbn [q0 q1 q2 q3].
  pose proof (sin2_cos2 (t / 2)) as S. unfold Rsqr in S.
  set (s := sin (t / 2)) in *. set (c := cos (t / 2)) in *.
  replace (_ + _) with (c * c + s * s * (x * x + y * y + z * z)) by ring.
  rewrite N. lra.
Qed.

Lemma rotor_neq n t : dot n n = 1 -> rotor n t <> qzero.
Proof.
  intros N E. pose proof (rotor_len n t N) as L. rewrite E in L.
  unfold len2 in L. cbn in L. lra.
Qed.

Lemma conj_by_unit q p : len2 p = 1 ->
  quat_conj_by q p = quat_left_mult p (quat_left_mult q (quat_conj p)).
Proof.
  intros H. unfold quat_conj_by. rewrite quat_inv_len, H.
  assert (E : quat_div (quat_conj p) 1 = quat_conj p) by (qeq; field).
  now rewrite E.
Qed.

Lemma rodrigues n t v : dot n n = 1 ->
  quat_conj_by (pure v) (rotor n t) = pure (rotated n t v).
Proof.
  intros N. rewrite conj_by_unit by (now apply rotor_len).
  destruct n as [[x y] z], v as [[a b] c]. cbn [dot] in N.
  unfold rotated, rotor.
  set (h := t / 2).
  assert (Ec : cos t = cos h * cos h - sin h * sin h).
  { rewrite <- cos_2a. f_equal. unfold h. field. }
  assert (Es : sin t = 2 * sin h * cos h).
  { rewrite <- sin_2a. f_equal. unfold h. field. }
  rewrite Ec, Es. clear Ec Es. clearbody h. clear t.
  pose proof (sin2_cos2 h) as S. unfold Rsqr in S.
  set (s := sin h) in *. set (k := cos h) in *. clearbody s k.
  unfold vadd, vscale, cross, dot. qeq.
  - ring.
  - assert (E : z * z = 1 - x * x - y * y) by lra.
    assert (F : k * k = 1 - s * s) by lra.
    ring [E F].
  - assert (E : z * z = 1 - x * x - y * y) by lra.
    assert (F : k * k = 1 - s * s) by lra.
    ring [E F].
  - assert (E : z * z = 1 - x * x - y * y) by lra.
    assert (F : k * k = 1 - s * s) by lra.
    ring [E F].
Qed.

(** The instrument rotation. *)
Lemma scan_q_off_spec angle off v : off <> qzero ->
  exists w, quat_conj_by (pure v) off = pure w
  /\ quat_conj_by (pure v) (scan_q_off angle off) = pure (rotated axis_z (deg angle) w).
Proof.
  intros H.
  assert (P : exists w, quat_conj_by (pure v) off = pure w).
  { destruct v as [[x y] z].
    set (r := quat_conj_by (pure (x, y, z)) off).
    exists (q1 r, q2 r, q3 r). unfold pure.
    apply quat_eq; cbn [q0 q1 q2 q3]; try reflexivity.
    unfold r, quat_conj_by. rewrite quat_inv_len.
    cbn. apply len2_neq in H. field. exact H. }
  destruct P as [w Hw]. exists w. split; [assumption|].
  assert (N : dot axis_z axis_z = 1) by (cbn; ring).
  assert (E : scan_q_off angle off = quat_left_mult (rotor axis_z (deg angle)) off).
  { unfold scan_q_off, rotor, axis_z, deg. qeq; ring. }
  rewrite E. rewrite <- conj_by_conj_by; [|assumption|now apply rotor_neq].
  rewrite Hw. now apply rodrigues.
Qed.

Lemma scan_q_off_add a b off : scan_q_off a (scan_q_off b off) = scan_q_off (a + b) off.
Proof.
  unfold scan_q_off. cbv zeta.
  replace ((a + b) * PI / 180 / 2) with (a * PI / 180 / 2 + b * PI / 180 / 2) by field.
  rewrite cos_plus, sin_plus. qeq; ring.
Qed.

Lemma scan_q_off_0 off : scan_q_off 0 off = off.
Proof.
  unfold scan_q_off. replace (0 * PI / 180 / 2) with 0 by field.
  rewrite cos_0, sin_0. qeq; ring.
Qed.

Lemma scan_q_off_len a off : len2 (scan_q_off a off) = len2 off.
Proof.
  unfold scan_q_off. rewrite norm_mult.
  set (t := a * PI / 180 / 2). pose proof (sin2_cos2 t) as S. unfold Rsqr in S.
  unfold len2 at 1. cbn [q0 q1 q2 q3].
  replace (_ + _) with (sin t * sin t + cos t * cos t) by ring.
  rewrite S. ring.
Qed.

(** Ground pointing. *)
Lemma boreground az el :
  len2 (q_boreground az el) = 1
  /\ quat_conj_by (pure axis_z) (q_boreground az el) = pure (direction (deg az) (deg el))
  /\ quat_conj_by (pure axis_x) (q_boreground az el) = pure (upward (deg az) (deg el)).
Proof.
  set (a := deg az / 2). set (e := PI / 4 - deg el / 2).
  assert (Q : q_boreground az el
    = Q4 (- sin a * cos e) (cos a * sin e) (sin a * sin e) (cos a * cos e)) by reflexivity.
  pose proof (sin2_cos2 a) as Sa. pose proof (sin2_cos2 e) as Se. unfold Rsqr in Sa, Se.
  assert (L : len2 (q_boreground az el) = 1).
  { rewrite Q. unfold len2. cbn [q0 q1 q2 q3].
    replace (_ + _) with ((sin a * sin a + cos a * cos a) * (sin e * sin e + cos e * cos e)) by ring.
    rewrite Sa, Se. ring. }
  assert (Ca : cos (deg az) = cos a * cos a - sin a * sin a).
  { rewrite <- cos_2a. f_equal. unfold a. field. }
  assert (Saz : sin (deg az) = 2 * sin a * cos a).
  { rewrite <- sin_2a. f_equal. unfold a. field. }
  assert (Ce : cos (deg el) = 2 * sin e * cos e).
  { rewrite <- sin_2a, <- sin_shift. f_equal. unfold e. field. }
  assert (Sel : sin (deg el) = cos e * cos e - sin e * sin e).
  { rewrite <- cos_2a, <- cos_shift. f_equal. unfold e. field. }
  split; [exact L|].
  rewrite !conj_by_unit by exact L. rewrite Q.
  unfold direction, upward, axis_z, axis_x. rewrite Ca, Saz, Ce, Sel.
  clear L Ca Saz Ce Sel Q.
  set (s := sin a) in *. set (c := cos a) in *. set (u := sin e) in *. set (w := cos e) in *.
  clearbody s c u w.
  assert (E : c * c = 1 - s * s) by lra.
  assert (F : w * w = 1 - u * u) by lra.
  split; qeq; ring [E F].
Qed.
