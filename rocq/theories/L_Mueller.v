(** * Proofs about Mueller and Jones matrices *)
From Coq Require Import Reals Lra Psatz String.
From Verif Require Import Common Cplx Mat M_Alm S_Alm L_Alm M_Blm L_Blm M_Mueller S_Mueller.
Open Scope R_scope.

Ltac cexpand :=
  cbv beta iota zeta delta [c0 c1 Cadd Csub Copp Cmul Cconj Cdiv Cinv Cnorm2 RtoC Ci Re Im fst snd].

(** ** The spin basis *)

Definition is2 := / sqrt 2.
Lemma is2_sq : is2 * is2 = 1 / 2.
Proof.
  unfold is2. rewrite <- Rinv_mult, sqrt_sqrt by lra. lra.
Qed.
Lemma sqrt2_neq : sqrt 2 <> 0.
Proof. apply Rgt_not_eq. apply sqrt_lt_R0. lra. Qed.

Definition spin_inv : mat4 :=
  V4 (V4 c1 c0 c0 c0)
     (V4 c0 (RtoC is2) (RtoC is2) c0)
     (V4 c0 (0, - is2) (0, is2) c0)
     (V4 c0 c0 c0 c1).

Lemma tmat_is2 : tmat =
  V4 (V4 c1 c0 c0 c0)
     (V4 c0 (RtoC is2) (0, is2) c0)
     (V4 c0 (RtoC is2) (0, - is2) c0)
     (V4 c0 c0 c0 c1).
Proof.
  unfold tmat. m4eq; apply C_eq; cexpand; unfold is2; field; apply sqrt2_neq.
Qed.

Lemma det_tmat : det4 tmat = (0, -1).
Proof.
  rewrite tmat_is2. mcbn. apply C_eq; cexpand; pose proof is2_sq as E; ring [E] || nra.
Qed.

Lemma tmatinv_eq : tmatinv = spin_inv.
Proof.
  unfold tmatinv. symmetry. apply inv4_unique.
  - rewrite det_tmat. intros E; injection E; lra.
  - rewrite tmat_is2. unfold spin_inv. pose proof is2_sq as E.
    m4eq; apply C_eq; cexpand; (ring || nra).
Qed.

Lemma tmat_r : mmul4 tmat tmatinv = eye4.
Proof. apply inv4_r. rewrite det_tmat. intros E; injection E; lra. Qed.
Lemma tmat_l : mmul4 tmatinv tmat = eye4.
Proof. apply inv4_l. rewrite det_tmat. intros E; injection E; lra. Qed.

Lemma spin_mult a b :
  mueller2spin (mmul4 a b) = mmul4 (mueller2spin a) (mueller2spin b).
Proof.
  unfold mueller2spin.
  rewrite (mmul4_assoc (mmul4 (mmul4 tmat a) tmatinv)).
  rewrite (mmul4_assoc (mmul4 (mmul4 tmat a) tmatinv)).
  rewrite <- (mmul4_assoc (mmul4 tmat a) tmatinv tmat), tmat_l, mmul4_eye_r.
  rewrite mmul4_assoc. reflexivity.
Qed.

Lemma spin_eye : mueller2spin eye4 = eye4.
Proof. unfold mueller2spin. rewrite mmul4_eye_r. apply tmat_r. Qed.

Lemma spin_vec s : mvec4 tmat (map4 RtoC s) = spin_components s.
Proof.
  rewrite tmat_is2. unfold spin_components, Rdiv. fold is2.
  apply v4_eq; mcbn; apply C_eq; cexpand; ring.
Qed.

Lemma cmat_vec m s : mvec4 (cmat m) (map4 RtoC s) = map4 RtoC (rmvec4 m s).
Proof. apply v4_eq; mcbn; apply C_eq; cexpand; ring. Qed.

Lemma spin_operator m s :
  mvec4 (mueller2spin (cmat m)) (spin_components s) = spin_components (rmvec4 m s).
Proof.
  rewrite <- !spin_vec, <- mvec4_mmul. unfold mueller2spin.
  rewrite <- mmul4_assoc, tmat_l, mmul4_eye_r, mvec4_mmul, cmat_vec. reflexivity.
Qed.

(** All elements. *)
Lemma spin_elems (m : rmat4) :
  let h := mueller2spin (cmat m) in
  h = V4 (V4 (RtoC (e0 (e0 m))) (is2 * e1 (e0 m), - is2 * e2 (e0 m))
             (is2 * e1 (e0 m), is2 * e2 (e0 m)) (RtoC (e3 (e0 m))))
         (V4 (is2 * e0 (e1 m), is2 * e0 (e2 m))
             (1/2 * (e1 (e1 m) + e2 (e2 m)), 1/2 * (e1 (e2 m) - e2 (e1 m)))
             (1/2 * (e1 (e1 m) - e2 (e2 m)), 1/2 * (e1 (e2 m) + e2 (e1 m)))
             (is2 * e3 (e1 m), is2 * e3 (e2 m)))
         (V4 (is2 * e0 (e1 m), - is2 * e0 (e2 m))
             (1/2 * (e1 (e1 m) - e2 (e2 m)), - (1/2) * (e1 (e2 m) + e2 (e1 m)))
             (1/2 * (e1 (e1 m) + e2 (e2 m)), - (1/2) * (e1 (e2 m) - e2 (e1 m)))
             (is2 * e3 (e1 m), - is2 * e3 (e2 m)))
         (V4 (RtoC (e0 (e3 m))) (is2 * e1 (e3 m), - is2 * e2 (e3 m))
             (is2 * e1 (e3 m), is2 * e2 (e3 m)) (RtoC (e3 (e3 m)))).
Proof.
  cbv zeta. unfold mueller2spin. rewrite tmatinv_eq, tmat_is2. unfold spin_inv.
  pose proof is2_sq as E.
  m4eq; apply C_eq; cexpand; try ring; ring [E].
Qed.

Lemma spin_conj (m : rmat4) :
  let h := mueller2spin (cmat m) in
  e2 (e2 h) = Cconj (e1 (e1 h)) /\ e1 (e2 h) = Cconj (e2 (e1 h))
  /\ e0 (e2 h) = Cconj (e0 (e1 h)) /\ e3 (e2 h) = Cconj (e3 (e1 h))
  /\ e2 (e0 h) = Cconj (e1 (e0 h)) /\ e2 (e3 h) = Cconj (e1 (e3 h))
  /\ Im (e0 (e0 h)) = 0 /\ Im (e0 (e3 h)) = 0 /\ Im (e3 (e0 h)) = 0 /\ Im (e3 (e3 h)) = 0.
Proof.
  cbv zeta. rewrite spin_elems. cbn [e0 e1 e2 e3].
  repeat split; try (apply C_eq; cexpand; ring); reflexivity.
Qed.

Lemma spin_ideal : mueller2spin (cmat ideal_hwp)
  = V4 (V4 c1 c0 c0 c0) (V4 c0 c0 c1 c0) (V4 c0 c1 c0 c0) (V4 c0 c0 c0 (RtoC (-1))).
Proof.
  rewrite spin_elems. unfold ideal_hwp, diag4. cbn [e0 e1 e2 e3].
  m4eq; apply C_eq; cexpand; lra.
Qed.

(** ** (I, P, P*, V) *)
Lemma ippv_inv_l : mmul4 ippv_Ainv ippv_A = eye4.
Proof. unfold ippv_Ainv, ippv_A. m4eq; apply C_eq; cexpand; lra. Qed.
Lemma ippv_inv_r : mmul4 ippv_A ippv_Ainv = eye4.
Proof. unfold ippv_Ainv, ippv_A. m4eq; apply C_eq; cexpand; lra. Qed.

Lemma ippv_roundtrip m : ippv2iquv (iquv2ippv m) = m /\ iquv2ippv (ippv2iquv m) = m.
Proof.
  unfold ippv2iquv, iquv2ippv. split.
  - rewrite !mmul4_assoc, ippv_inv_r, mmul4_eye_l, <- mmul4_assoc, ippv_inv_r. apply mmul4_eye_r.
  - rewrite !mmul4_assoc, ippv_inv_l, mmul4_eye_l, <- mmul4_assoc, ippv_inv_l. apply mmul4_eye_r.
Qed.

Lemma ippv_vec s : mvec4 ippv_A (map4 RtoC s) = ipp_components s.
Proof.
  unfold ippv_A, ipp_components. apply v4_eq; mcbn; apply C_eq; cexpand; ring.
Qed.

(** The documented meaning is that of the other function. *)
Lemma ippv_operator m s :
  mvec4 (ippv2iquv (cmat m)) (ipp_components s) = ipp_components (rmvec4 m s).
Proof.
  rewrite <- !ippv_vec, <- mvec4_mmul. unfold ippv2iquv.
  rewrite <- !mmul4_assoc, ippv_inv_l, mmul4_eye_r, mvec4_mmul, cmat_vec. reflexivity.
Qed.

Lemma ippv_wrong : exists m s,
  mvec4 (iquv2ippv (cmat m)) (ipp_components s) <> ipp_components (rmvec4 m s).
Proof.
  exists (diag4 0 1 1 0 0), (V4 0 1 0 0). unfold iquv2ippv, ippv_A, ippv_Ainv, ipp_components.
  intros E. apply (f_equal e2) in E. revert E. mcbn. cexpand. intros E. injection E. lra.
Qed.

