(** * 2x2 and 4x4 matrices over the complex numbers

    Mathematical vocabulary only (no code modelled).  A vector of four is a
    record; a matrix is a vector of rows. *)
From Coq Require Import Reals Lra.
From Verif Require Import Cplx.
Open Scope R_scope.

Record v2 (A : Type) := V2 { f0 : A; f1 : A }.
Arguments V2 {A}. Arguments f0 {A}. Arguments f1 {A}.
Record v4 (A : Type) := V4 { e0 : A; e1 : A; e2 : A; e3 : A }.
Arguments V4 {A}. Arguments e0 {A}. Arguments e1 {A}. Arguments e2 {A}. Arguments e3 {A}.

Definition map2 {A B} (f : A -> B) (v : v2 A) : v2 B := V2 (f (f0 v)) (f (f1 v)).
Definition map4 {A B} (f : A -> B) (v : v4 A) : v4 B :=
  V4 (f (e0 v)) (f (e1 v)) (f (e2 v)) (f (e3 v)).

Definition mat2 := v2 (v2 C).
Definition mat4 := v4 (v4 C).
(** Real 4x4 matrices. *)
Definition rmat4 := v4 (v4 R).
Definition cmat (m : rmat4) : mat4 := map4 (map4 RtoC) m.

(** Sum of products. *)
Definition dot2 (a b : v2 C) : C := (f0 a * f0 b + f1 a * f1 b)%C.
Definition dot4 (a b : v4 C) : C := (e0 a * e0 b + e1 a * e1 b + e2 a * e2 b + e3 a * e3 b)%C.
Definition rdot4 (a b : v4 R) : R := e0 a * e0 b + e1 a * e1 b + e2 a * e2 b + e3 a * e3 b.

Definition col2 {A} (m : v2 (v2 A)) : v2 (v2 A) :=
  V2 (map2 f0 m) (map2 f1 m).
Definition col4 {A} (m : v4 (v4 A)) : v4 (v4 A) :=
  V4 (map4 e0 m) (map4 e1 m) (map4 e2 m) (map4 e3 m).

(** Matrix products ([np.dot], [np.matmul] of two-dimensional arrays). *)
Definition mmul2 (a b : mat2) : mat2 := map2 (fun r => map2 (dot2 r) (col2 b)) a.
Definition mmul4 (a b : mat4) : mat4 := map4 (fun r => map4 (dot4 r) (col4 b)) a.
Definition rmmul4 (a b : rmat4) : rmat4 := map4 (fun r => map4 (rdot4 r) (col4 b)) a.
(** Matrix times vector. *)
Definition mvec2 (a : mat2) (v : v2 C) : v2 C := map2 (fun r => dot2 r v) a.
Definition mvec4 (a : mat4) (v : v4 C) : v4 C := map4 (fun r => dot4 r v) a.
Definition rmvec4 (a : rmat4) (v : v4 R) : v4 R := map4 (fun r => rdot4 r v) a.

Definition eye2 : mat2 := V2 (V2 (RtoC 1) (RtoC 0)) (V2 (RtoC 0) (RtoC 1)).
Definition diag4 {A} (z : A) (a b c d : A) : v4 (v4 A) :=
  V4 (V4 a z z z) (V4 z b z z) (V4 z z c z) (V4 z z z d).
Definition eye4 : mat4 := diag4 (RtoC 0) (RtoC 1) (RtoC 1) (RtoC 1) (RtoC 1).
Definition reye4 : rmat4 := diag4 0 1 1 1 1.

Definition mscale2 (k : C) (m : mat2) : mat2 := map2 (map2 (Cmul k)) m.
Definition mscale4 (k : C) (m : mat4) : mat4 := map4 (map4 (Cmul k)) m.
Definition mconj2 (m : mat2) : mat2 := map2 (map2 Cconj) m.
(** Conjugate transpose. *)
Definition dagger2 (m : mat2) : mat2 := col2 (mconj2 m).
Definition trace2 (m : mat2) : C := (f0 (f0 m) + f1 (f1 m))%C.
Definition det2 (m : mat2) : C := (f0 (f0 m) * f1 (f1 m) - f1 (f0 m) * f0 (f1 m))%C.

Definition det3 (a b c d e f g h i : C) : C :=
  (a * (e * i - f * h) - b * (d * i - f * g) + c * (d * h - e * g))%C.

Definition drop0 {A} (v : v4 A) := (e1 v, e2 v, e3 v).
Definition drop1 {A} (v : v4 A) := (e0 v, e2 v, e3 v).
Definition drop2 {A} (v : v4 A) := (e0 v, e1 v, e3 v).
Definition drop3 {A} (v : v4 A) := (e0 v, e1 v, e2 v).

Definition minor (rows : v4 (v4 C) -> v4 C * v4 C * v4 C) (cols : v4 C -> C * C * C) (m : mat4) : C :=
  let '(r, s, t) := rows m in
  let '(a, b, c) := cols r in let '(d, e, f) := cols s in let '(g, h, i) := cols t in
  det3 a b c d e f g h i.

(** Adjugate: transposed matrix of cofactors. *)
Definition adj4 (m : mat4) : mat4 :=
  V4 (V4 (minor drop0 drop0 m) (- minor drop1 drop0 m)%C (minor drop2 drop0 m) (- minor drop3 drop0 m)%C)
     (V4 (- minor drop0 drop1 m)%C (minor drop1 drop1 m) (- minor drop2 drop1 m)%C (minor drop3 drop1 m))
     (V4 (minor drop0 drop2 m) (- minor drop1 drop2 m)%C (minor drop2 drop2 m) (- minor drop3 drop2 m)%C)
     (V4 (- minor drop0 drop3 m)%C (minor drop1 drop3 m) (- minor drop2 drop3 m)%C (minor drop3 drop3 m)).
Definition det4 (m : mat4) : C :=
  let r := e0 m in
  (e0 r * minor drop0 drop0 m - e1 r * minor drop0 drop1 m
   + e2 r * minor drop0 drop2 m - e3 r * minor drop0 drop3 m)%C.

(** The inverse of an invertible matrix (Cramer's rule). *)
Definition inv4 (m : mat4) : mat4 := mscale4 (Cinv (det4 m)) (adj4 m).
Definition adj2 (m : mat2) : mat2 :=
  V2 (V2 (f1 (f1 m)) (- f1 (f0 m))%C) (V2 (- f0 (f1 m))%C (f0 (f0 m))).
Definition inv2 (m : mat2) : mat2 := mscale2 (Cinv (det2 m)) (adj2 m).

Lemma v2_eq {A} (a b : v2 A) : f0 a = f0 b -> f1 a = f1 b -> a = b.
Proof. destruct a, b; cbn; intros; subst; reflexivity. Qed.
Lemma v4_eq {A} (a b : v4 A) :
  e0 a = e0 b -> e1 a = e1 b -> e2 a = e2 b -> e3 a = e3 b -> a = b.
Proof. destruct a, b; cbn; intros; subst; reflexivity. Qed.

Ltac mcbn := cbv beta iota zeta delta [f0 f1 e0 e1 e2 e3 map2 map4 dot2 dot4 rdot4 col2 col4 mmul2 mmul4 rmmul4 mvec2 mvec4
  rmvec4 eye2 eye4 reye4 diag4 mscale2 mscale4 mconj2 dagger2 trace2 det2 det3 det4 adj2 adj4 inv2 inv4 minor
  drop0 drop1 drop2 drop3 cmat].
Ltac m2eq := apply v2_eq; apply v2_eq; mcbn.
Ltac m4eq := apply v4_eq; apply v4_eq; mcbn.

Lemma mmul4_assoc a b c : mmul4 a (mmul4 b c) = mmul4 (mmul4 a b) c.
Proof. m4eq; ring. Qed.
Lemma mmul4_eye_l a : mmul4 eye4 a = a.
Proof. m4eq; ring. Qed.
Lemma mmul4_eye_r a : mmul4 a eye4 = a.
Proof. m4eq; ring. Qed.
Lemma mmul2_assoc a b c : mmul2 a (mmul2 b c) = mmul2 (mmul2 a b) c.
Proof. m2eq; ring. Qed.
Lemma mmul2_eye_l a : mmul2 eye2 a = a.
Proof. m2eq; ring. Qed.
Lemma mmul2_eye_r a : mmul2 a eye2 = a.
Proof. m2eq; ring. Qed.
Lemma mvec4_mmul a b v : mvec4 (mmul4 a b) v = mvec4 a (mvec4 b v).
Proof. apply v4_eq; mcbn; ring. Qed.
Lemma mvec4_eye v : mvec4 eye4 v = v.
Proof. apply v4_eq; mcbn; ring. Qed.

Lemma adj4_r m : mmul4 m (adj4 m) = mscale4 (det4 m) eye4.
Proof. m4eq; ring. Qed.
Lemma adj4_l m : mmul4 (adj4 m) m = mscale4 (det4 m) eye4.
Proof. m4eq; ring. Qed.

Lemma mscale4_l k a b : mmul4 (mscale4 k a) b = mscale4 k (mmul4 a b).
Proof. m4eq; ring. Qed.
Lemma mscale4_r k a b : mmul4 a (mscale4 k b) = mscale4 k (mmul4 a b).
Proof. m4eq; ring. Qed.
Lemma mscale4_scale k l a : mscale4 k (mscale4 l a) = mscale4 (k * l)%C a.
Proof. m4eq; ring. Qed.
Lemma mscale4_1 a : mscale4 (RtoC 1) a = a.
Proof. m4eq; ring. Qed.

Lemma inv4_r m : det4 m <> RtoC 0 -> mmul4 m (inv4 m) = eye4.
Proof.
  intros H. unfold inv4. rewrite mscale4_r, adj4_r, mscale4_scale, Cinv_l by assumption.
  apply mscale4_1.
Qed.
Lemma inv4_l m : det4 m <> RtoC 0 -> mmul4 (inv4 m) m = eye4.
Proof.
  intros H. unfold inv4. rewrite mscale4_l, adj4_l, mscale4_scale, Cinv_l by assumption.
  apply mscale4_1.
Qed.

Lemma det4_mul a b : det4 (mmul4 a b) = (det4 a * det4 b)%C.
Proof.
  destruct a as [[a00 a01 a02 a03] [a10 a11 a12 a13] [a20 a21 a22 a23] [a30 a31 a32 a33]].
  destruct b as [[b00 b01 b02 b03] [b10 b11 b12 b13] [b20 b21 b22 b23] [b30 b31 b32 b33]].
  mcbn. ring.
Qed.

(** A left inverse is the inverse. *)
Lemma inv4_unique m n : det4 m <> RtoC 0 -> mmul4 n m = eye4 -> n = inv4 m.
Proof.
  intros H E. rewrite <- (mmul4_eye_r n), <- (inv4_r m H), mmul4_assoc, E. apply mmul4_eye_l.
Qed.

Lemma inv2_r m : det2 m <> RtoC 0 -> mmul2 m (inv2 m) = eye2.
Proof. intros H. unfold inv2. m2eq; unfold det2 in H; field; exact H. Qed.
Lemma inv2_l m : det2 m <> RtoC 0 -> mmul2 (inv2 m) m = eye2.
Proof. intros H. unfold inv2. m2eq; unfold det2 in H; field; exact H. Qed.
