(** * Complex numbers as pairs of reals *)
From Coq Require Export Reals.
From Coq Require Import Ring Field Lra.
Open Scope R_scope.

Definition C : Type := (R * R)%type.
Definition Re (z : C) : R := fst z.
Definition Im (z : C) : R := snd z.
Definition RtoC (x : R) : C := (x, 0).
Definition Ci : C := (0, 1).
Definition Cadd (a b : C) : C := (Re a + Re b, Im a + Im b).
Definition Copp (a : C) : C := (- Re a, - Im a).
Definition Csub (a b : C) : C := (Re a - Re b, Im a - Im b).
Definition Cmul (a b : C) : C := (Re a * Re b - Im a * Im b, Re a * Im b + Im a * Re b).
Definition Cconj (a : C) : C := (Re a, - Im a).
Definition Cnorm2 (a : C) : R := Re a * Re a + Im a * Im a.
Definition Cinv (a : C) : C := (Re a / Cnorm2 a, - Im a / Cnorm2 a).
Definition Cdiv (a b : C) : C := Cmul a (Cinv b).
(** exp(i t) *)
Definition cis (t : R) : C := (cos t, sin t).

Declare Scope C_scope.
Delimit Scope C_scope with C.
Bind Scope C_scope with C.
Infix "+" := Cadd : C_scope.
Infix "-" := Csub : C_scope.
Infix "*" := Cmul : C_scope.
Infix "/" := Cdiv : C_scope.
Notation "- a" := (Copp a) : C_scope.
Notation "0" := (RtoC 0) : C_scope.
Notation "1" := (RtoC 1) : C_scope.

Lemma C_eq (a b : C) : Re a = Re b -> Im a = Im b -> a = b.
Proof. destruct a, b; cbn; intros; subst; reflexivity. Qed.

Ltac ceq := apply C_eq; cbn [Re Im fst snd Cadd Csub Copp Cmul Cconj RtoC Ci].

Definition C_ring_theory : ring_theory (RtoC 0) (RtoC 1) Cadd Cmul Csub Copp (@eq C).
Proof.
  constructor; intros; apply C_eq; cbn; ring.
Qed.

Lemma Cnorm2_neq (a : C) : a <> RtoC 0 -> Cnorm2 a <> 0.
Proof.
  intros H E. apply H. destruct a as [x y]. unfold Cnorm2 in E. cbn in E.
  assert (x * x = 0 /\ y * y = 0) as [Hx Hy] by (split; nra).
  apply C_eq; cbn; nra.
Qed.

Lemma Cinv_l (a : C) : a <> RtoC 0 -> Cmul (Cinv a) a = RtoC 1.
Proof.
  intros H. pose proof (Cnorm2_neq a H) as N. destruct a as [x y]. unfold Cnorm2 in N. cbn in N.
  apply C_eq; unfold Cinv, Cnorm2; cbn; field; exact N.
Qed.

Definition C_field_theory :
  field_theory (RtoC 0) (RtoC 1) Cadd Cmul Csub Copp Cdiv Cinv (@eq C).
Proof.
  constructor.
  - exact C_ring_theory.
  - intros E. injection E. lra.
  - reflexivity.
  - intros; now apply Cinv_l.
Qed.

Add Field Cfield : C_field_theory.

Lemma cis_add a b : cis (a + b) = Cmul (cis a) (cis b).
Proof. apply C_eq; cbn; [rewrite cos_plus|rewrite sin_plus]; ring. Qed.

Lemma cis_0 : cis 0 = RtoC 1.
Proof. apply C_eq; cbn; [apply cos_0|apply sin_0]. Qed.

Lemma cis_opp a : cis (- a) = Cconj (cis a).
Proof. apply C_eq; cbn; [apply cos_neg|apply sin_neg]. Qed.

Lemma cis_conj a : Cconj (cis a) = cis (- a).
Proof. symmetry; apply cis_opp. Qed.

Lemma cis_inv a : Cmul (cis a) (cis (- a)) = RtoC 1.
Proof. rewrite <- cis_add. replace (a + - a) with 0 by ring. apply cis_0. Qed.

Lemma Cconj_mul a b : Cconj (Cmul a b) = Cmul (Cconj a) (Cconj b).
Proof. apply C_eq; cbn; ring. Qed.
Lemma Cconj_add a b : Cconj (Cadd a b) = Cadd (Cconj a) (Cconj b).
Proof. apply C_eq; cbn; ring. Qed.
Lemma Cconj_sub a b : Cconj (Csub a b) = Csub (Cconj a) (Cconj b).
Proof. apply C_eq; cbn; ring. Qed.
Lemma Cconj_opp a : Cconj (Copp a) = Copp (Cconj a).
Proof. reflexivity. Qed.
Lemma Cconj_conj a : Cconj (Cconj a) = a.
Proof. apply C_eq; cbn; ring. Qed.
Lemma Cconj_R x : Cconj (RtoC x) = RtoC x.
Proof. apply C_eq; cbn; ring. Qed.
Lemma RtoC_inj x y : RtoC x = RtoC y -> x = y.
Proof. intros E; now injection E. Qed.
Lemma RtoC_add x y : RtoC (x + y) = Cadd (RtoC x) (RtoC y).
Proof. apply C_eq; cbn; ring. Qed.
Lemma RtoC_mul x y : RtoC (x * y) = Cmul (RtoC x) (RtoC y).
Proof. apply C_eq; cbn; ring. Qed.
Lemma RtoC_opp x : RtoC (- x) = Copp (RtoC x).
Proof. apply C_eq; cbn; ring. Qed.
Lemma RtoC_sub x y : RtoC (x - y) = Csub (RtoC x) (RtoC y).
Proof. apply C_eq; cbn; ring. Qed.
