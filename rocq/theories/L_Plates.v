(** * Lemmas: named plates (C74) *)
From Coq Require Import Reals Lra String.
From Verif Require Import Common Cplx M_Mueller M_Transfer S_Transfer S_Plates.
Open Scope R_scope.

Lemma plate_stack_eq t t' m m' a a' : t = t' -> m = m' -> a = a' -> Stack t m a = Stack t' m' a'.
Proof. now intros -> -> ->. Qed.
Lemma mat_eq a b c d a' b' c' d' : a = a' -> b = b' -> c = c' -> d = d' -> Material a b c d = Material a' b' c' d'.
Proof. now intros -> -> -> ->. Qed.
Lemma cons_eq {A} (x y : A) l m : x = y -> l = m -> x :: l = y :: m.
Proof. now intros -> ->. Qed.
Ltac numbers := unfold degs, thick, mm, quartz, circlex, hdpe, art_ar1_mono, art_ar2_mono, art_ar3_mono, equal_ar1, equal_ar2, equal_ar3,
  a3b3_ar1, a3b3_ar2, a3b3_ar3, a3b5_ar1, a3b5_ar2, a3b5_ar3, isotropic, spider_sapphire; cbn [map];
  repeat first [apply plate_stack_eq | apply cons_eq | apply mat_eq | reflexivity]; first [lra | (try unfold Rdiv); try field; lra].

Lemma plate_as_built name l : In (name, l) plates ->
  choose_HWP_model name = stack_builder (map pl_mm l) (map (fun x => [fst (pl_index x); snd (pl_index x)]) l)
    (map (fun x => [fst (pl_loss x); snd (pl_loss x)]) l) (map (fun x => pl_deg x * PI / 180) l).
Proof.
  unfold plates. cbn [In]. intros H.
  repeat (destruct H as [H|H]; [injection H as <- <-; unfold choose_HWP_model, is; cbn [String.eqb Ascii.eqb Bool.eqb];
    cbn -[Rmult Rdiv PI mm thick degs IZR]; apply f_equal; numbers|]). destruct H.
Qed.
