(** * Lemmas: superposition from coefficients to timestream (C89); a case *)
From Coq Require Import Reals String Lra.
From Verif Require Import Common Cplx Mat M_Alm M_Blm M_Mueller M_Tod M_Spin S_Linear L_Linear L_Spin2.
Open Scope R_scope.
Local Notation length := List.length.

Lemma given_finite X : forallb finite (given X) = true.
Proof.
  unfold given. induction X as [|x X IH]; [reflexivity|]. cbn. rewrite IH, andb_true_r.
  unfold finite. induction x; cbn; auto.
Qed.
Lemma given_strip X : map strip1 (given X) = X.
Proof.
  unfold given. rewrite map_map. rewrite <- (map_id X) at 2. apply map_ext. intros x. unfold strip1. rewrite map_map.
  rewrite <- (map_id x) at 2. now apply map_ext.
Qed.
Lemma given_length X : length (given X) = length X.
Proof. apply map_length. Qed.

Definition sim f g X U S sym hwp iv bv : res spindict :=
  if (negb (length X =? 4)%nat && iv)%bool then Err ValueError
  else if (negb (length U =? 4)%nat && bv)%bool then Err ValueError
  else do (a, b) <- match_bandlimits X U iv bv; make_spinmaps f g a b S sym hwp iv bv.

Lemma init_sim f g X U S sym hwp iv bv :
  init_spinmaps1 f g (given X) (given U) S sym hwp iv bv
  = match sim f g X U S sym hwp iv bv with Ok d => Maps d | Err e => Raises e end.
Proof.
  unfold init_spinmaps1, sim. rewrite !given_length.
  destruct (_ && _)%bool; [reflexivity|]. destruct (_ && _)%bool; [reflexivity|].
  rewrite nan_check_fine by apply given_finite. rewrite !given_finite, !given_strip. cbn [andb].
  reflexivity.
Qed.

Lemma sim_mix a b f g side X Y Z U V W S sym hwp iv bv : linear_transforms f g ->
  F3 (Sk a b side) X Y Z -> F3 (Bm a b side) U V W ->
  R3 (DV a b) (sim f g X U S sym hwp iv bv) (sim f g Y V S sym hwp iv bv) (sim f g Z W S sym hwp iv bv).
Proof.
  intros LT HS HB. unfold sim. destruct (F3_length _ _ _ _ HS) as [E1 E2], (F3_length _ _ _ _ HB) as [E3 E4].
  rewrite <- E1, <- E2, <- E3, <- E4. destruct (_ && _)%bool; [apply R3_err|]. destruct (_ && _)%bool; [apply R3_err|].
  eapply R3_bind; [apply limits_mix; eassumption|]. intros [x u] [y v] [z w] [H K]. cbn [fst snd] in *.
  eapply make_mix; eassumption.
Qed.

Lemma mixes_F3 a b X Y : same_shape X Y -> F3 (F3 (E a b)) X Y (mixes a b X Y).
Proof.
  unfold same_shape. revert Y. induction X as [|x X IH]; intros [|y Y] H; try discriminate; [constructor|].
  cbn in H. injection H as H1 H2. cbn. constructor; [now apply V_mix|now apply IH].
Qed.

Section Obs.
  Variables (f : list C -> list R) (g : list C -> list C -> Z -> list R * list R).
  Hypothesis LT : linear_transforms f g.
  Variables (S : nat) (sym : bool) (hwp : option mat4) (iv bv : bool).
  Variables (n : nat) (pix : list point) (pa : list R) (polang : R) (h : hwpang).
  Definition obs sky beam t : Prop :=
    exists d, init_spinmaps1 f g (given sky) (given beam) S sym hwp iv bv = Maps d /\ scan_tod n d pix pa polang h = Ok t.

  Lemma obs_mix a b side X Y Z U V W t t' : F3 (Sk a b side) X Y Z -> F3 (Bm a b side) U V W ->
    obs X U t -> obs Y V t' -> obs Z W (mix a b t t').
  Proof.
    intros HS HB (d & D & T) (d' & D' & T').
    assert (M := sim_mix a b f g side X Y Z U V W S sym hwp iv bv LT HS HB).
    rewrite init_sim in D, D'. unfold obs. rewrite init_sim.
    destruct (sim f g X U S sym hwp iv bv) as [e|]; [|discriminate]. injection D as ->.
    destruct (sim f g Y V S sym hwp iv bv) as [e|]; [|discriminate]. injection D' as ->.
    destruct (sim f g Z W S sym hwp iv bv) as [d''|]; [|contradiction]. cbn in M.
    exists d''. split; [reflexivity|]. assert (N := scan_mix a b n d d' d'' pix pa polang h M).
    rewrite T, T' in N. destruct (scan_tod n d'' pix pa polang h); [|contradiction]. cbn in N.
    f_equal. now apply V_eq.
  Qed.
End Obs.

Lemma linear_sky f g a b X Y U S sym hwp iv bv n pix pa pol h t t' : linear_transforms f g -> same_shape X Y ->
  obs f g S sym hwp iv bv n pix pa pol h X U t -> obs f g S sym hwp iv bv n pix pa pol h Y U t' ->
  obs f g S sym hwp iv bv n pix pa pol h (mixes a b X Y) U (mix a b t t').
Proof.
  intros LT HS. apply obs_mix with true; [exact LT|now apply mixes_F3|]. cbn. apply F3_same.
Qed.
Lemma linear_beam f g a b X U V S sym hwp iv bv n pix pa pol h t t' : linear_transforms f g -> same_shape U V ->
  obs f g S sym hwp iv bv n pix pa pol h X U t -> obs f g S sym hwp iv bv n pix pa pol h X V t' ->
  obs f g S sym hwp iv bv n pix pa pol h X (mixes a b U V) (mix a b t t').
Proof.
  intros LT HS. apply obs_mix with false; [exact LT| |now apply mixes_F3]. cbn. apply F3_same.
Qed.

(** ** A case *)

(** Twelve pixels; every mode contributes to each. *)
Fixpoint toy_pixel (p : R) (x : list C) : R :=
  match x with [] => 0 | z :: r => Re z * p + Im z + toy_pixel (p + 1) r end.
Definition toy_map (x : list C) : list R := map (fun p => toy_pixel (INR p) x) (seq 0 12).
Definition toy_spin (x y : list C) (s : Z) : list R * list R := (toy_map x, rscale (IZR s) (toy_map y)).

Lemma toy_pixel_mix a b : forall x y p, length x = length y -> toy_pixel p (mix a b x y) = a * toy_pixel p x + b * toy_pixel p y.
Proof.
  induction x as [|[u u'] x IH]; intros [|[v v'] y] p H; try discriminate; cbn; [ring|].
  unfold mix in IH. rewrite IH by now injection H. cbn. ring.
Qed.
Lemma toy_map_mix a b x y : length x = length y -> toy_map (mix a b x y) = rmix a b (toy_map x) (toy_map y).
Proof.
  intros H. unfold toy_map, rmix. generalize (seq 0 12). intros l. induction l as [|p l IH]; [reflexivity|].
  cbn [map combine fst snd]. rewrite IH, toy_pixel_mix by exact H. reflexivity.
Qed.
Lemma toy_linear : linear_transforms toy_map toy_spin.
Proof.
  split.
  - intros a b x y H. split; [unfold toy_map; now rewrite !map_length|now apply toy_map_mix].
  - intros a b x y x' y' s H K. cbn [toy_spin]. unfold toy_spin.
    split; [unfold toy_map; now rewrite !map_length|]. split; [unfold rscale, toy_map; now rewrite !map_length|].
    rewrite !toy_map_mix by assumption. f_equal. unfold rmix, rscale, toy_map. generalize (seq 0 12). intros l.
    induction l as [|p l IH]; [reflexivity|]. cbn [map combine fst snd]. f_equal; [ring|exact IH].
Qed.

(** Band limit 2, one sample. *)
Definition toy_sky : list (list C) := repeat [(1, 0); (2, 0); (3, 0); (4, 5); (6, 7); (8, 9)] 3.
Definition toy_sky' : list (list C) := repeat [(0, 0); (1, 0); (0, 0); (0, 1); (1, 1); (2, 0)] 3.
Definition toy_beam : list (list C) := repeat [(1, 0); (1, 0); (1, 0); (1, 2); (3, 4); (5, 6)] 3.
Lemma toy_obs sky : sky = toy_sky \/ sky = toy_sky' ->
  exists t, obs toy_map toy_spin 2 false None false false 1 [Pix 3] [30] 45 (Fixed 1) sky toy_beam t /\ length t = 1%nat.
Proof.
  intros Hs. unfold obs.
  assert (X : exists t, (do d <- sim toy_map toy_spin sky toy_beam 2 false None false false; scan_tod 1 d [Pix 3] [30] 45 (Fixed 1)) = Ok t
     /\ length t = 1%nat).
  { destruct Hs as [-> | ->];
    lazy -[Cadd Cmul Csub Copp Cconj Cdiv cis RtoC Re Im toy_pixel INR IZR PI Rplus Rmult Ropp Rinv Rminus Rdiv parity];
    (eexists; split; [reflexivity|reflexivity]). }
  destruct X as (t & X & L). exists t. split; [|exact L].
  rewrite init_sim. destruct (sim toy_map toy_spin sky toy_beam 2 false None false false) as [d|]; [|discriminate].
  exists d. split; [reflexivity|exact X].
Qed.
