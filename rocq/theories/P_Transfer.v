(** * Stratified media: C38, C39, C70, C71, C73-C77 *)
From Coq Require Import Reals Lra String.
From Verif Require Import Common Cplx Mat M_Mueller S_Mueller M_Transfer S_Transfer
  L_Layer2 L_Stack L_Stack2 L_Band L_Average L_Normal L_Axis L_Waveplate L_Plate L_Oblique2 S_Plates L_Plates.
Open Scope R_scope.

(** ** C38 *)

(** A stack's matrix is the ordered product of its layers' matrices. *)
Theorem C38_ordered_product : forall (l : list layer) (f th rot n1 n3 : R) (ts : list mat4),
  Forall2 (fun (x : layer) t =>
    transferMatrix (snd (fst x)) (fst (fst x)) f (sin th * n1) (snd x + rot) = Ok t) l ts ->
  exists x, stackTransferMatrix (stack_of l) f th rot n1 n3 = Ok x
    /\ st_transfers x = ts /\ st_total x = product ts
    /\ st_inputIndex x = n1 /\ st_exitIndex x = n3 /\ st_incidenceAngle x = th
    /\ (l <> [] -> st_exitAngle x = Some (asin (sin th * n1 / n3))).
Proof. exact stack_product. Qed.
Print Assumptions C38_ordered_product.

(** Stacking two stacks multiplies their matrices. *)
Theorem C38_stacking : forall (l k : list layer) (f th rot n1 n3 : R),
  (forall x, In x (l ++ k)%list -> transparent (sin th * n1) (snd (fst x))) ->
  exists a b c,
    stackTransferMatrix (stack_of l) f th rot n1 n3 = Ok a
    /\ stackTransferMatrix (stack_of k) f th rot n1 n3 = Ok b
    /\ stackTransferMatrix (stack_of (l ++ k)%list) f th rot n1 n3 = Ok c
    /\ st_total c = mmul4 (st_total a) (st_total b).
Proof. exact stack_concat. Qed.
Print Assumptions C38_stacking.

(** A layer of thickness zero is the identity; it can be inserted anywhere. *)
Theorem C38_empty_layer : forall (m : material) (nsin chi f : R),
  transparent nsin m -> transferMatrix m 0 f nsin chi = Ok eye4.
Proof. exact zero_thickness. Qed.
Print Assumptions C38_empty_layer.

Theorem C38_empty_layer_in_a_stack : forall (l k : list layer) m chi (f th rot n1 n3 : R),
  (forall x, In x (l ++ k)%list -> transparent (sin th * n1) (snd (fst x))) ->
  transparent (sin th * n1) m ->
  exists t,
    (do x <- stackTransferMatrix (stack_of (l ++ [(0, m, chi)] ++ k)%list) f th rot n1 n3;
     Ok (st_total x)) = Ok t
    /\ (do x <- stackTransferMatrix (stack_of (l ++ k)%list) f th rot n1 n3; Ok (st_total x)) = Ok t.
Proof. exact insert_empty_layer. Qed.
Print Assumptions C38_empty_layer_in_a_stack.

(** Two adjacent layers of one material are one layer. *)
Theorem C38_split_layer : forall (l k : list layer) m chi (a b f th rot n1 n3 : R),
  (forall x, In x (l ++ k)%list -> transparent (sin th * n1) (snd (fst x))) ->
  transparent (sin th * n1) m ->
  exists t,
    (do x <- stackTransferMatrix (stack_of (l ++ [(a, m, chi); (b, m, chi)] ++ k)%list) f th rot n1 n3;
     Ok (st_total x)) = Ok t
    /\ (do x <- stackTransferMatrix (stack_of (l ++ [(a + b, m, chi)] ++ k)%list) f th rot n1 n3;
        Ok (st_total x)) = Ok t.
Proof. exact split_layer. Qed.
Print Assumptions C38_split_layer.

(** Sapphire in air at 30 degrees. *)
Example C38_hypothesis : transparent (sin (PI / 6) * 1) (Material 3 (34 / 10) 0 0).
Proof. rewrite sin_PI6. unfold transparent. cbn. rewrite Rabs_right by lra. lra. Qed.

(** ** C39 *)

(** The result is the mean over the frequencies lo + i (hi - lo) / n with
    weights spectrum x pass band x trapezium rule. *)
Theorem C39_weighted_mean : forall s spectrum lo hi rfl pass th n rot n1 n3
    (M : nat -> rmat4) (sp pb : nat -> R),
  (2 <= n)%nat -> lo <> hi ->
  (forall i, (i < n)%nat -> let f := lo + INR i * (hi - lo) / INR n in
     Mueller s f th rot n1 n3 rfl = Ok (M i) /\ spectrum f = Ok (sp i)
     /\ match pass with None => pb i = 1 | Some p => p f = Ok (pb i) end) ->
  let w i := trapezium n i * (sp i * pb i) in
  total n w <> 0 ->
  exists A, BandAveragedMueller s spectrum lo hi rfl pass th n rot n1 n3 = Ok (Some A)
    /\ forall (i : rmat4 -> v4 R) (j : v4 R -> R), In i [e0; e1; e2; e3] -> In j [e0; e1; e2; e3] ->
       j (i A) = total n (fun k => w k * j (i (M k))) / total n w.
Proof. exact band_elements. Qed.
Print Assumptions C39_weighted_mean.

(** A matrix that does not depend on frequency is reproduced. *)
Theorem C39_constant : forall s spectrum lo hi rfl pass th n rot n1 n3 (M : rmat4) (sp pb : nat -> R),
  (2 <= n)%nat -> lo <> hi ->
  (forall i, (i < n)%nat -> let f := lo + INR i * (hi - lo) / INR n in
     Mueller s f th rot n1 n3 rfl = Ok M /\ spectrum f = Ok (sp i)
     /\ match pass with None => pb i = 1 | Some p => p f = Ok (pb i) end) ->
  total n (fun i => trapezium n i * (sp i * pb i)) <> 0 ->
  BandAveragedMueller s spectrum lo hi rfl pass th n rot n1 n3 = Ok (Some M).
Proof. exact band_constant. Qed.
Print Assumptions C39_constant.

(** With non-negative weights, not all zero, each element lies between its
    extremes and the average of passive elements is passive. *)
Theorem C39_between_extremes : forall s spectrum lo hi rfl pass th n rot n1 n3
    (M : nat -> rmat4) (sp pb : nat -> R),
  (2 <= n)%nat -> lo <> hi ->
  (forall i, (i < n)%nat -> let f := lo + INR i * (hi - lo) / INR n in
     Mueller s f th rot n1 n3 rfl = Ok (M i) /\ spectrum f = Ok (sp i)
     /\ match pass with None => pb i = 1 | Some p => p f = Ok (pb i) end) ->
  (forall i, (i < n)%nat -> 0 <= sp i * pb i /\ physical_transmission (M i)) ->
  (exists i, (i < n)%nat /\ 0 < sp i * pb i) ->
  exists A, BandAveragedMueller s spectrum lo hi rfl pass th n rot n1 n3 = Ok (Some A)
    /\ physical_transmission A
    /\ forall (i : rmat4 -> v4 R) (j : v4 R -> R) a b, In i [e0; e1; e2; e3] -> In j [e0; e1; e2; e3] ->
       (forall k, (k < n)%nat -> a <= j (i (M k)) <= b) -> a <= j (i A) <= b.
Proof. exact band_physical. Qed.
Print Assumptions C39_between_extremes.

(** Only the shape of the spectrum matters. *)
Theorem C39_rescaling : forall s spectrum spectrum' lo hi rfl pass th n rot n1 n3
    (M : nat -> rmat4) (sp pb : nat -> R) c,
  (2 <= n)%nat -> lo <> hi -> c <> 0 ->
  (forall i, (i < n)%nat -> let f := lo + INR i * (hi - lo) / INR n in
     Mueller s f th rot n1 n3 rfl = Ok (M i) /\ spectrum f = Ok (sp i) /\ spectrum' f = Ok (c * sp i)
     /\ match pass with None => pb i = 1 | Some p => p f = Ok (pb i) end) ->
  BandAveragedMueller s spectrum lo hi rfl pass th n rot n1 n3
  = BandAveragedMueller s spectrum' lo hi rfl pass th n rot n1 n3.
Proof. exact band_rescaled. Qed.
Print Assumptions C39_rescaling.

(** A single frequency is not averaged: the result is 0/0. *)
Theorem C39_single_frequency_refuted : forall s spectrum lo hi rfl pass th rot n1 n3 m x p,
  Mueller s lo th rot n1 n3 rfl = Ok m -> spectrum lo = Ok x ->
  match pass with None => p = 1 | Some f => f lo = Ok p end ->
  BandAveragedMueller s spectrum lo hi rfl pass th 1 rot n1 n3 = Ok None.
Proof. exact band_single. Qed.
Print Assumptions C39_single_frequency_refuted.

(** The documented "highest frequency to integrate over" is not reached:
    spectrum and pass band above hi - (hi - lo) / n have no effect. *)
Theorem C39_highest_frequency_refuted : forall s sp sp' lo hi rfl p p' th n rot n1 n3,
  lo <= hi ->
  (forall f, f <= hi - (hi - lo) / INR n -> sp f = sp' f /\ p f = p' f) ->
  BandAveragedMueller s sp lo hi rfl (Some p) th n rot n1 n3
  = BandAveragedMueller s sp' lo hi rfl (Some p') th n rot n1 n3.
Proof. exact top_unused. Qed.
Print Assumptions C39_highest_frequency_refuted.

(** The rotation, documented in degrees, is in radians: a quarter-wave plate
    "rotated by 1" is turned by one radian and not by one degree. *)
Theorem C39_rotation_in_degrees_refuted : exists l spectrum lo hi M M',
  BandAveragedMueller (stack_of l) spectrum lo hi false None 0 2 0 1 1 = Ok (Some M)
  /\ BandAveragedMueller (stack_of l) spectrum lo hi false None 0 2 1 1 1 = Ok (Some M')
  /\ is_turned 1 M M' /\ ~ is_turned (1 * PI / 180) M M'.
Proof. exact (ex_intro _ plate (ex_intro _ line (ex_intro _ f_quarter (ex_intro _ (2 * f_quarter) degrees_wrong)))). Qed.
Print Assumptions C39_rotation_in_degrees_refuted.

(** The hypotheses hold for a quarter-wave plate and a flat spectrum. *)
Example C39_hypotheses : exists M : nat -> rmat4, forall i, (i < 2)%nat ->
  Mueller (stack_of [(1, Material 1 2 0 0, 0)]) (1000 + INR i * (2000 - 1000) / INR 2) 0 0 1 1 false = Ok (M i)
  /\ 0 <= 1 * 1.
Proof.
  assert (H : forall f, 0 <= f -> exists m, Mueller (stack_of [(1, Material 1 2 0 0, 0)]) f 0 0 1 1 false = Ok m).
  { intros f Hf. destruct (turned_mueller plate f 0 1 1) as (T & K & T' & K' & E1 & _); try lra.
    - discriminate.
    - exact plate_ok.
    - eauto. }
  destruct (H 1000) as [m0 E0]; [lra|]. destruct (H 1500) as [m1 E1]; [lra|].
  exists (fun i => match i with O => m0 | _ => m1 end).
  intros [|[|i]] Hi.
  - split; [|lra]. rewrite <- E0. f_equal. cbn. field.
  - split; [|lra]. rewrite <- E1. f_equal. cbn. field.
  - exfalso. inversion Hi as [|? Hi']. inversion Hi' as [|? Hi'']. inversion Hi''.
Qed.

(** ** C70 *)

(** The Jones matrices answer the scattering problem of the stack: with light
    [e] from one side, [t] is transmitted and [r] reflected exactly when they
    are the matrices' values at [e]. *)
Theorem C70_scattering_partial : forall (l : list layer) (f th rot n1 n3 : R),
  l <> [] -> 0 <= f -> 0 < n1 -> 0 < n3 -> 0 < cos th -> Rabs (sin th * n1) < n3 ->
  (forall x, In x l -> transparent (sin th * n1) (snd (fst x)) /\ passive (snd (fst x)) /\ 0 <= fst (fst x)
     /\ aligned (sin th * n1) (snd (fst x)) (snd x + rot)) ->
  exists x J K, let th3 := asin (sin th * n1 / n3) in
    stackTransferMatrix (stack_of l) f th rot n1 n3 = Ok x
    /\ Jones (stack_of l) f th rot n1 n3 false = Ok J
    /\ Jones (stack_of l) f th rot n1 n3 true = Ok K
    /\ (forall e t r, scatters (st_total x) n1 th n3 th3 e t r <-> t = mvec2 J e /\ r = mvec2 K e).
Proof. exact stack_scatters. Qed.
Print Assumptions C70_scattering_partial.

(** With axes in any direction the matrices answer the scattering problem
    exactly when it has an answer, i.e. no light comes out without any coming
    in. *)
Theorem C70_any_axes : forall (l : list layer) (f th rot n1 n3 : R),
  l <> [] -> 0 < n1 -> 0 < n3 -> 0 < cos th ->
  (forall x, In x l -> transparent (sin th * n1) (snd (fst x))) ->
  exists x, let th3 := asin (sin th * n1 / n3) in
    stackTransferMatrix (stack_of l) f th rot n1 n3 = Ok x
    /\ ((forall t r, scatters (st_total x) n1 th n3 th3 no_wave t r -> t = no_wave)
        <-> exists J K, Jones (stack_of l) f th rot n1 n3 false = Ok J
            /\ Jones (stack_of l) f th rot n1 n3 true = Ok K
            /\ (forall e t r, scatters (st_total x) n1 th n3 th3 e t r <-> t = mvec2 J e /\ r = mvec2 K e)).
Proof. exact stack_determined. Qed.
Print Assumptions C70_any_axes.

(** A lossless plate, lit obliquely with its axis at 45 degrees to the plane
    of incidence, for which it has none. *)
Theorem C70_glowing_plate_refuted : exists (l : list layer) (f th : R) (x : stackTransfer),
  let th3 := asin (sin th * 1 / 1) in
  l <> [] /\ 0 <= f /\ 0 < cos th /\ Rabs (sin th * 1) < 1
  /\ (forall y, In y l -> transparent (sin th * 1) (snd (fst y)) /\ lossless (snd (fst y)) /\ 0 <= fst (fst y))
  /\ stackTransferMatrix (stack_of l) f th 0 1 1 = Ok x
  /\ (exists t r, scatters (st_total x) 1 th 1 th3 no_wave t r /\ 0 < intensity t)
  /\ ~ exists J K, forall e t r, scatters (st_total x) 1 th 1 th3 e t r <-> t = mvec2 J e /\ r = mvec2 K e.
Proof. exact glowing_undetermined. Qed.
Print Assumptions C70_glowing_plate_refuted.

(** A stack without layers, a bare interface, has no Jones matrix. *)
Theorem C70_empty_stack_refuted : forall f th rot n1 n3 rfl,
  Mueller (stack_of []) f th rot n1 n3 rfl = Err AttributeError.
Proof. exact empty_stack. Qed.
Print Assumptions C70_empty_stack_refuted.

(** ** C71 *)

(** Transmitted plus reflected power is at most the incoming power, and equal
    to it without losses. *)
Theorem C71_power_partial : forall (l : list layer) (f th rot n1 n3 : R),
  l <> [] -> 0 <= f -> 0 < n1 -> 0 < n3 -> 0 < cos th -> Rabs (sin th * n1) < n3 ->
  (forall x, In x l -> transparent (sin th * n1) (snd (fst x)) /\ passive (snd (fst x)) /\ 0 <= fst (fst x)
     /\ aligned (sin th * n1) (snd (fst x)) (snd x + rot)) ->
  exists J K, let th3 := asin (sin th * n1 / n3) in
    Jones (stack_of l) f th rot n1 n3 false = Ok J /\ Jones (stack_of l) f th rot n1 n3 true = Ok K
    /\ (forall e, n3 * cos th3 * intensity (mvec2 J e) + n1 * cos th * intensity (mvec2 K e)
                  <= n1 * cos th * intensity e)
    /\ ((forall x, In x l -> lossless (snd (fst x))) ->
        forall e, n3 * cos th3 * intensity (mvec2 J e) + n1 * cos th * intensity (mvec2 K e)
                  = n1 * cos th * intensity e).
Proof. exact stack_jones_power. Qed.
Print Assumptions C71_power_partial.

(** The same for light of any polarisation. *)
Theorem C71_mueller_partial : forall (l : list layer) (f th rot n1 n3 : R),
  l <> [] -> 0 <= f -> 0 < n1 -> 0 < n3 -> 0 < cos th -> Rabs (sin th * n1) < n3 ->
  (forall x, In x l -> transparent (sin th * n1) (snd (fst x)) /\ passive (snd (fst x)) /\ 0 <= fst (fst x)
     /\ aligned (sin th * n1) (snd (fst x)) (snd x + rot)) ->
  exists T K, let th3 := asin (sin th * n1 / n3) in
    Mueller (stack_of l) f th rot n1 n3 false = Ok T /\ Mueller (stack_of l) f th rot n1 n3 true = Ok K
    /\ (forall s, physical s -> physical (rmvec4 T s) /\ physical (rmvec4 K s)
         /\ n3 * cos th3 * e0 (rmvec4 T s) + n1 * cos th * e0 (rmvec4 K s) <= n1 * cos th * e0 s)
    /\ ((forall x, In x l -> lossless (snd (fst x))) -> forall s, physical s ->
        n3 * cos th3 * e0 (rmvec4 T s) + n1 * cos th * e0 (rmvec4 K s) = n1 * cos th * e0 s)
    /\ (forall (i : rmat4 -> v4 R) (j : v4 R -> R),
        In i [e0; e1; e2; e3] -> In j [e0; e1; e2; e3] ->
        Rabs (j (i T)) <= e0 (e0 T) /\ Rabs (j (i K)) <= e0 (e0 K)).
Proof. exact stack_mueller_power. Qed.
Print Assumptions C71_mueller_partial.

(** With other axes power is not conserved: a lossless plate lit obliquely
    gives out 1.7 times the light it receives, and transmits 1.2 times the
    unpolarised light. *)
Theorem C71_power_refuted : exists (l : list layer) (f th : R) (J K : mat2) (e : v2 C),
  let th3 := asin (sin th * 1 / 1) in
  l <> [] /\ 0 <= f /\ 0 < cos th /\ Rabs (sin th * 1) < 1
  /\ (forall x, In x l -> transparent (sin th * 1) (snd (fst x)) /\ lossless (snd (fst x)) /\ 0 <= fst (fst x))
  /\ Jones (stack_of l) f th 0 1 1 false = Ok J /\ Jones (stack_of l) f th 0 1 1 true = Ok K
  /\ 17 / 10 * (1 * cos th * intensity e) < 1 * cos th3 * intensity (mvec2 J e) + 1 * cos th * intensity (mvec2 K e)
  /\ 0 < intensity e.
Proof. exact power_gained. Qed.
Print Assumptions C71_power_refuted.

Theorem C71_mueller_refuted : exists (l : list layer) (f th : R) (T : rmat4),
  let th3 := asin (sin th * 1 / 1) in
  l <> [] /\ 0 <= f /\ 0 < cos th /\ Rabs (sin th * 1) < 1
  /\ (forall x, In x l -> transparent (sin th * 1) (snd (fst x)) /\ lossless (snd (fst x)) /\ 0 <= fst (fst x))
  /\ Mueller (stack_of l) f th 0 1 1 false = Ok T
  /\ 12 / 10 * (1 * cos th * e0 (V4 1 0 0 0)) < 1 * cos th3 * e0 (rmvec4 T (V4 1 0 0 0)).
Proof. exact light_gained. Qed.
Print Assumptions C71_mueller_refuted.

(** A coated sapphire plate in air, axis in the plane of incidence. *)
Example C71_hypotheses : forall x, In x
    [(1 / 2000, Material (15 / 10) (15 / 10) (1 / 1000) (1 / 1000), 1); (3 / 1000, Material 3 (34 / 10) 0 0, 0)] ->
  transparent (sin (PI / 6) * 1) (snd (fst x)) /\ passive (snd (fst x)) /\ 0 <= fst (fst x)
  /\ aligned (sin (PI / 6) * 1) (snd (fst x)) (snd x + 0).
Proof.
  rewrite sin_PI6. intros x [<-|[<-|[]]]; unfold transparent, passive, aligned; cbn;
  rewrite Rabs_right by lra.
  - repeat split; try lra.
  - repeat split; try lra. right. right. right. rewrite Rplus_0_l. apply sin_0.
Qed.

(** ** C73 *)

(** Lists of thicknesses (mm), index pairs, loss pairs and angles give the
    stack with those layers, in that order. *)
Theorem C73_builder : forall l : list (R * (R * R) * (R * R) * R),
  stack_builder (map (fun x => fst (fst (fst x))) l)
    (map (fun x => [fst (snd (fst (fst x))); snd (snd (fst (fst x)))]) l)
    (map (fun x => [fst (snd (fst x)); snd (snd (fst x))]) l) (map snd l)
  = Ok (stack_of (map (fun x => (fst (fst (fst x)) / 1000,
      Material (fst (snd (fst (fst x)))) (snd (snd (fst (fst x)))) (fst (snd (fst x))) (snd (snd (fst x))),
      snd x)) l)).
Proof. exact builder_ok. Qed.
Print Assumptions C73_builder.

(** Arrays of different sizes are rejected. *)
Theorem C73_sizes : forall (t : list R) (i l : list (list R)) (a : list R),
  List.length a <> List.length t
  \/ list_sum (map (@List.length R) i) <> (2 * List.length t)%nat
  \/ list_sum (map (@List.length R) l) <> (2 * List.length t)%nat ->
  stack_builder t i l a = Err ValueError.
Proof. exact builder_mismatch. Qed.
Print Assumptions C73_sizes.

(** Without a model name all four arrays are required. *)
Theorem C73_missing_arguments : forall az el freq a, a_model a = None ->
  a_thick a = None \/ a_indices a = None \/ a_losses a = None \/ a_angles a = None ->
  set_hwp_mueller az el freq a = Err ValueError.
Proof. exact hwp_incomplete. Qed.
Print Assumptions C73_missing_arguments.

(** ** C74 *)

(** Exactly the known names are accepted. *)
Theorem C74_names : forall name : string,
  (In name known -> exists s, choose_HWP_model name = Ok s)
  /\ (~ In name known -> choose_HWP_model name = Err ValueError).
Proof. exact models_known. Qed.
Print Assumptions C74_names.

(** Each gives a consistent stack of dense, passive layers that is the same
    from both sides. *)
Theorem C74_plates : forall name s, choose_HWP_model name = Ok s ->
  exists l, s = stack_of l /\ l <> [] /\ Forall usable l
    /\ materials s = rev (materials s) /\ thicknesses s = rev (thicknesses s).
Proof. exact models_usable. Qed.
Print Assumptions C74_plates.

(** A named plate is the plate built from the arrays in the table of [S_Plates],
    with thicknesses in millimetres and angles in degrees turned to radians. *)
Theorem C74_as_built : map fst plates = known /\ forall name l, In (name, l) plates ->
  choose_HWP_model name
  = stack_builder (map pl_mm l) (map (fun x => [fst (pl_index x); snd (pl_index x)]) l)
      (map (fun x => [fst (pl_loss x); snd (pl_loss x)]) l) (map (fun x => pl_deg x * PI / 180) l).
Proof. exact (conj eq_refl plate_as_built). Qed.
Print Assumptions C74_as_built.

(** ** C75 *)

(** At the centre of the focal plane every known plate, and every plate built
    from passive layers, has a physical Mueller matrix. *)
Theorem C75_known_plates_at_the_centre : forall name freq, In name known -> 0 <= freq ->
  exists s T, set_hwp_mueller 0 0 freq (HwpArgs (Some name) None None None None) = Ok (s, T)
    /\ physical_transmission T.
Proof. exact hwp_normal. Qed.
Print Assumptions C75_known_plates_at_the_centre.

Theorem C75_custom_plates_at_the_centre : forall (l : list (R * (R * R) * (R * R) * R)) freq,
  l <> [] -> 0 <= freq ->
  (forall t nO nE lO lE a, In (t, (nO, nE), (lO, lE), a) l ->
     0 <= t /\ 0 < nO /\ 0 < nE /\ 0 <= lO /\ 0 <= lE) ->
  exists s T, set_hwp_mueller 0 0 freq
      (HwpArgs None (Some (map (fun x => fst (fst (fst x))) l))
         (Some (map (fun x => [fst (snd (fst (fst x))); snd (snd (fst (fst x)))]) l))
         (Some (map (fun x => [fst (snd (fst x)); snd (snd (fst x))]) l)) (Some (map snd l))) = Ok (s, T)
    /\ physical_transmission T.
Proof. exact hwp_custom. Qed.
Print Assumptions C75_custom_plates_at_the_centre.

(** Away from the centre, for the plates whose axes are all parallel. *)
Theorem C75_away_from_the_centre_partial : forall name az el freq,
  In name single_axis -> 0 <= freq -> sqrt (el ^ 2 + az ^ 2) < 90 ->
  exists s T, set_hwp_mueller az el freq (HwpArgs (Some name) None None None None) = Ok (s, T)
    /\ physical_transmission T.
Proof. exact hwp_oblique. Qed.
Print Assumptions C75_away_from_the_centre_partial.

(** Other plates can amplify: a detector away from the centre sees
    unpolarised light 1.2 times as bright through a lossless plate. *)
Theorem C75_away_from_the_centre_refuted : exists az freq t nO nE a s T,
  0 < az < 90 /\ 0 < freq /\ 0 < t /\ 1 < nO /\ 1 < nE
  /\ set_hwp_mueller az 0 freq (HwpArgs None (Some [t]) (Some [[nO; nE]]) (Some [[0; 0]]) (Some [a])) = Ok (s, T)
  /\ 12 / 10 < e0 (rmvec4 T (V4 1 0 0 0)).
Proof. exact hwp_away. Qed.
Print Assumptions C75_away_from_the_centre_refuted.

Theorem C75_radial : forall az el az' el' freq a, el ^ 2 + az ^ 2 = el' ^ 2 + az' ^ 2 ->
  set_hwp_mueller az el freq a = set_hwp_mueller az' el' freq a.
Proof. exact hwp_radial. Qed.
Print Assumptions C75_radial.

Example C75_hypotheses : In "SPIDER_150"%string single_axis /\ sqrt (3 ^ 2 + 4 ^ 2) < 90.
Proof.
  split; [cbn; tauto|]. replace (3 ^ 2 + 4 ^ 2) with (5 ^ 2) by ring. rewrite sqrt_pow2; lra.
Qed.

(** ** C76 *)

(** At normal incidence rotating the stack turns its action on light; the
    reflected wave, which travels the other way, turns the other way. *)
Theorem C76_jones : forall (l : list layer) (f rot n1 n3 : R),
  l <> [] -> 0 <= f -> 0 < n1 -> 0 < n3 ->
  (forall x, In x l -> transparent 0 (snd (fst x)) /\ passive (snd (fst x)) /\ 0 <= fst (fst x)) ->
  exists J K J' K',
    Jones (stack_of l) f 0 0 n1 n3 false = Ok J /\ Jones (stack_of l) f 0 0 n1 n3 true = Ok K
    /\ Jones (stack_of l) f 0 rot n1 n3 false = Ok J' /\ Jones (stack_of l) f 0 rot n1 n3 true = Ok K'
    /\ forall e, mvec2 J' (turn_field rot e) = turn_field rot (mvec2 J e)
              /\ mvec2 K' (turn_field rot e) = turn_field (- rot) (mvec2 K e).
Proof. exact turned_stack. Qed.
Print Assumptions C76_jones.

Theorem C76_mueller : forall (l : list layer) (f rot n1 n3 : R),
  l <> [] -> 0 <= f -> 0 < n1 -> 0 < n3 ->
  (forall x, In x l -> transparent 0 (snd (fst x)) /\ passive (snd (fst x)) /\ 0 <= fst (fst x)) ->
  exists T K T' K',
    Mueller (stack_of l) f 0 0 n1 n3 false = Ok T /\ Mueller (stack_of l) f 0 0 n1 n3 true = Ok K
    /\ Mueller (stack_of l) f 0 rot n1 n3 false = Ok T' /\ Mueller (stack_of l) f 0 rot n1 n3 true = Ok K'
    /\ is_turned rot T T' /\ forall s, rmvec4 K' (turn rot s) = turn (- rot) (rmvec4 K s).
Proof. exact turned_mueller. Qed.
Print Assumptions C76_mueller.

Example C76_hypotheses : let m := Material 3 (34 / 10) (1 / 10000) (2 / 10000) in
  transparent 0 m /\ passive m /\ 0 <= 3 / 1000.
Proof. cbn. unfold transparent, passive. cbn. rewrite Rabs_R0. lra. Qed.

(** ** C77 *)

(** A lossless layer has the textbook matrix: at normal incidence, turned to
    the optical axis; *)
Theorem C77_normal_incidence : forall (m : material) (chi t f : R),
  transparent 0 m -> lossless m ->
  let nO := ordinaryIndex m in let nE := extraIndex m in
  transferMatrix m t f 0 chi
  = Ok (mmul4 (turn_fields chi)
       (mmul4 (slab nE (wavenumber f * nE * t) nO (wavenumber f * nO * t)) (turn_fields (- chi)))).
Proof. exact normal_slab_turned. Qed.
Print Assumptions C77_normal_incidence.

(** for an isotropic material at any angle; *)
Theorem C77_isotropic : forall (m : material) (nsin chi t f : R),
  transparent nsin m -> lossless m -> ordinaryIndex m = extraIndex m ->
  let n := ordinaryIndex m in let ct := cos (asin (nsin / n)) in
  transferMatrix m t f nsin chi
  = Ok (slab (n / ct) (wavenumber f * n * t * ct) (n * ct) (wavenumber f * n * t * ct)).
Proof. exact isotropic_slab. Qed.
Print Assumptions C77_isotropic.

(** for an axis perpendicular to the plane of incidence at any angle. *)
Theorem C77_axis_perpendicular : forall (m : material) (nsin chi t f : R),
  transparent nsin m -> lossless m -> cos chi = 0 ->
  let nO := ordinaryIndex m in let nE := extraIndex m in
  let cO := cos (asin (nsin / nO)) in let cE := cos (asin (nsin / nE)) in
  transferMatrix m t f nsin chi
  = Ok (slab (nO / cO) (wavenumber f * nO * t * cO) (nE * cE) (wavenumber f * nE * t * cE)).
Proof. exact perpendicular_slab. Qed.
Print Assumptions C77_axis_perpendicular.

(** With the axis in the plane of incidence Maxwell's equations give the
    extraordinary wave the normal index nz = nE sqrt (1 - nsin^2 / nO^2) and
    the admittance nE^2 / nz.  The code's admittance differs at every oblique
    angle, except where the slab is a multiple of half a wave thick. *)
Theorem C77_axis_in_plane_refuted : forall (m : material) (nsin t f : R),
  transparent nsin m -> lossless m ->
  let nO := ordinaryIndex m in let nE := extraIndex m in
  let nz := nE * sqrt (1 - nsin ^ 2 / nO ^ 2) in
  let cO := cos (asin (nsin / nO)) in
  nsin <> 0 -> nO <> nE -> sin (wavenumber f * nz * t) <> 0 ->
  transferMatrix m t f nsin 0
  <> Ok (slab (nE ^ 2 / nz) (wavenumber f * nz * t) (nO * cO) (wavenumber f * nO * t * cO)).
Proof. exact parallel_wrong. Qed.
Print Assumptions C77_axis_in_plane_refuted.

Example C77_refutation_hypotheses : let m := Material 2 3 0 0 in let nz := 3 * sqrt (1 - 1 ^ 2 / 2 ^ 2) in
  transparent 1 m /\ lossless m /\ 1 <> 0 /\ ordinaryIndex m <> extraIndex m
  /\ sin (wavenumber (299800000 / 4) * nz * (1 / nz)) <> 0.
Proof.
  cbv zeta. unfold transparent, lossless. cbn [ordinaryIndex extraIndex ordinaryLoss extraLoss].
  rewrite Rabs_R1.
  assert (P : 0 < sqrt (1 - 1 ^ 2 / 2 ^ 2)) by (apply sqrt_lt_R0; lra).
  repeat split; try lra. unfold wavenumber.
  match goal with |- sin ?x <> 0 => replace x with (PI / 2) by (field; lra) end. rewrite sin_PI2. lra.
Qed.
