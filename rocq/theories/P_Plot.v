(** * Plotting: C98, C99 *)
From Coq Require Import Reals String Lra Lia.
From Verif Require Import Common M_Beam M_Plot S_Plot L_Round L_Plot L_Plot2.
Local Notation length := List.length.
Open Scope string_scope.

(** ** C98 *)

(** One picture per map, in its own file, of the pixels the mask leaves visible,
    drawn with the function and the keywords of the call; settings for one map
    come before settings for all. *)
Theorem C98_pictures : forall maps dir tag pf nl lim sym symm mask tight dpi us kw ds,
  extra_keywords kw -> own_settings maps us ->
  plot_iqu maps dir tag pf nl lim sym symm mask tight dpi us kw = Ok ds ->
  length ds = length maps
  /\ forall i d, nth_error ds i = Some d -> exists m, nth_error maps i = Some m
     /\ d_dir d = dir /\ d_file d = tag ++ "_" ++ letter i ++ ".png" /\ d_func d = pf /\ d_tight d = tight
     /\ length (d_pix d) = length m
     /\ (forall j x, nth_error m j = Some x -> nth_error (d_pix d) j = Some (if visible mask j then x else None))
     /\ d_dpi d = match dget (settings us i) "dpi" with Some v => v | None => VInt 150 end
     /\ d_transparent d = match dget (settings us i) "transparent" with
                          | Some v => v
                          | None => match dget kw "transparent" with Some v => v | None => VBool false end
                          end
     /\ dget (d_opts d) "dpi" = None /\ dget (d_opts d) "transparent" = None
     /\ forall k, ~ In k ["min"; "max"; "dpi"; "transparent"] ->
          dget (d_opts d) k = match dget (settings us i) k with Some v => Some v | None => dget kw k end.
Proof. exact pictures. Qed.
Print Assumptions C98_pictures.

(** The colour scale of each map has the limits asked for. *)
Theorem C98_limits : forall maps dir tag pf lim sym symm mask tight dpi us kw ds i d lo hi,
  plot_iqu maps dir tag pf false lim sym symm mask tight dpi us kw = Ok ds ->
  nth_error ds i = Some d -> asked lim sym symm i = Some (lo, hi) ->
  dget (d_opts d) "min" = Some (VNum lo) /\ dget (d_opts d) "max" = Some (VNum hi).
Proof. exact asked_ok. Qed.
Print Assumptions C98_limits.

(** Without: [min] and [max], or -10 and 10, for every map. *)
Theorem C98_default_limits : forall maps dir tag pf lim sym symm mask tight dpi us kw ds,
  none_asked lim sym symm -> dget kw "min" <> Some VNone -> dget kw "max" <> Some VNone ->
  plot_iqu maps dir tag pf false lim sym symm mask tight dpi us kw = Ok ds ->
  forall d, In d ds ->
    dget (d_opts d) "min" = Some (match dget kw "min" with Some v => v | None => VInt (-10) end)
    /\ dget (d_opts d) "max" = Some (match dget kw "max" with Some v => v | None => VInt 10 end).
Proof. exact default_numbers. Qed.
Print Assumptions C98_default_limits.

(** With [min=None, max=None] the limits are found from the pixels, masked ones
    included: the least and the greatest number of the FIRST map, rounded to
    one digit, serve for all maps. *)
Theorem C98_automatic_limits : forall maps dir tag pf lim sym symm mask tight dpi us kw ds m0,
  none_asked lim sym symm -> dget kw "min" = Some VNone -> dget kw "max" = Some VNone ->
  hd_error maps = Some m0 -> us <> Some [] ->
  plot_iqu maps dir tag pf false lim sym symm mask tight dpi us kw = Ok ds ->
  exists least greatest lo hi, is_least m0 least /\ is_greatest m0 greatest
    /\ rounded 1 least lo /\ rounded 1 greatest hi
    /\ forall d, In d ds -> dget (d_opts d) "min" = Some (VNum lo) /\ dget (d_opts d) "max" = Some (VNum hi).
Proof. exact automatic. Qed.
Print Assumptions C98_automatic_limits.

(** Three maps with limits for each can be drawn, with a mask of their size. *)
Theorem C98_three_maps : forall m1 m2 m3 dir tag pf mask tight dpi l1 l2 l3,
  (forall k, mask = Some k -> length k = length m1 /\ length k = length m2 /\ length k = length m3) ->
  exists d1 d2 d3, plot_iqu [m1; m2; m3] dir tag pf false (LSeq [l1; l2; l3]) LNone false mask tight dpi None []
    = Ok [d1; d2; d3].
Proof. exact three_ok. Qed.
Print Assumptions C98_three_maps.

Example C98_case : let m := [Some 3%R; None; Some (-2)%R] in
  extra_keywords [("cmap", VObj 1)]
  /\ own_settings [m; m; m] (Some [[]; [("title", VStr "Q")]; []])
  /\ asked LNone (LScalar 2%R) true 1 = Some (- (2), 2)%R
  /\ none_asked LNone (LScalar 2%R) false
  /\ (exists ds, plot_iqu [m; m; m] "d" "t" (VObj 0) false LNone (LScalar 2%R) true (Some [true; false; false]) true
       (VInt 150) (Some [[]; [("title", VStr "Q")]; []]) [("cmap", VObj 1)] = Ok ds).
Proof.
  split; [|split; [|split; [|split]]].
  - intros k H. cbn in H. repeat (destruct H as [<-|H]; [reflexivity|]). destruct H.
  - intros us H. injection H as <-. repeat split; cbn in H; destruct H as [<-|[<-|[<-|[]]]]; cbn;
      try reflexivity; repeat constructor; intros [].
  - reflexivity.
  - repeat split; intros; try discriminate.
  - eexists. reflexivity.
Qed.

Example C98_automatic_case : exists ds, let m := [Some 3%R; Some (-2)%R] in
  plot_iqu [m; m; m] "d" "t" (VObj 0) false LNone LNone false None true (VInt 150) None
    [("min", VNone); ("max", VNone)] = Ok ds.
Proof.
  assert (A : nan_fold Rmin [Some 3%R; Some (-2)%R] = Some (-2)%R)
    by (cbn; f_equal; apply Rmin_right; lra).
  assert (B : nan_fold Rmax [Some 3%R; Some (-2)%R] = Some 3%R)
    by (cbn; f_equal; apply Rmax_left; lra).
  destruct (round_sig_ok (-2) 1) as (y & Ey & _); [lra|lia|].
  destruct (round_sig_ok 3 1) as (z & Ez & _); [lra|lia|].
  eexists. cbv zeta. unfold plot_iqu. cbn -[nan_fold round_sig].
  rewrite A. cbn -[nan_fold round_sig]. rewrite Ey. cbn -[nan_fold round_sig].
  rewrite B. cbn -[nan_fold round_sig]. rewrite Ez. reflexivity.
Qed.

(** With settings for single maps the map of Stokes V is left out, without an
    error. *)
Theorem C98_stokes_v_refuted : forall maps dir tag pf nl lim sym symm mask tight dpi us kw ds,
  plot_iqu maps dir tag pf nl lim sym symm mask tight dpi (Some us) kw = Ok ds ->
  (length ds <= 3)%nat /\ forall d, In d ds -> d_file d <> tag ++ "_V.png".
Proof. exact v_dropped. Qed.
Print Assumptions C98_stokes_v_refuted.

Example C98_stokes_v_case : forall m1 m2 m3 m4, exists ds,
  plot_iqu [m1; m2; m3; m4] "d" "t" (VObj 0) false LNone LNone false None true (VInt 150) (Some [[]; []; []; []]) [] = Ok ds.
Proof. intros. eexists. reflexivity. Qed.

(** One symmetric limit for all maps fails for four maps. *)
Theorem C98_four_symmetric_refuted : forall m1 m2 m3 m4 dir tag pf nl x mask tight dpi kw ds,
  plot_iqu [m1; m2; m3; m4] dir tag pf nl LNone (LScalar x) true mask tight dpi None kw <> Ok ds.
Proof. exact sym_scalar_four. Qed.
Print Assumptions C98_four_symmetric_refuted.

(** A limit among the settings of one map always fails. *)
Theorem C98_own_limits_refuted : forall maps dir tag pf lim sym symm mask tight dpi u us kw ds k,
  a_dict u -> k = "min" \/ k = "max" -> dget u k <> None ->
  plot_iqu maps dir tag pf false lim sym symm mask tight dpi (Some (u :: us)) kw <> Ok ds.
Proof. exact own_limits. Qed.
Print Assumptions C98_own_limits_refuted.

(** A name of [plot_map]'s other parameters among them fails too. *)
Theorem C98_own_tight_refuted : forall maps dir tag pf nl lim sym symm mask tight dpi u us kw ds k,
  a_dict u -> In k ["map_arr"; "write_dir"; "tag"; "tight"] -> dget u k <> None ->
  plot_iqu maps dir tag pf nl lim sym symm mask tight dpi (Some (u :: us)) kw <> Ok ds.
Proof. exact own_names. Qed.
Print Assumptions C98_own_tight_refuted.

(** A plotting function among the settings of one map is used for the next maps
    too. *)
Theorem C98_own_function_refuted : forall m1 m2 m3 dir tag pf g, exists d1 d2 d3,
  plot_iqu [m1; m2; m3] dir tag pf false LNone LNone false None false (VInt 150)
    (Some [[("plot_func", g)]; []; []]) [] = Ok [d1; d2; d3]
  /\ d_func d2 = g /\ d_func d3 = g.
Proof. exact function_leaks. Qed.
Print Assumptions C98_own_function_refuted.

(** [dpi] has no effect. *)
Theorem C98_dpi_refuted : forall maps dir tag pf nl lim sym symm mask tight dpi kw ds d,
  extra_keywords kw -> plot_iqu maps dir tag pf nl lim sym symm mask tight dpi None kw = Ok ds ->
  In d ds -> d_dpi d = VInt 150.
Proof. exact dpi_ignored. Qed.
Print Assumptions C98_dpi_refuted.

(** ** C99 *)

(** Rounding to [sig] significant digits. *)
Theorem C99_rounded : forall x sig, x <> 0%R -> (1 <= sig)%Z ->
  exists y, round_sig x sig = Ok y /\ rounded sig x y.
Proof. exact round_sig_ok. Qed.
Print Assumptions C99_rounded.

(** The relative error is at most half a unit of the last digit. *)
Theorem C99_error : forall x sig, x <> 0%R -> (1 <= sig)%Z ->
  exists y, round_sig x sig = Ok y /\ (Rabs (y - x) <= 5 * powerRZ 10 (- sig) * Rabs x)%R.
Proof. exact round_sig_err. Qed.
Print Assumptions C99_error.

Example C99_case : 314 <> 0%R /\ (1 <= 2)%Z.
Proof. split; [lra|lia]. Qed.

(** Zero is not rounded to zero, it fails. *)
Theorem C99_zero_refuted : forall sig, round_sig 0 sig = Err OverflowError.
Proof. exact round_sig_zero. Qed.
Print Assumptions C99_zero_refuted.
