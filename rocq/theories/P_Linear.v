(** * Theorems C89: superposition *)
From Coq Require Import Reals String.
From Verif Require Import Common M_Chunks M_Hwp M_Detpair M_Tod M_Spin M_Scan M_Filter S_Solve S_Linear S_LinearScan
  L_ScanEx L_ScanEx2 L_ScanEx3 L_Linear2 L_Linear4 L_Linear5 L_LinearEx Cplx.
From Verif Require M_Solve.
Open Scope R_scope.
Local Notation length := List.length.

(** ** A timestream *)

(** The timestream of a superposition of skies is the superposition of the
    timestreams: any beam, plate, pointing, interpolation, polarisation angle,
    and with or without circular polarisation.  The transforms are healpy's, of
    which only linearity is used. *)
Theorem C89_linear_in_the_sky : forall alm2map alm2map_spin a b sky sky' beam spin sym hwp iv bv n pix pa polang h d d' t t',
  linear_transforms alm2map alm2map_spin -> same_shape sky sky' ->
  init_spinmaps1 alm2map alm2map_spin (given sky) (given beam) spin sym hwp iv bv = Maps d -> scan_tod n d pix pa polang h = Ok t ->
  init_spinmaps1 alm2map alm2map_spin (given sky') (given beam) spin sym hwp iv bv = Maps d' -> scan_tod n d' pix pa polang h = Ok t' ->
  exists d'', init_spinmaps1 alm2map alm2map_spin (given (mixes a b sky sky')) (given beam) spin sym hwp iv bv = Maps d''
    /\ scan_tod n d'' pix pa polang h = Ok (mix a b t t').
Proof.
  exact (fun f g a b X Y U S sym hwp iv bv n pix pa pol h d d' t t' L H D T D' T' =>
    linear_sky f g a b X Y U S sym hwp iv bv n pix pa pol h t t' L H (ex_intro _ d (conj D T)) (ex_intro _ d' (conj D' T'))).
Qed.
Print Assumptions C89_linear_in_the_sky.

(** And the same for a superposition of beams. *)
Theorem C89_linear_in_the_beam : forall alm2map alm2map_spin a b sky beam beam' spin sym hwp iv bv n pix pa polang h d d' t t',
  linear_transforms alm2map alm2map_spin -> same_shape beam beam' ->
  init_spinmaps1 alm2map alm2map_spin (given sky) (given beam) spin sym hwp iv bv = Maps d -> scan_tod n d pix pa polang h = Ok t ->
  init_spinmaps1 alm2map alm2map_spin (given sky) (given beam') spin sym hwp iv bv = Maps d' -> scan_tod n d' pix pa polang h = Ok t' ->
  exists d'', init_spinmaps1 alm2map alm2map_spin (given sky) (given (mixes a b beam beam')) spin sym hwp iv bv = Maps d''
    /\ scan_tod n d'' pix pa polang h = Ok (mix a b t t').
Proof.
  exact (fun f g a b X U V S sym hwp iv bv n pix pa pol h d d' t t' L H D T D' T' =>
    linear_beam f g a b X U V S sym hwp iv bv n pix pa pol h t t' L H (ex_intro _ d (conj D T)) (ex_intro _ d' (conj D' T'))).
Qed.
Print Assumptions C89_linear_in_the_beam.

Example C89_timestream_case : linear_transforms toy_map toy_spin /\ same_shape toy_sky toy_sky' /\ toy_sky <> toy_sky'
  /\ forall sky, sky = toy_sky \/ sky = toy_sky' -> exists d t,
     init_spinmaps1 toy_map toy_spin (given sky) (given toy_beam) 2 false None false false = Maps d
     /\ scan_tod 1 d [Pix 3] [30] 45 (Fixed 1) = Ok t /\ length t = 1%nat.
Proof. exact (conj toy_linear (conj eq_refl (conj toy_differ toy_runs))). Qed.

(** ** A scan *)

(** Whole scans of three skies, the third a superposition of the other two:
    whatever the focal plane, ghosts, cross-talk, ground template, rotation,
    plate, filters, saving and place in a communicator, the third scan ends as
    well and every timestream that it scans, bins or saves is the superposition
    of those of the other two, with the same pointing.  Since the three
    instances are related in the same way afterwards, this goes on for any
    number of scans. *)
Theorem C89_scans : forall B a b (E1 E2 E3 : env B) O s1 s2 s3 s1' s2',
  superposed_skies a b E1 E2 E3 -> linear_filter a b O -> superposed a b s1 s2 s3 ->
  scan_instrument E1 O s1 = Ok s1' -> scan_instrument E2 O s2 = Ok s2' ->
  exists s3', scan_instrument E3 O s3 = Ok s3' /\ superposed a b s1' s2' s3'.
Proof. exact @scan_superposed. Qed.
Print Assumptions C89_scans.

(** Before the first scan one instance will do for all three. *)
Theorem C89_first_scan : forall B a b (s : state B), unscanned s -> superposed a b s s s.
Proof. exact @unscanned_sup. Qed.
Print Assumptions C89_first_scan.

(** Whether a scan raises does not depend on the sky. *)
Theorem C89_fails_alike : forall B a b (E1 E2 E3 : env B) O s1 s2 s3 e,
  superposed_skies a b E1 E2 E3 -> linear_filter a b O -> superposed a b s1 s2 s3 ->
  scan_instrument E1 O s1 = Err e -> scan_instrument E2 O s2 = Err e /\ scan_instrument E3 O s3 = Err e.
Proof. exact @scan_fails_alike. Qed.
Print Assumptions C89_fails_alike.

(** The filters of [bin_tod] are linear. *)
Theorem C89_filters : forall a b rfft irfft fsamp freq filter_dict filter_4fhwp filter_highpass O,
  linear_fourier rfft irfft ->
  o_filter O = bin_filters times_real rfft irfft fsamp freq filter_dict filter_4fhwp filter_highpass ->
  linear_filter a b O.
Proof. exact filters_linear. Qed.
Print Assumptions C89_filters.

Example C89_scan_case : let s := rep_state mv_strat ex_beams in
  superposed_skies 2 (-3) ex_env ly_env (lz_env 2 (-3)) /\ linear_filter 2 (-3) mv_opts /\ unscanned s
  /\ linear_fourier toy_rfft toy_irfft
  /\ (exists s', scan_instrument ex_env mv_opts s = Ok s') /\ (exists s', scan_instrument ly_env mv_opts s = Ok s')
  /\ scan_instrument ex_env (ex_opts false false) (ex_state [(None, Some ex_b)]) = Err AttributeError.
Proof.
  exact (conj (lz_skies 2 (-3)) (conj (mv_linear 2 (-3)) (conj mv_unscanned (conj toy_fourier (conj mv_runs (conj ly_runs absent_fails)))))).
Qed.

(** ** A map *)

(** The same calls of [bin_tod] with superposed timestreams: the same matrices
    in every pixel, superposed vectors. *)
Theorem C89_binned_maps : forall a b nside s0 calls1 calls2 calls3 g1 g2,
  superposed_calls a b calls1 calls2 calls3 -> rank_maps nside (s0, calls1) g1 -> rank_maps nside (s0, calls2) g2 ->
  exists g3, rank_maps nside (s0, calls3) g3 /\ superposed_maps a b g1 g2 g3.
Proof. exact maps_superposed. Qed.
Print Assumptions C89_binned_maps.

(** The solved map is the superposition of the solved maps, except in pixels
    that are filled in all of them; condition numbers and matrices are equal. *)
Theorem C89_solved_maps : forall a b well cond mpi gs1 gs2 gs3 fill,
  length gs2 = length gs1 -> length gs3 = length gs1 ->
  (forall r g1 g2 g3, nth_error gs1 r = Some g1 -> nth_error gs2 r = Some g2 -> nth_error gs3 r = Some g3 ->
     superposed_maps a b g1 g2 g3) ->
  forall m1 c1 P1 m2 c2 P2,
  M_Solve.solve_for_map well cond mpi 0 gs1 fill = (Some m1, c1, P1) ->
  M_Solve.solve_for_map well cond mpi 0 gs2 fill = (Some m2, c2, P2) ->
  exists m3, M_Solve.solve_for_map well cond mpi 0 gs3 fill = (Some m3, c1, P1) /\ c2 = c1 /\ P2 = P1
    /\ superposed_solutions a b fill m1 m2 m3.
Proof. exact solve_superposed. Qed.
Print Assumptions C89_solved_maps.

Example C89_map_case : superposed_calls 2 3 calls1 calls2 calls3
  /\ (exists g1, rank_maps 1 (no_maps, calls1) g1) /\ (exists g2, rank_maps 1 (no_maps, calls2) g2).
Proof. exact (conj calls_superposed (conj (calls_run _ (or_introl eq_refl)) (calls_run _ (or_intror eq_refl)))). Qed.
