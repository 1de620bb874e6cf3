(** * Maps from pairs with cross-talk: C104

    [observed_pairs] (in [S_Talk]) describes a scan by one process of pairs of
    detectors in one place at right angles, with cross-talk [o_ctalk O] between
    the two; otherwise as in C92: any scan strategy, plate, chunks, rotation. *)
From Coq Require Import Reals String.
From Verif Require Import Common M_Quat M_Hwp M_Detpair M_Scan M_Bin S_Scan S_Saved S_Contrib M_Tod S_Bin S_Talk
  L_BinEx L_Talk L_TalkEx Cplx.
From Verif Require M_Solve S_Solve.
Open Scope R_scope.

(** The solved map holds the sky seen through the beam with its intensity
    multiplied by one plus, and its polarisation by one minus, the cross-talk.
    Nothing leaks from one to the other. *)
Theorem C104_map : forall P nside m0 m2 err ranks maps0 E O s s' new gs well cond fill p,
  sound P (12 * nside ^ 2) -> List.length m0 = (12 * nside ^ 2)%nat -> List.length m2 = (12 * nside ^ 2)%nat ->
  ranks <> [] ->
  (forall r, In r ranks -> observed_pairs P m0 m2 err (E r) O (s r) (s' r) (new r)) ->
  (forall r, In r ranks -> M_Solve.own_flag (maps0 r) = None) ->
  Forall2 (S_Solve.rank_maps nside) (map (fun r : nat => (maps0 r, bin_calls_of P (new r))) ranks) gs ->
  (p < 12 * nside ^ 2)%nat ->
  let seen := S_Solve.ranks_used (map (fun r => (maps0 r, bin_calls_of P (new r))) ranks) in
  S_Solve.three_angles p seen -> well (S_Solve.angle_sums (S_Solve.in_pixel p seen)) = true ->
  exists m c Q, M_Solve.solve_for_map well cond true 0 gs fill = (Some m, c, Some Q)
    /\ nth_error m p = Some (talked (o_ctalk O) (stokes (x_sign P) m0 m2 (err + 2 * x_varphi P) p)).
Proof.
  exact (fun P nside m0 m2 err ranks maps0 E O s s' new gs well cond fill p SD =>
    talk_solved P _ SD m0 m2 err nside ranks maps0 E O s s' new gs well cond fill p eq_refl).
Qed.
Print Assumptions C104_map.

(** Every sample that is binned is the value of that scaled sky at the pixel and
    angle it is binned with. *)
Theorem C104_samples : forall P npix m0 m2 err E O s s' new c o,
  sound P npix -> List.length m0 = npix -> List.length m2 = npix ->
  observed_pairs P m0 m2 err E O s s' new -> In c (bin_calls_of P new) -> In o (M_Solve.c_samples c) ->
  let '(i, q, u) := stokes (x_sign P) m0 m2 (err + 2 * x_varphi P) (M_Solve.o_pix o) in
  M_Solve.o_val o
  = (1 + o_ctalk O) * i + (1 - o_ctalk O) * (q * M_Solve.o_cos o + u * M_Solve.o_sin o).
Proof. exact talk_samples. Qed.
Print Assumptions C104_samples.

Example C104_case :
  sound talk_optics (12 * 1 ^ 2) /\ List.length ex_m0 = (12 * 1 ^ 2)%nat /\ List.length ex_m2 = (12 * 1 ^ 2)%nat
  /\ o_ctalk talk_opts = 1 / 10
  /\ (exists s', observed_pairs talk_optics ex_m0 ex_m2 0 talk_env talk_opts talk_state s' talk_log)
  /\ M_Solve.own_flag no_maps = None
  /\ (exists gs, Forall2 (S_Solve.rank_maps 1) (map (fun _ : nat => (no_maps, bin_calls_of talk_optics talk_log)) [0]%nat) gs)
  /\ S_Solve.three_angles 5 (S_Solve.ranks_used (map (fun _ : nat => (no_maps, bin_calls_of talk_optics talk_log)) [0]%nat)).
Proof.
  exact (conj talk_sound (conj eq_refl (conj eq_refl (conj eq_refl (conj talk_observed
    (conj eq_refl (conj talk_binned talk_three))))))).
Qed.
