(** * A concrete superposition of observations *)
From Coq Require Import Reals Lra.
From Verif Require Import Common LibList M_Chunks M_Steps M_Hwp M_Mpi M_Detpair M_Scan M_Filter
  S_Scan S_Linear S_LinearScan L_ScanEx L_ScanEx2 L_ScanEx3 Cplx.
From Verif Require M_Solve S_Solve.
Open Scope R_scope.

Definition ly_env : env nat :=
  mkenv (fun _ b v i => INR (b * i) + v_rot v) (e_elev ex_env) false 5 false 1 0 (e_pos ex_env).
Definition lz_env (a b : R) : env nat :=
  mkenv (fun w x v i => a * e_signal ex_env w x v i + b * e_signal ly_env w x v i) (e_elev ex_env) false 5 false 1 0 (e_pos ex_env).
Lemma lz_skies a b : superposed_skies a b ex_env ly_env (lz_env a b).
Proof. constructor; auto; now split. Qed.
Lemma mv_linear a b : linear_filter a b mv_opts.
Proof. intros h x y z H. exact H. Qed.
Lemma mv_unscanned : unscanned (rep_state mv_strat ex_beams).
Proof. now repeat split. Qed.
Lemma ly_runs : exists s', scan_instrument ly_env mv_opts (rep_state mv_strat ex_beams) = Ok s'.
Proof. eexists. run. reflexivity. Qed.

(** Transforms of a toy kind, linear and of the right sizes. *)
Definition toy_rfft (x : list R) : list C := map RtoC x.
Definition toy_irfft (x : list C) (n : nat) : list R := map (fun i => Re (nth i x (RtoC 0))) (seq 0 n).
Lemma toy_fourier : linear_fourier toy_rfft toy_irfft.
Proof.
  split.
  - intros a b x y H. unfold toy_rfft. rewrite !map_length. split; [exact H|].
    unfold rmix, mix. revert y H. induction x as [|u x IH]; intros [|v y] H; try discriminate; [reflexivity|].
    cbn. f_equal; [|apply IH; now injection H]. unfold mix1. ceq; ring.
  - intros a b x y n H. unfold toy_irfft. rewrite map_length, seq_length. split; [reflexivity|].
    unfold rmix. generalize (seq 0 n). induction l as [|i l IH]; [reflexivity|]. cbn. f_equal; [|exact IH].
    clear IH l. revert y i H. unfold mix. induction x as [|u x IH]; intros [|v y] i H; try discriminate; destruct i; cbn; try ring.
    apply IH. now injection H.
Qed.

Definition sm (p : nat) (v c s : R) : M_Solve.obs := {| M_Solve.o_pix := p; M_Solve.o_val := v; M_Solve.o_cos := c; M_Solve.o_sin := s |}.
Definition call_of (l : list M_Solve.obs) : M_Solve.call :=
  {| M_Solve.c_samples := l; M_Solve.c_flag := M_Solve.FNone; M_Solve.c_start := 0; M_Solve.c_end := 2 |}.
Definition calls1 := [call_of [sm 3 1 1 0; sm 5 2 0 1]; call_of [sm 3 4 0 1]].
Definition calls2 := [call_of [sm 3 7 1 0; sm 5 1 0 1]; call_of [sm 3 0 0 1]].
Definition calls3 := [call_of [sm 3 (2 * 1 + 3 * 7) 1 0; sm 5 (2 * 2 + 3 * 1) 0 1]; call_of [sm 3 (2 * 4 + 3 * 0) 0 1]].
Lemma calls_superposed : superposed_calls 2 3 calls1 calls2 calls3.
Proof.
  repeat (constructor; try reflexivity); cbn; repeat (constructor; try reflexivity); repeat split.
Qed.
Definition no_maps : M_Solve.maps := {| M_Solve.global := None; M_Solve.depo := []; M_Solve.own_flag := None; M_Solve.npix := 0 |}.
Lemma calls_run l : l = calls1 \/ l = calls2 -> exists g, S_Solve.rank_maps 1 (no_maps, l) g.
Proof. intros [-> | ->]; do 2 eexists; (split; [lazy -[Rplus Rmult]; reflexivity|reflexivity]). Qed.

From Verif Require Import M_Tod M_Spin L_Linear2.
Lemma toy_differ : toy_sky <> toy_sky'.
Proof. unfold toy_sky, toy_sky'. cbn. intros H. injection H. intros; lra. Qed.
Lemma toy_runs : forall sky, sky = toy_sky \/ sky = toy_sky' -> exists d t,
   init_spinmaps1 toy_map toy_spin (given sky) (given toy_beam) 2 false None false false = Maps d
   /\ scan_tod 1 d [Pix 3] [30] 45 (Fixed 1) = Ok t /\ length t = 1%nat.
Proof. intros sky H. destruct (toy_obs sky H) as (t & (d & D & T) & L). exists d, t. auto. Qed.
