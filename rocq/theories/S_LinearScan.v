(** * Specification vocabulary: superposition of whole observations (C89) *)
From Coq Require Import Reals List.
Import ListNotations.
From Verif Require Import Common M_Chunks M_Hwp M_Detpair M_Scan S_Linear Cplx.
From Verif Require M_Solve.
Open Scope R_scope.

(** [z] is a x + b y, element by element. *)
Definition superposes (a b : R) (x y z : list R) : Prop := length x = length y /\ z = rmix a b x y.
Definition superposes_opt (a b : R) (x y z : option (list R)) : Prop :=
  match x, y, z with
  | None, None, None => True
  | Some x, Some y, Some z => superposes a b x y z
  | _, _, _ => False
  end.

(** The same step of three scans: same pointing, and superposed timestreams. *)
Definition superposed_event (a b : R) (x y z : event) : Prop :=
  match x, y, z with
  | EPoint c l, EPoint c' l', EPoint c'' l'' => (c', l') = (c, l) /\ (c'', l'') = (c, l)
  | EScan w v t, EScan w' v' t', EScan w'' v'' t'' => (w', v') = (w, v) /\ (w'', v'') = (w, v) /\ superposes a b t t' t''
  | EBin d v t, EBin d' v' t', EBin d'' v'' t'' => (d', v') = (d, v) /\ (d'', v'') = (d, v) /\ superposes a b t t' t''
  | _, _, _ => False
  end.

Section S.
  Context {B : Type}.

  (** Three skies seen in the same surroundings: what a beam sees of the third
      is a times what it sees of the first and b times what it sees of the
      second. *)
  Record superposed_skies (a b : R) (E1 E2 E3 : env B) : Prop := mkskies {
    sk_signal : forall w x v i, e_signal E3 w x v i = a * e_signal E1 w x v i + b * e_signal E2 w x v i;
    sk_elev : e_elev E2 = e_elev E1 /\ e_elev E3 = e_elev E1;
    sk_ext : e_ext E2 = e_ext E1 /\ e_ext E3 = e_ext E1;
    sk_nsamp : e_nsamp E2 = e_nsamp E1 /\ e_nsamp E3 = e_nsamp E1;
    sk_mpi : e_mpi E2 = e_mpi E1 /\ e_mpi E3 = e_mpi E1;
    sk_size : e_size E2 = e_size E1 /\ e_size E3 = e_size E1;
    sk_rank : e_rank E2 = e_rank E1 /\ e_rank E3 = e_rank E1;
    sk_pos : e_pos E2 = e_pos E1 /\ e_pos E3 = e_pos E1 }.

  (** Filtering commutes with superposition, and whether it raises depends on
      the length only. *)
  Definition linear_filter (a b : R) (O : opts) : Prop :=
    forall h x y z, superposes a b x y z ->
      match o_filter O h x, o_filter O h y, o_filter O h z with
      | Ok x', Ok y', Ok z' => superposes a b x' y' z'
      | Err e, Err e', Err e'' => e' = e /\ e'' = e
      | _, _, _ => False
      end.

  (** Three instances that agree in everything but the timestreams, which are
      superposed: the current one, the saved ones, and all that were scanned or
      binned. *)
  Record superposed (a b : R) (s1 s2 s3 : state B) : Prop := mksup {
    su_strat : s_strat s2 = s_strat s1 /\ s_strat s3 = s_strat s1;
    su_beams : s_beams s2 = s_beams s1 /\ s_beams s3 = s_beams s1;
    su_chunks : s_chunks s2 = s_chunks s1 /\ s_chunks s3 = s_chunks s1;
    su_maps : s_maps s2 = s_maps s1 /\ s_maps s3 = s_maps s1;
    su_mmap : s_mmap s2 = s_mmap s1 /\ s_mmap s3 = s_mmap s1;
    su_bore : s_bore s2 = s_bore s1 /\ s_bore s3 = s_bore s1;
    su_gbore : s_gbore s2 = s_gbore s1 /\ s_gbore s3 = s_gbore s1;
    su_hwp : s_hwp s2 = s_hwp s1 /\ s_hwp s3 = s_hwp s1;
    su_qoff : s_qoff s2 = s_qoff s1 /\ s_qoff s3 = s_qoff s1;
    su_point : s_point s2 = s_point s1 /\ s_point s3 = s_point s1;
    su_hwps : s_hwps s2 = s_hwps s1 /\ s_hwps s3 = s_hwps s1;
    su_tod : superposes_opt a b (s_tod s1) (s_tod s2) (s_tod s3);
    su_data : forall i d, superposes_opt a b (s_data s1 i d) (s_data s2 i d) (s_data s3 i d);
    su_length : length (s_log s2) = length (s_log s1) /\ length (s_log s3) = length (s_log s1);
    su_log : forall k x y z, nth_error (s_log s1) k = Some x -> nth_error (s_log s2) k = Some y ->
      nth_error (s_log s3) k = Some z -> superposed_event a b x y z }.

  (** Nothing was scanned yet. *)
  Definition unscanned (s : state B) : Prop :=
    s_tod s = None /\ (forall i d, s_data s i d = None) /\ s_log s = [].
End S.

(** ** Maps *)

(** The same samples at the same places with superposed values. *)
Definition superposed_samples (a b : R) (x y z : list M_Solve.obs) : Prop :=
  Forall2 (fun p o => let (u, v) := p : M_Solve.obs * M_Solve.obs in
     M_Solve.o_pix o = M_Solve.o_pix u /\ M_Solve.o_pix v = M_Solve.o_pix u
     /\ M_Solve.o_cos o = M_Solve.o_cos u /\ M_Solve.o_cos v = M_Solve.o_cos u
     /\ M_Solve.o_sin o = M_Solve.o_sin u /\ M_Solve.o_sin v = M_Solve.o_sin u
     /\ M_Solve.o_val o = a * M_Solve.o_val u + b * M_Solve.o_val v) (combine x y) z
  /\ length x = length y.

(** The same calls of [bin_tod] with superposed timestreams. *)
Inductive superposed_calls (a b : R) : list M_Solve.call -> list M_Solve.call -> list M_Solve.call -> Prop :=
| sc_nil : superposed_calls a b [] [] []
| sc_cons x y z l m n :
    superposed_samples a b (M_Solve.c_samples x) (M_Solve.c_samples y) (M_Solve.c_samples z) ->
    M_Solve.c_flag y = M_Solve.c_flag x -> M_Solve.c_flag z = M_Solve.c_flag x ->
    M_Solve.c_start y = M_Solve.c_start x -> M_Solve.c_start z = M_Solve.c_start x ->
    M_Solve.c_end y = M_Solve.c_end x -> M_Solve.c_end z = M_Solve.c_end x ->
    superposed_calls a b l m n -> superposed_calls a b (x :: l) (y :: m) (z :: n).

(** Stokes vectors. *)
Definition vmix (a b : R) (x y : M_Solve.vec3) : M_Solve.vec3 :=
  let '(i, q, u) := x in let '(i', q', u') := y in (a * i + b * i', a * q + b * q', a * u + b * u').

(** Binned maps: the same matrices, superposed vectors. *)
Definition superposed_maps (a b : R) (g1 g2 g3 : list M_Solve.pixel) : Prop :=
  length g2 = length g1 /\ length g3 = length g1
  /\ forall p x y z, nth_error g1 p = Some x -> nth_error g2 p = Some y -> nth_error g3 p = Some z ->
       snd y = snd x /\ snd z = snd x /\ fst z = vmix a b (fst x) (fst y).

(** Solved maps: superposed, but for pixels that are filled in all three. *)
Definition superposed_solutions (a b fill : R) (m1 m2 m3 : list M_Solve.vec3) : Prop :=
  length m2 = length m1 /\ length m3 = length m1
  /\ forall p x y z, nth_error m1 p = Some x -> nth_error m2 p = Some y -> nth_error m3 p = Some z ->
       z = vmix a b x y \/ (x = (fill, fill, fill) /\ y = (fill, fill, fill) /\ z = (fill, fill, fill)).

(** ** Filters *)

(** Fourier transforms that are linear, and sizes that depend on sizes only. *)
Definition linear_fourier (rfft : list R -> list C) (irfft : list C -> nat -> list R) : Prop :=
  (forall a b x y, length x = length y ->
     length (rfft x) = length (rfft y) /\ rfft (rmix a b x y) = mix a b (rfft x) (rfft y))
  /\ (forall a b x y n, length x = length y ->
     length (irfft x n) = n /\ irfft (mix a b x y) n = rmix a b (irfft x n) (irfft y n)).
Definition times_real (k : R) (z : C) : C := (RtoC k * z)%C.
