(** * Model of Mueller and Jones matrices: tools.py:772-814, 931-951,
      transfer_matrix.py:444-471, 699-710 and ScanStrategy.blmxhwp
      (instrument.py:4092-4182)

    Exact complex arithmetic.  [np.linalg.inv] is Cramer's rule (Mat.v). *)
From Coq Require Import Reals String.
From Verif Require Import Common Cplx Mat M_Alm M_Blm.
Open Scope R_scope.

Definition c0 := RtoC 0.
Definition c1 := RtoC 1.

(** tools.py:781-789: the matrices of [iquv2ippv]. *)
Definition ippv_A : mat4 :=
  V4 (V4 c1 c0 c0 c0)
     (V4 c0 c1 Ci c0)
     (V4 c0 c1 (- Ci)%C c0)
     (V4 c0 c0 c0 c1).
Definition ippv_Ainv : mat4 :=
  V4 (V4 c1 c0 c0 c0)
     (V4 c0 (RtoC (1/2)) (RtoC (1/2)) c0)
     (V4 c0 (0, -1/2) (0, 1/2) c0)
     (V4 c0 c0 c0 c1).

(** tools.py:772-792. *)
Definition iquv2ippv (m : mat4) : mat4 := mmul4 ippv_Ainv (mmul4 m ippv_A).

(** tools.py:794-814; the names A and Ainv are exchanged with respect to [iquv2ippv]. *)
Definition ippv2iquv (m : mat4) : mat4 := mmul4 ippv_A (mmul4 m ippv_Ainv).

(** tools.py:944-948. *)
Definition tmat : mat4 :=
  let s := RtoC (1 / sqrt 2) in
  V4 (V4 c1 c0 c0 c0)
     (V4 c0 s (Ci * s)%C c0)
     (V4 c0 s (- Ci * s)%C c0)
     (V4 c0 c0 c0 c1).
(** tools.py:949. *)
Definition tmatinv : mat4 := inv4 tmat.

(** tools.py:931-951. *)
Definition mueller2spin (m : mat4) : mat4 := mmul4 (mmul4 tmat m) tmatinv.

(** [x * k], [x *= k] for an array and a scalar. *)
Definition times (x : list C) (k : C) : list C := map (fun a => a * k)%C x.
(** [x += y] for arrays of the same length. *)
Definition add_arr (x y : list C) : res (list C) :=
  if (List.length x =? List.length y)%nat then Ok (zipwith Cadd x y) else Err ValueError.

Definition sqrt2 : C := RtoC (sqrt 2).

Definition is (a b : string) : bool := if string_dec a b then true else false.

(** instrument.py:4092-4182 [ScanStrategy.blmxhwp].  [h] is [hwp_spin]; the
    result lists the returned arrays. *)
Definition blmxhwp (blm : list (list C)) (h : mat4) (mode : string) (beam_v : bool)
  : res (list (list C)) :=
  if is mode "s0a0" then
    do b <- index blm 0;
    let r := times b (e0 (e0 h)) in
    if beam_v then
      do v <- index blm 3;
      do r <- add_arr r (times v (e0 (e3 h)));
      Ok [r]
    else Ok [r]
  else if is mode "s0a0_v" then
    do b <- index blm 0;
    let r := times b (e3 (e0 h)) in
    if beam_v then
      do v <- index blm 3;
      do r <- add_arr r (times v (e3 (e3 h)));
      Ok [r]
    else Ok [r]
  else if is mode "s2a4" then
    do b1 <- index blm 1; do b2 <- index blm 2;
    do (blmp2, blmm2) <- shift_blm (RtoC 0) Cconj Copp b1 b2 4;
    Ok [times blmm2 (e2 (e1 h)); times blmp2 (e1 (e2 h))]
  else if is mode "s0a2" then
    do b1 <- index blm 1; do b2 <- index blm 2;
    do (blmm2, blmp2) <- shift_blm (RtoC 0) Cconj Copp b1 b2 2;
    Ok [times blmm2 (e2 (e0 h) * sqrt2)%C; times blmp2 (e0 (e2 h) * sqrt2)%C]
  else if is mode "s0a2_v" then
    do b1 <- index blm 1; do b2 <- index blm 2;
    do (blmm2, blmp2) <- shift_blm (RtoC 0) Cconj Copp b1 b2 2;
    Ok [times blmm2 (e2 (e3 h) * sqrt2)%C; times blmp2 (e3 (e2 h) * sqrt2)%C]
  else if is mode "s2a2" then
    do b0 <- index blm 0;
    do (blmp2, blmm2) <- shift_blm (RtoC 0) Cconj Copp b0 b0 2;
    let m := times blmm2 (e2 (e0 h) * sqrt2)%C in
    let p := times blmp2 (e1 (e0 h) * sqrt2)%C in
    if beam_v then
      do b3 <- index blm 3;
      do (blmp2_v, blmm2_v) <- shift_blm (RtoC 0) Cconj Copp b3 b3 2;
      do m <- add_arr m (times blmm2_v (e2 (e3 h) * sqrt2)%C);
      do p <- add_arr p (times blmp2_v (e1 (e3 h) * sqrt2)%C);
      Ok [m; p]
    else Ok [m; p]
  else if is mode "s2a0" then
    do b1 <- index blm 1; do b2 <- index blm 2;
    Ok [times b1 (e2 (e2 h)); times b2 (e1 (e1 h))]
  else Err ValueError.

(** transfer_matrix.py:454-458: the list Sigma. *)
Definition sigma : v4 mat2 :=
  V4 (V2 (V2 c1 c0) (V2 c0 c1))
     (V2 (V2 c1 c0) (V2 c0 (- c1)%C))
     (V2 (V2 c0 c1) (V2 c1 c0))
     (V2 (V2 c0 (- Ci)%C) (V2 Ci c0)).

(** transfer_matrix.py:465 (before [np.real]). *)
Definition mueller_elem (jones si sj : mat2) : C :=
  (trace2 (mmul2 si (mmul2 jones (mmul2 sj (dagger2 jones)))) / RtoC 2)%C.

(** transfer_matrix.py:444-471 [JonesToMueller] (the printed warning is not modelled). *)
Definition JonesToMueller (jones : mat2) : rmat4 :=
  map4 (fun si => map4 (fun sj => Re (mueller_elem jones si sj)) sigma) sigma.

(** transfer_matrix.py:699-703; [deg] is pi / 180. *)
Definition JonesRotation (jones : mat2) (theta : R) : mat2 :=
  let deg := PI / 180 in
  let rot := V2 (V2 (RtoC (cos (theta * deg))) (RtoC (- sin (theta * deg))))
                (V2 (RtoC (sin (theta * deg))) (RtoC (cos (theta * deg)))) in
  mmul2 rot (mmul2 jones (inv2 rot)).

(** transfer_matrix.py:705-710. *)
Definition MuellerRotation (mueller : rmat4) (theta : R) : rmat4 :=
  let rot := V4 (V4 1 0 0 0)
                (V4 0 (cos (2 * theta)) (sin (2 * theta)) 0)
                (V4 0 (- sin (2 * theta)) (cos (2 * theta)) 0)
                (V4 0 0 0 1) in
  let m_rot := V4 (V4 1 0 0 0)
                  (V4 0 (cos (- 2 * theta)) (sin (- 2 * theta)) 0)
                  (V4 0 (- sin (2 * theta)) (cos (- 2 * theta)) 0)
                  (V4 0 0 0 1) in
  rmmul4 m_rot (rmmul4 mueller rot).
