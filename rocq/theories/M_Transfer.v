(** * Model of transfer_matrix.py:57-122, 124-146, 174-515, 523-696 and of the
      HWP class and Beam.set_hwp_mueller (detector.py:551-745)

    Exact real and complex arithmetic.  [np.linalg.inv] raises LinAlgError on
    a singular matrix and is Cramer's rule otherwise.  NumPy's arcsin of a
    number beyond 1 is nan and its division by zero inf or nan, without an
    exception; the model has Coq's total functions there, so theorems assume
    angles below total reflection and non-zero divisors. *)
From Coq Require Import Reals String.
From Verif Require Import Common Cplx Mat M_Mueller.
Open Scope R_scope.

(** [numpy.exp] of a complex number. *)
Definition Cexp (z : C) : C := Cmul (RtoC (exp (Re z))) (cis (Im z)).

(** [numpy.lib.scimath.sqrt]: the principal square root. *)
Definition Csqrt (z : C) : C :=
  let r := sqrt (Cnorm2 z) in
  (sqrt ((r + Re z) / 2), if Rle_dec 0 (Im z) then sqrt ((r - Re z) / 2) else - sqrt ((r - Re z) / 2)).

Definition Ceq_dec (a b : C) : {a = b} + {a <> b}.
Proof.
  destruct (Req_EM_T (Re a) (Re b)) as [H|H].
  - destruct (Req_EM_T (Im a) (Im b)) as [K|K].
    + left. now apply C_eq.
    + right. intros E. now subst.
  - right. intros E. now subst.
Defined.

(** [numpy.linalg.inv] of a 4x4 matrix. *)
Definition np_inv4 (m : mat4) : res mat4 :=
  if Ceq_dec (det4 m) (RtoC 0) then Err LinAlgError else Ok (inv4 m).
(** ... and of a 2x2 matrix. *)
Definition np_inv2 (m : mat2) : res mat2 :=
  if Ceq_dec (det2 m) (RtoC 0) then Err LinAlgError else Ok (inv2 m).

(** Constants, transfer_matrix.py:42-50. *)
Definition c_light : R := 299800000.
Definition mm : R := 1 / 1000.

(** transfer_matrix.py:57-97 [material]; name and materialType are only printed. *)
Record material := Material {
  ordinaryIndex : R; extraIndex : R; ordinaryLoss : R; extraLoss : R }.
(** [(1 - 1j*loss) * index**2] (transfer_matrix.py:91-94). *)
Definition epsilon (index loss : R) : C := Cmul (1, - loss) (RtoC (index ^ 2)).
(** transfer_matrix.py:96. *)
Definition ordinaryComplexIndex (m : material) : C :=
  Csqrt (epsilon (ordinaryIndex m) (ordinaryLoss m)).

(** transfer_matrix.py:206: the extraordinary index for the propagation direction. *)
Definition extra_index (m : material) (nsin chi : R) : R :=
  let nO := ordinaryIndex m in
  let nEmat := extraIndex m in
  nEmat * sqrt (1 + (/ nEmat ^ 2 - / nO ^ 2) * nsin ^ 2 * cos chi ^ 2).

(** transfer_matrix.py:234-242, the upper left block of the 3x3 arrays [rot]
    and [roteps]; the third row and column only hold a diagonal element, on
    which the part of [rotepsinv] used below does not depend. *)
Definition rot_block (chi : R) : mat2 :=
  V2 (V2 (RtoC (cos chi)) (RtoC (-1 * sin chi))) (V2 (RtoC (sin chi)) (RtoC (cos chi))).
Definition roteps (nO nE chi : R) : res mat2 :=
  do rotinv <- np_inv2 (rot_block chi);
  let eps := V2 (V2 (RtoC (nE ^ 2)) (RtoC 0)) (V2 (RtoC 0) (RtoC (nO ^ 2))) in
  Ok (mmul2 (rot_block chi) (mmul2 eps rotinv)).

(** transfer_matrix.py:254-292: x and y components of the displacement and
    magnetic fields of the ordinary and extraordinary rays.  The third
    components and EOrd, EExtra are stored but enter no matrix. *)
Definition DOrd (tO chi : R) : R * R :=
  let d := sqrt (cos tO ^ 2 + sin tO ^ 2 * sin chi ^ 2) in
  (-1 * sin chi * cos tO / d, cos chi * cos tO / d).
Definition DExtra (tO tE chi : R) : R * R :=
  let d := sqrt (cos chi ^ 2 * cos tO ^ 2 + sin chi ^ 2 * cos (tO - tE) ^ 2) in
  (1 * cos chi * cos tO * cos tE / d,
   1 * sin chi * (sin tO * sin tE + cos tO * cos tE) / d).
Definition HOrd (tO chi : R) : R * R :=
  let d := sqrt (cos tO ^ 2 * cos chi ^ 2 + sin chi ^ 2) in
  (- cos tO ^ 2 * cos chi / d, - sin chi / d).
Definition HExtra (tO tE chi : R) : R * R :=
  let d := sqrt (cos (tO - tE) ^ 2 * sin chi ^ 2 + cos tO ^ 2 * cos chi ^ 2) in
  (- cos (tO - tE) * cos tE * sin chi / d, 1 * cos tO * cos chi / d).

(** transfer_matrix.py:308-312. *)
Definition Phi (nO nE tO tE chi : R) : mat4 :=
  let o := DOrd tO chi in let e := DExtra tO tE chi in
  let ho := HOrd tO chi in let he := HExtra tO tE chi in
  cmat
   (V4 (V4 (fst o) (fst e) (1 * fst o) (1 * fst e))
       (V4 (snd ho / nO) (snd he / nE) (-1 * snd ho / nO) (-1 * snd he / nE))
       (V4 (snd o) (snd e) (snd o) (snd e))
       (V4 (-1 * fst ho / nO) (-1 * fst he / nE) (fst ho / nO) (fst he / nE))).

(** transfer_matrix.py:329-332. *)
Definition Pmat (dO dE : C) : mat4 :=
  diag4 (RtoC 0) (Cexp (RtoC (-1) * dO)%C) (Cexp (RtoC (-1) * dE)%C) (Cexp dO) (Cexp dE).

(** transfer_matrix.py:335-338; [r] is the upper left block of rotepsinv. *)
Definition Psi (r : mat2) : mat4 :=
  let o := RtoC 0 in let u := RtoC 1 in
  V4 (V4 (f0 (f0 r)) o (f1 (f0 r)) o)
     (V4 o u o o)
     (V4 (f0 (f1 r)) o (f1 (f1 r)) o)
     (V4 o o o u).

(** transfer_matrix.py:323-326: [1j * k0 * nComplex * t * cos(theta)]. *)
Definition delta (k0 : R) (n : C) (t theta : R) : C :=
  (Ci * RtoC k0 * n * RtoC t * RtoC (cos theta))%C.

(** transfer_matrix.py:174-341 [transferMatrix(...).transferMatrix]. *)
Definition transferMatrix (m : material) (thickness frequency nsin rotation : R) : res mat4 :=
  let chi := rotation in
  let k0 := 2 * PI * frequency / c_light in
  let nO := ordinaryIndex m in
  let nE := extra_index m nsin chi in
  let thetaO := asin (nsin / nO) in
  let thetaE := asin (nsin / nE) in
  let nComplexO := ordinaryComplexIndex m in
  let nComplexE := Csqrt (Cmul (RtoC (nE ^ 2)) (1, - extraLoss m)) in
  do re <- roteps nO nE chi;
  do rotepsinv <- np_inv2 re;
  let phi := Phi nO nE thetaO thetaE chi in
  let p := Pmat (delta k0 nComplexO thickness thetaO) (delta k0 nComplexE thickness thetaE) in
  let psi := Psi rotepsinv in
  do i <- np_inv4 (mmul4 psi (mmul4 phi p));
  Ok (mmul4 psi (mmul4 phi i)).

(** transfer_matrix.py:124-146 [Stack]; numLayers is the number of thicknesses. *)
Record stack := Stack {
  thicknesses : list R; materials : list material; angles : list R }.
Definition numLayers (s : stack) : nat := List.length (thicknesses s).

(** transfer_matrix.py:344-396 [stackTransferMatrix]: the attributes the rest
    of the code reads.  [exitAngle] is not set for an empty stack. *)
Record stackTransfer := StackTransfer {
  st_inputIndex : R; st_exitIndex : R; st_incidenceAngle : R;
  st_transfers : list mat4; st_total : mat4; st_exitAngle : option R }.

(** transfer_matrix.py:379-396: one turn of the loop.  The unused theta1 is
    left out; theta3 reads the next material, which may not exist. *)
Definition layer_step (s : stack) (frequency nsin rotation exitIndex : R)
  (acc : list mat4 * mat4 * option R) (layerNum : nat) : res (list mat4 * mat4 * option R) :=
  let '(transfers, total, exitAngle) := acc in
  do m <- index (materials s) layerNum;
  do thickness <- index (thicknesses s) layerNum;
  do angle <- index (angles s) layerNum;
  let layerRotation := angle + rotation in
  do exitAngle <-
    (if (layerNum =? numLayers s - 1)%nat then Ok (Some (asin (nsin / exitIndex)))
     else do _ <- index (materials s) (S layerNum); Ok exitAngle);
  do t <- transferMatrix m thickness frequency nsin layerRotation;
  Ok ((transfers ++ [t])%list, mmul4 total t, exitAngle).

Fixpoint fold_res {A B} (f : A -> B -> res A) (a : A) (l : list B) : res A :=
  match l with [] => Ok a | b :: l => do a <- f a b; fold_res f a l end.

Definition stackTransferMatrix (s : stack) (frequency incidenceAngle rotation inputIndex exitIndex : R)
  : res stackTransfer :=
  let nsin := sin incidenceAngle * inputIndex in
  do (r, exitAngle) <- fold_res (layer_step s frequency nsin rotation exitIndex)
                         ([], eye4, None) (seq 0 (numLayers s));
  let '(transfers, total) := r in
  Ok (StackTransfer inputIndex exitIndex incidenceAngle transfers total exitAngle).

(** transfer_matrix.py:403-441 [TranToJones]: transmitted and reflected. *)
Definition TranToJones (x : stackTransfer) : res (mat2 * mat2) :=
  let m := st_total x in
  let n1 := RtoC (st_inputIndex x) in
  let n3 := RtoC (st_exitIndex x) in
  match st_exitAngle x with
  | None => Err AttributeError
  | Some theta3 =>
    let cos1 := RtoC (cos (st_incidenceAngle x)) in
    let cos3 := RtoC (cos theta3) in
    (let A := (e0 (e0 m) * cos3 + e1 (e0 m) * n3) / cos1 in
     let B := (e2 (e0 m) + e3 (e0 m) * n3 * cos3) / cos1 in
     let C := (e0 (e1 m) * cos3 + e1 (e1 m) * n3) / n1 in
     let D := (e2 (e1 m) + e3 (e1 m) * n3 * cos3) / n1 in
     let N := e0 (e2 m) * cos3 + e1 (e2 m) * n3 in
     let K := e2 (e2 m) + e3 (e2 m) * n3 * cos3 in
     let P := (e0 (e3 m) * cos3 + e1 (e3 m) * n3) / (n1 * cos1) in
     let S := (e2 (e3 m) + e3 (e3 m) * n3 * cos3) / (n1 * cos1) in
     let denom := (A + C) * (K + S) - (B + D) * (N + P) in
     let two := RtoC 2 in
     let Jtran := map2 (map2 (fun z => z * two / denom))
       (V2 (V2 (K + S) (- B - D)) (V2 (- N - P) (A + C))) in
     let Jref := map2 (map2 (fun z => z / denom))
       (V2 (V2 ((C - A) * (K + S) - (D - B) * (N + P)) (two * (A * D - C * B)))
           (V2 (two * (N * S - P * K)) ((A + C) * (K - S) - (D + B) * (N - P)))) in
     Ok (Jtran, Jref))%C
  end.

(** transfer_matrix.py:480-496 [Mueller]. *)
Definition Mueller (s : stack) (frequency incidenceAngle rotation inputIndex exitIndex : R)
  (reflected : bool) : res rmat4 :=
  do transfer <- stackTransferMatrix s frequency incidenceAngle rotation inputIndex exitIndex;
  do (t, r) <- TranToJones transfer;
  Ok (JonesToMueller (if reflected then r else t)).

(** transfer_matrix.py:499-515 [Jones]. *)
Definition Jones (s : stack) (frequency incidenceAngle rotation inputIndex exitIndex : R)
  (reflected : bool) : res mat2 :=
  do transfer <- stackTransferMatrix s frequency incidenceAngle rotation inputIndex exitIndex;
  do (t, r) <- TranToJones transfer;
  Ok (if reflected then r else t).

(** [integrate.trapz(y, x)]. *)
Fixpoint trapz (y x : list R) : R :=
  match y, x with
  | y0 :: ((y1 :: _) as y'), x0 :: ((x1 :: _) as x') =>
      (x1 - x0) * (y1 + y0) / 2 + trapz y' x'
  | _, _ => 0
  end.

Fixpoint mapM {A B} (f : A -> res B) (l : list A) : res (list B) :=
  match l with
  | [] => Ok []
  | a :: l => do b <- f a; do bs <- mapM f l; Ok (b :: bs)
  end.

(** Elementwise product of two arrays of the same length. *)
Fixpoint mul_arr (a b : list R) : list R :=
  match a, b with x :: a, y :: b => x * y :: mul_arr a b | _, _ => [] end.

(** transfer_matrix.py:565. *)
Definition frequencies (minFreq maxFreq : R) (numFreqs : nat) : list R :=
  map (fun i => minFreq + INR i * (maxFreq - minFreq) / INR numFreqs) (seq 0 numFreqs).

(** transfer_matrix.py:523-696 [BandAveragedMueller].  [spectrum] and
    [passBand] are the interpolated contents of the two files: reading and
    scipy's interp1d, which raises outside the tabulated range, are external.
    [None] for the argument is [passBandFile=False].  The sixteen arrays are
    one array of matrices.  [Ok None] stands for an array of nan and inf, the
    result of a division by zero. *)
Definition BandAveragedMueller (s : stack) (spectrum : R -> res R) (minFreq maxFreq : R)
  (reflected : bool) (passBand : option (R -> res R)) (incidenceAngle : R) (numFreqs : nat)
  (rotation inputIndex outputIndex : R) : res (option rmat4) :=
  let freqs := frequencies minFreq maxFreq numFreqs in
  do ms <- mapM (fun f =>
    do transfer <- stackTransferMatrix s f incidenceAngle rotation inputIndex outputIndex;
    do (t, r) <- TranToJones transfer;
    Ok (JonesToMueller (if reflected then r else t))) freqs;
  do observed <- mapM spectrum freqs;
  do band <- match passBand with
             | None => Ok (repeat 1 numFreqs)
             | Some p => mapM p freqs
             end;
  let norm := trapz (mul_arr observed band) freqs in
  let average (el : rmat4 -> R) :=
    trapz (mul_arr (mul_arr (map el ms) observed) band) freqs / norm in
  if Req_EM_T norm 0 then Ok None else
  Ok (Some
     (V4 (V4 (average (fun m => e0 (e0 m))) (average (fun m => e1 (e0 m)))
             (average (fun m => e2 (e0 m))) (average (fun m => e3 (e0 m))))
         (V4 (average (fun m => e0 (e1 m))) (average (fun m => e1 (e1 m)))
             (average (fun m => e2 (e1 m))) (average (fun m => e3 (e1 m))))
         (V4 (average (fun m => e0 (e2 m))) (average (fun m => e1 (e2 m)))
             (average (fun m => e2 (e2 m))) (average (fun m => e3 (e2 m))))
         (V4 (average (fun m => e0 (e3 m))) (average (fun m => e1 (e3 m)))
             (average (fun m => e2 (e3 m))) (average (fun m => e3 (e3 m)))))).

(** ** The HWP class (detector.py:582-745) *)

(** A two-dimensional float array: its rows, all of the same length. *)
Definition size2 (a : list (list R)) : nat := list_sum (map (@List.length R) a).
Definition index2 (a : list (list R)) (i j : nat) : res R :=
  do r <- index a i; index r j.

(** detector.py:594-626 [HWP.stack_builder]: the stack it stores. *)
Definition stack_builder (thick : list R) (indices losses : list (list R)) (angs : list R)
  : res stack :=
  let n := List.length thick in
  if negb (n =? List.length angs)%nat || negb (2 * n =? size2 indices)%nat
     || negb (2 * n =? size2 losses)%nat
  then Err ValueError
  else
    do ms <- mapM (fun i =>
      do a <- index2 indices i 0; do b <- index2 indices i 1;
      do c <- index2 losses i 0; do d <- index2 losses i 1;
      Ok (Material a b c d)) (seq 0 n);
    Ok (Stack (map (fun t => t * mm) thick) ms angs).

(** detector.py:637-659. *)
Definition spider_sapphire := Material (3019/1000) (3336/1000) (23/100000) (125/1000000).
Definition isotropic (n loss : R) := Material n n loss loss.
Definition quartz := isotropic (1951/1000) (12/10000).
Definition circlex := isotropic (1935/1000) (12/10000).
Definition hdpe := isotropic (151/100) (1/1000).
Definition art_ar1_mono := isotropic (3439/1000) (12/10000).
Definition art_ar2_mono := isotropic (2644/1000) (12/10000).
Definition art_ar3_mono := isotropic (1524/1000) (12/10000).
Definition equal_ar1 := isotropic (2855/1000) (12/10000).
Definition equal_ar2 := isotropic (1979/1000) (12/10000).
Definition equal_ar3 := isotropic (1268/1000) (12/10000).
Definition a3b3_ar1 := isotropic (2350/1000) (12/10000).
Definition a3b3_ar2 := isotropic (1542/1000) (12/10000).
Definition a3b3_ar3 := isotropic (1344/1000) (12/10000).
Definition a3b5_ar1 := isotropic (2511/1000) (12/10000).
Definition a3b5_ar2 := isotropic (1782/1000) (12/10000).
Definition a3b5_ar3 := isotropic (1279/1000) (12/10000).

(** Thicknesses in mm written as thousandths, angles in tenths of degrees. *)
Definition thick (l : list R) : list R := map (fun x => x / 1000 * mm) l.
Definition degs (l : list R) : list R := map (fun x => x / 10 * PI / 180) l.

(** detector.py:628-730 [HWP.choose_HWP_model]: the stack it stores. *)
Definition choose_HWP_model (model_name : string) : res stack :=
  if is model_name "SPIDER_95" then
    Ok (Stack (thick [427; 4930; 427]) [quartz; spider_sapphire; quartz] [0; 0; 0])
  else if is model_name "SPIDER_150" then
    Ok (Stack (thick [254; 6; 3160; 6; 254]) [circlex; hdpe; spider_sapphire; hdpe; circlex]
       [0; 0; 0; 0; 0])
  else if is model_name "3AR1BRopti" then
    Ok (Stack (thick [358; 1849; 1978; 3600; 1978; 1849; 358])
       [art_ar3_mono; art_ar2_mono; art_ar1_mono; spider_sapphire; art_ar1_mono; art_ar2_mono; art_ar3_mono]
       [0; 0; 0; 0; 0; 0; 0])
  else if is model_name "1BR" then
    Ok (Stack (thick [500; 310; 257; 3750; 257; 310; 500])
       [equal_ar3; equal_ar2; equal_ar1; spider_sapphire; equal_ar1; equal_ar2; equal_ar3]
       [0; 0; 0; 0; 0; 0; 0])
  else if is model_name "3AR3BRopti" then
    Ok (Stack (thick [338; 132; 240; 3860; 3860; 3860; 240; 132; 338])
       [a3b3_ar3; a3b3_ar2; a3b3_ar1; spider_sapphire; spider_sapphire; spider_sapphire;
        a3b3_ar1; a3b3_ar2; a3b3_ar3]
       (degs [0; 0; 0; 0; 525; 0; 0; 0; 0]))
  else if is model_name "3BR" then
    Ok (Stack (thick [500; 310; 257; 3750; 3750; 3750; 257; 310; 500])
       [equal_ar3; equal_ar2; equal_ar1; spider_sapphire; spider_sapphire; spider_sapphire;
        equal_ar1; equal_ar2; equal_ar3]
       (degs [0; 0; 0; 0; 540; 0; 0; 0; 0]))
  else if is model_name "3AR5BRopti" then
    Ok (Stack (thick [356; 225; 188; 3860; 3860; 3860; 3860; 3860; 188; 225; 356])
       [a3b5_ar3; a3b5_ar2; a3b5_ar1; spider_sapphire; spider_sapphire; spider_sapphire;
        spider_sapphire; spider_sapphire; a3b5_ar1; a3b5_ar2; a3b5_ar3]
       (degs [0; 0; 0; 0; 290; 945; 290; 20; 0; 0; 0]))
  else if is model_name "3AR5BRstd" then
    Ok (Stack (thick [500; 310; 257; 3750; 3750; 3750; 3750; 3750; 257; 310; 500])
       [equal_ar3; equal_ar2; equal_ar1; spider_sapphire; spider_sapphire; spider_sapphire;
        spider_sapphire; spider_sapphire; equal_ar1; equal_ar2; equal_ar3]
       (degs [0; 0; 0; 0; 265; 948; 281; -26; 0; 0; 0]))
  else if is model_name "5BR" then
    Ok (Stack (thick [500; 310; 257; 3750; 3750; 3750; 3750; 3750; 257; 310; 500])
       [equal_ar3; equal_ar2; equal_ar1; spider_sapphire; spider_sapphire; spider_sapphire;
        spider_sapphire; spider_sapphire; equal_ar1; equal_ar2; equal_ar3]
       (degs [0; 0; 0; 229; -500; 0; 500; -229; 0; 0; 0]))
  else Err ValueError.

(** detector.py:732-745 [HWP.compute_mueller]. *)
Definition compute_mueller (s : stack) (freq vartheta : R) : res rmat4 :=
  Mueller s (1000000000 * freq) vartheta 0 1 1 false.

(** The arguments of [set_hwp_mueller]. *)
Record hwp_args := HwpArgs {
  a_model : option string; a_thick : option (list R); a_indices : option (list (list R));
  a_losses : option (list (list R)); a_angles : option (list R) }.

(** detector.py:551-580 [Beam.set_hwp_mueller] for a beam at ([az], [el])
    degrees sensitive at [freq] GHz: the stack stored in the beam's plate and
    the Mueller matrix. *)
Definition set_hwp_mueller (az el freq : R) (a : hwp_args) : res (stack * rmat4) :=
  do s <-
    match a_model a with
    | Some name => choose_HWP_model name
    | None =>
        match a_thick a, a_indices a, a_losses a, a_angles a with
        | Some t, Some i, Some l, Some g => stack_builder t i l g
        | _, _, _, _ => Err ValueError
        end
    end;
  do m <- compute_mueller s freq (sqrt (el ^ 2 + az ^ 2) * PI / 180);
  Ok (s, m).
