(** * Model of beam-coefficient conversions over the complex numbers

    /repo/beamconv/tools.py and [Beam.load_blm] of /repo/beamconv/detector.py.
    Exact complex arithmetic. *)
From Verif Require Import Common Cplx M_Alm.
Open Scope R_scope.

Definition zipwith {A B D} (f : A -> B -> D) (a : list A) (b : list B) : list D :=
  map (fun p => f (fst p) (snd p)) (combine a b).

(** [(-1.) ** spin] *)
Definition parity (spin : Z) : C := if Z.even spin then RtoC 1 else RtoC (-1).

(** tools.py:435-441, one element of [spin2eb]. *)
Definition spin2eb1 (spin : Z) (m2 p2 : C) : C * C :=
  (((p2 + m2 * parity spin) / RtoC (-2))%C,
   ((p2 - m2 * parity spin) * (Ci / RtoC 2))%C).

(** tools.py:396-443 [spin2eb]: (almE, almB). *)
Definition spin2eb (almm2 almp2 : list C) (spin : Z) : list C * list C :=
  (zipwith (fun m p => fst (spin2eb1 spin m p)) almm2 almp2,
   zipwith (fun m p => snd (spin2eb1 spin m p)) almm2 almp2).

(** tools.py:467-468, one element of [eb2spin]. *)
Definition eb2spin1 (e b : C) : C * C :=
  ((RtoC (-1) * (e - Ci * b))%C, (RtoC (-1) * (e + Ci * b))%C).

(** tools.py:445-470 [eb2spin]: (almm2, almp2). *)
Definition eb2spin (almE almB : list C) : list C * list C :=
  (zipwith (fun e b => fst (eb2spin1 e b)) almE almB,
   zipwith (fun e b => snd (eb2spin1 e b)) almE almB).

(** [x[:n] = np.real(x[:n])] *)
Definition real_head (n : nat) (x : list C) : list C :=
  map (fun z => RtoC (Re z)) (firstn n x) ++ skipn n x.

(** tools.py:156-251 [shift_blm] with [eb=True]. *)
Definition shift_blm_eb (blmE blmB : list C) (shift : Z) : res (list C * list C) :=
  if negb (length blmE =? length blmB)%nat then Err ValueError
  else
    match getlmax (length blmE) None with
    | None => Err ValueError
    | Some lmax =>
        if (shift >? Z.of_nat lmax)%Z then Err ValueError
        else
          let '(m2, p2) := eb2spin blmE blmB in
          do (m2n, p2n) <- shift_blm (RtoC 0) Cconj Copp m2 p2 shift;
          let '(e, b) := spin2eb m2n p2n 2 in
          Ok (real_head (lmax + 1) e, real_head (lmax + 1) b)
    end.

(** Degree l of every element of a full coefficient array (healpy order). *)
Definition ells (lmax : nat) : list nat :=
  concat (map (fun m => seq m (lmax + 1 - m)) (seq 0 (lmax + 1))).

(** healpy [almxfl]: multiply every mode (l, m) by [fl l] (external). *)
Definition almxfl (lmax : nat) (alm : list C) (fl : nat -> C) : list C :=
  zipwith (fun a l => Cmul a (fl l)) alm (ells lmax).

(** tools.py:142 [qell]. *)
Definition qell (l : nat) : C := RtoC (2 * sqrt (PI / (2 * INR l + 1))).

(** tools.py:113-154 [scale_blm]: one or several arrays (rows).  Division by
    the monopole is exact division; a zero monopole (not a number in NumPy) is
    excluded in the theorems. *)
Definition scale_blm (blm : list (list C)) (normalize deconv_q : bool) : res (list (list C)) :=
  if negb normalize && negb deconv_q then Ok blm
  else
    match blm with
    | [] => Err IndexError
    | b0 :: _ =>
        match getlmax (length b0) None with
        | None => Err ValueError
        | Some lmax =>
            let blm := if deconv_q then map (fun b => almxfl lmax b qell) blm else blm in
            if normalize then
              match blm with
              | (x :: _) :: _ => Ok (map (map (fun a => Cdiv a x)) blm)
              | _ => Err IndexError
              end
            else Ok blm
        end
    end.

(** What the caller's array holds after [scale_blm]: [np.atleast_2d] of an
    array is a view, so the in-place operations (tools.py:145, 147) write to
    the argument. *)
Definition scale_blm_arg (blm : list (list C)) (normalize deconv_q : bool) : list (list C) :=
  match scale_blm blm normalize deconv_q with Ok b => b | Err _ => blm end.

Definition scale_all (k : C) (a : list C) : list C := map (Cmul k) a.

(** tools.py:349-355: factor exp(2 sigma^2) for [c2_fwhm] arcmin. *)
Definition expsig2 (c2_fwhm : R) : R :=
  let s2fwhm := 2 * sqrt (2 * ln 2) in
  exp (2 * ((c2_fwhm / 60 * PI / 180) / s2fwhm) ^ 2).

(** tools.py:319-357 [get_copol_blm], one-dimensional input. *)
Definition get_copol_blm (blm : list C) (c2_fwhm : option R) (normalize deconv_q : bool)
  : res (list C * list C * list C) :=
  do rows <- scale_blm [blm] normalize deconv_q;
  match rows with
  | [b] =>
      do (m2, p2) <- unpol2pol (RtoC 0) Cconj Copp b;
      match c2_fwhm with
      | Some w =>
          if Req_EM_T w 0 then Ok (b, m2, p2)
          else Ok (b, scale_all (RtoC (expsig2 w)) m2, scale_all (RtoC (expsig2 w)) p2)
      | None => Ok (b, m2, p2)
      end
  | _ => Err ValueError
  end.

(** tools.py:359-394 [get_pol_beam]. *)
Definition get_pol_beam (blm_q blm_u : list C) (normalize deconv_q : bool)
  : res (list C * list C) :=
  do rq <- scale_blm [blm_q] normalize deconv_q;
  do ru <- scale_blm [blm_u] normalize deconv_q;
  match rq, ru with
  | [q], [u] =>
      do (m2q, p2q) <- unpol2pol (RtoC 0) Cconj Copp q;
      do (m2u, p2u) <- unpol2pol (RtoC 0) Cconj Copp u;
      Ok (zipwith (fun a b => a + Ci * b)%C m2q m2u, zipwith (fun a b => a - Ci * b)%C p2q p2u)
  | _, _ => Err ValueError
  end.

(** A coefficient file: rows of an .npy file, or the HDUs of a .fits file with
    the azimuthal limit healpy reports for each. *)
Inductive blm_file :=
| Npy (rows : list (list C))
| Fits (hdus : list (list C * nat)).

(** detector.py:354-360: [z = zeros_like(blm); z[:read.size] = read]. *)
Definition expand_like (blm read : list C) : res (list C) :=
  assign (repeat (RtoC 0) (length blm)) 0 (length read) read.

(** detector.py:318-375: reading the file; also the new [mmax] attribute. *)
Definition read_file (f : blm_file) (self_mmax : nat) : res (list (list C) * nat) :=
  match f with
  | Npy rows => Ok (rows, self_mmax)
  | Fits hdus =>
      match hdus with
      | [] => Err IOError
      | (b, mmax) :: rest =>
          do blm <- expand_blm (RtoC 0) b mmax;
          do rows <-
            match rest with
            | (m2, mm2) :: (p2, mp2) :: rest2 =>
                if negb ((mmax =? mm2)%nat && (mm2 =? mp2)%nat) then Err ValueError
                else
                  do m2 <- expand_like blm m2;
                  do p2 <- expand_like blm p2;
                  match rest2 with
                  | [(v, _)] => do v <- expand_like blm v; Ok [blm; m2; p2; v]
                  | _ => Ok [blm; m2; p2]
                  end
            | _ => Ok [blm]
            end;
          Ok (rows, if (mmax <? self_mmax)%nat then mmax else self_mmax)
      end
  end.

(** [x *= amplitude] unless the amplitude is 1. *)
Definition times_amp (amp : R) (x : list C) : list C :=
  if Req_EM_T amp 1 then x else scale_all (RtoC amp) x.

(** detector.py:289-406 [Beam.load_blm] as called from the [blm] property
    (keywords [deconv_q] and [normalize]): the components of [self.blm] and the
    [mmax] attribute afterwards. *)
Definition load_blm (f : blm_file) (amp : R) (cross_pol normalize deconv_q : bool)
  (self_mmax : nat) : res (list (list C) * nat) :=
  do (rows, mmax) <- read_file f self_mmax;
  let n := length rows in
  if (n =? 3)%nat || ((n =? 4)%nat && cross_pol) then
    do rows <- scale_blm rows normalize deconv_q;
    Ok (map (times_amp amp) rows, mmax)
  else
    match rows with
    | [] => Err IndexError
    | b :: _ =>
        do (r, p2) <- get_copol_blm (times_amp amp b) None normalize deconv_q;
        let '(b, m2) := r in
        Ok ([b; m2; p2], mmax)
    end.
