(** * Model of the timestream: tools.py:747-770 [cross_talk],
      instrument.py:3573-3690 (the part of [ScanStrategy.scan] between the
      pointing and the update of [self.tod]) and
      instrument.py:3727-3798 [ScanStrategy._scan_modulate_pa]

    Exact complex arithmetic; a real array is a complex array with zero
    imaginary part.  Two arrays in one operation must have the same length
    (NumPy's broadcasting of arrays of length one is not modelled). *)
From Coq Require Import Reals String.
From Verif Require Import Common Cplx M_Alm M_Blm M_Mueller.
Open Scope R_scope.

(** [x *= y] for arrays of the same length. *)
Definition mul_arr (x y : list C) : res (list C) :=
  if (List.length x =? List.length y)%nat then Ok (zipwith Cmul x y) else Err ValueError.

Definition radd_arr (x y : list R) : res (list R) :=
  if (List.length x =? List.length y)%nat then Ok (zipwith Rplus x y) else Err ValueError.
Definition rscale (k : R) (x : list R) : list R := map (fun a => a * k) x.

(** tools.py:763-769: the two arrays after the in-place operations. *)
Definition cross_talk (tod_a tod_b : list R) (ctalk : R) : res (list R * list R) :=
  do tod_c <- radd_arr tod_a tod_b;
  let tod_c := rscale ctalk tod_c in
  let tod_a := rscale (1 - ctalk) tod_a in
  let tod_b := rscale (1 - ctalk) tod_b in
  do tod_a <- radd_arr tod_a tod_c;
  do tod_b <- radd_arr tod_b tod_c;
  Ok (tod_a, tod_b).

(** Where a sample looks: a HEALPix pixel, or (with [interp]) the weights and
    pixels that [hp.get_interp_val] uses for the direction. *)
Inductive point := Pix (i : nat) | Interp (w : list (R * nat)).

Fixpoint interp_val (m : list C) (w : list (R * nat)) : res C :=
  match w with
  | nil => Ok (RtoC 0)
  | (x, i) :: w =>
      do v <- index m i;
      do r <- interp_val m w;
      Ok (RtoC x * v + r)%C
  end.

(** instrument.py:3782-3786. *)
Definition lookup (m : list C) (p : point) : res C :=
  match p with
  | Pix i => index m i
  | Interp w => interp_val m w
  end.

Fixpoint mapr {A B} (f : A -> res B) (l : list A) : res (list B) :=
  match l with
  | nil => Ok nil
  | a :: l => do b <- f a; do r <- mapr f l; Ok (b :: r)
  end.

(** [np.arange(a, b)]. *)
Definition arange (a b : Z) : list Z :=
  map (fun k => a + Z.of_nat k)%Z (seq 0 (Z.to_nat (b - a))).

(** [s_vals[-1]]. *)
Definition last_or (d : Z) (l : list Z) : Z := last l d.

(** instrument.py:3774-3798: the loop over the spin values. *)
Fixpoint modulate_loop (reality recursion : bool) (pix : list point) (pa : list R)
  (maps : list (list C)) (sidx : nat) (s_vals : list Z) (expmipas : list C) (tod : list C)
  : res (list C) :=
  match s_vals with
  | nil => Ok tod
  | spin :: s_vals =>
      let expmipas :=
        if (recursion && negb (sidx =? 0)%nat)%bool
        then zipwith Cmul expmipas (map (fun p => cis (- p)) pa)
        else map (fun p => cis (- (p * IZR spin))) pa in
      do m <- index maps sidx;
      do scan <- mapr (lookup m) pix;
      do scan <- (if (spin =? 0)%Z then Ok scan else mul_arr scan expmipas);
      let scan :=
        if reality
        then map (fun z => RtoC (if (spin =? 0)%Z then Re z else Re z * 2)) scan
        else scan in
      do tod <- add_arr tod scan;
      modulate_loop reality recursion pix pa maps (S sidx) s_vals expmipas tod
  end.

(** instrument.py:3727-3798; [np.min] of an empty array raises ValueError and
    [s_vals[0]] IndexError. *)
Definition scan_modulate_pa (tod : list C) (pix : list point) (pa : list R)
  (maps : list (list C)) (s_vals : list Z) (reality : bool) : res (list C) :=
  match s_vals with
  | nil => if reality then Err ValueError else Err IndexError
  | s0 :: _ =>
      if (reality && existsb (fun s => s <? 0)%Z s_vals)%bool then Err ValueError
      else
        let recursion :=
          if list_eq_dec Z.eq_dec s_vals (arange s0 (last_or s0 s_vals + 1))
          then true else false in
        modulate_loop reality recursion pix pa maps 0 s_vals
          (map (fun p => cis (- (p * IZR s0))) pa) tod
  end.

(** One entry of the dictionary made by [_init_spinmaps]. *)
Record spinset := { ss_maps : list (list C); ss_svals : list Z }.
Definition spindict := list (string * spinset).

(** [d[key]]. *)
Fixpoint getitem (d : spindict) (key : string) : res spinset :=
  match d with
  | nil => Err KeyError
  | (k, v) :: d => if is k key then Ok v else getitem d key
  end.

(** instrument.py:3592 *)
Definition only_ideal (d : spindict) : bool :=
  (forallb (fun kv => is (fst kv) "s0a0" || is (fst kv) "s2a4") d
   && existsb (fun kv => is (fst kv) "s0a0") d
   && existsb (fun kv => is (fst kv) "s2a4") d)%bool.

(** [self.hwp_ang]: a number (0 if not set, instrument.py:3586) or one angle
    per sample, in radians. *)
Inductive hwpang := Fixed (a : R) | Sampled (l : list R).
Definition angles (h : hwpang) (n : nat) : res (list R) :=
  match h with
  | Fixed a => Ok (repeat a n)
  | Sampled l => if (List.length l =? n)%nat then Ok l else Err ValueError
  end.

Definition radians (x : R) : R := x * (PI / 180).

(** [tod_c *= np.exp(1j * f(hwp_ang))]. *)
Definition times_phase (tod_c : list C) (f : R -> R) (hwp : hwpang) : res (list C) :=
  do a <- angles hwp (List.length tod_c);
  mul_arr tod_c (map (fun x => cis (f x)) a).
(** [tod_tmp *= f(hwp_ang)]. *)
Definition times_real (tod : list C) (f : R -> R) (hwp : hwpang) : res (list C) :=
  do a <- angles hwp (List.length tod);
  mul_arr tod (map (fun x => RtoC (f x)) a).

(** [np.real(tod_c)]. *)
Definition real (x : list C) : list C := map (fun z => RtoC (Re z)) x.
Definition zeros (n : nat) : list C := repeat (RtoC 0) n.

(** [np.where(s_vals == v)[0][0]]. *)
Fixpoint find_spin (v : Z) (s_vals : list Z) : option nat :=
  match s_vals with
  | nil => None
  | s :: r => if (s =? v)%Z then Some 0%nat else option_map S (find_spin v r)
  end.
(** [np.where(s_vals >= 0)[0]]. *)
Definition where_nonneg (s_vals : list Z) : list nat :=
  filter (fun i => (0 <=? nth i s_vals 0)%Z) (seq 0 (List.length s_vals)).

(** instrument.py:3652-3671: maps_re[oidx] and maps_im[oidx] for one [idx]. *)
Definition s0a2_pair (e : spinset) (polang : R) (idx : nat) : res (list C * list C) :=
  let spin := nth idx (ss_svals e) 0%Z in
  do idx_neg <-
    (if (spin =? 0)%Z then Ok idx
     else match find_spin (- spin) (ss_svals e) with
          | Some i => Ok i
          | None => Err IndexError
          end);
  do map_pos <- index (ss_maps e) idx;
  do map_neg <- index (ss_maps e) idx_neg;
  let map_pos := times map_pos (cis (2 * radians polang)) in
  let map_neg := times map_neg (cis (- (2 * radians polang))) in
  do sum <- add_arr map_pos (map Cconj map_neg);
  do dif <- add_arr map_pos (map (fun z => - Cconj z)%C map_neg);
  Ok (map (fun z => RtoC (1 / 2) * z)%C sum, map (Cmul (0, 1 / 2)) dif).

(** instrument.py:3573-3690.  [pix] and [pa_deg] are the pointing of the
    samples (position angle in degrees), [polang] the detector's angle in
    degrees; the result is the new timestream. *)
Definition scan_tod (tod_size : nat) (spinmaps : spindict) (pix : list point)
  (pa_deg : list R) (polang : R) (hwp_ang : hwpang) : res (list C) :=
  let pa := map (fun p => radians p * (-1) + PI) pa_deg in
  let tod_c := zeros tod_size in
  if only_ideal spinmaps then
    do e <- getitem spinmaps "s2a4";
    do tod_c <- scan_modulate_pa tod_c pix pa (ss_maps e) (ss_svals e) false;
    do tod_c <- times_phase tod_c (fun a => 4 * a + 2 * radians polang) hwp_ang;
    let tod := real tod_c in
    do e <- getitem spinmaps "s0a0";
    scan_modulate_pa tod pix pa (ss_maps e) (ss_svals e) true
  else
    do e <- getitem spinmaps "s2a4";
    do tod_c <- scan_modulate_pa tod_c pix pa (ss_maps e) (ss_svals e) false;
    do tod_c <- times_phase tod_c (fun a => 4 * a + 2 * radians polang) hwp_ang;
    let tod := real tod_c in
    let tod_c := zeros tod_size in
    do e <- getitem spinmaps "s2a2";
    do tod_c <- scan_modulate_pa tod_c pix pa (ss_maps e) (ss_svals e) false;
    do tod_c <- times_phase tod_c (fun a => 2 * a) hwp_ang;
    do tod <- add_arr tod (real tod_c);
    let tod_c := zeros tod_size in
    do e <- getitem spinmaps "s2a0";
    do tod_c <- scan_modulate_pa tod_c pix pa (ss_maps e) (ss_svals e) false;
    do tod <- add_arr tod (real tod_c);
    do e <- getitem spinmaps "s0a2";
    let idx_nonneg := where_nonneg (ss_svals e) in
    do _ <- index (ss_maps e) 0;
    do pairs <- mapr (s0a2_pair e polang) idx_nonneg;
    let s_nonneg := map (fun i => nth i (ss_svals e) 0%Z) idx_nonneg in
    do tod_tmp <- scan_modulate_pa (zeros tod_size) pix pa (map fst pairs) s_nonneg true;
    do tod_tmp <- times_real tod_tmp (fun a => cos (2 * a)) hwp_ang;
    do tod <- add_arr tod tod_tmp;
    do tod_tmp <- scan_modulate_pa (zeros tod_size) pix pa (map snd pairs) s_nonneg true;
    do tod_tmp <- times_real tod_tmp (fun a => sin (2 * a)) hwp_ang;
    do tod <- add_arr tod tod_tmp;
    do e <- getitem spinmaps "s0a0";
    scan_modulate_pa tod pix pa (ss_maps e) (ss_svals e) true.
