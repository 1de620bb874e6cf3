(** * Model of the spherical-harmonic coefficient arrays of
    /repo/beamconv/tools.py (and of the expansion in
    /repo/beamconv/detector.py [Beam.load_blm])

    Arrays are lists; elements are of any type with a zero, a conjugation and a
    negation.  The healpy index functions are external code, transcribed from
    healpy's documentation (healpy.Alm). *)
From Verif Require Import Common.
Open Scope nat_scope.

(** healpy [Alm.getidx(lmax, l, m)]. *)
Definition getidx (lmax l m : nat) : nat := m * (2 * lmax + 1 - m) / 2 + l.

(** healpy [Alm.getsize(lmax, mmax)]. *)
Definition getsize (lmax mmax : nat) : nat := mmax * (2 * lmax + 1 - mmax) / 2 + lmax + 1.

(** healpy [Alm.getlmax(size, mmax)]; [None] stands for -1 (no such lmax).
    Simplification: the square root is exact. *)
Definition getlmax (s : nat) (mmax : option nat) : option nat :=
  match mmax with
  | None =>
      let r := Nat.sqrt (1 + 8 * s) in
      if (r * r =? 1 + 8 * s) && (3 <=? r) && (Nat.even (r - 3))
      then Some ((r - 3) / 2) else None
  | Some mm =>
      let num := 2 * s + mm * mm in
      let den := 2 * mm + 2 in
      if (mm + 2 <=? num) && ((num - (mm + 2)) mod den =? 0)
      then Some ((num - (mm + 2)) / den) else None
  end.

(** NumPy [arr[i:j] = v].  Simplification: a [v] of another length than the
    slice is an error (NumPy would repeat a [v] of length one). *)
Definition assign {A} (arr : list A) (i j : nat) (v : list A) : res (list A) :=
  let n := length arr in
  let i := Nat.min i n in
  let j := Nat.min j n in
  if length v =? j - i then Ok (firstn i arr ++ v ++ skipn (Nat.max i j) arr)
  else Err ValueError.

(** [for x in l: body] *)
Fixpoint for_each {X S} (l : list X) (body : X -> S -> res S) (s : S) : res S :=
  match l with
  | [] => Ok s
  | x :: r => do s1 <- body x s; for_each r body s1
  end.

(** [arr[indices]] *)
Fixpoint take {A} (arr : list A) (indices : list nat) : res (list A) :=
  match indices with
  | [] => Ok []
  | i :: r => do a <- index arr i; do rest <- take arr r; Ok (a :: rest)
  end.

(** tools.py:47-57: the index array of [trunc_alm]. *)
Definition trunc_indices (lmax lmax_new mtop : nat) : res (list nat) :=
  do (r, _) <-
    for_each (seq 0 (mtop + 1))
      (fun m st =>
         let '(indices, start, nstart) := st in
         do indices <- assign indices nstart (nstart + lmax_new + 1 - m)
                         (seq start (lmax_new + 1 - m));
         Ok (indices, start + lmax + 1 - m, nstart + lmax_new + 1 - m))
      (repeat 0 (getsize lmax_new mtop), 0, 0);
  let '(indices, _) := r in Ok indices.

(** tools.py:5-65 [trunc_alm], one array.  Simplification: [lmax_new >= 0]. *)
Definition trunc_alm {A} (alm : list A) (lmax_new : nat) (mmax_old : option nat)
  : res (list A) :=
  match getlmax (length alm) mmax_old with
  | None => Err ValueError                   (* lmax = -1 < lmax_new *)
  | Some lmax =>
      let mm := match mmax_old with None => lmax | Some m => m end in
      if lmax <? lmax_new then Err ValueError
      else
        do indices <- trunc_indices lmax lmax_new (Nat.min lmax_new mm);
        take alm indices
  end.

(** tools.py:33-35, 59-61: a sequence of arrays; the band limit is read off
    the first. *)
Definition trunc_alms {A} (alms : list (list A)) (lmax_new : nat) (mmax_old : option nat)
  : res (list (list A)) :=
  match alms with
  | [] => Err IndexError
  | a0 :: _ =>
      match getlmax (length a0) mmax_old with
      | None => Err ValueError
      | Some lmax =>
          let mm := match mmax_old with None => lmax | Some m => m end in
          if lmax <? lmax_new then Err ValueError
          else
            do indices <- trunc_indices lmax lmax_new (Nat.min lmax_new mm);
            (fix go (l : list (list A)) : res (list (list A)) :=
               match l with
               | [] => Ok []
               | a :: r => do x <- take a indices; do xs <- go r; Ok (x :: xs)
               end) alms
      end
  end.

(** Python slice [l[i:j]] with possibly negative bounds. *)
Definition pynorm (n : nat) (k : Z) : nat :=
  if (k <? 0)%Z then Z.to_nat (Z.of_nat n + k) else Nat.min (Z.to_nat k) n.
Definition pyslice {A} (l : list A) (i j : Z) : list A :=
  slice l (pynorm (length l) i) (pynorm (length l) j).

(** healpy [Alm.getidx] on integers (no range checks). *)
Definition zgetidx (lmax l m : Z) : Z := (m * (2 * lmax + 1 - m) / 2 + l)%Z.

Section Blm.
  Context {A : Type} (zero : A) (conj opp : A -> A).

  (** tools.py:674-719 [blm2bl], one-dimensional input.  Simplification: the
      size is one of a full set of coefficients. *)
  Definition blm2bl (blm : list A) (m : Z) (full : bool) : res (list A) :=
    if (m <? 0)%Z then Err ValueError
    else
      match getlmax (length blm) None with
      | None => Err ValueError
      | Some lmax =>
          let start := zgetidx (Z.of_nat lmax) m m in
          let e := (start + Z.of_nat lmax + 1 - m)%Z in
          let bell := pyslice blm start e in
          if full then
            assign (repeat zero (lmax + 1)) (Z.to_nat m) (lmax + 1) bell
          else Ok bell
      end.

  (** [np.conj(x) * (-1) ** m] *)
  Definition signed (m : Z) (x : A) : A := if Z.even m then x else opp x.

  (** tools.py:207-225 (and 228-243 with the two arrays exchanged and the sign
      of the shift reversed): one of the two loops of [shift_blm]. *)
  Definition shift_loop (lmax : nat) (shift : Z) (own other : list A) : res (list A) :=
    for_each (seq 0 (lmax + 1))
      (fun m new =>
         let start := getidx lmax m m in
         let e := start + lmax + 1 - m in
         let m_old := (Z.of_nat m - shift)%Z in
         if (Z.of_nat lmax <? Z.abs m_old)%Z then Ok new
         else
           do bell_old <-
             (if (0 <=? m_old)%Z then blm2bl own m_old true
              else
                do b <- blm2bl other (Z.abs m_old) true;
                Ok (map (fun x => signed m_old (conj x)) b));
           assign new start e (skipn m bell_old))
      (repeat zero (length own)).

  (** tools.py:156-251 [shift_blm] with [eb=False]: arrays -2blm, +2blm. *)
  Definition shift_blm (blmm2 blmp2 : list A) (shift : Z) : res (list A * list A) :=
    if negb (length blmm2 =? length blmp2) then Err ValueError
    else
      match getlmax (length blmm2) None with
      | None => Err ValueError
      | Some lmax =>
          if (shift >? Z.of_nat lmax)%Z then Err ValueError
          else
            do p <- shift_loop lmax shift blmp2 blmm2;
            do q <- shift_loop lmax (- shift)%Z blmm2 blmp2;
            Ok (q, p)
      end.

  (** tools.py:282-316: body of the loop of [unpol2pol]; the state is the two
      arrays and [end] (unbound before the first iteration). *)
  Definition unpol2pol_body (lmax : nat) (blm : list A) (m : nat)
    (st : list A * list A * option nat) : res (list A * list A * option nat) :=
    let '(blmm2, blmp2, e) := st in
    let start := getidx lmax m m in
    do (start, e) <-
      (if m <? lmax then Ok (start, getidx lmax (m + 1) (m + 1))
       else match e with
            | None => Err UnboundLocalError
            | Some e =>
                if (e + 1) =? getsize lmax lmax then Ok (e, e + 1) else Err AssertionError
            end);
    if m =? 0 then
      do blmm2 <- assign blmm2 (start + 2) e (map conj (slice blm (2 * lmax + 1) (3 * lmax)));
      do blmp2 <- assign blmp2 (start + 2) e (slice blm (2 * lmax + 1) (3 * lmax));
      Ok (blmm2, blmp2, Some e)
    else if m =? 1 then
      do blmm2 <- assign blmm2 (start + 1) e (map (fun x => opp (conj x)) (slice blm (start + 1) e));
      do blmp2 <- assign blmp2 (start + 2) e (slice blm (3 * lmax) (4 * lmax - 2));
      Ok (blmm2, blmp2, Some e)
    else
      let start_0 := getidx lmax (m - 2) (m - 2) in
      let end_0 := getidx lmax (m - 1) (m - 1) in
      do blmm2 <- assign blmm2 start e (slice blm (start_0 + 2) end_0);
      if lmax <? m + 2 then Ok (blmm2, blmp2, Some e)
      else
        let start_p0 := getidx lmax (m + 2) (m + 2) in
        let end_p0 := getidx lmax (m + 3) (m + 3) in
        do blmp2 <- assign blmp2 (start + 2) e (slice blm start_p0 end_p0);
        Ok (blmm2, blmp2, Some e).

  (** tools.py:253-317 [unpol2pol]: (blmm2, blmp2). *)
  Definition unpol2pol (blm : list A) : res (list A * list A) :=
    match getlmax (length blm) None with
    | None => Err ValueError
    | Some lmax =>
        do (r, _) <- for_each (seq 0 (lmax + 1)) (unpol2pol_body lmax blm)
                       (repeat zero (length blm), repeat zero (length blm), None);
        Ok r
    end.

  (** tools.py:67-111 [gauss_blm]; [bell] is what healpy's [gauss_beam] returns
      (lmax + 1 numbers).  Second component: [pol=True]. *)
  Definition gauss_blm (lmax : nat) (bell : list A) : res (list A * list A) :=
    let z := repeat zero (getsize lmax lmax) in
    do blm <- assign z 0 (lmax + 1) bell;
    do blmm2 <- assign z (2 * lmax + 1) (3 * lmax) (skipn 2 bell);
    Ok (blm, blmm2).

  (** detector.py:337-341 (and 350-360): expansion of coefficients read with
      azimuthal limit [mmax] to a full set. *)
  Definition expand_blm (blm_read : list A) (mmax : nat) : res (list A) :=
    match getlmax (length blm_read) (Some mmax) with
    | None => Err ValueError
    | Some lmax => assign (repeat zero (getsize lmax lmax)) 0 (length blm_read) blm_read
    end.
End Blm.
