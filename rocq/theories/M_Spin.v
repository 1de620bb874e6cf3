(** * Model of the spin maps: [ScanStrategy._init_spinmaps] (instrument.py:3899-4090),
      [_spinmaps_real] (4184-4255) and [_spinmaps_complex] (4257-4335)

    Exact complex arithmetic.  healpy's transforms [alm2map] and
    [alm2map_spin] (for the requested nside) are parameters. *)
From Coq Require Import Reals String.
From Verif Require Import Common Cplx Mat M_Alm M_Blm M_Mueller M_Tod.
Open Scope R_scope.

Definition conjs (x : list C) : list C := map Cconj x.
Definition negs (x : list C) : list C := map Copp x.

(** [hp.almxfl(alm, fl)]; modes beyond the end of [fl] are multiplied by zero. *)
Definition hp_almxfl (alm fl : list C) : res (list C) :=
  match getlmax (List.length alm) None with
  | None => Err ValueError
  | Some lmax => Ok (almxfl lmax alm (fun l => nth l fl (RtoC 0)))
  end.

(** [m1 + 1j * m2] and [m1 - 1j * m2]. *)
Definition to_complex (m : list R * list R) : list C := combine (fst m) (snd m).
Definition to_complex_minus (m : list R * list R) : list C :=
  combine (fst m) (map Ropp (snd m)).

Section Transforms.
Variable alm2map : list C -> list R.
Variable alm2map_spin : list C -> list C -> Z -> list R * list R.

(** instrument.py:4233-4253: one spin value of [_spinmaps_real]. *)
Definition spinmap_real1 (alm blm : list C) (s : Z) : res (list C) :=
  do bell <- blm2bl (RtoC 0) blm s true;
  if (s =? 0)%Z then
    do flms <- hp_almxfl alm bell;
    Ok (map RtoC (alm2map flms))
  else
    do flms <- hp_almxfl alm bell;
    do flmms <- hp_almxfl alm (map (Cmul (parity s)) (conjs bell));
    let '(p, m) := spin2eb flmms flms s in
    Ok (to_complex (alm2map_spin p m s)).

(** instrument.py:4184-4255. *)
Definition spinmaps_real (alm blm : list C) (spin_values : list Z) : res (list (list C)) :=
  match spin_values with
  | nil => Err ValueError
  | _ =>
      if existsb (fun s => s <? 0)%Z spin_values then Err ValueError
      else mapr (spinmap_real1 alm blm) spin_values
  end.

(** instrument.py:4298-4333: one spin value of [_spinmaps_complex]. *)
Definition spinmap_complex1 (almm2 almp2 blmm2 blmp2 : list C) (s : Z) : res (list C) :=
  do bellp2 <- blm2bl (RtoC 0) blmp2 (Z.abs s) true;
  do bellm2 <- blm2bl (RtoC 0) blmm2 (Z.abs s) true;
  do ps <- (do x <- hp_almxfl almm2 (map (fun b => Cconj b * parity (Z.abs s))%C bellm2);
            do y <- hp_almxfl almp2 bellm2;
            Ok (spin2eb x y (Z.abs s)));
  do ms <- (do x <- hp_almxfl almp2 (map (fun b => Cconj b * parity (Z.abs s))%C bellp2);
            do y <- hp_almxfl almm2 bellp2;
            Ok (spin2eb x y (Z.abs s)));
  Ok (if (s =? 0)%Z then to_complex (alm2map (negs (fst ps)), alm2map (snd ms))
      else if (0 <? s)%Z then to_complex (alm2map_spin (fst ps) (snd ps) s)
      else to_complex_minus (alm2map_spin (fst ms) (snd ms) (Z.abs s))).

(** instrument.py:4257-4335. *)
Definition spinmaps_complex (almE almB blmE blmB : list C) (spin_values : list Z)
  : res (list (list C)) :=
  let '(almm2, almp2) := eb2spin almE almB in
  let '(blmm2, blmp2) := eb2spin blmE blmB in
  mapr (spinmap_complex1 almm2 almp2 blmm2 blmp2) spin_values.

(** [maps += maps'] *)
Definition add_maps (a b : list (list C)) : res (list (list C)) :=
  if (List.length a =? List.length b)%nat
  then mapr (fun p => add_arr (fst p) (snd p)) (combine a b) else Err ValueError.

(** instrument.py:3987-4001: (spin_values_unpol, spin_values_pol, spin_values_s0a2). *)
Definition spin_values (symmetric : bool) (max_spin : nat) : list Z * list Z * list Z :=
  if symmetric then ([0%Z], [2%Z], [0%Z])
  else
    let both := map (fun k => Z.of_nat k - Z.of_nat max_spin)%Z (seq 0 (2 * max_spin + 1)) in
    (map Z.of_nat (seq 0 (max_spin + 1)), both, both).

(** instrument.py:3967-3984: [hp.Alm.getlmax] of both and truncation of the
    longer arrays. *)
Definition match_bandlimits (alm blm : list (list C)) (input_v beam_v : bool)
  : res (list (list C) * list (list C)) :=
  do a0 <- index alm 0;
  do b0 <- index blm 0;
  match getlmax (List.length a0) None, getlmax (List.length b0) None with
  | Some lmax_sky, Some lmax_beam =>
      if (lmax_beam <? lmax_sky)%nat then
        do a1 <- index alm 1; do a2 <- index alm 2;
        do alms <- trunc_alms [a0; a1; a2] lmax_beam None;
        if input_v then
          do a3 <- index alm 3;
          do almV <- trunc_alm a3 lmax_beam None;
          Ok ((alms ++ [almV])%list, blm)
        else Ok (alms, blm)
      else if (lmax_sky <? lmax_beam)%nat then
        do b1 <- index blm 1; do b2 <- index blm 2;
        do blms <- trunc_alms [b0; b1; b2] lmax_sky None;
        if beam_v then
          do b3 <- index blm 3;
          do blmV <- trunc_alm b3 lmax_sky None;
          Ok (alm, (blms ++ [blmV])%list)
        else Ok (alm, blms)
      else Ok (alm, blm)
  | _, _ => Err ValueError
  end.

(** The two arrays returned by [blmxhwp]. *)
Definition two (l : list (list C)) : res (list C * list C) :=
  match l with [a; b] => Ok (a, b) | _ => Err ValueError end.
Definition one (l : list (list C)) : res (list C) :=
  match l with [a] => Ok a | _ => Err ValueError end.

(** instrument.py:4003-4090: the dictionary of spin maps.  [hwp_mueller] is
    the Mueller matrix or None. *)
Definition make_spinmaps (alm blm : list (list C)) (max_spin : nat) (symmetric : bool)
  (hwp_mueller : option mat4) (input_v beam_v : bool) : res spindict :=
  let '(spins, sa2) := spin_values symmetric max_spin in
  let '(unpol, pol) := spins in
  do alm0 <- index alm 0; do almE <- index alm 1; do almB <- index alm 2;
  match hwp_mueller with
  | Some m =>
      let h := mueller2spin m in
      (* s0a0 *)
      do b <- blmxhwp blm h "s0a0" beam_v;
      do b <- one b;
      do m00 <- spinmaps_real alm0 b unpol;
      do m00 <- (if input_v then
                   do b <- blmxhwp blm h "s0a0_v" beam_v;
                   do b <- one b;
                   do almV <- index alm 3;
                   do mv <- spinmaps_real almV b unpol;
                   add_maps m00 mv
                 else Ok m00);
      (* s2a4 *)
      do b <- blmxhwp blm h "s2a4" false;
      do (blmm2, blmp2) <- two b;
      let '(blmE, blmB) := spin2eb blmm2 blmp2 2 in
      do m24 <- spinmaps_complex almE almB blmE blmB pol;
      (* s0a2 *)
      do b <- blmxhwp blm h "s0a2" false;
      do (blmm2, blmp2) <- two b;
      let '(blmE, blmB) := spin2eb blmp2 blmm2 2 in
      do m02 <- spinmaps_complex (negs alm0) (times alm0 (RtoC 0)) blmE blmB sa2;
      do m02 <- (if input_v then
                   do b <- blmxhwp blm h "s0a2_v" false;
                   do (blmm2, blmp2) <- two b;
                   let '(blmE, blmB) := spin2eb blmp2 blmm2 2 in
                   do almV <- index alm 3;
                   do mv <- spinmaps_complex (negs almV) (times almV (RtoC 0)) blmE blmB sa2;
                   add_maps m02 mv
                 else Ok m02);
      (* s2a2 *)
      do b <- blmxhwp blm h "s2a2" beam_v;
      do (blmm2, blmp2) <- two b;
      let '(blmE, blmB) := spin2eb blmm2 blmp2 2 in
      do m22 <- spinmaps_complex almE almB blmE blmB pol;
      (* s2a0 *)
      do b <- blmxhwp blm h "s2a0" false;
      do (blmm2, blmp2) <- two b;
      let '(blmE, blmB) := spin2eb blmm2 blmp2 2 in
      do m20 <- spinmaps_complex almE almB blmE blmB pol;
      Ok [("s0a0", {| ss_maps := m00; ss_svals := unpol |});
          ("s2a4", {| ss_maps := m24; ss_svals := pol |});
          ("s0a2", {| ss_maps := m02; ss_svals := sa2 |});
          ("s2a2", {| ss_maps := m22; ss_svals := pol |});
          ("s2a0", {| ss_maps := m20; ss_svals := pol |})]%string
  | None =>
      do b1 <- index blm 1; do b2 <- index blm 2;
      let '(blmE, blmB) := spin2eb b1 b2 2 in
      do b0 <- index blm 0;
      do m00 <- spinmaps_real alm0 b0 unpol;
      do m00 <- (if (beam_v && input_v)%bool then
                   do almV <- index alm 3;
                   do b3 <- index blm 3;
                   do mv <- spinmaps_real almV b3 unpol;
                   add_maps m00 mv
                 else Ok m00);
      do m24 <- spinmaps_complex almE almB blmE blmB pol;
      Ok [("s0a0", {| ss_maps := m00; ss_svals := unpol |});
          ("s2a4", {| ss_maps := m24; ss_svals := pol |})]%string
  end.

(** Coefficients as given: [None] is a NaN or an infinity. *)
Definition raw := list (list (option C)).
(** [np.isfinite(np.sum(x))] (overflow of a sum of finite numbers is not modelled). *)
Definition finite (x : list (option C)) : bool := forallb (fun z => match z with Some _ => true | None => false end) x.

(** instrument.py:3954-3959: one of the two loops; [n] bounds the number of
    iterations, the result is (crash, i). *)
Fixpoint crash_loop (x : raw) (n : nat) (i : nat) : bool * nat :=
  match n with
  | O => (false, i)
  | S n =>
      if (i <? List.length x)%nat then
        if negb (finite (nth i x [])) then (true, S i)
        else crash_loop x n (S i)
      else (false, i)
  end.

(** instrument.py:3944-3962: None, or the name and number in the message of
    the ValueError. *)
Definition nan_check (alm blm : raw) : option (string * nat) :=
  let '(crash_a, i) := crash_loop alm (List.length alm) 0 in
  let '(crash_b, i) := crash_loop blm (List.length blm) i in
  if (crash_a || crash_b)%bool
  then Some ((if crash_a then "alm" else "blm")%string, (i - 1)%nat)
  else None.

Definition strip1 (x : list (option C)) : list C := map (fun z => match z with Some c => c | None => RtoC 0 end) x.

(** Outcome of [_init_spinmaps]: spin maps; the error about component [i] of
    [name]; another exception; or maps computed from non-finite coefficients. *)
Inductive outcome :=
| Maps (d : spindict)
| NotFinite (name : string) (i : nat)
| Raises (e : exn)
| Poisoned.

(** instrument.py:3899-4090. *)
Definition init_spinmaps1 (alm blm : raw) (max_spin : nat) (symmetric : bool)
  (hwp_mueller : option mat4) (input_v beam_v : bool) : outcome :=
  if (negb (List.length alm =? 4)%nat && input_v)%bool then Raises ValueError
  else if (negb (List.length blm =? 4)%nat && beam_v)%bool then Raises ValueError
  else
    match nan_check alm blm with
    | Some (name, i) => NotFinite name i
    | None =>
        if (forallb finite alm && forallb finite blm)%bool then
          match (do (a, b) <- match_bandlimits (map strip1 alm) (map strip1 blm) input_v beam_v;
                 make_spinmaps a b max_spin symmetric hwp_mueller input_v beam_v) with
          | Ok d => Maps d
          | Err e => Raises e
          end
        else Poisoned
    end.
End Transforms.
