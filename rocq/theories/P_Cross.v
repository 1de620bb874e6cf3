(** * Property theorems: crosstalk ghosts (C95)

    Focal planes and their histories as in P_Focal.v.  [place q s]: position of
    member [s] of pair [q] when the pairs are gone through in order; [part s]:
    that member (S_Cross.v). *)
From Coq Require Import Reals String.
From Verif Require Import Common M_Beam M_Focal S_Focal S_Cross L_FocalOps L_FocalRef L_Cross.
Open Scope string_scope.

(** Every beam of the pairs for which offsets are given gets one more ghost, at
    the offsets given for it, its polarization angle turned by 90 degrees, with
    the given options and otherwise those of the beam.  Beams of other pairs get
    none, and nothing else changes. *)
Theorem C95_crosstalk_ghosts : forall os st offs tag rand rnd kw st',
  history (fun st o => adds_once st o /\ is_input o = false /\ loads_separate o) empty_inst os st ->
  NoDup (map fst kw) -> create_crosstalk_ghosts st offs tag rand rnd kw = Ok st' ->
  fp st' = fp st /\ ndet st' = ndet st
  /\ (forall x k, (x < List.length (objs st))%nat -> getattr (objs st') x k = getattr (objs st) x k)
  /\ (forall x, (x < List.length (objs st))%nat ->
        (forall q s p, (q < List.length offs)%nat -> nth_error (fp st) q = Some p -> part s p <> Some x) ->
        ghosts_of (objs st') x = ghosts_of (objs st) x)
  /\ forall q s pr r off az el p, nth_error (fp st) q = Some pr -> part s pr = Some r ->
  nth_error offs q = Some off -> part s off = (az, el) ->
  getattr (objs st) r "polang" = Some (VNum p) ->
  exists g, ghosts_of (objs st') r = (ghosts_of (objs st) r ++ [g])%list
  /\ getattr (objs st') g "az" = Some (VNum az)
  /\ getattr (objs st') g "el" = Some (VNum el)
  /\ getattr (objs st') g "polang" = Some (VNum (p + 90))
  /\ (az <> 0%R -> getattr (objs st') g "dead" = Some (VBool false))
  /\ (az = 0%R -> getattr (objs st') g "dead" = Some (VBool true))
  /\ (rand = true -> forall a0, vnum (dget kw "amplitude") 1%R = Ok a0 ->
        getattr (objs st') g "amplitude" = Some (VNum (a0 + prefix_sum rnd (S (place q s)))))
  /\ forall k d, In (k, d) options -> plain k = true -> k <> "name" -> ~ In k ["az"; "el"; "polang"; "dead"] ->
       (rand = true -> k <> "amplitude") ->
       getattr (objs st') g k
       = match dget kw k with
         | Some v => Some v
         | None => if existsb (fun k' => k' =? k) taken_over then getattr (objs st) r k else Some d
         end.
Proof. exact cross_history. Qed.
Print Assumptions C95_crosstalk_ghosts.

(** A ghost in the column of the boresight is dead whatever its elevation. *)
Theorem C95_azimuth_zero_refuted : forall el, exists st' g,
  create_crosstalk_ghosts cross_pair_state [((0, el), (1, 1))%R] "x" false [] [] = Ok st'
  /\ ghosts_of (objs st') 0 = [g]
  /\ getattr (objs st') g "az" = Some (VNum 0) /\ getattr (objs st') g "el" = Some (VNum el)
  /\ getattr (objs st') g "dead" = Some (VBool true).
Proof. exact cross_azimuth_zero. Qed.
Print Assumptions C95_azimuth_zero_refuted.

(** Focal planes with unpaired detectors: no call that reaches one succeeds,
    although the code tests for the empty place. *)
Theorem C95_unpaired_refuted : forall st offs tag rand rnd kw q s p off,
  nth_error (fp st) q = Some p -> part s p = None -> nth_error offs q = Some off ->
  forall st', create_crosstalk_ghosts st offs tag rand rnd kw <> Ok st'.
Proof. exact cross_empty. Qed.
Print Assumptions C95_unpaired_refuted.

Theorem C95_unpaired_error_refuted : forall az el az' el',
  create_crosstalk_ghosts cross_single_state [((az, el), (az', el'))] "x" false [] [] = Err AttributeError.
Proof. exact cross_single_raises. Qed.
Print Assumptions C95_unpaired_error_refuted.

(** Random amplitudes: the second ghost also carries the first one's number. *)
Theorem C50_crosstalk_amplitudes_refuted : forall a0 x y st',
  create_crosstalk_ghosts cross_pair_state [((1, 1), (1, 1))%R] "x" true [x; y] [("amplitude", VNum a0)] = Ok st' ->
  exists g1, ghosts_of (objs st') 1 = [g1]
  /\ getattr (objs st') g1 "amplitude" = Some (VNum (a0 + (x + y))).
Proof. exact cross_amplitudes. Qed.
Print Assumptions C50_crosstalk_amplitudes_refuted.

Example C95_nonvacuous :
  history (fun st o => adds_once st o /\ is_input o = false /\ loads_separate o) empty_inst
    [NewBeam []; NewBeam []; Add (Pairs [(Some 0%nat, Some 1%nat)]) true] cross_pair_state
  /\ (exists st', create_crosstalk_ghosts cross_pair_state [((1, 2), (3, 4))%R] "x" false [] [] = Ok st')
  /\ nth_error (fp cross_pair_state) 0 = Some (Some 0%nat, Some 1%nat)
  /\ getattr (objs cross_pair_state) 1 "polang" = Some (VNum 0)
  /\ history (fun st o => adds_once st o /\ is_input o = false /\ loads_separate o) empty_inst
       [NewBeam []; Add (One 0%nat) true] cross_single_state.
Proof.
  exact (conj cross_pair_history (conj (cross_pair_runs _ 1 2 3 4 eq_refl)
    (conj eq_refl (conj eq_refl cross_single_history)))).
Qed.

Example C50_crosstalk_nonvacuous : exists st',
  create_crosstalk_ghosts cross_pair_state [((1, 1), (1, 1))%R] "x" true [2; 3]%R [("amplitude", VNum 5)] = Ok st'.
Proof. exact (cross_rand_runs 1 1 1 1 2 3 5). Qed.
