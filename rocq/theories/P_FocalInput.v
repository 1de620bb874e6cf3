(** * Property C91: a focal plane given by arrays

    [Input azs els polangs deads combine kw] is a call of [input_focal_plane];
    [made_with] (in [S_Beam]) says what a beam made with some options is, and
    [described] lists the options that the arrays and the position in them
    give. *)
From Coq Require Import Reals String.
From Verif Require Import Common M_Beam M_Focal S_Focal S_Beam L_FocalRef L_FocalInput.
Open Scope string_scope.

(** One pair for every row of the arrays, behind the existing ones, which do
    not change; its two beams are at the two offsets and angles of the row,
    dead as told (alive if not told), and have the common options otherwise. *)
Theorem C91_as_described : forall st azs els polangs deads c kw st',
  step st (Input azs els polangs deads c kw) = Ok st' ->
  List.length els = List.length azs -> List.length polangs = List.length azs ->
  (forall d, deads = Some d -> List.length d = List.length azs) ->
  exists new, fp st' = (fp st ++ new)%list /\ List.length new = List.length azs
  /\ ndet st' = (ndet st + 2 * Z.of_nat (List.length azs))%Z
  /\ (forall r, (r < List.length (objs st))%nat -> nth_error (objs st') r = nth_error (objs st) r)
  /\ forall k az el pa, nth_error azs k = Some az -> nth_error els k = Some el -> nth_error polangs k = Some pa ->
     exists ra rb a b, nth_error new k = Some (Some ra, Some rb)
     /\ nth_error (objs st') ra = Some a /\ nth_error (objs st') rb = Some b
     /\ forall d, nth_error (match deads with Some d => d | None => repeat (false, false) (List.length azs) end) k = Some d ->
        made_with (described (fst az) (fst el) (fst pa) (fst d) "A" k ++ kw)%list a
        /\ made_with (described (snd az) (snd el) (snd pa) (snd d) "B" k ++ kw)%list b.
Proof. exact input_described. Qed.
Print Assumptions C91_as_described.

(** The call succeeds for acceptable common options that the arrays do not fix. *)
Theorem C91_accepted : forall st azs els polangs deads kw,
  (forall r, In r (present st) -> exists i, idx_of st r = Some i) ->
  (forall k v, In (k, v) kw -> In k beam_options /\ ~ In k fixed) -> acceptable kw ->
  exists st', step st (Input azs els polangs deads true kw) = Ok st'.
Proof. exact input_accepted. Qed.
Print Assumptions C91_accepted.

(** Replacing the focal plane ([combine=False]) is documented but always fails. *)
Theorem C91_replacing_refuted : forall st azs els polangs deads kw,
  step st (Input azs els polangs deads false kw) = Err NameError.
Proof. exact input_not_combined. Qed.
Print Assumptions C91_replacing_refuted.

(** Options documented as ignored are not: they raise an error, or, for the
    mark of a ghost, are used. *)
Theorem C91_ignored_refuted : forall st az el pa azs els pas deads kw k v,
  (forall r, In r (present st) -> exists i, idx_of st r = Some i) ->
  (forall d, deads = Some d -> d <> []) -> In (k, v) kw -> In k fixed ->
  step st (Input (az :: azs) (el :: els) (pa :: pas) deads true kw) = Err TypeError.
Proof. exact input_fixed. Qed.
Print Assumptions C91_ignored_refuted.
Theorem C91_ghost_refuted : exists st b, history (fun _ _ => True) empty_inst
    [Input [(0, 0)]%R [(0, 0)]%R [(0, 90)]%R None true [("ghost", VBool true)]] st
  /\ present st = [0; 1]%nat /\ nth_error (objs st) 0 = Some b /\ ghost b = true.
Proof. exact input_ghosts. Qed.
Print Assumptions C91_ghost_refuted.

(** C18: arrays of different lengths are accepted, and then the count is wrong. *)
Theorem C18_unequal_arrays_refuted : exists st, history (fun _ _ => True) empty_inst
    [Input [(0, 0); (1, 1)]%R [(0, 0)]%R [(0, 90)]%R None true []] st
  /\ List.length (present st) = 2%nat /\ ndet st = 4%Z.
Proof. exact input_unequal. Qed.
Print Assumptions C18_unequal_arrays_refuted.

(** Two pairs, the second detector dead, with a common width. *)
Example C91_ex : exists st', step empty_inst (Input [(1, 1); (2, 3)]%R [(0, 0); (1, 1)]%R [(0, 90); (45, 135)]%R
    (Some [(false, true); (false, false)]) true [("fwhm", VNum 30)]) = Ok st'
  /\ present st' = [0; 1; 2; 3]%nat
  /\ getattr (objs st') 1 "dead" = Some (VBool true) /\ getattr (objs st') 2 "dead" = Some (VBool false)
  /\ getattr (objs st') 3 "az" = Some (VNum 3) /\ getattr (objs st') 2 "name" = Some (VStr "det1").
Proof. eexists. split; [reflexivity|]. repeat split. Qed.
Example C91_accepted_ex :
  (forall r, In r (present empty_inst) -> exists i, idx_of empty_inst r = Some i)
  /\ (forall k v, In (k, v) [("fwhm", VNum 30)] -> In k beam_options /\ ~ In k fixed) /\ acceptable [("fwhm", VNum 30)].
Proof.
  split; [intros r []|]. split.
  - intros k v [[= <- <-]|[]]. split; [cbn; tauto|]. cbn. intros H. repeat (destruct H as [H|H]; [discriminate|]). exact H.
  - unfold acceptable. cbn. repeat split; eauto.
Qed.
Example C91_ignored_ex : In ("az", VNum 1) [("az", VNum 1)] /\ In "az" fixed.
Proof. split; [now left|cbn; tauto]. Qed.
