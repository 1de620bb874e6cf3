(** * Properties C90 and C100: the options of a beam

    [beam_init] is the constructor of a beam, called with the keywords [kw];
    [S_Beam] lists the documented options with their defaults and the values
    they accept. *)
From Coq Require Import Reals String Lra Lia.
From Verif Require Import Common M_Beam S_Beam L_BeamInit L_ReuseBlm.
Open Scope string_scope.

(** Any option without further meaning is what the caller gave or its default. *)
Theorem C90_given_or_default : forall kw b k d, beam_init kw = Ok b -> In (k, d) stored_options ->
  attrs b k = Some (match dget kw k with Some v => v | None => d end).
Proof. exact option_stored. Qed.
Print Assumptions C90_given_or_default.

(** The band limit is never negative, the azimuthal one never exceeds it, and
    without a width the beam gets the one the band limit just resolves. *)
Theorem C90_limits : forall kw b, beam_init kw = Ok b ->
  exists l, attrs b "lmax" = Some (VInt l)
    /\ l = match dget kw "lmax" with Some (VInt z) => Z.max z 0 | _ => 700%Z end
    /\ attrs b "mmax" = Some (VInt (match dget kw "mmax" with Some (VInt m) => Z.min m l | _ => l end))
    /\ attrs b "fwhm" = Some (VNum (match dget kw "fwhm" with Some (VNum x) => Rabs x
         | _ => 1.4 * 2 * PI / IZR l * (180 / PI) * 60 end)%R).
Proof. exact option_limits. Qed.
Print Assumptions C90_limits.

(** The identifier and the mark of a ghost are as given, and a new beam has
    no ghosts of its own. *)
Theorem C90_identity : forall kw b, beam_init kw = Ok b ->
  idx b = match dget kw "idx" with Some (VInt z) => Some z | _ => None end
  /\ ghost b = match dget kw "ghost" with Some (VBool g) => g | _ => false end
  /\ ghosts b = [] /\ ghost_count b = 0%nat.
Proof. exact option_identity. Qed.
Print Assumptions C90_identity.

(** A misspelt option is never ignored. *)
Theorem C90_unknown_keyword : forall kw k v, In (k, v) kw -> ~ In k beam_options -> beam_init kw = Err TypeError.
Proof. exact unknown_keyword. Qed.
Print Assumptions C90_unknown_keyword.

(** Acceptable values of documented options make a beam. *)
Theorem C90_accepted : forall kw, (forall k v, In (k, v) kw -> In k beam_options) -> acceptable kw ->
  exists b, beam_init kw = Ok b.
Proof. exact accepts. Qed.
Print Assumptions C90_accepted.

(** The documentation says that without a band limit, or with [None], the
    width sets it.  With [None] no beam can be made at all, because the band
    limit is set before the width ... *)
Theorem C90_no_limit_refuted : forall kw, (forall k v, In (k, v) kw -> In k beam_options) ->
  dget kw "lmax" = Some VNone -> beam_init kw = Err AttributeError.
Proof. exact lmax_none. Qed.
Print Assumptions C90_no_limit_refuted.

(** ... and without one it is 700, however narrow or wide the beam. *)
Theorem C90_width_sets_limit_refuted : forall x, exists b, beam_init [("fwhm", VNum x)] = Ok b
  /\ attrs b "fwhm" = Some (VNum (Rabs x)) /\ attrs b "lmax" = Some (VInt 700).
Proof. exact width_sets_nothing. Qed.
Print Assumptions C90_width_sets_limit_refuted.

(** Afterwards: the identifier, the mark of a ghost, the list of ghosts and the
    true polarisation angle of a beam cannot be assigned. *)
Theorem C90_read_only : forall h r b k v, nth_error h r = Some b ->
  In k ["idx"; "ghost"; "ghosts"; "polang_truth"] -> setattr h r k v = Err AttributeError.
Proof. exact read_only_rejected. Qed.
Print Assumptions C90_read_only.

(** Assigning any attribute but [dead] (see C21) changes no other attribute and
    no other beam; a stored option then has the value assigned. *)
Theorem C90_assigned : forall h r k v, k <> "dead" ->
  (forall h' r' k', setattr h r k v = Ok h' -> (r', k') <> (r, k) -> getattr h' r' k' = getattr h r' k')
  /\ (forall b d, nth_error h r = Some b -> In (k, d) stored_options ->
        exists h', setattr h r k v = Ok h' /\ getattr h' r k = Some v).
Proof.
  exact (fun h r k v D => conj (fun h' r' k' H => assigned_only h r k v h' r' k' H D)
    (fun b d H I => assigned_value h r b k v d H I D)).
Qed.
Print Assumptions C90_assigned.

(** The azimuthal limit of a new beam never exceeds its band limit ([C90_limits]).
    This does not survive an assignment of a lower band limit. *)
Theorem C90_stale_limit_refuted : forall h r m z, getattr h r "mmax" = Some (VInt m) -> (0 <= z < m)%Z ->
  exists h', setattr h r "lmax" (VInt z) = Ok h' /\ getattr h' r "lmax" = Some (VInt z)
    /\ getattr h' r "mmax" = Some (VInt m).
Proof. exact stale_mmax. Qed.
Print Assumptions C90_stale_limit_refuted.
Example C90_assign_ex : exists b, beam_init [("az", VNum 2)] = Ok b /\ nth_error [b] 0 = Some b
  /\ getattr [b] 0 "mmax" = Some (VInt 700) /\ (0 <= 50 < 700)%Z.
Proof. eexists. split; [reflexivity|]. split; [reflexivity|]. split; [reflexivity|]. lia. Qed.

(** Options of which some are given: a narrow beam of detector 3. *)
Example C90_ex : let kw := [("az", VNum 2); ("fwhm", VNum (-30)); ("lmax", VInt 100); ("mmax", VInt 200); ("idx", VInt 3)] in
  (forall k v, In (k, v) kw -> In k beam_options) /\ acceptable kw
  /\ exists b, beam_init kw = Ok b /\ attrs b "az" = Some (VNum 2) /\ attrs b "el" = Some (VNum 0)
     /\ attrs b "mmax" = Some (VInt 100) /\ attrs b "fwhm" = Some (VNum (Rabs (-30))) /\ idx b = Some 3%Z.
Proof.
  cbv zeta. split; [|split].
  - cbn [In]. intros k v H. repeat (destruct H as [H|H]; [injection H as <- <-; cbn; tauto|]). destruct H.
  - unfold acceptable. cbn. repeat split; eauto.
  - eexists. split; [reflexivity|]. repeat split.
Qed.
Example C90_unknown_ex : ~ In "fhwm" beam_options /\ beam_init [("fhwm", VNum 30)] = Err TypeError.
Proof. split; [cbn; intros H; repeat (destruct H as [H|H]; [discriminate|]); exact H|reflexivity]. Qed.
Example C90_no_limit_ex : (forall k v, In (k, v) [("lmax", VNone); ("fwhm", VNum 30)] -> In k beam_options)
  /\ dget [("lmax", VNone); ("fwhm", VNum 30)] "lmax" = Some VNone.
Proof. split; [|reflexivity]. cbn [In]. intros k v H. repeat (destruct H as [H|H]; [injection H as <- <-; cbn; tauto|]). destruct H. Qed.

(** ** C100: a beam that takes over the coefficients of another *)

(** It then has the other's type, band limits and amplitude, and the other's
    ghost index if both are ghosts; all its other attributes, and all other
    beams, stay as they were. *)
Theorem C100_taken_over : forall h r partner b p l m,
  nth_error h r = Some b -> nth_error h partner = Some p ->
  (forall k, In k ["btype"; "amplitude"] -> attrs p k <> None) ->
  attrs p "lmax" = Some (VInt l) -> attrs p "mmax" = Some (VInt m) -> (0 <= l)%Z -> (m <= l)%Z ->
  exists h' b', reuse_blm h r partner = Ok h' /\ nth_error h' r = Some b'
    /\ (forall k, In k ["btype"; "lmax"; "mmax"; "amplitude"] -> attrs b' k = attrs p k)
    /\ (forall k, ~ In k ["btype"; "lmax"; "mmax"; "amplitude"] -> attrs b' k = attrs b k)
    /\ ghost_idx b' = (if ghost p && ghost b then ghost_idx p else ghost_idx b)
    /\ idx b' = idx b /\ ghost b' = ghost b /\ ghosts b' = ghosts b /\ ghost_count b' = ghost_count b
    /\ List.length h' = List.length h
    /\ (forall r', r' <> r -> nth_error h' r' = nth_error h r').
Proof. exact reused. Qed.
Print Assumptions C100_taken_over.

(** Not so for an azimuthal limit that exceeds the band limit, as an assignment
    of a lower band limit leaves behind ([C90_stale_limit_refuted]). *)
Theorem C100_stale_limit_refuted : forall h r partner b p t l m x,
  nth_error h r = Some b -> nth_error h partner = Some p ->
  attrs p "btype" = Some t -> attrs p "lmax" = Some (VInt l) -> attrs p "mmax" = Some (VInt m) ->
  attrs p "amplitude" = Some x -> (0 <= l)%Z -> (l < m)%Z ->
  exists h', reuse_blm h r partner = Ok h' /\ getattr h' r "mmax" = Some (VInt l).
Proof. exact reused_stale. Qed.
Print Assumptions C100_stale_limit_refuted.

(** Two ghosts with different types and limits; the second after a change of
    its band limit. *)
Example C100_case : exists b p h1 p1,
  beam_init [("ghost", VBool true); ("amplitude", VNum 2)] = Ok b
  /\ beam_init [("ghost", VBool true); ("btype", VStr "PO"); ("lmax", VInt 100); ("mmax", VInt 5)] = Ok p
  /\ (forall k, In k ["btype"; "amplitude"] -> attrs p k <> None)
  /\ attrs p "lmax" = Some (VInt 100) /\ attrs p "mmax" = Some (VInt 5) /\ (0 <= 100)%Z /\ (5 <= 100)%Z
  /\ setattr [b; p] 1 "lmax" (VInt 3) = Ok h1 /\ nth_error h1 1 = Some p1
  /\ attrs p1 "btype" = Some (VStr "PO") /\ attrs p1 "lmax" = Some (VInt 3) /\ attrs p1 "mmax" = Some (VInt 5)
  /\ attrs p1 "amplitude" = Some (VNum 1) /\ (3 < 5)%Z.
Proof.
  do 4 eexists. split; [reflexivity|]. split; [reflexivity|].
  split; [intros k [<-|[<-|[]]]; discriminate|]. split; [reflexivity|]. split; [reflexivity|].
  split; [lia|]. split; [lia|]. split; [reflexivity|]. split; [reflexivity|].
  split; [reflexivity|]. split; [reflexivity|]. split; [reflexivity|]. split; [reflexivity|]. lia.
Qed.
