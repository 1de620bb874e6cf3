(** * Property C66: random deviations of detector properties

    [z] is the stream of standard normal numbers of the random generator.
    [with_ghosts st ig rs] lists the beams [rs] in order, each followed by its
    ghosts when [ig].  The other hypotheses: no object twice, and the attribute
    is a number on all of them. *)
From Coq Require Import Reals String.
From Verif Require Import Common M_Beam M_Focal S_Focal M_Random S_Random L_FocalRef L_Random.
Open Scope R_scope.

(** [set_global_prop_random]: the [j]-th attribute of the [i]-th object moves by
    its own draw times the given size, plus that size if the object is a main
    beam; nothing else changes. *)
Theorem C66_own_draws : forall z st prop ig,
  let rs := with_ghosts st ig (present st) in
  prop <> [] -> NoDup rs -> NoDup (map fst prop) -> (forall k, In k (map fst prop) -> numeric st rs k) ->
  exists st', set_global_prop_random z st prop ig = Ok st' /\ fp st' = fp st /\ ndet st' = ndet st
    /\ (forall r k, ~ In r rs \/ ~ In k (map fst prop) -> getattr (objs st') r k = getattr (objs st) r k)
    /\ (forall i r j k s v, nth_error rs i = Some r -> nth_error prop j = Some (k, s) ->
         getattr (objs st) r k = Some (VNum v) ->
         getattr (objs st') r k
         = Some (VNum (v + ((if existsb (Nat.eqb r) (present st) then 1 else 0) + z (i * List.length prop + j)%nat) * s))).
Proof. exact random_spec. Qed.
Print Assumptions C66_own_draws.

Theorem C66_draws_differ : forall (n i j i' j' : nat), (j < n)%nat -> (j' < n)%nat ->
  (i * n + j = i' * n + j')%nat -> i = i' /\ j = j'.
Proof. exact draws_differ. Qed.
Print Assumptions C66_draws_differ.

Example C66_case :
  history (fun _ _ => True) empty_inst rnd_history rnd_state
  /\ with_ghosts rnd_state true (present rnd_state) = [0; 2; 1; 3; 4; 5]%nat
  /\ present rnd_state = [0; 1; 4; 5]%nat
  /\ (forall k, In k ["polang"; "az"]%string -> numeric rnd_state [0; 2; 1; 3; 4; 5]%nat k).
Proof. exact rnd_case. Qed.

(** The deviations of main beams are not centred: they are drawn around the
    given size. *)
Theorem C66_centred_refuted : exists os st, history (fun _ _ => True) empty_inst os st
  /\ present st = [0%nat] /\ getattr (objs st) 0 "polang_error" = Some (VNum 0)
  /\ forall z s, exists st', set_global_prop_random z st [("polang_error"%string, s)] true = Ok st'
     /\ getattr (objs st') 0 "polang_error" = Some (VNum ((1 + z 0%nat) * s)).
Proof. exact not_centred. Qed.
Print Assumptions C66_centred_refuted.

(** The call shown in its documentation fails: beams have no [polang_err]. *)
Theorem C66_documented_call_refuted : exists st,
  history (fun _ _ => True) empty_inst [Create 1 1 10 false 90 true []] st
  /\ forall z, set_global_prop_random z st [("polang_err"%string, 1 / 100)] true = Err AttributeError.
Proof. exact documented_call. Qed.
Print Assumptions C66_documented_call_refuted.

(** [add_to_prop] with a standard deviation: member [b] of pair [i] moves by
    the value and its draw; its ghosts are set to these (not moved, see C59). *)
Theorem C66_add_random : forall z st key x ig s per_pair no_B no_A,
  let rs := with_ghosts st ig (chosen st no_B no_A) in
  s <> 0 -> NoDup rs -> numeric st (chosen st no_B no_A) key ->
  (forall r, In r rs -> (r < List.length (objs st))%nat) ->
  exists st', add_to_prop_random z st [(key, x)] ig s per_pair no_B no_A = Ok st' /\ fp st' = fp st /\ ndet st' = ndet st
    /\ (forall r k, ~ In r rs \/ k <> key -> getattr (objs st') r k = getattr (objs st) r k)
    /\ (forall i b p r v, nth_error (fp st) i = Some p -> (b < 2)%nat -> member p b = Some r ->
         takes_part no_B no_A b = true -> getattr (objs st) r key = Some (VNum v) ->
         getattr (objs st') r key = Some (VNum (v + (x + s * z (draw_no per_pair no_B no_A i b))))
         /\ (ig = true -> forall g, In g (ghosts_of (objs st) r) ->
              getattr (objs st') g key = Some (VNum (x + s * z (draw_no per_pair no_B no_A i b))))).
Proof. exact add_random_spec. Qed.
Print Assumptions C66_add_random.

(** Two detectors share a draw only if they are partners and this was asked
    for; partners then do. *)
Theorem C66_shared_draws : forall per_pair no_B no_A i b i' b',
  (b < 2)%nat -> (b' < 2)%nat -> takes_part no_B no_A b = true -> takes_part no_B no_A b' = true ->
  (draw_no per_pair no_B no_A i b = draw_no per_pair no_B no_A i' b' <-> i = i' /\ (b = b' \/ per_pair = true)).
Proof. exact shared_draws. Qed.
Print Assumptions C66_shared_draws.

(** Without a standard deviation nothing random is added. *)
Theorem C66_add_fixed : forall z st prop ig per_pair no_B no_A,
  add_to_prop_random z st prop ig 0 per_pair no_B no_A = add_to_prop st prop ig no_B no_A.
Proof. exact add_random_zero. Qed.
Print Assumptions C66_add_fixed.

Example C66_add_case :
  with_ghosts rnd_state true (chosen rnd_state false true) = [1; 3; 5]%nat
  /\ numeric rnd_state (chosen rnd_state false true) "polang"
  /\ draw_no false false true 1 1 = 1%nat /\ draw_no false false false 1 1 = 3%nat /\ draw_no true false false 1 1 = 1%nat.
Proof. exact rnd_add_case. Qed.
