(** * Focal planes: witnesses and examples *)
From Coq Require Import Reals String Lra.
From Verif Require Import Common LibList M_Beam M_Focal S_Focal L_Beam L_Ghost L_Focal L_FocalInv L_FocalOps
  L_FocalLoad.
Open Scope string_scope.

(** ** Running and checking histories *)
Fixpoint run (st : inst) (os : list op) : res inst :=
  match os with [] => Ok st | o :: os => do st <- step st o; run st os end.

Definition okb {A} (r : res A) : bool := match r with Ok _ => true | Err _ => false end.
Definition get (r : res inst) : inst := match r with Ok st => st | Err _ => empty_inst end.

Lemma get_ok r : okb r = true -> r = Ok (get r).
Proof. destruct r; [reflexivity|discriminate]. Qed.

Fixpoint nodupb {A} (eqb : A -> A -> bool) (l : list A) : bool :=
  match l with [] => true | x :: l => negb (existsb (eqb x) l) && nodupb eqb l end.

Lemma nodupb_spec {A} (eqb : A -> A -> bool) (refl : forall x, eqb x x = true) l :
  nodupb eqb l = true -> NoDup l.
Proof.
  induction l as [|x l IH]; cbn; intros H; constructor; apply andb_true_iff in H as [H1 H2]; auto.
  intros X. assert (existsb (eqb x) l = true) by (apply existsb_exists; eauto). rewrite H in H1. discriminate.
Qed.

Definition separate (f : beam_file) : bool := match f with Shared _ => false | _ => true end.

(** A decidable form of the conditions of [idx_history]. *)
Definition sane (st : inst) (o : op) : bool :=
  match o with
  | Add a c => nodupb Nat.eqb (arg_refs a)
               && (negb c || forallb (fun r => negb (existsb (Nat.eqb r) (present st))) (arg_refs a))
  | Input _ _ _ _ _ _ => false
  | Load d _ _ _ _ _ _ _ => forallb separate (map snd d)
  | Remove (Pairs ps) => forallb (fun p => match p with (Some _, Some _) => true | _ => false end) ps
  | _ => true
  end.

Definition kwb (o : op) : bool := nodupb String.eqb (map fst (keywords o)).

Fixpoint check (st : inst) (os : list op) : bool :=
  match os with
  | [] => true
  | o :: os => sane st o && kwb o && match step st o with Ok st => check st os | Err _ => false end
  end.

Lemma kwb_spec o : kwb o = true -> NoDup (map fst (keywords o)).
Proof. apply nodupb_spec, String.eqb_refl. Qed.

Lemma sane_idx st o : sane st o = true -> adds_once st o /\ is_input o = false /\ loads_separate o.
Proof.
  destruct o; cbn; intros H; auto; try discriminate.
  - apply andb_true_iff in H as [H1 H2]. apply nodupb_spec in H1; [|apply Nat.eqb_refl].
    repeat split; auto. intros -> r Hr X. cbn in H2. rewrite forallb_forall in H2. specialize (H2 r Hr).
    assert (existsb (Nat.eqb r) (present st) = true) by (apply existsb_exists; exists r; split; auto; apply Nat.eqb_refl).
    rewrite H in H2. discriminate.
  - repeat split. intros x Hx. rewrite forallb_forall in H. specialize (H _ Hx). discriminate.
Qed.

Lemma sane_removes st o : sane st o = true -> well_counted o.
Proof.
  destruct o; cbn; auto; [|discriminate]. destruct a; auto. intros H p Hp. rewrite forallb_forall in H. specialize (H p Hp).
  destruct p as [[a|] [b|]]; try discriminate. cbn. split; discriminate.
Qed.

Lemma check_history (ok : inst -> op -> Prop) : (forall st o, sane st o = true -> ok st o) ->
  forall os st, check st os = true -> history ok st os (get (run st os)).
Proof.
  intros K os. induction os as [|o os IH]; intros st H; cbn in H.
  - constructor.
  - apply andb_true_iff in H as [H H3]. apply andb_true_iff in H as [H1 H2].
    cbn [run]. destruct (step st o) as [st'|] eqn:E; [|discriminate]. cbn [bind].
    econstructor; eauto. now apply kwb_spec.
Qed.

(** ** Witnesses *)

(** Two beams on their own; the first is removed together with its empty
    partner slot. *)
Definition over_removal : list op :=
  [NewBeam []; NewBeam []; Add (One 0) true; Add (One 1) true; Remove (Pairs [(Some 0%nat, None)])].

(** Running without exceptions, with different keywords. *)
Lemma run_history os : forall st st', run st os = Ok st' -> forallb kwb os = true ->
  history (fun _ _ => True) st os st'.
Proof.
  induction os as [|o os IH]; intros st st' H K; cbn in H.
  - inversion H; constructor.
  - cbn in K. apply andb_true_iff in K as [K1 K2].
    apply bind_ok in H as (s & H1 & H). econstructor; eauto. now apply kwb_spec.
Qed.

Lemma over_removal_count : exists st, history (fun _ _ => True) empty_inst over_removal st
  /\ List.length (present st) = 1%nat /\ ndet st = (-1)%Z.
Proof.
  exists (get (run empty_inst over_removal)). split; [|split; vm_compute; reflexivity].
  apply run_history; [apply get_ok|]; vm_compute; reflexivity.
Qed.

Lemma input_duplicates : exists os st, os = [Input [(0, 0)%R] [(0, 0)%R] [(0, 90)%R] None true []]
  /\ history (fun _ _ => True) empty_inst os st
  /\ present st = [0; 1]%nat /\ idx_of st 0 = Some 0%Z /\ idx_of st 1 = Some 0%Z.
Proof.
  eexists. exists (get (run empty_inst [Input [(0, 0)%R] [(0, 0)%R] [(0, 90)%R] None true []])).
  split; [reflexivity|]. split; [|repeat split; vm_compute; reflexivity].
  apply run_history; [apply get_ok|]; vm_compute; reflexivity.
Qed.

Lemma shared_dead np : exists st,
  history (fun _ _ => True) empty_inst [Load [("a", Shared [])] "" [] np true 0 90 []] st
  /\ getattr (objs st) 0 "dead" = Some (VBool np) /\ getattr (objs st) 1 "dead" = Some (VBool np).
Proof.
  exists (get (run empty_inst [Load [("a", Shared [])] "" [] np true 0 90 []])).
  destruct np; (split; [|split; vm_compute; reflexivity]); (apply run_history; [apply get_ok|]; vm_compute; reflexivity).
Qed.

Definition shared_file : list op := [Load [("a", Shared [])] "" [] false true 0 90 []].

Lemma shared_duplicates : exists st, history (fun _ _ => True) empty_inst shared_file st
  /\ present st = [0; 1]%nat /\ idx_of st 0 = Some 1%Z /\ idx_of st 1 = Some 1%Z
  /\ getattr (objs st) 0 "polang" = Some (VNum (0 + 90))
  /\ getattr (objs st) 1 "polang" = Some (VNum (0 + 90)).
Proof.
  exists (get (run empty_inst shared_file)). split; [|repeat split; vm_compute; reflexivity].
  apply run_history; [apply get_ok|]; vm_compute; reflexivity.
Qed.

(** Killing all channels when partners are missing. *)
Lemma kill_all_two st : ndet st = 2%Z ->
  kill_channels st 1 false (fun n m => seq 0 m)
  = do h <- fold_left (fun h k => do h <- h; kill_one (fp st) false h k) [0; 1]%nat (Ok (objs st));
    Ok (mkinst h (fp st) (ndet st)).
Proof.
  intros E. unfold kill_channels. rewrite E. cbv zeta.
  replace (Int_part (IZR 2 * 1)) with 2%Z; [reflexivity|].
  rewrite Rmult_1_r. unfold Int_part. rewrite <- (tech_up 2 3) by lra. reflexivity.
Qed.

Definition two_singles : list op := [NewBeam []; NewBeam []; Add (Many [0; 1]%nat) true].

Lemma kill_empty_partner : exists st choice,
  history (fun _ _ => True) empty_inst two_singles st
  /\ ndet st = 2%Z /\ present st = [0; 1]%nat
  /\ draws_distinct choice /\ kill_channels st 1 false choice = Err AttributeError.
Proof.
  exists (get (run empty_inst two_singles)), (fun n m => seq 0 m).
  split; [apply run_history; [apply get_ok|]; vm_compute; reflexivity|].
  split; [vm_compute; reflexivity|]. split; [vm_compute; reflexivity|]. split.
  - intros n m H. rewrite seq_length. split; auto. split; [apply seq_NoDup|]. intros k Hk. apply in_seq in Hk. lia.
  - rewrite kill_all_two by (vm_compute; reflexivity). vm_compute. reflexivity.
Qed.

(** A one-column plane. *)
Definition one_by_one : list op := [Create 1 1 10 false 90 true []].

Lemma one_column : exists st, history (fun _ _ => True) empty_inst one_by_one st
  /\ present st = [0; 1]%nat
  /\ forall r, In r (present st) -> getattr (objs st) r "az" = Some (VNum (- 10 / 2))
                                    /\ getattr (objs st) r "el" = Some (VNum (- 10 / 2)).
Proof.
  exists (get (run empty_inst one_by_one)).
  split; [apply run_history; [apply get_ok|]; vm_compute; reflexivity|].
  assert (E : present (get (run empty_inst one_by_one)) = [0; 1]%nat) by (vm_compute; reflexivity).
  split; [exact E|]. rewrite E. intros r [<-|[<-|[]]]; split; vm_compute; reflexivity.
Qed.

(** Random amplitudes accumulate. *)
Definition walk : list op := (two_singles ++ [Reflect "g" true [1; 1]%R [("amplitude", VNum 5)]])%list.

Lemma ghost_walk : exists st g0 g1, history (fun _ _ => True) empty_inst walk st
  /\ ghosts_of (objs st) 0 = [g0] /\ ghosts_of (objs st) 1 = [g1]
  /\ getattr (objs st) g0 "amplitude" = Some (VNum (5 + 1))
  /\ getattr (objs st) g1 "amplitude" = Some (VNum (5 + 1 + 1)).
Proof.
  exists (get (run empty_inst walk)), 2%nat, 3%nat.
  split; [apply run_history; [apply get_ok|]; vm_compute; reflexivity|].
  repeat split; vm_compute; reflexivity.
Qed.

(** Adding to a property gives the ghosts the value itself. *)
Definition with_ghost : list op := [NewBeam []; Add (One 0) true; Ghost 0 None [("polang", VNum 10)]].

Lemma add_ghosts : exists st st' g, history (fun _ _ => True) empty_inst with_ghost st
  /\ add_to_prop st [("polang", 3%R)] true false false = Ok st'
  /\ ghosts_of (objs st) 0 = [g] /\ getattr (objs st) g "polang" = Some (VNum 10)
  /\ getattr (objs st') g "polang" = Some (VNum 3).
Proof.
  exists (get (run empty_inst with_ghost)),
    (get (add_to_prop (get (run empty_inst with_ghost)) [("polang", 3%R)] true false false)), 1%nat.
  split; [apply run_history; [apply get_ok|]; vm_compute; reflexivity|].
  split; [apply get_ok; vm_compute; reflexivity|]. repeat split; vm_compute; reflexivity.
Qed.

(** Options a ghost does not take over. *)
Definition special : list op :=
  [NewBeam [("sensitive_freq", VNum 90); ("symmetric", VBool true); ("hwp", VObj 7); ("hwp_mueller", VObj 8)];
   Ghost 0 None []].

Lemma ghost_forgets : exists st, history (fun _ _ => True) empty_inst special st
  /\ ghosts_of (objs st) 0 = [1%nat]
  /\ getattr (objs st) 0 "sensitive_freq" = Some (VNum 90)
  /\ getattr (objs st) 1 "sensitive_freq" = Some (VNum 150)
  /\ getattr (objs st) 0 "symmetric" = Some (VBool true)
  /\ getattr (objs st) 1 "symmetric" = Some (VBool false)
  /\ getattr (objs st) 0 "hwp" = Some (VObj 7) /\ getattr (objs st) 1 "hwp" = Some VNone
  /\ getattr (objs st) 0 "hwp_mueller" = Some (VObj 8) /\ getattr (objs st) 1 "hwp_mueller" = Some VNone.
Proof.
  exists (get (run empty_inst special)).
  split; [apply run_history; [apply get_ok|]; vm_compute; reflexivity|].
  repeat split; vm_compute; reflexivity.
Qed.

Definition lowered : list op := [NewBeam []; SetAttr 0 "lmax" (VInt 10)].

Lemma lower_lmax : exists st, history (fun _ _ => True) empty_inst lowered st
  /\ getattr (objs st) 0 "lmax" = Some (VInt 10) /\ getattr (objs st) 0 "mmax" = Some (VInt 700).
Proof.
  exists (get (run empty_inst lowered)).
  split; [apply run_history; [apply get_ok|]; vm_compute; reflexivity|].
  split; vm_compute; reflexivity.
Qed.

(** ** A history *)
Definition example_history : list op :=
  [Create 1 2 10 false 90 true []; NewBeam [("name", VStr "x")]; Add (One 4) true;
   Load [("b", Single []); ("a", Sequence [[("name", VStr "p")]; []])] "" [] true true 0 90 [];
   Ghost 4 (Some "g") []; Remove (Many [1; 4]%nat); Reflect "r" false [] [("amplitude", VNum 2)]].

Lemma example_checks : check empty_inst example_history = true.
Proof. vm_compute. reflexivity. Qed.

Definition example_state : inst := get (run empty_inst example_history).

Lemma example_present : List.length (present example_state) = 7%nat.
Proof. vm_compute. reflexivity. Qed.

Lemma example_indices : map (idx_of example_state) (present example_state) = map Some [0; 2; 3; 5; 6; 7; 8]%Z.
Proof. vm_compute. reflexivity. Qed.

Definition grid_history : list op :=
  [Create 1 2 10 false 90 true []; Ghost 1 (Some "g") [("el", VNum 2)]].
Definition grid_state : inst := get (run empty_inst grid_history).
