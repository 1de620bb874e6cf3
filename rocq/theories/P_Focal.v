(** * Property theorems: focal planes, beams and ghosts (C18-C21, C50-C52, C58-C60, C67)

    A state is a heap of beams, the pairs on the focal plane and the reported
    number of detectors.  [history ok empty_inst os st]: the operations [os]
    (making beams, adding, removing, creating, loading, ghosts, assignments,
    killing) run from an empty instrument without exception, each satisfying
    [ok], and end in [st].  [present st] are the beams on the focal plane
    (S_Focal.v). *)
From Coq Require Import Reals String Lra Sorting.Permutation Sorting.Sorted.
From Verif Require Import Common LibList M_Beam M_Focal S_Focal L_Beam L_Ghost L_Focal L_FocalInv L_FocalOps
  L_FocalLoad L_FocalRef L_FocalThm.
Open Scope string_scope.

(** C18: the count.  Histories in which removal is asked for beams (not for
    empty slots) and arrays describing detectors have the same length. *)
Theorem C18_count_is_number_of_beams_partial : forall os st,
  history (fun _ o => well_counted o) empty_inst os st ->
  ndet st = Z.of_nat (List.length (present st)).
Proof. exact count_from_empty. Qed.
Print Assumptions C18_count_is_number_of_beams_partial.

(** Removal changes no beam, keeps the others in order and keeps full pairs
    together. *)
Theorem C18_removal_leaves_others : forall st a st', step st (Remove a) = Ok st' ->
  objs st' = objs st
  /\ present st' = filter (fun r => negb (existsb (Nat.eqb r) (arg_refs a))) (present st)
  /\ forall r s, In (Some r, Some s) (fp st') <->
       In (Some r, Some s) (fp st) /\ ~ In r (arg_refs a) /\ ~ In s (arg_refs a).
Proof.
  exact (fun st a st' H => conj (proj1 (remove_present st a st' H)) (conj (proj2 (remove_present st a st' H))
    (fun r s => remove_pairs st a st' r s H))).
Qed.
Print Assumptions C18_removal_leaves_others.

(** Removing a pair with an empty slot counts every empty slot as a detector. *)
Theorem C18_count_refuted : exists os st, history (fun _ _ => True) empty_inst os st
  /\ List.length (present st) = 1%nat /\ ndet st = (-1)%Z.
Proof. exact (ex_intro _ _ over_removal_count). Qed.
Print Assumptions C18_count_refuted.

Example C18_nonvacuous : history (fun _ o => well_counted o) empty_inst example_history example_state
  /\ List.length (present example_state) = 7%nat /\ ndet example_state = 7%Z.
Proof.
  split; [apply check_history; [exact sane_removes|exact example_checks]|].
  split; [exact example_present|vm_compute; reflexivity].
Qed.

(** C19: the indices.  Histories that do not use the defective import
    ([input_focal_plane]) nor files naming the same dictionary twice, and in
    which beams are added once. *)
Theorem C19_indices_differ_partial : forall os st,
  history (fun st o => adds_once st o /\ is_input o = false /\ loads_separate o) empty_inst os st ->
  NoDup (present st)
  /\ forall r s, In r (present st) -> In s (present st) -> r <> s ->
     exists i j, idx_of st r = Some i /\ idx_of st s = Some j /\ i <> j.
Proof. exact idx_from_empty. Qed.
Print Assumptions C19_indices_differ_partial.

Theorem C19_input_refuted : exists os st,
  os = [Input [(0, 0)%R] [(0, 0)%R] [(0, 90)%R] None true []]
  /\ history (fun _ _ => True) empty_inst os st
  /\ present st = [0; 1]%nat /\ idx_of st 0 = Some 0%Z /\ idx_of st 1 = Some 0%Z.
Proof. exact input_duplicates. Qed.
Print Assumptions C19_input_refuted.

Example C19_nonvacuous :
  history (fun st o => adds_once st o /\ is_input o = false /\ loads_separate o) empty_inst
    example_history example_state
  /\ map (idx_of example_state) (present example_state) = map Some [0; 2; 3; 5; 6; 7; 8]%Z.
Proof. split; [apply check_history; [exact sane_idx|exact example_checks]|exact example_indices]. Qed.

(** C20: killing channels, when no pair has an empty slot. *)
Theorem C20_kills_exactly_the_drawn_partial : forall os st f choice,
  history (fun st o => adds_once st o /\ is_input o = false /\ loads_separate o /\ well_counted o)
    empty_inst os st ->
  (forall p, In p (fp st) -> fst p <> None /\ snd p <> None) ->
  (0 <= f <= 1)%R -> draws_distinct choice ->
  let n := List.length (present st) in
  (exists st' killed, kill_channels st f false choice = Ok st'
    /\ fp st' = fp st /\ ndet st' = ndet st
    /\ NoDup killed /\ incl killed (present st)
    /\ Z.of_nat (List.length killed) = Int_part (INR n * f)
    /\ (forall r, ((exists t, In t killed /\ (r = t \/ In r (ghosts_of (objs st) t))) ->
                   getattr (objs st') r "dead" = Some (VBool true))
               /\ (~ (exists t, In t killed /\ (r = t \/ In r (ghosts_of (objs st) t))) ->
                   getattr (objs st') r "dead" = getattr (objs st) r "dead"))
    /\ forall r k, k <> "dead" -> getattr (objs st') r k = getattr (objs st) r k)
  /\ (exists st' killed, kill_channels st f true choice = Ok st'
    /\ fp st' = fp st /\ ndet st' = ndet st
    /\ NoDup killed /\ incl killed (fp st)
    /\ Z.of_nat (List.length killed) = Int_part (INR (n / 2) * f)
    /\ (forall r, ((exists t, In t (refs killed) /\ (r = t \/ In r (ghosts_of (objs st) t))) ->
                   getattr (objs st') r "dead" = Some (VBool true))
               /\ (~ (exists t, In t (refs killed) /\ (r = t \/ In r (ghosts_of (objs st) t))) ->
                   getattr (objs st') r "dead" = getattr (objs st) r "dead"))
    /\ forall r k, k <> "dead" -> getattr (objs st') r k = getattr (objs st) r k).
Proof. exact kill_history. Qed.
Print Assumptions C20_kills_exactly_the_drawn_partial.

(** Detectors without a partner: the call fails. *)
Theorem C20_empty_partner_refuted : exists os st choice,
  history (fun _ _ => True) empty_inst os st
  /\ ndet st = 2%Z /\ present st = [0; 1]%nat
  /\ draws_distinct choice /\ kill_channels st 1 false choice = Err AttributeError.
Proof. exact (ex_intro _ _ kill_empty_partner). Qed.
Print Assumptions C20_empty_partner_refuted.

Example C20_nonvacuous :
  history (fun st o => adds_once st o /\ is_input o = false /\ loads_separate o /\ well_counted o)
    empty_inst grid_history grid_state
  /\ List.length (present grid_state) = 4%nat
  /\ forallb (fun p => match p with (Some _, Some _) => true | _ => false end) (fp grid_state) = true
  /\ ghosts_of (objs grid_state) 1 = [4]%nat.
Proof.
  split; [apply check_history; [|vm_compute; reflexivity]|repeat split; vm_compute; reflexivity].
  intros st o H. destruct (sane_idx _ _ H) as (A & B & C). auto using (sane_removes st o H).
Qed.

(** C21: ghosts. *)
Theorem C21_ghost_bookkeeping : forall os st, history (fun _ _ => True) empty_inst os st ->
  (forall r b, nth_error (objs st) r = Some b ->
     ghost_count b = List.length (ghosts b)
     /\ forall i g, nth_error (ghosts b) i = Some g ->
          exists gb, nth_error (objs st) g = Some gb /\ ghost gb = true /\ ghost_idx gb = Some i
                     /\ ghosts gb = [])
  /\ (forall r r' i i' g, nth_error (ghosts_of (objs st) r) i = Some g ->
        nth_error (ghosts_of (objs st) r') i' = Some g -> r = r' /\ i = i').
Proof. exact ghost_history. Qed.
Print Assumptions C21_ghost_bookkeeping.

Theorem C21_dead_flag_reaches_ghosts : forall os st r v st',
  history (fun _ _ => True) empty_inst os st ->
  step st (SetAttr r "dead" v) = Ok st' ->
  forall x k, getattr (objs st') x k
    = if ((x =? r)%nat || existsb (Nat.eqb x) (ghosts_of (objs st) r)) && (k =? "dead")
      then Some v else getattr (objs st) x k.
Proof. exact dead_history. Qed.
Print Assumptions C21_dead_flag_reaches_ghosts.

Theorem C21_ghosts_have_no_ghosts : forall st r b tag kw, nth_error (objs st) r = Some b ->
  ghost b = true -> step st (Ghost r tag kw) = Err RuntimeError.
Proof.
  exact (fun st r b tag kw Hb Hg =>
    f_equal (fun e => do h <- e; Ok (mkinst h (fp st) (ndet st))) (ghost_of_ghost (objs st) r tag kw b Hb Hg)).
Qed.
Print Assumptions C21_ghosts_have_no_ghosts.

Example C21_nonvacuous : history (fun _ _ => True) empty_inst grid_history grid_state
  /\ ghosts_of (objs grid_state) 1 = [4]%nat
  /\ okb (step grid_state (SetAttr 1 "dead" (VBool true))) = true
  /\ getattr (objs grid_state) 4 "dead" = Some (VBool false)
  /\ step grid_state (Ghost 4 None []) = Err RuntimeError.
Proof.
  split; [apply run_history; [apply get_ok|]; vm_compute; reflexivity|].
  repeat split; vm_compute; reflexivity.
Qed.

(** C50, C67: a ghost opposite to every beam; with random amplitudes the j-th
    (from 0) gets the sum of the first j + 1 random numbers. *)
Theorem C67_reflected_ghosts : forall os st tag rand rnd kw st',
  history (fun st o => adds_once st o /\ is_input o = false /\ loads_separate o) empty_inst os st ->
  NoDup (map fst kw) -> create_reflected_ghosts st tag rand rnd kw = Ok st' ->
  fp st' = fp st /\ ndet st' = ndet st /\
  forall j r az el, nth_error (present st) j = Some r ->
  getattr (objs st) r "az" = Some (VNum az) -> getattr (objs st) r "el" = Some (VNum el) ->
  exists g, ghosts_of (objs st') r = (ghosts_of (objs st) r ++ [g])%list
  /\ getattr (objs st') g "az" = Some (VNum (- az))
  /\ getattr (objs st') g "el" = Some (VNum (- el))
  /\ (rand = true -> forall a0, vnum (dget kw "amplitude") 1%R = Ok a0 ->
        getattr (objs st') g "amplitude" = Some (VNum (a0 + prefix_sum rnd (S j))))
  /\ forall k d, In (k, d) options -> plain k = true -> k <> "name" -> k <> "az" -> k <> "el" ->
       (rand = true -> k <> "amplitude") ->
       getattr (objs st') g k
       = match dget kw k with
         | Some v => Some v
         | None => if existsb (fun k' => k' =? k) taken_over then getattr (objs st) r k else Some d
         end.
Proof. exact reflected_history. Qed.
Print Assumptions C67_reflected_ghosts.

(** Only the first ghost has the requested amplitude plus its own number. *)
Theorem C50_first_amplitude_partial : forall os st tag rnd kw st' a0 x,
  history (fun st o => adds_once st o /\ is_input o = false /\ loads_separate o) empty_inst os st ->
  NoDup (map fst kw) -> create_reflected_ghosts st tag true (x :: rnd) kw = Ok st' ->
  dget kw "amplitude" = Some (VNum a0) ->
  forall r az el, nth_error (present st) 0 = Some r ->
  getattr (objs st) r "az" = Some (VNum az) -> getattr (objs st) r "el" = Some (VNum el) ->
  exists g, ghosts_of (objs st') r = (ghosts_of (objs st) r ++ [g])%list
    /\ getattr (objs st') g "amplitude" = Some (VNum (a0 + x)).
Proof. exact first_amplitude. Qed.
Print Assumptions C50_first_amplitude_partial.

Theorem C50_amplitudes_refuted : exists os st g0 g1,
  os = [NewBeam []; NewBeam []; Add (Many [0; 1]%nat) true;
        Reflect "g" true [1; 1]%R [("amplitude", VNum 5)]]
  /\ history (fun _ _ => True) empty_inst os st
  /\ ghosts_of (objs st) 0 = [g0] /\ ghosts_of (objs st) 1 = [g1]
  /\ getattr (objs st) g0 "amplitude" = Some (VNum (5 + 1))
  /\ getattr (objs st) g1 "amplitude" = Some (VNum (5 + 1 + 1)).
Proof.
  exact (match ghost_walk with ex_intro _ st (ex_intro _ g0 (ex_intro _ g1 H)) =>
    ex_intro _ walk (ex_intro _ st (ex_intro _ g0 (ex_intro _ g1 (conj eq_refl H)))) end).
Qed.
Print Assumptions C50_amplitudes_refuted.

Example C67_nonvacuous :
  okb (create_reflected_ghosts example_state "x" true [1; 2; 3; 4; 5; 6; 7]%R []) = true
  /\ getattr (objs example_state) 0 "az" = Some (VNum (linspace (- 10 / 2) (10 / 2) 2 0)).
Proof. split; vm_compute; reflexivity. Qed.

(** C51: loading. *)
Theorem C51_loaded_beams : forall st d tag names np c pA pB kw st',
  step st (Load d tag names np c pA pB kw) = Ok st' -> NoDup (map fst kw) ->
  (forall x, ~ In (Shared x) (map snd d)) ->
  let kw' := filter (fun kv => negb ((fst kv =? "pol") || (fst kv =? "ghost") || (fst kv =? "idx"))) kw in
  exists i keep sorted fs new,
    first_index st c i
    /\ fp st' = ((if c then fp st else []) ++ new)%list
    /\ (forall n, keep n = true <-> has_tag tag n)
    /\ Permutation sorted (filter keep (match names with [] => map fst d | _ => names end))
    /\ Sorted name_le sorted
    /\ map (lookup_file d) sorted = map Some fs
    /\ List.length new = List.length fs
    /\ forall k f, nth_error fs k = Some f ->
       exists ra rb a b, nth_error new k = Some (Some ra, Some rb)
         /\ nth_error (objs st') ra = Some a /\ nth_error (objs st') rb = Some b
         /\ loaded_as (entry f false) kw' false np pA (i + 2 * Z.of_nat k) a
         /\ loaded_as (entry f true) kw' true np pB (i + 2 * Z.of_nat k + 1) b.
Proof. exact load_words. Qed.
Print Assumptions C51_loaded_beams.

Theorem C51_malformed_rejected : forall st d tag names np c pA pB kw n l,
  In n (match names with [] => map fst d | _ => names end) -> has_tag tag n ->
  lookup_file d n = Some (Sequence l) -> List.length l <> 2%nat ->
  forall st', step st (Load d tag names np c pA pB kw) <> Ok st'.
Proof.
  exact (fun st d tag names np c pA pB kw n l Hn Ht =>
    load_malformed st d tag names np c pA pB kw n l Hn (proj2 (contains_tag tag n) Ht)).
Qed.
Print Assumptions C51_malformed_rejected.

(** A sequence holding the same dictionary object twice: both beams get the
    second index and the second angle. *)
Theorem C51_shared_dictionary_refuted : exists st,
  history (fun _ _ => True) empty_inst [Load [("a", Shared [])] "" [] false true 0 90 []] st
  /\ present st = [0; 1]%nat /\ idx_of st 0 = Some 1%Z /\ idx_of st 1 = Some 1%Z
  /\ getattr (objs st) 0 "polang" = Some (VNum (0 + 90))
  /\ getattr (objs st) 1 "polang" = Some (VNum (0 + 90)).
Proof. exact shared_duplicates. Qed.
Print Assumptions C51_shared_dictionary_refuted.

(** Asked for single detectors instead of pairs, both are dead. *)
Theorem C51_shared_dead_refuted : forall np, exists st,
  history (fun _ _ => True) empty_inst [Load [("a", Shared [])] "" [] np true 0 90 []] st
  /\ getattr (objs st) 0 "dead" = Some (VBool np) /\ getattr (objs st) 1 "dead" = Some (VBool np).
Proof. exact shared_dead. Qed.
Print Assumptions C51_shared_dead_refuted.

Example C51_nonvacuous :
  okb (step empty_inst (Load [("b", Single [("az", VNum 1)]); ("a", Sequence [[]; []])] "" [] true true 0 90
         [("el", VNum 2)])) = true
  /\ step empty_inst (Load [("b", Single []); ("a", Sequence [[]])] "" [] true true 0 90 []) = Err ValueError.
Proof. split; vm_compute; reflexivity. Qed.

(** C52: what a ghost takes over. *)
Theorem C52_ghost_options_partial : forall h r tag kw h',
  create_ghost h r tag kw = Ok h' -> NoDup (map fst kw) ->
  ghosts_of h' r = (ghosts_of h r ++ [List.length h])%list
  /\ (forall x k, (x < List.length h)%nat -> getattr h' x k = getattr h x k)
  /\ forall k d, In (k, d) options -> plain k = true -> k <> "name" ->
     getattr h' (List.length h) k
     = match dget kw k with
       | Some v => Some v
       | None => if existsb (fun k' => k' =? k) taken_over then getattr h r k else Some d
       end.
Proof. exact ghost_options. Qed.
Print Assumptions C52_ghost_options_partial.

Theorem C52_ghost_name : forall h r tag kw h',
  create_ghost h r tag kw = Ok h' -> NoDup (map fst kw) ->
  getattr h' (List.length h) "name"
  = match tag, getattr h r "name" with
    | None, n | Some "", n => n
    | Some t, Some (VStr "") | Some t, Some VNone => Some (VStr t)
    | Some t, Some (VStr p) => Some (VStr (p ++ "_" ++ t))
    | _, n => n
    end.
Proof. exact ghost_names. Qed.
Print Assumptions C52_ghost_name.

(** Band limits and width are taken over too. *)
Theorem C52_ghost_limits : forall h r tag kw h' b l m f, create_ghost h r tag kw = Ok h' ->
  nth_error h r = Some b -> NoDup (map fst kw) ->
  attrs b "lmax" = Some (VInt l) -> (0 <= l)%Z ->
  attrs b "mmax" = Some (VInt m) -> attrs b "fwhm" = Some (VNum f) -> (0 <= f)%R ->
  dget kw "lmax" = None ->
  getattr h' (List.length h) "lmax" = Some (VInt l)
  /\ (dget kw "mmax" = None -> getattr h' (List.length h) "mmax" = Some (VInt (Z.min m l)))
  /\ (dget kw "fwhm" = None -> getattr h' (List.length h) "fwhm" = Some (VNum f)).
Proof. exact ghost_limits. Qed.
Print Assumptions C52_ghost_limits.

(** Not taken over: the frequency, the symmetry flag and the HWP. *)
Theorem C52_ghost_options_refuted : exists st,
  history (fun _ _ => True) empty_inst
    [NewBeam [("sensitive_freq", VNum 90); ("symmetric", VBool true); ("hwp", VObj 7); ("hwp_mueller", VObj 8)];
     Ghost 0 None []] st
  /\ ghosts_of (objs st) 0 = [1%nat]
  /\ getattr (objs st) 0 "sensitive_freq" = Some (VNum 90)
  /\ getattr (objs st) 1 "sensitive_freq" = Some (VNum 150)
  /\ getattr (objs st) 0 "symmetric" = Some (VBool true)
  /\ getattr (objs st) 1 "symmetric" = Some (VBool false)
  /\ getattr (objs st) 0 "hwp" = Some (VObj 7) /\ getattr (objs st) 1 "hwp" = Some VNone
  /\ getattr (objs st) 0 "hwp_mueller" = Some (VObj 8) /\ getattr (objs st) 1 "hwp_mueller" = Some VNone.
Proof. exact ghost_forgets. Qed.
Print Assumptions C52_ghost_options_refuted.

Example C52_nonvacuous :
  match create_ghost (objs grid_state) 1 (Some "g") [("az", VNum 3)] with
  | Ok h => getattr h 5 "az" = Some (VNum 3) /\ getattr h 5 "polang" = Some (VNum (0 + 90))
            /\ getattr h 5 "name" = Some (VStr "r000c000B_g")
  | Err _ => False
  end.
Proof. vm_compute. auto. Qed.

(** C58: the grid. *)
Theorem C58_complete_grid : forall st nrow ncol fov np ab c kw st',
  step st (Create nrow ncol fov np ab c kw) = Ok st' -> NoDup (map fst kw) ->
  exists new polang dead,
    fp st' = ((if c then fp st else []) ++ new)%list
    /\ List.length new = (nrow * ncol)%nat
    /\ vnum (dget kw "polang") 0%R = Ok polang /\ vbool (dget kw "dead") false = Ok dead
    /\ forall azi eli, (azi < ncol)%nat -> (eli < nrow)%nat ->
       exists ra rb, nth_error new (azi * nrow + eli) = Some (Some ra, Some rb)
       /\ (List.length (objs st) <= ra)%nat /\ rb = S ra
       /\ getattr (objs st') ra "name" = Some (VStr (cell_name azi eli "A"))
       /\ getattr (objs st') rb "name" = Some (VStr (cell_name azi eli "B"))
       /\ (forall r, r = ra \/ r = rb ->
             getattr (objs st') r "az" = Some (VNum (grid_offset fov ncol azi))
             /\ getattr (objs st') r "el" = Some (VNum (grid_offset fov nrow eli)))
       /\ getattr (objs st') ra "polang" = Some (VNum polang)
       /\ getattr (objs st') rb "polang" = Some (VNum (polang + ab))
       /\ getattr (objs st') ra "pol" = Some (VStr "A")
       /\ getattr (objs st') rb "pol" = Some (VStr "B")
       /\ getattr (objs st') ra "dead" = Some (VBool dead)
       /\ getattr (objs st') rb "dead" = Some (VBool (dead || np)).
Proof. exact create_grid_words. Qed.
Print Assumptions C58_complete_grid.

Theorem C58_names_unique : forall st nrow ncol fov np ab c kw st',
  step st (Create nrow ncol fov np ab c kw) = Ok st' -> NoDup (map fst kw) ->
  exists new, fp st' = ((if c then fp st else []) ++ new)%list
    /\ NoDup (map (fun r => getattr (objs st') r "name") (refs new)).
Proof. exact create_names. Qed.
Print Assumptions C58_names_unique.

(** With at least two positions the offsets span the field of view
    symmetrically. *)
Theorem C58_symmetric_partial : forall f n k, (2 <= n)%nat -> (k < n)%nat ->
  grid_offset f n (n - 1 - k) = (- grid_offset f n k)%R
  /\ grid_offset f n 0 = (- f / 2)%R /\ grid_offset f n (n - 1) = (f / 2)%R.
Proof. exact offset_symmetric. Qed.
Print Assumptions C58_symmetric_partial.

(** A single row or column sits at the edge, not in the centre. *)
Theorem C58_single_position_refuted : exists st,
  history (fun _ _ => True) empty_inst [Create 1 1 10 false 90 true []] st
  /\ present st = [0; 1]%nat
  /\ forall r, In r (present st) -> getattr (objs st) r "az" = Some (VNum (- 10 / 2))
                                    /\ getattr (objs st) r "el" = Some (VNum (- 10 / 2)).
Proof. exact one_column. Qed.
Print Assumptions C58_single_position_refuted.

Example C58_nonvacuous :
  okb (step example_state (Create 3 2 10 true 90 true [("polang", VNum 5)])) = true
  /\ cell_name 0 12 "A" = "r012c000A".
Proof. split; vm_compute; reflexivity. Qed.

(** C59: setting properties. *)
Theorem C59_set_global_prop : forall os st prop ig nb na st',
  history (fun _ _ => True) empty_inst os st ->
  plain_prop prop -> NoDup (map fst prop) -> set_global_prop st prop ig nb na = Ok st' ->
  fp st' = fp st /\ ndet st' = ndet st
  /\ forall r k, getattr (objs st') r k
     = match dget prop k with
       | Some v =>
           if existsb (fun b => (Nat.eqb r b || (existsb (Nat.eqb r) (ghosts_of (objs st) b)
                                                 && (ig || (k =? "dead"))))%bool) (chosen st nb na)
           then Some v else getattr (objs st) r k
       | None => getattr (objs st) r k
       end.
Proof. exact set_history. Qed.
Print Assumptions C59_set_global_prop.

(** Adding to a property of the main beams. *)
Theorem C59_add_to_prop_partial : forall st key x nb na st',
  add_to_prop st [(key, x)] false nb na = Ok st' ->
  plain key = true -> key <> "dead" -> NoDup (chosen st nb na) ->
  (forall r, In r (chosen st nb na) -> exists v, getattr (objs st) r key = Some (VNum v)) ->
  fp st' = fp st /\ ndet st' = ndet st
  /\ forall r k, getattr (objs st') r k
     = if (existsb (Nat.eqb r) (chosen st nb na) && (k =? key))%bool
       then match getattr (objs st) r key with Some (VNum v) => Some (VNum (v + x)) | o => o end
       else getattr (objs st) r k.
Proof. exact add_to_prop_spec. Qed.
Print Assumptions C59_add_to_prop_partial.

(** Ghosts get the increment itself as their value. *)
Theorem C59_add_to_ghosts_refuted : exists os st st' g,
  history (fun _ _ => True) empty_inst os st
  /\ add_to_prop st [("polang", 3%R)] true false false = Ok st'
  /\ ghosts_of (objs st) 0 = [g] /\ getattr (objs st) g "polang" = Some (VNum 10)
  /\ getattr (objs st') g "polang" = Some (VNum 3).
Proof. exact (ex_intro _ _ add_ghosts). Qed.
Print Assumptions C59_add_to_ghosts_refuted.

Example C59_nonvacuous :
  plain "polang" = true /\ plain "dead" = true
  /\ chosen grid_state false true = [1; 3]%nat /\ chosen grid_state true false = [0; 2]%nat
  /\ okb (set_global_prop grid_state [("btype", VStr "PO"); ("dead", VBool true)] true false false) = true
  /\ okb (add_to_prop grid_state [("polang", 3%R)] false false true) = true.
Proof. repeat split; vm_compute; reflexivity. Qed.

(** C60: band limits and widths stay valid. *)
Theorem C60_limits_valid : forall os st, history (fun _ _ => True) empty_inst os st ->
  forall r b, nth_error (objs st) r = Some b ->
  exists l m f, attrs b "lmax" = Some (VInt l) /\ attrs b "mmax" = Some (VInt m)
    /\ attrs b "fwhm" = Some (VNum f) /\ (0 <= l)%Z /\ (0 <= f)%R.
Proof. exact history_valid. Qed.
Print Assumptions C60_limits_valid.

(** mmax <= lmax as long as lmax is not reassigned. *)
Theorem C60_mmax_below_lmax_partial : forall os st,
  history (fun _ o => ~ In "lmax" (assigned o)) empty_inst os st ->
  forall r b, nth_error (objs st) r = Some b ->
  exists l m, attrs b "lmax" = Some (VInt l) /\ attrs b "mmax" = Some (VInt m) /\ (m <= l)%Z.
Proof. exact history_mmax. Qed.
Print Assumptions C60_mmax_below_lmax_partial.

Theorem C60_lowered_lmax_refuted : exists st,
  history (fun _ _ => True) empty_inst [NewBeam []; SetAttr 0 "lmax" (VInt 10)] st
  /\ getattr (objs st) 0 "lmax" = Some (VInt 10) /\ getattr (objs st) 0 "mmax" = Some (VInt 700).
Proof. exact lower_lmax. Qed.
Print Assumptions C60_lowered_lmax_refuted.

Example C60_nonvacuous :
  history (fun _ o => ~ In "lmax" (assigned o)) empty_inst
    [NewBeam [("lmax", VInt 5)]; SetAttr 0 "mmax" (VInt 9)]
    (get (run empty_inst [NewBeam [("lmax", VInt 5)]; SetAttr 0 "mmax" (VInt 9)]))
  /\ getattr (objs (get (run empty_inst [NewBeam [("lmax", VInt 5)]; SetAttr 0 "mmax" (VInt 9)]))) 0 "mmax"
     = Some (VInt 5).
Proof.
  split; [|vm_compute; reflexivity].
  apply (history_all (fun o => ~ In "lmax" (assigned o))).
  - apply run_history; [apply get_ok|]; vm_compute; reflexivity.
  - intros o [<-|[<-|[]]]; cbn; [tauto|]. intros [E|[]]. discriminate E.
Qed.
