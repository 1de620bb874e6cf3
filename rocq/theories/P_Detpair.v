(** * Properties of the initialisation of detector pairs: C49 *)
From Verif Require Import Common M_Detpair S_Detpair L_Detpair.

(** C49: ghosts made by [create_ghost] and then told to share beams among each
    other in any way: if the indices in use have no gap, initialising succeeds,
    and main beam and every ghost of the A detector find the maps of their own
    beam (which is the shared one for those told to share). *)
Theorem C49_found_partial : forall B (a : det B) (b : option (det B)) gs l ground,
  numbered gs -> reuses gs l = Some (d_ghosts a) ->
  beams_available a b -> no_gap (d_ghosts a) ->
  exists maps p, init_detpair (Some a) b ground = Ok (maps, p)
  /\ (exists x, main_beam a x /\ find_maps (Some maps) None false = Ok x)
  /\ forall g, In g (d_ghosts a) ->
       exists x, ghost_beam g x /\ find_maps (Some maps) (Some (gh_idx g)) false = Ok x.
Proof.
  exact (fun B a b gs l ground Hn Hr Hav Hg =>
           consistent_found a b ground Hav Hg (reuses_consistent l gs _ (numbered_consistent gs Hn) Hr)).
Qed.
Print Assumptions C49_found_partial.

Example C49_found_case :
  let a := td 1 [tg false 0 10; tg false 1 11; mkgh true 1 (Some 11) (Ok 12)] 7 in
  numbered [tg false 0 10; tg false 1 11; tg true 2 12]
  /\ reuses [tg false 0 10; tg false 1 11; tg true 2 12] [(2, 1)] = Some (d_ghosts a)
  /\ beams_available a None /\ no_gap (d_ghosts a)
  /\ exists p, init_detpair (Some a) None false = Ok (mkmaps 7 [Some 10; Some 11] None, p).
Proof.
  cbn zeta. split; [|split; [reflexivity|split; [|split]]].
  - intros [|[|[|k]]] g H; cbn in H; try (injection H as <-; reflexivity). destruct k; discriminate.
  - split; [exists 7; right; auto|]. split; [|intros d g H; discriminate].
    intros g [<-|[<-|[<-|[]]]]; eexists; [right; cbn; auto|right; cbn; auto|left; reflexivity].
  - intros g j Hg Hj. assert (j = 0 \/ j = 1) as [->| ->].
    { destruct Hg as [<-|[<-|[<-|[]]]]; cbn in Hj; lia. }
    + exists (tg false 0 10). cbn. auto.
    + exists (tg false 1 11). cbn. auto.
  - eexists. reflexivity.
Qed.

(** As they come from [create_ghost], every ghost gets its own. *)
Theorem C49_numbered : forall B (a : det B) (b : option (det B)) ground,
  numbered (d_ghosts a) -> beams_available a b ->
  exists maps p, init_detpair (Some a) b ground = Ok (maps, p)
  /\ (exists x, main_beam a x /\ find_maps (Some maps) None false = Ok x)
  /\ forall g, In g (d_ghosts a) ->
       exists x, ghost_beam g x /\ find_maps (Some maps) (Some (gh_idx g)) false = Ok x.
Proof.
  exact (fun B a b ground Hn Hav =>
           consistent_found a b ground Hav (numbered_no_gap _ Hn) (numbered_consistent _ Hn)).
Qed.
Print Assumptions C49_numbered.

(** Without any assumption on who shares what: a lookup gives the beam of the
    first ghost of A with that index, and fails for an index A does not use,
    whoever asks (ghosts of B included). *)
Theorem C49_lookup : forall B (a : det B) (b : option (det B)) ground,
  beams_available a b -> no_gap (d_ghosts a) ->
  exists maps p, init_detpair (Some a) b ground = Ok (maps, p)
  /\ (forall i, (exists g, In g (d_ghosts a) /\ gh_idx g = i) ->
        exists o x, first_of_index (d_ghosts a) i o /\ ghost_beam o x
                    /\ find_maps (Some maps) (Some i) false = Ok x)
  /\ (forall i, (forall g, In g (d_ghosts a) -> gh_idx g <> i) ->
        find_maps (Some maps) (Some i) false = Err IndexError).
Proof. exact @lookup_any. Qed.
Print Assumptions C49_lookup.

(** So ghosts of B are served if A has a ghost with the same index and beam. *)
Theorem C49_partner_partial : forall B (a d : det B) ground,
  beams_available a (Some d) -> no_gap (d_ghosts a) -> consistent (d_ghosts a) ->
  (forall g, In g (d_ghosts d) ->
     exists g', In g' (d_ghosts a) /\ gh_idx g' = gh_idx g
                /\ forall x, ghost_beam g' x -> ghost_beam g x) ->
  exists maps p, init_detpair (Some a) (Some d) ground = Ok (maps, p)
  /\ forall g, In g (d_ghosts d) ->
       exists x, ghost_beam g x /\ find_maps (Some maps) (Some (gh_idx g)) false = Ok x.
Proof. exact @partner_found. Qed.
Print Assumptions C49_partner_partial.

Example C49_partner_case :
  exists p, init_detpair (Some (td 1 [tg false 0 10; tg false 1 11] 7))
                         (Some (td 2 [tg false 0 10; tg false 1 11] 8)) false
            = Ok (mkmaps 7 [Some 10; Some 11] None, p).
Proof. eexists. reflexivity. Qed.

(** The ground template is observed through one beam: the main beam of A when
    it has no ghosts, and otherwise that of a ghost (not the main beam). *)
Theorem C49_ground_refuted :
  (forall B (a : det B) (b : option (det B)), beams_available a b -> no_gap (d_ghosts a) ->
     exists maps p, init_detpair (Some a) b true = Ok (maps, p)
     /\ (d_ghosts a = [] -> exists x, main_beam a x /\ find_maps (Some maps) None true = Ok x)
     /\ (d_ghosts a <> [] -> exists g x, In g (d_ghosts a) /\ ghost_beam g x
                                         /\ find_maps (Some maps) None true = Ok x))
  /\ exists (a : det nat) maps p, main_beam a 7 /\ numbered (d_ghosts a)
     /\ init_detpair (Some a) None true = Ok (maps, p)
     /\ find_maps (Some maps) None true = Ok 10.
Proof. exact ground_refuted. Qed.
Print Assumptions C49_ground_refuted.

(** A gap in the indices makes initialising fail.  Sharing makes gaps: three
    ghosts, the second told to use the beam of the first. *)
Theorem C49_gap_refuted :
  (forall B (a : det B) (b : option (det B)) ground,
     beams_available a b -> ~ no_gap (d_ghosts a) ->
     init_detpair (Some a) b ground = Err IndexError)
  /\ exists a : det nat,
       reuses [tg false 0 10; tg false 1 11; tg false 2 12] [(1, 0)] = Some (d_ghosts a)
       /\ numbered [tg false 0 10; tg false 1 11; tg false 2 12]
       /\ beams_available a None
       /\ init_detpair (Some a) None false = Err IndexError.
Proof. exact gap_refuted. Qed.
Print Assumptions C49_gap_refuted.

(** A ghost of B that A has no counterpart of finds no maps; one whose
    counterpart has another beam sees the sky through that other beam. *)
Theorem C49_partner_refuted :
  exists (a d : det nat) maps p,
    numbered (d_ghosts a) /\ numbered (d_ghosts d)
    /\ init_detpair (Some a) (Some d) false = Ok (maps, p)
    /\ exists g g', nth_error (d_ghosts d) 0 = Some g /\ nth_error (d_ghosts d) 1 = Some g'
       /\ ghost_beam g 20 /\ find_maps (Some maps) (Some (gh_idx g)) false = Ok 10
       /\ find_maps (Some maps) (Some (gh_idx g')) false = Err IndexError.
Proof. exact partner_refuted. Qed.
Print Assumptions C49_partner_refuted.

(** The A detector must be there: a pair with a B detector only cannot be
    initialised. *)
Theorem C49_absent_refuted : forall B (b : option (det B)) ground,
  init_detpair None b ground = Err AttributeError.
Proof. exact (fun B b ground => eq_refl). Qed.
Print Assumptions C49_absent_refuted.

(** Initialising forgets: coefficients that were assigned or shared are gone
    afterwards, and a second initialisation uses what the detector's own
    settings give.  Where nothing was assigned, it gives the same maps. *)
Theorem C49_again : forall B (a : det B) (b : option (det B)) ground maps a' b' maps' p',
  beams_available a b -> no_gap (d_ghosts a) ->
  (forall g, In g (d_ghosts a) -> exists x, gh_gen g = Ok x) ->
  init_detpair (Some a) b ground = Ok (maps, (Some a', b')) ->
  init_detpair (Some a') b' ground = Ok (maps', p') ->
  d_gen a = Ok (sm_main maps')
  /\ (d_blm a = None -> sm_main maps' = sm_main maps)
  /\ forall i x, find_maps (Some maps') (Some i) false = Ok x ->
       exists o, first_of_index (d_ghosts a) i o /\ gh_gen o = Ok x
                 /\ (gh_blm o = None -> find_maps (Some maps) (Some i) false = Ok x).
Proof. exact @init_again. Qed.
Print Assumptions C49_again.

Theorem C49_again_refuted :
  exists (a : det nat) maps a' b' maps' p',
    main_beam a 5 /\ beams_available a None
    /\ init_detpair (Some a) None false = Ok (maps, (Some a', b')) /\ sm_main maps = 5
    /\ init_detpair (Some a') b' false = Ok (maps', p') /\ sm_main maps' = 7
    /\ find_maps (Some maps) (Some 0) false = Ok 5 /\ find_maps (Some maps') (Some 0) false = Ok 9.
Proof. exact again_refuted. Qed.
Print Assumptions C49_again_refuted.
