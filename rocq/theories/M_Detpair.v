(** * Model of the initialisation of a detector pair: which beam coefficients
      end up in which spin map

    /repo/beamconv/instrument.py [init_detpair], [init_spinmaps],
    /repo/beamconv/detector.py [blm], [delete_blm], [reuse_blm].
    [B] is the type of beam coefficients (with the band-limit they come with);
    the harmonic transforms themselves are in [M_Spin].  A spin map is
    identified by the coefficients it is computed from.  Simplification: the
    beams of a pair are separate objects. *)
From Verif Require Import Common.

Section Detpair.
  Context {B : Type}.

  (** A ghost: [dead], [ghost_idx], the private attribute behind the [blm]
      property ([None]: not set), and what creating or loading the coefficients
      gives. *)
  Record gh := mkgh { gh_dead : bool; gh_idx : nat; gh_blm : option B; gh_gen : res B }.

  (** A detector: [idx], [dead], [ghost], [ghosts], coefficients as above. *)
  Record det := mkdet {
    d_id : Z; d_dead : bool; d_ghost : bool; d_ghosts : list gh;
    d_blm : option B; d_gen : res B }.

  (** detector.py:212-244: the [blm] property. *)
  Definition get_blm (attr : option B) (gen : res B) : res B :=
    match attr with Some b => Ok b | None => gen end.

  (** detector.py:474-491 [reuse_blm] between two ghosts: index and
      coefficients. *)
  Definition share (g partner : gh) : res gh :=
    do b <- get_blm (gh_blm partner) (gh_gen partner);
    Ok (mkgh (gh_dead g) (gh_idx partner) (Some b) (gh_gen g)).

  (** instrument.py:1686-1705: [hasattr(ghost, 'blm')] evaluates the property,
      which stores what it creates.  It answers True, or lets the exception
      through; so the branches that hand out a partner's beam are never taken
      (the only exception [hasattr] swallows is an AttributeError). *)
  Definition hasattr_blm (g : gh) : res (bool * gh) :=
    match get_blm (gh_blm g) (gh_gen g) with
    | Ok b => Ok (true, mkgh (gh_dead g) (gh_idx g) (Some b) (gh_gen g))
    | Err AttributeError => Ok (false, g)
    | Err e => Err e
    end.

  (** instrument.py:1686-1694: ghosts of the A detector.  [first] is the first
      ghost of A.  Simplification: [gen_gaussian_blm] on a ghost whose property
      raised AttributeError raises the same again. *)
  Fixpoint prepare (first : option gh) (gs : list gh) : res (list gh) :=
    match gs with
    | [] => Ok []
    | g :: r =>
        do (has, g) <- hasattr_blm g;
        do g <- (if has : bool then Ok g
                 else match first with Some f => share g f | None => Err AttributeError end);
        do r <- prepare (match first with Some f => Some f | None => Some g end) r;
        Ok (g :: r)
    end.

  (** instrument.py:1695-1705: ghosts of the B detector; the partner is the
      first ghost of A ([beam_a.ghosts[0]]: IndexError when there is none). *)
  Fixpoint prepare_b (first_a : option gh) (gs : list gh) : res (list gh) :=
    match gs with
    | [] => Ok []
    | g :: r =>
        do (has, g) <- hasattr_blm g;
        do g <- (if has : bool then Ok g
                 else match first_a with Some f => share g f | None => Err IndexError end);
        do r <- prepare_b first_a r;
        Ok (g :: r)
    end.

  (** The [spinmaps] attribute: main beam, list of ghost maps ([None]: the
      placeholder appended at 3875), ground ([None]: the empty dictionary). *)
  Record spinmaps := mkmaps { sm_main : B; sm_ghosts : list (option B); sm_ground : option B }.

  (** [np.unique]: the distinct values in increasing order. *)
  Definition unique (l : list nat) : list nat :=
    filter (fun u => existsb (Nat.eqb u) l) (seq 0 (S (list_max l))).

  (** [return_index]: the first element with the given value. *)
  Definition first_with (u : nat) (gs : list gh) : option gh :=
    find (fun g => gh_idx g =? u) gs.

  Fixpoint put_nth (l : list (option B)) (i : nat) (b : B) : list (option B) :=
    match l, i with
    | [], _ => []
    | _ :: r, O => Some b :: r
    | x :: r, S i => x :: put_nth r i b
    end.

  (** instrument.py:3872-3890: the loop over distinct ghost indices; [last] is
      the variable [blm].  The item is first appended, then addressed by the
      ghost index. *)
  Fixpoint ghost_maps (us : list nat) (gs : list gh) (acc : list (option B)) (last : B)
    : res (list (option B) * B) :=
    match us with
    | [] => Ok (acc, last)
    | u :: r =>
        let acc := acc ++ [None] in
        if u <? length acc then
          match first_with u gs with
          | Some g =>
              do b <- get_blm (gh_blm g) (gh_gen g);
              ghost_maps r gs (put_nth acc u b) b
          | None => Err IndexError
          end
        else Err IndexError
    end.

  (** instrument.py:3841-3896 [init_spinmaps].  The ground map is made from
      whatever the variable [blm] holds at that point. *)
  Definition init_spinmaps (a : det) (ground : bool) : res spinmaps :=
    do main <- get_blm (d_blm a) (d_gen a);
    do (gm, last) <- ghost_maps
                       (match d_ghosts a with [] => [] | gs => unique (map gh_idx gs) end)
                       (d_ghosts a) [] main;
    Ok (mkmaps main gm (if ground then Some last else None)).

  (** detector.py:497-520 [delete_blm]. *)
  Definition delete_blm (d : det) : det :=
    mkdet (d_id d) (d_dead d) (d_ghost d)
      (map (fun g => mkgh (gh_dead g) (gh_idx g) None (gh_gen g)) (d_ghosts d)) None (d_gen d).

  Definition with_gs (d : det) (gs : list gh) : det :=
    mkdet (d_id d) (d_dead d) (d_ghost d) gs (d_blm d) (d_gen d).

  (** instrument.py:1646-1722 [init_detpair]. *)
  Definition init_detpair (a b : option det) (ground : bool)
    : res (spinmaps * (option det * option det)) :=
    match a with
    | None => Err AttributeError          (* [None.ghosts], 1686 *)
    | Some a =>
        do gs <- prepare None (d_ghosts a);
        let a := with_gs a gs in
        do b <- match b with
                | None => Ok None
                | Some b =>
                    do gs <- prepare_b (hd_error (d_ghosts a)) (d_ghosts b);
                    Ok (Some (with_gs b gs))
                end;
        do maps <- init_spinmaps a ground;
        Ok (maps, (Some (delete_blm a), option_map delete_blm b))
    end.

  (** instrument.py:3490-3498: the spin maps [scan] uses. *)
  Definition find_maps (maps : option spinmaps) (ghost : option nat) (ground : bool) : res B :=
    match maps with
    | None => Err AttributeError
    | Some m =>
        if ground then match sm_ground m with Some b => Ok b | None => Err UnboundLocalError end
        else match ghost with
             | None => Ok (sm_main m)
             | Some i =>
                 do o <- index (sm_ghosts m) i;
                 match o with Some b => Ok b | None => Err UnboundLocalError end
             end
    end.
End Detpair.
Arguments gh : clear implicits.
Arguments det : clear implicits.
Arguments spinmaps : clear implicits.
