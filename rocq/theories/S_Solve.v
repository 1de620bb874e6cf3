(** * Specification vocabulary: binned maps *)
From Coq Require Import Reals.
From Verif Require Import Common M_Solve.
Open Scope R_scope.

Definition rsum {A} (f : A -> R) (l : list A) : R := fold_right Rplus 0 (map f l).

(** The samples that fall in pixel [p]. *)
Definition in_pixel (p : nat) (l : list obs) : list obs := filter (fun o => (o_pix o =? p)%nat) l.

(** Sums over the samples of a pixel. *)
Definition data_sums (l : list obs) : vec3 :=
  (rsum o_val l, rsum (fun o => o_val o * o_cos o) l, rsum (fun o => o_val o * o_sin o) l).
Definition angle_sums (l : list obs) : sym3 :=
  (INR (length l), rsum o_cos l, rsum o_sin l,
   rsum (fun o => o_cos o * o_cos o) l, rsum (fun o => o_cos o * o_sin o) l, rsum (fun o => o_sin o * o_sin o) l).

(** The timestream of a sky with Stokes parameters [sky p] in pixel [p]. *)
Definition seen_from (sky : nat -> R * R * R) (o : obs) : Prop :=
  let '(i, q, u) := sky (o_pix o) in o_val o = i + q * o_cos o + u * o_sin o.
(** Cosine and sine of an angle. *)
Definition on_circle (o : obs) : Prop := o_cos o * o_cos o + o_sin o * o_sin o = 1.
Definition same_direction (o o' : obs) : Prop := o_cos o = o_cos o' /\ o_sin o = o_sin o'.

(** Three samples of pixel [p] with three different polarisation angles. *)
Definition three_angles (p : nat) (l : list obs) : Prop :=
  exists a b c, In a l /\ In b l /\ In c l /\ o_pix a = p /\ o_pix b = p /\ o_pix c = p
    /\ ~ same_direction a b /\ ~ same_direction b c /\ ~ same_direction a c.

(** The samples a call uses: those not flagged. *)
Definition unflagged (l : list obs) (flag : list bool) : list obs :=
  map fst (filter (fun x => negb (snd x)) (combine l flag)).
Definition used (own : option (list bool)) (c : call) : list obs :=
  match c_flag c, own with
  | FFalse, _ | FNone, None => c_samples c
  | FNone, Some f => unflagged (c_samples c) (slice f (c_start c) (c_end c))
  | FArray l, _ => unflagged (c_samples c) l
  end.
Definition all_used (own : option (list bool)) (l : list call) : list obs := concat (map (used own) l).

(** The maps [g] that a rank holds after [calls], starting from [s0]. *)
Definition rank_maps (nside : nat) (r : maps * list call) (g : list pixel) : Prop :=
  exists s, bin_calls (allocate_maps nside (fst r)) (snd r) = Ok s /\ global s = Some g.
Definition ranks_used (ranks : list (maps * list call)) : list obs :=
  concat (map (fun r => all_used (own_flag (fst r)) (snd r)) ranks).
