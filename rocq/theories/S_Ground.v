(** * Specification: the ground and the sky are seen where the telescope points *)
From Coq Require Import Reals.
From Verif Require Import Common M_Chunks M_Hwp M_Scan.

(** Where the telescope was last told to point: the stretch of samples that
    was computed, and the elevation of the boresight for each of them. *)
Definition pointing : Type := option (chunk * list R).

(** [n] samples seen through [v] were seen with the boresight at the place that
    [now] has for these very samples. *)
Definition seen_at (now : pointing) (v : view) (n : nat) : Prop :=
  exists c bore, now = Some (c, bore)
    /\ (c_start c <= v_start v)%Z
    /\ v_bore v = firstn n (skipn (Z.to_nat (v_start v - c_start c)) bore).

(** In the course of a scan, every timestream of the ground ([ground] true) or of
    the sky ([ground] false), main beam or ghost, is computed with the pointing
    computed last. *)
Fixpoint looks_where_pointed (ground : bool) (now : pointing) (log : list event) : Prop :=
  match log with
  | [] => True
  | EPoint c bore :: r => looks_where_pointed ground (Some (c, bore)) r
  | EScan _ v t :: r =>
      (v_ground v = ground -> seen_at now v (length t)) /\ looks_where_pointed ground now r
  | EBin _ _ _ :: r => looks_where_pointed ground now r
  end.
