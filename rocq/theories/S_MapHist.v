(** * Specification vocabulary: what is in the maps after a session (C102) *)
From Coq Require Import Reals.
From Verif Require Import Common M_Solve S_Solve M_MapHist.
Open Scope R_scope.

(** A call can be carried out if it has one flag per sample; an array of flags
    given to the call has at most one element (C83). *)
Definition flags_fit (own : option (list bool)) (c : call) : bool :=
  match c_flag c, own with
  | FFalse, _ | FNone, None => true
  | FNone, Some f => (length (slice f (c_start c) (c_end c)) =? length (c_samples c))%nat
  | FArray l, _ => (length l <? 2)%nat && (length l =? length (c_samples c))%nat
  end.

(** Going through the session: the flags in force, the resolution last
    allocated, and the samples added to the maps since. *)
Fixpoint account (own : option (list bool)) (cur : option (nat * list obs)) (h : list act) : option (nat * list obs) :=
  match h with
  | [] => cur
  | Allocate n :: h => account own (Some (n, [])) h
  | SetFlag f :: h => account f cur h
  | Solve :: h => account own cur h
  | Bin c add :: h =>
      account own
        (match cur with
         | Some (n, l) => Some (n, if add && flags_fit own c then l ++ used own c else l)
         | None => None
         end) h
  end.
(** Resolution and samples of the maps of a new instance after [h]. *)
Definition in_maps (h : list act) : option (nat * list obs) := account None None h.

(** The maps [g] a process holds after the session [h]. *)
Definition holds_maps (h : list act) (g : list pixel) : Prop := global (session new_instance h) = Some g.
