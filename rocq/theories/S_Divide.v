(** * Specification vocabulary: saved data and the division of the mission *)
From Coq Require Import Reals.
From Verif Require Import Common M_Chunks M_Hwp M_Detpair M_Scan S_Chunks S_Scan S_Saved.

Section S.
  Context {B : Type}.

  (** Arrays that [data] gives for the chunk have one element for each of its
      samples. *)
  Definition right_size (s : state B) (c : chunk) : Prop :=
    (forall i a, data_tod s c i = Ok a -> Z.of_nat (length a) = (c_end c - c_start c)%Z)
    /\ (forall i a, data_point s c i = Ok a -> Z.of_nat (length a) = (c_end c - c_start c)%Z)
    /\ (forall a, data_hwp s c = Ok a -> Z.of_nat (length a) = (c_end c - c_start c)%Z).

  (** There is nothing in the chunk. *)
  Definition no_data (s : state B) (c : chunk) : Prop :=
    (forall i, data_tod s c i = Err KeyError) /\ (forall i, data_point s c i = Err KeyError)
    /\ data_hwp s c = Err KeyError.

  (** Saved data and division are the same; anything else may differ. *)
  Definition same_store (s u : state B) : Prop :=
    s_chunks u = s_chunks s /\ s_data u = s_data s /\ s_point u = s_point s /\ s_hwps u = s_hwps s.

  (** Scans one after the other, each with its own arguments, and changes of
      anything but division and data in between.  (Positions cannot be saved
      together with a ground template: such a scan fails, C26.) *)
  Inductive campaign : state B -> state B -> Prop :=
  | camp_none s : campaign s s
  | camp_change s s1 u : campaign s s1 -> same_store s1 u -> campaign s u
  | camp_scan s s1 s2 E O : campaign s s1 ->
      (o_ground O = true -> o_preview O = false) -> (o_save_point O = true -> o_ground O = false) ->
      covers_mission E s1 -> rotation_ok s1 -> chunks_unmarked O s1 -> NoDup (map d_id (dets (s_beams s1))) ->
      scan_instrument E O s1 = Ok s2 -> campaign s s2.
End S.
