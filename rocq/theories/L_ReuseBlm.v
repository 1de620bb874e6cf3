(** * Lemmas for C100: a beam that takes over another beam's coefficients *)
From Coq Require Import Reals String Lia.
From Verif Require Import Common M_Beam M_Focal S_Focal S_Beam L_Beam.
Open Scope string_scope.

Lemma hset_id h r b : nth_error h r = Some b -> hset h r b = h.
Proof.
  revert r; induction h as [|x h IH]; intros [|r] H; cbn in *; try discriminate.
  - injection H as ->. reflexivity.
  - now rewrite IH.
Qed.

Lemma hset_twice h r b b' : hset (hset h r b) r b' = hset h r b'.
Proof. revert r; induction h; intros [|r]; cbn; auto. now rewrite IHh. Qed.

Lemma setattr_at h r b k v : (r < List.length h)%nat -> k <> "dead" ->
  setattr (hset h r b) r k v = (do a <- set1 (attrs b) k v; Ok (hset h r (with_attrs b a))).
Proof.
  intros L D. unfold setattr. destruct (String.eqb_spec k "dead") as [->|_]; [now elim D|].
  unfold set_obj. rewrite (proj2 (index_ok _ _ b)) by now apply hset_same. cbn [bind].
  destruct (set1 (attrs b) k v); cbn [bind]; auto. now rewrite hset_twice.
Qed.

(** What [reuse_blm] computes. *)
Lemma reuse_value h r partner b p t l m x :
  nth_error h r = Some b -> nth_error h partner = Some p ->
  attrs p "btype" = Some t -> attrs p "lmax" = Some (VInt l) -> attrs p "mmax" = Some (VInt m) ->
  attrs p "amplitude" = Some x -> (0 <= l)%Z ->
  reuse_blm h r partner = Ok (hset h r
    (with_attrs (if ghost p && ghost b then with_ghost_idx b (ghost_idx p) else b)
       (aset (aset (aset (aset (attrs b) "btype" t) "lmax" (VInt l)) "mmax" (VInt (Z.min m l))) "amplitude" x))).
Proof.
  intros Hb Hp Ht Hl Hm Hx L. unfold reuse_blm.
  rewrite (proj2 (index_ok _ _ _) Hb), (proj2 (index_ok _ _ _) Hp). cbn [bind].
  assert (Lt : (r < List.length h)%nat) by (apply nth_error_Some; congruence).
  set (b0 := if ghost p && ghost b then with_ghost_idx b (ghost_idx p) else b).
  replace (if ghost p && ghost b then hset h r (with_ghost_idx b (ghost_idx p)) else h) with (hset h r b0).
  2:{ subst b0. destruct (ghost p && ghost b); auto. now apply hset_id. }
  assert (Ab : attrs b0 = attrs b) by (subst b0; destruct (ghost p && ghost b); reflexivity).
  cbn [fold_left]. unfold aget. rewrite Ht, Hl, Hm, Hx. cbn [bind].
  rewrite setattr_at by (auto; discriminate).
  change (set1 (attrs b0) "btype" t) with (Ok (aset (attrs b0) "btype" t)). cbn [bind].
  rewrite setattr_at by (auto; discriminate). cbn [with_attrs attrs].
  match goal with |- context [set1 ?a "lmax" _] => change (set1 a "lmax" (VInt l)) with (Ok (aset a "lmax" (VInt (Z.max l 0)))) end.
  cbn [bind]. rewrite setattr_at by (auto; discriminate). cbn [with_attrs attrs].
  match goal with |- context [set1 ?a "mmax" _] => change (set1 a "mmax" (VInt m)) with (Ok (aset a "mmax" (VInt (Z.min m (Z.max l 0))))) end.
  cbn [bind]. rewrite setattr_at by (auto; discriminate). cbn [with_attrs attrs].
  match goal with |- context [set1 ?a "amplitude" _] => change (set1 a "amplitude" x) with (Ok (aset a "amplitude" x)) end.
  cbn [bind with_attrs idx ghost ghosts ghost_count ghost_idx].
  rewrite Ab, Z.max_l by lia. reflexivity.
Qed.

Lemma reused h r partner b p l m :
  nth_error h r = Some b -> nth_error h partner = Some p ->
  (forall k, In k ["btype"; "amplitude"] -> attrs p k <> None) ->
  attrs p "lmax" = Some (VInt l) -> attrs p "mmax" = Some (VInt m) -> (0 <= l)%Z -> (m <= l)%Z ->
  exists h' b', reuse_blm h r partner = Ok h' /\ nth_error h' r = Some b'
    /\ (forall k, In k ["btype"; "lmax"; "mmax"; "amplitude"] -> attrs b' k = attrs p k)
    /\ (forall k, ~ In k ["btype"; "lmax"; "mmax"; "amplitude"] -> attrs b' k = attrs b k)
    /\ ghost_idx b' = (if ghost p && ghost b then ghost_idx p else ghost_idx b)
    /\ idx b' = idx b /\ ghost b' = ghost b /\ ghosts b' = ghosts b /\ ghost_count b' = ghost_count b
    /\ List.length h' = List.length h
    /\ (forall r', r' <> r -> nth_error h' r' = nth_error h r').
Proof.
  intros Hb Hp Hk Hl Hm L ML.
  destruct (attrs p "btype") as [t|] eqn:Ht; [|elim (Hk "btype"); [now left|auto]].
  destruct (attrs p "amplitude") as [x|] eqn:Hx; [|elim (Hk "amplitude"); [right; now left|auto]].
  eexists. eexists. split; [exact (reuse_value h r partner b p t l m x Hb Hp Ht Hl Hm Hx L)|].
  split; [apply hset_same, nth_error_Some; congruence|].
  rewrite Z.min_l by lia.
  split; [|split].
  - intros k [<-|[<-|[<-|[<-|[]]]]]; cbn; unfold aset; cbn; congruence.
  - intros k Nk. cbn [with_attrs attrs]. unfold aset.
    repeat match goal with |- context [?a =? ?c] => destruct (String.eqb_spec a c) as [->|_];
      [elim Nk; cbn; tauto|] end. reflexivity.
  - cbn. repeat split; auto; try (destruct (ghost p && ghost b); reflexivity).
    + apply hset_length.
    + intros r' N. now apply hset_other.
Qed.

(** A limit that is out of date is not taken over. *)
Lemma reused_stale h r partner b p t l m x :
  nth_error h r = Some b -> nth_error h partner = Some p ->
  attrs p "btype" = Some t -> attrs p "lmax" = Some (VInt l) -> attrs p "mmax" = Some (VInt m) ->
  attrs p "amplitude" = Some x -> (0 <= l)%Z -> (l < m)%Z ->
  exists h', reuse_blm h r partner = Ok h' /\ getattr h' r "mmax" = Some (VInt l).
Proof.
  intros Hb Hp Ht Hl Hm Hx L ML. eexists.
  split; [exact (reuse_value h r partner b p t l m x Hb Hp Ht Hl Hm Hx L)|].
  unfold getattr. rewrite hset_same by (apply nth_error_Some; congruence). cbn. unfold aset. cbn.
  rewrite Z.min_r by lia. reflexivity.
Qed.
