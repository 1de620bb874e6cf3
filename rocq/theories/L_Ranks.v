(** * Focal planes of several processes *)
From Coq Require Import Reals String Lra Lia.
From Verif Require Import Common LibList M_Beam M_Focal M_Random S_Focal M_Mpi M_Ranks S_Ranks L_Beam L_Focal L_FocalRef.
Local Notation length := List.length.

Lemma on_all_repeat f g st : (forall r, f r st = g) -> forall n r,
  on_all f r (repeat st (S n)) = (do st' <- g; Ok (repeat st' (S n))).
Proof.
  intros H n. induction n as [|n IH]; intros r.
  - cbn. rewrite H. destruct g; reflexivity.
  - change (repeat st (S (S n))) with (st :: repeat st (S n)). cbn [on_all]. rewrite H.
    destruct g as [st'|e] eqn:E; cbn [bind]; [|reflexivity].
    rewrite IH. reflexivity.
Qed.

(** Loading on top of other objects. *)
Lemma load_files_moved fs : forall h0 h kw i np pA pB,
  load_files (h0 ++ h)%list fs kw i np pA pB
  = (do (h', ps) <- load_files h fs kw i np pA pB; Ok ((h0 ++ h')%list, map (moved (length h0)) ps)).
Proof.
  induction fs as [|f fs IH]; intros h0 h kw i np pA pB; cbn [load_files]; [reflexivity|].
  destruct (load_file f kw i np pA pB) as [[a b]|e]; cbn [bind]; [|reflexivity].
  unfold alloc_pair, alloc. cbn [fst snd]. rewrite <- !app_assoc.
  rewrite IH. destruct (load_files _ fs _ _ _ _ _) as [[h' ps]|e]; cbn [bind]; [|reflexivity].
  cbn [map]. unfold moved at 2. cbn [fst snd option_map]. 
  rewrite !app_length. cbn [length]. now rewrite Nat.add_assoc.
Qed.

Lemma load_alone st d tag names np comb pA pB kw :
  load_focal_plane st d tag names np comb pA pB kw
  = (do msg <- load_root st d tag names np comb pA pB kw; Ok (load_received msg comb st)).
Proof.
  unfold load_focal_plane, load_root.
  destruct (next_idx st comb) as [i|e]; cbn [bind]; [|reflexivity].
  destruct (file_list d tag names) as [fs|e]; cbn [bind]; [|reflexivity].
  rewrite <- (app_nil_r (objs st)) at 1. rewrite load_files_moved.
  destruct (load_files [] fs _ i np pA pB) as [[h ps]|e]; cbn [bind]; [|reflexivity].
  unfold load_received. cbn [fst snd]. now rewrite map_length.
Qed.

Lemma reflected_no_rand rs : forall h tag rnd rnd' kw,
  reflected h rs tag false rnd kw = reflected h rs tag false rnd' kw.
Proof.
  induction rs as [|r rs IH]; intros; cbn [reflected]; [reflexivity|].
  destruct (index h r); cbn [bind]; [|reflexivity].
  destruct (vnum _ _); cbn [bind]; [|reflexivity]. destruct (vnum _ _); cbn [bind]; [|reflexivity].
  unfold perturb. cbn [bind]. destruct (create_ghost _ _ _ _); cbn [bind]; auto.
Qed.

Lemma crosstalk_no_rand l : forall h tag rnd rnd' kw,
  crosstalk h l tag false rnd kw = crosstalk h l tag false rnd' kw.
Proof.
  induction l as [|[[r|] [az el]] l IH]; intros; cbn [crosstalk]; [reflexivity| |reflexivity].
  destruct (index h r); cbn [bind]; [|reflexivity].
  destruct (vnum _ _); cbn [bind]; [|reflexivity].
  unfold perturb. cbn [bind]. destruct (create_ghost _ _ _ _); cbn [bind]; auto.
Qed.

Lemma shift_props_ext m z z' : (forall n, z n = z' n) -> forall prop h n r,
  shift_props m z h n r prop = shift_props m z' h n r prop.
Proof.
  intros E. induction prop as [|[k s] prop IH]; intros; cbn [shift_props]; [reflexivity|].
  destruct (index h r); cbn [bind]; [|reflexivity]. destruct (aget _ _); cbn [bind]; [|reflexivity].
  destruct (vnum _ _); cbn [bind]; [|reflexivity]. rewrite E. destruct (setattr _ _ _ _); cbn [bind]; auto.
Qed.

Lemma shift_ghosts_ext z z' prop : (forall n, z n = z' n) -> forall gs h n,
  shift_ghosts z prop h n gs = shift_ghosts z' prop h n gs.
Proof.
  intros E. induction gs as [|g gs IH]; intros; cbn [shift_ghosts]; [reflexivity|].
  rewrite (shift_props_ext _ _ _ E). destruct (shift_props _ _ _ _ _ _) as [[? ?]|]; cbn [bind]; auto.
Qed.

Lemma shift_beams_ext z z' prop ig : (forall n, z n = z' n) -> forall rs h n,
  shift_beams z prop ig h n rs = shift_beams z' prop ig h n rs.
Proof.
  intros E. induction rs as [|r rs IH]; intros; cbn [shift_beams]; [reflexivity|].
  rewrite (shift_props_ext _ _ _ E). destruct (shift_props _ _ _ _ _ _) as [[h1 n1]|]; cbn [bind]; [|reflexivity].
  destruct ig; cbn [bind]; [|auto].
  destruct (index h1 r); cbn [bind]; [|reflexivity]. rewrite (shift_ghosts_ext _ _ _ E).
  destruct (shift_ghosts _ _ _ _ _) as [[? ?]|]; cbn [bind]; auto.
Qed.

Lemma rnd_pairs_ext z z' key x stdev pp ig nb na : stdev = 0%R \/ (forall n, z n = z' n) -> forall ps h n,
  rnd_pairs z key x stdev pp ig nb na h n ps = rnd_pairs z' key x stdev pp ig nb na h n ps.
Proof.
  intros E.
  assert (SL : forall rv h n sk s, rnd_slot z key x stdev pp ig rv h n sk s = rnd_slot z' key x stdev pp ig rv h n sk s).
  { intros. unfold rnd_slot. destruct sk; [reflexivity|]. destruct E as [E|E].
    - subst. destruct (Req_EM_T 0 0) as [_|N]; [reflexivity|now contradict N].
    - now rewrite E. }
  induction ps as [|[a b] ps IH]; intros; cbn [rnd_pairs]; [reflexivity|].
  assert (RV : (if ((if Req_EM_T stdev 0 then false else true) && pp)%bool then stdev * z n else 0)%R
             = (if ((if Req_EM_T stdev 0 then false else true) && pp)%bool then stdev * z' n else 0)%R).
  { destruct E as [E|E]; [|now rewrite E]. subst. destruct (Req_EM_T 0 0) as [_|N]; [reflexivity|now contradict N]. }
  rewrite RV, SL.
  destruct (rnd_slot _ _ _ _ _ _ _ _ _ _ _) as [[? ?]|]; cbn [bind]; [|reflexivity].
  rewrite SL. destruct (rnd_slot _ _ _ _ _ _ _ _ _ _ _) as [[? ?]|]; cbn [bind]; auto.
Qed.

Lemma call_repeat c st n : agreed c ->
  call_all (repeat st (S n)) c = (do st' <- alone st c; Ok (repeat st' (S n))).
Proof.
  intros A. unfold call_all. change (repeat st (S n)) with (st :: repeat st n) at 1. cbv iota beta.
  destruct c; cbn [alone agreed] in *.
  - now apply on_all_repeat.
  - rewrite load_alone. destruct (load_root _ _ _ _ _ _ _ _ _) as [msg|e]; cbn [bind]; [|reflexivity].
    now rewrite (on_all_repeat _ (Ok (load_received msg combine st))).
  - now apply on_all_repeat.
  - apply on_all_repeat. intros r. destruct A as [->|A]; [|now rewrite A].
    unfold create_reflected_ghosts. now rewrite (reflected_no_rand _ _ _ (rnd r) (rnd 0%nat)).
  - apply on_all_repeat. intros r. destruct A as [->|A]; [|now rewrite A].
    unfold create_crosstalk_ghosts. now rewrite (crosstalk_no_rand _ _ _ (rnd r) (rnd 0%nat)).
  - apply on_all_repeat. intros r. unfold set_global_prop_random. now rewrite (shift_beams_ext _ (z 0%nat) _ _ (A r)).
  - apply on_all_repeat. intros r. unfold add_to_prop_random. destruct prop as [|[k x] [|]]; try reflexivity.
    rewrite (rnd_pairs_ext (z r) (z 0%nat)); [reflexivity|]. destruct A as [A|A]; auto.
Qed.

Lemma calls_repeat cs : forall st n, Forall agreed cs ->
  calls_all (repeat st (S n)) cs = (do st' <- script st cs; Ok (repeat st' (S n))).
Proof.
  induction cs as [|c cs IH]; intros st n F; cbn [calls_all script]; [reflexivity|].
  inversion F as [|? ? A F']; subst. rewrite (call_repeat _ _ _ A).
  destruct (alone st c) as [st'|e]; cbn [bind]; auto.
Qed.

Lemma same_focal_planes size cs : (0 < size)%nat -> Forall agreed cs ->
  calls_all (repeat empty_inst size) cs = (do st <- script empty_inst cs; Ok (repeat st size)).
Proof. destruct size; [lia|]. intros _. apply calls_repeat. Qed.

(** ** Broadcast of arrays *)
Lemma broadcast_array_ok {A} rank (arrs : nat -> option (list A)) junk root :
  arrs 0%nat = Some root -> (forall n, length (junk n) = n) ->
  broadcast_array true rank arrs junk = Ok (Some root).
Proof.
  intros E J. unfold broadcast_array. cbn [negb]. rewrite E.
  assert (L : length (if (rank =? 0)%nat then root else junk (length root)) = length root)
    by (destruct (rank =? 0)%nat; auto).
  cbv zeta. rewrite L, Nat.ltb_irrefl, skipn_all2 by lia. now rewrite app_nil_r.
Qed.

(** ** Pairs that process 0 does not have *)
Lemma somes_in {A} (l : list A) js b : In b (somes (map (fun j => nth_error l j) js)) -> In b l.
Proof.
  unfold somes. intros H. apply in_flat_map in H as (o & H1 & H2). apply in_map_iff in H1 as (j & <- & _).
  destruct (nth_error l j) eqn:E; [|destruct H2]. destruct H2 as [->|[]]. eapply nth_error_In; eauto.
Qed.

Lemma scattered_in {A} size rank (l : list A) b : In b (scatter_list true size rank l) -> In b l.
Proof.
  unfold scatter_list. cbn [negb]. unfold array_split. intros H.
  match type of H with In _ (nth _ (map ?f ?js) _) =>
    destruct (nth_in_or_default rank (map f js) []) as [I|E] end.
  - apply in_map_iff in I as (i & E & _). rewrite <- E in H. unfold slice in H.
    revert H. match goal with |- In b (firstn ?n (skipn ?m l)) -> _ => 
      intros H; rewrite <- (firstn_skipn m l); apply in_or_app; right; rewrite <- (firstn_skipn n (skipn m l));
      apply in_or_app; left; exact H end.
  - rewrite E in H. destruct H.
Qed.

Lemma only_root_pairs {A} size (root : list A) self b :
  In b (concat (map (fun r => rank_pairs true true size r root (self r)) (seq 0 size))) -> In b root.
Proof.
  intros H. apply in_concat in H as (l & H1 & H2). apply in_map_iff in H1 as (r & <- & _).
  unfold rank_pairs, rank_iterations in H2. apply somes_in in H2. eapply scattered_in; eauto.
Qed.

(** ** Witnesses *)
Definition two_beams : list call :=
  [Alike (NewBeam []); Alike (NewBeam []); Alike (Add (Pairs [(Some 0%nat, Some 1%nat)]) true)].

Definition gets (r : res (list inst)) : list inst := match r with Ok l => l | Err _ => [] end.

Lemma reflect_ranks x y x' y' : exists st0 st1,
  calls_all (repeat empty_inst 2)
    (two_beams ++ [ReflectCall "g" true (fun r => match r with O => [x; y] | _ => [x'; y'] end) []])%list
  = Ok [st0; st1]
  /\ ghosts_of (objs st0) 0 = [2%nat] /\ ghosts_of (objs st1) 0 = [2%nat]
  /\ getattr (objs st0) 2 "amplitude" = Some (VNum (1 + x))
  /\ getattr (objs st1) 2 "amplitude" = Some (VNum (1 + x')).
Proof. eexists. eexists. split; [vm_compute; reflexivity|]. repeat split; vm_compute; reflexivity. Qed.

Lemma random_ranks (z : nat -> nat -> R) s : exists st0 st1,
  calls_all (repeat empty_inst 2) (two_beams ++ [RandomCall z [("polang", s)] false])%list = Ok [st0; st1]
  /\ getattr (objs st0) 0 "polang" = Some (VNum (0 + (1 + z 0%nat 0%nat) * s))
  /\ getattr (objs st1) 0 "polang" = Some (VNum (0 + (1 + z 1%nat 0%nat) * s)).
Proof. eexists. eexists. split; [vm_compute; reflexivity|]. repeat split; vm_compute; reflexivity. Qed.
