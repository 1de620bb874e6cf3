(** * Lemmas: options of a beam (C90) *)
From Coq Require Import Reals String Lra Lia.
From Verif Require Import Common LibList M_Beam S_Focal S_Beam L_Beam.
Open Scope string_scope.

Lemma key_in k l : is_key k l = true <-> In k l.
Proof.
  unfold is_key. rewrite existsb_exists. split.
  - intros (x & H & E). apply String.eqb_eq in E. now subst.
  - intros H. exists k. split; [exact H|apply String.eqb_refl].
Qed.
Lemma options_keys k : In k beam_options <-> In k beam_keys.
Proof. unfold beam_options, beam_keys, stored_options, beam_defaults. cbn. tauto. Qed.

Lemma unknown_keyword kw k v : In (k, v) kw -> ~ In k beam_options -> beam_init kw = Err TypeError.
Proof.
  intros H N. unfold beam_init. destruct (forallb _ kw) eqn:F; [|reflexivity].
  rewrite forallb_forall in F. specialize (F _ H). apply key_in in F. apply options_keys in F. contradiction.
Qed.

Lemma known_keywords kw : (forall k v, In (k, v) kw -> In k beam_options) ->
  forallb (fun kv : string * val => is_key (fst kv) beam_keys) kw = true.
Proof. intros H. apply forallb_forall. intros [k v] I. apply key_in, options_keys. eapply H, I. Qed.

Lemma stored_default k d : In (k, d) stored_options -> In (k, d) beam_defaults /\ plain k = true.
Proof.
  unfold stored_options, beam_defaults. cbn [In]. intros H.
  repeat (destruct H as [H|H]; [injection H as <- <-; split; [tauto|reflexivity]|]). destruct H.
Qed.
Lemma option_stored kw b k d : beam_init kw = Ok b -> In (k, d) stored_options ->
  attrs b k = Some (match dget kw k with Some v => v | None => d end).
Proof. intros H I. destruct (stored_default _ _ I) as [D P]. exact (beam_init_plain kw b k d H D P). Qed.

Lemma option_limits kw b : beam_init kw = Ok b ->
  exists l, attrs b "lmax" = Some (VInt l)
    /\ l = match dget kw "lmax" with Some (VInt z) => Z.max z 0 | _ => 700%Z end
    /\ attrs b "mmax" = Some (VInt (match dget kw "mmax" with Some (VInt m) => Z.min m l | _ => l end))
    /\ attrs b "fwhm" = Some (VNum (match dget kw "fwhm" with Some (VNum x) => Rabs x
         | _ => 1.4 * 2 * PI / IZR l * (180 / PI) * 60 end)%R).
Proof.
  intros H. destruct (beam_init_lmax kw b H) as (z & Z1 & Z2).
  exists (Z.max z 0). split; [exact Z2|]. unfold kwval in Z1. split.
  { destruct (dget kw "lmax") as [v|]; [subst v|injection Z1 as <-]; reflexivity. }
  pose proof (beam_init_mmax kw b _ H Z2) as M. pose proof (beam_init_fwhm kw b _ H Z2) as F. unfold kwval in M, F. split.
  - destruct (dget kw "mmax") as [[]|]; try contradiction; exact M.
  - destruct (dget kw "fwhm") as [[]|]; try contradiction; try exact F.
    + destruct F as [_ F]. rewrite F. do 2 f_equal. unfold degrees, Rdiv. lra.
    + destruct F as [_ F]. rewrite F. do 2 f_equal. unfold degrees, Rdiv. lra.
Qed.
Lemma option_identity kw b : beam_init kw = Ok b ->
  idx b = match dget kw "idx" with Some (VInt z) => Some z | _ => None end
  /\ ghost b = match dget kw "ghost" with Some (VBool g) => g | _ => false end
  /\ ghosts b = [] /\ ghost_count b = 0%nat.
Proof.
  intros H. destruct (beam_init_fold kw b H) as (_ & _ & G & N & _ & I & K). split; [|split; [|now split]].
  - destruct (dget kw "idx") as [[]|]; auto; contradiction.
  - destruct (dget kw "ghost") as [[]|]; auto; contradiction.
Qed.

Lemma accepts kw : (forall k v, In (k, v) kw -> In k beam_options) -> acceptable kw -> exists b, beam_init kw = Ok b.
Proof.
  intros K (L & M & F & I & G). unfold beam_init. rewrite (known_keywords kw K). cbn [negb].
  unfold beam_defaults.
  assert (X : exists a, fold_left (fun a kd => do a <- a; set1 a (fst kd) (match dget kw (fst kd) with Some v => v | None => snd kd end))
     beam_defaults (Ok (fun _ => None)) = Ok a).
  { unfold beam_defaults. cbn [fold_left fst snd].
    assert (Z : exists z, match dget kw "lmax" with Some v => v | None => VInt 700 end = VInt z).
    { destruct L as [->|[z ->]]; eexists; eauto. }
    destruct Z as (z & Z).
    rewrite Z.
    assert (Y : match dget kw "mmax" with Some v => v | None => VNone end = VNone \/ exists m, match dget kw "mmax" with Some v => v | None => VNone end = VInt m).
    { destruct M as [-> | [-> | [m ->]]]; eauto. }
    assert (W : (exists x, match dget kw "fwhm" with Some v => v | None => VNone end = VNum x)
       \/ (match dget kw "fwhm" with Some v => v | None => VNone end = VNone /\ (0 < z)%Z)).
    { destruct F as [[x ->]|[F1 F2]]; [eauto|]. right. split; [destruct F1 as [-> | ->]; reflexivity|].
      destruct L as [L|[y L]]; rewrite L in *; [injection Z as <-; lia|]. injection Z as <-. auto. }
    unfold set1, set_lmax, set_mmax, set_fwhm, read_only. cbn [String.eqb Ascii.eqb Bool.eqb orb bind].
    destruct Y as [-> | [m ->]]; cbn; unfold aget, aset; cbn;
      (destruct W as [[x ->] | [-> Hz]]; cbn; [eexists; reflexivity|];
       destruct (Z.eqb_spec (Z.max z 0) 0); [lia|]; cbn; eexists; reflexivity). }
  destruct X as [a X]. unfold beam_defaults in X. rewrite X. cbn [bind].
  assert (I' : exists i, match dget kw "idx" with None | Some VNone => Ok None | Some (VInt z) => Ok (Some z) | _ => Err TypeError end = Ok i).
  { destruct I as [-> | [-> | [z ->]]]; eauto. }
  destruct I' as [i I']. rewrite I'. cbn [bind].
  destruct G as [-> | [g ->]]; cbn [bind]; eauto.
Qed.

Lemma lmax_none kw : (forall k v, In (k, v) kw -> In k beam_options) -> dget kw "lmax" = Some VNone ->
  beam_init kw = Err AttributeError.
Proof.
  intros K L. unfold beam_init. rewrite (known_keywords kw K). cbn [negb].
  unfold beam_defaults. cbn [fold_left fst snd]. rewrite L.
  unfold set1, set_lmax, read_only. cbn [String.eqb Ascii.eqb Bool.eqb orb bind]. reflexivity.
Qed.

Lemma width_sets_nothing x : exists b, beam_init [("fwhm", VNum x)] = Ok b
  /\ attrs b "fwhm" = Some (VNum (Rabs x)) /\ attrs b "lmax" = Some (VInt 700).
Proof. eexists. split; [reflexivity|]. split; reflexivity. Qed.

(** ** Assignment to the attributes of a beam *)
Lemma read_only_rejected h r b k v : nth_error h r = Some b ->
  In k ["idx"; "ghost"; "ghosts"; "polang_truth"] -> setattr h r k v = Err AttributeError.
Proof.
  intros H I. unfold setattr, set_obj, index. rewrite H. cbn [In] in I.
  repeat (destruct I as [<-|I]; [reflexivity|]). destruct I.
Qed.

Lemma assigned_only h r k v h' r' k' : setattr h r k v = Ok h' -> k <> "dead" -> (r', k') <> (r, k) ->
  getattr h' r' k' = getattr h r' k'.
Proof.
  unfold setattr. intros H D N. destruct (String.eqb_spec k "dead") as [E|_]; [contradiction|].
  eapply set_obj_other; eassumption.
Qed.

Lemma assigned_value h r b k v d : nth_error h r = Some b -> In (k, d) stored_options -> k <> "dead" ->
  exists h', setattr h r k v = Ok h' /\ getattr h' r k = Some v.
Proof.
  intros H I D. assert (L : (r < List.length h)%nat) by (apply nth_error_Some; congruence).
  exists (hset h r (with_attrs b (aset (attrs b) k v))).
  unfold getattr. rewrite hset_same by exact L. cbn [attrs with_attrs]. rewrite aset_same. split; [|reflexivity].
  unfold setattr, set_obj, index. rewrite H. cbn [bind]. cbn [In stored_options] in I.
  repeat (destruct I as [E|I]; [injection E as <- <-; try contradiction; reflexivity|]). destruct I.
Qed.

Lemma stale_mmax h r m z : getattr h r "mmax" = Some (VInt m) -> (0 <= z < m)%Z ->
  exists h', setattr h r "lmax" (VInt z) = Ok h' /\ getattr h' r "lmax" = Some (VInt z)
    /\ getattr h' r "mmax" = Some (VInt m).
Proof.
  unfold getattr. destruct (nth_error h r) as [b|] eqn:H; [|discriminate]. intros M Z.
  assert (L : (r < List.length h)%nat) by (apply nth_error_Some; congruence).
  exists (hset h r (with_attrs b (aset (attrs b) "lmax" (VInt z)))).
  unfold setattr, set_obj, index. rewrite H, hset_same by exact L.
  change ("lmax" =? "dead") with false. cbn [bind]. unfold set1, read_only.
  change ("lmax" =? "idx") with false. change ("lmax" =? "ghost") with false. change ("lmax" =? "ghosts") with false.
  change ("lmax" =? "polang_truth") with false. change ("lmax" =? "lmax") with true. cbn [orb set_lmax bind].
  rewrite Z.max_l by lia. repeat split. cbn [attrs with_attrs]. unfold aset.
  change ("mmax" =? "lmax") with false. exact M.
Qed.
