(** * Lemmas: a focal plane given by arrays (C91) *)
From Coq Require Import Reals String Lra.
From Verif Require Import Common LibList M_Beam M_Focal S_Focal S_Beam L_Beam L_BeamInit L_Ghost L_Focal L_FocalInv
  L_FocalOps L_FocalLoad L_FocalRef.
Open Scope string_scope.

Lemma init_made kw b : beam_init kw = Ok b -> made_with kw b.
Proof.
  intros H. split; [|split; [|split; [|split]]].
  - intros k d. exact (option_stored kw b k d H).
  - exact (option_limits kw b H).
  - apply (option_identity kw b H).
  - apply (option_identity kw b H).
  - apply (option_identity kw b H).
Qed.
Lemma made_ext kw kw' b : (forall k, dget kw k = dget kw' k) -> made_with kw b -> made_with kw' b.
Proof. intros E (A & B & C & D & F). rewrite !E in *. split; [|auto 6]. intros k d I. rewrite <- E. auto. Qed.

Lemma dget_cat d e k : dget (d ++ e)%list k = match dget d k with Some v => Some v | None => dget e k end.
Proof. induction d as [|[a v] d IH]; cbn; [reflexivity|]. destruct (a =? k); auto. Qed.

Lemma given_dict az el pa dd pol k kw x :
  dget (dupdate kw [("az", VNum az); ("el", VNum el); ("name", VStr ("det" ++ decimal k)); ("polang", VNum pa);
                    ("dead", VBool dd); ("pol", VStr pol); ("idx", VInt (Z.of_nat k))]) x
  = dget (described az el pa dd pol k ++ kw)%list x.
Proof.
  rewrite dget_dupdate by apply NoDup_grid_keys. rewrite dget_cat. unfold described. cbn [dget fst snd].
  destruct (String.eqb_spec "az" x) as [<-|]; [reflexivity|]. destruct (String.eqb_spec "el" x) as [<-|]; [reflexivity|].
  destruct (String.eqb_spec "name" x) as [<-|]; [reflexivity|]. destruct (String.eqb_spec "polang" x) as [<-|]; [reflexivity|].
  destruct (String.eqb_spec "dead" x) as [<-|]; [reflexivity|]. destruct (String.eqb_spec "pol" x) as [<-|]; [reflexivity|].
  destruct (String.eqb_spec "idx" x) as [<-|]; reflexivity.
Qed.

Lemma nth_combine {A B} (l : list A) (l' : list B) k x y :
  nth_error l k = Some x -> nth_error l' k = Some y -> nth_error (combine l l') k = Some (x, y).
Proof.
  revert l' k; induction l as [|a l IH]; intros [|b l'] [|k]; cbn; try discriminate.
  - intros [= ->] [= ->]. reflexivity.
  - apply IH.
Qed.

Lemma input_described st azs els polangs deads c kw st' :
  step st (Input azs els polangs deads c kw) = Ok st' ->
  List.length els = List.length azs -> List.length polangs = List.length azs ->
  (forall d, deads = Some d -> List.length d = List.length azs) ->
  exists new, fp st' = (fp st ++ new)%list /\ List.length new = List.length azs
  /\ ndet st' = (ndet st + 2 * Z.of_nat (List.length azs))%Z
  /\ (forall r, (r < List.length (objs st))%nat -> nth_error (objs st') r = nth_error (objs st) r)
  /\ forall k az el pa, nth_error azs k = Some az -> nth_error els k = Some el -> nth_error polangs k = Some pa ->
     exists ra rb a b, nth_error new k = Some (Some ra, Some rb)
     /\ nth_error (objs st') ra = Some a /\ nth_error (objs st') rb = Some b
     /\ forall d, nth_error (match deads with Some d => d | None => repeat (false, false) (List.length azs) end) k = Some d ->
        made_with (described (fst az) (fst el) (fst pa) (fst d) "A" k ++ kw)%list a
        /\ made_with (described (snd az) (snd el) (snd pa) (snd d) "B" k ++ kw)%list b.
Proof.
  intros H L1 L2 L3. cbn [step] in H. unfold input_focal_plane in H. cbv zeta in H.
  destruct c; [|discriminate].
  replace (match deads with Some d => d | None => map (fun _ => (false, false)) azs end)
    with (match deads with Some d => d | None => repeat (false, false) (List.length azs) end) in H.
  2:{ destruct deads; [reflexivity|]. clear. induction azs; cbn; congruence. }
  assert (L4 : List.length (match deads with Some d => d | None => repeat (false, false) (List.length azs) end) = List.length azs).
  { destruct deads; [now apply L3|apply repeat_length]. }
  revert H L4. generalize (match deads with Some d => d | None => repeat (false, false) (List.length azs) end). intros ds H L4.
  apply bind_ok in H as (i & Hi & H). apply bind_ok in H as ([h ps] & Hh & H). inversion H; subst; clear H.
  cbn [fp ndet objs put]. apply input_cells_grown in Hh as (bs & G & L & N). destruct (G) as (E & _).
  exists ps. split; [reflexivity|]. split; [rewrite L, !combine_length; lia|]. split; [reflexivity|].
  split. { intros r Hr. rewrite E. now apply nth_error_app1. }
  intros k az el pa Ha He Hp.
  destruct (nth_error ds k) as [d|] eqn:Hd.
  2:{ apply nth_error_None in Hd. assert (nth_error azs k <> None) by congruence. apply nth_error_Some in H. lia. }
  destruct (N k (az, el, pa, d)) as (a & b & Na & Nb & Q).
  { repeat apply nth_combine; auto. }
  destruct (grown_nth _ _ _ _ _ _ _ G Na Nb) as (ra & rb & Ep & Ea & Eb & _).
  exists ra, rb, a, b. split; [exact Ep|]. split; [exact Ea|]. split; [exact Eb|]. intros d' [= <-].
  unfold input_beams in Q. destruct (existsb _ kw); [discriminate|]. cbv zeta in Q.
  apply bind_ok in Q as (a' & HA & Q). apply bind_ok in Q as (b' & HB & Q). inversion Q; subst a' b'; clear Q.
  cbn [Nat.add] in HA, HB. split.
  - apply init_made in HA. revert HA. apply made_ext. intros x. apply given_dict.
  - apply init_made in HB. revert HB. apply made_ext. intros x. apply given_dict.
Qed.

Lemma input_not_combined st azs els polangs deads kw : step st (Input azs els polangs deads false kw) = Err NameError.
Proof. reflexivity. Qed.

Lemma has_fixed kw k v : In (k, v) kw -> In k fixed ->
  existsb (fun kv : string * val => is_key (fst kv) ["az"; "el"; "name"; "polang"; "dead"; "pol"; "idx"]) kw = true.
Proof.
  intros H F. apply existsb_exists. exists (k, v). split; [exact H|]. apply key_in. unfold fixed in F. cbn [fst In] in *. tauto.
Qed.
Lemma idxs_ok h rs : (forall r, In r rs -> exists b i, nth_error h r = Some b /\ idx b = Some i) -> exists l, idxs_of h rs = Ok l.
Proof.
  induction rs as [|r rs IH]; intros H; cbn [idxs_of]; [eauto|].
  destruct (H r) as (b & i & Hb & Hi); [now left|]. unfold index. rewrite Hb. cbn [bind]. rewrite Hi.
  destruct IH as [l ->]; [intros; apply H; now right|]. cbn [bind]. eauto.
Qed.
Lemma next_ok st c : (forall r, In r (present st) -> exists i, idx_of st r = Some i) -> exists i, next_idx st c = Ok i.
Proof.
  intros H. unfold next_idx. destruct c; [|eauto]. unfold beams_idxs. rewrite refs_concat.
  destruct (idxs_ok (objs st) (refs (fp st))) as [l ->].
  { intros r Hr. rewrite <- present_refs in Hr. destruct (H r Hr) as [i Hi]. unfold idx_of in Hi.
    destruct (nth_error (objs st) r) as [b|]; [eauto|discriminate]. }
  cbn [bind]. destruct l; eauto.
Qed.

Lemma input_fixed st az el pa azs els pas deads kw k v : 
  (forall r, In r (present st) -> exists i, idx_of st r = Some i) ->
  (forall d, deads = Some d -> d <> []) -> In (k, v) kw -> In k fixed ->
  step st (Input (az :: azs) (el :: els) (pa :: pas) deads true kw) = Err TypeError.
Proof.
  intros HP HD H F. cbn [step]. unfold input_focal_plane. cbv zeta.
  destruct (next_ok st true HP) as [i ->]. cbn [bind].
  assert (X : exists d ds, match deads with Some d => d | None => map (fun _ : R * R => (false, false)) (az :: azs) end = d :: ds).
  { destruct deads as [[|d ds]|]; [now destruct (HD [] eq_refl)|eauto|cbn; eauto]. }
  destruct X as (d & ds & ->). cbn [combine input_cells]. unfold input_beams. rewrite (has_fixed kw k v H F). reflexivity.
Qed.

Lemma accepted_with (kw d kw' : dict) : (forall k, dget kw' k = dget (d ++ kw)%list k) ->
  (forall k v, In (k, v) kw' -> In k beam_options) ->
  acceptable kw -> dget d "lmax" = None -> dget d "mmax" = None -> dget d "fwhm" = None -> dget d "ghost" = None ->
  (exists z, dget d "idx" = Some (VInt z)) -> exists b, beam_init kw' = Ok b.
Proof.
  intros E K (A1 & A2 & A3 & A4 & A5) D1 D2 D3 D4 [z D5]. apply accepts; [exact K|].
  unfold acceptable. rewrite !E, !dget_cat, D1, D2, D3, D4, D5. repeat split; auto; eauto.
Qed.
Lemma dset_keys d k v k' v' : In (k', v') (dset d k v) -> k' = k \/ exists w, In (k', w) d.
Proof.
  induction d as [|[a w] d IH]; cbn.
  - intros [[= <- _]|[]]. now left.
  - destruct (String.eqb_spec a k) as [->|].
    + intros [[= <- _]|H]; [now left|]. right. eauto.
    + intros [[= <- <-]|H]; [right; eauto|]. destruct (IH H) as [|[w' ?]]; [now left|right; eauto].
Qed.
Lemma dupdate_keys e : forall d k v, In (k, v) (dupdate d e) -> In k (map fst e) \/ exists w, In (k, w) d.
Proof.
  unfold dupdate. induction e as [|[a w] e IH]; intros d k v H; cbn [fold_left] in H; [right; eauto|].
  destruct (IH _ _ _ H) as [I|[x I]]; [left; now right|]. cbn [fst snd] in I.
  apply dset_keys in I as [->|I]; [left; now left|now right].
Qed.

Lemma input_accepted st azs els polangs deads kw :
  (forall r, In r (present st) -> exists i, idx_of st r = Some i) ->
  (forall k v, In (k, v) kw -> In k beam_options /\ ~ In k fixed) -> acceptable kw ->
  exists st', step st (Input azs els polangs deads true kw) = Ok st'.
Proof.
  intros HP K A. cbn [step]. unfold input_focal_plane. cbv zeta. destruct (next_ok st true HP) as [i ->]. cbn [bind].
  generalize (combine (combine (combine azs els) polangs) match deads with Some d => d | None => map (fun _ => (false, false)) azs end).
  intros l. assert (X : forall l h i, exists r, input_cells h kw i l = Ok r).
  { clear l i. induction l as [|p l IH]; intros h i; cbn [input_cells]; [eauto|].
    assert (Y : exists ab, input_beams kw i p = Ok ab).
    { destruct p as [[[az el] pa] d]. unfold input_beams.
      replace (existsb _ kw) with false.
      2:{ symmetry. apply not_true_is_false. intros T. apply existsb_exists in T as ([k v] & I & T). apply key_in in T.
          apply K in I as [_ I]. apply I. unfold fixed. cbn [fst In] in *. tauto. }
      cbv zeta.
      assert (OPT : forall a b c d' e f g k v, In (k, v) (dupdate kw [("az", a); ("el", b); ("name", c); ("polang", d'); ("dead", e); ("pol", f); ("idx", g)]) -> In k beam_options).
      { intros a b c d' e f g k v I. apply dupdate_keys in I as [I|[w I]]; [|apply (K _ _ I)].
        unfold beam_options, stored_options. cbn [map fst In app] in *. tauto. }
      destruct (accepted_with kw _ _ (given_dict (fst az) (fst el) (fst pa) (fst d) "A" i kw) (OPT _ _ _ _ _ _ _) A) as [a Ea];
        try reflexivity; [eexists; reflexivity|].
      destruct (accepted_with kw _ _ (given_dict (snd az) (snd el) (snd pa) (snd d) "B" i kw) (OPT _ _ _ _ _ _ _) A) as [b Eb];
        try reflexivity; [eexists; reflexivity|].
      unfold decimal in Ea, Eb. rewrite Ea. cbn [bind]. rewrite Eb. cbn [bind]. eauto. }
    destruct Y as [ab ->]. cbn [bind]. destruct (alloc_pair h ab) as [h' q].
    destruct (IH h' (i + 1)%nat) as [[h2 ps] ->]. cbn [bind]. eauto. }
  destruct (X l (objs st) 0%nat) as [[h ps] ->]. cbn [bind]. eauto.
Qed.

(** Arrays of different lengths. *)
Lemma input_unequal : exists st, history (fun _ _ => True) empty_inst
    [Input [(0, 0); (1, 1)]%R [(0, 0)]%R [(0, 90)]%R None true []] st
  /\ List.length (present st) = 2%nat /\ ndet st = 4%Z.
Proof.
  exists (get (run empty_inst [Input [(0, 0); (1, 1)]%R [(0, 0)]%R [(0, 90)]%R None true []])).
  split; [|split; vm_compute; reflexivity]. apply run_history; [apply get_ok|]; vm_compute; reflexivity.
Qed.

(** The mark of a ghost is passed on. *)
Lemma input_ghosts : exists st b, history (fun _ _ => True) empty_inst
    [Input [(0, 0)]%R [(0, 0)]%R [(0, 90)]%R None true [("ghost", VBool true)]] st
  /\ present st = [0; 1]%nat /\ nth_error (objs st) 0 = Some b /\ ghost b = true.
Proof.
  set (st := get (run empty_inst [Input [(0, 0)]%R [(0, 0)]%R [(0, 90)]%R None true [("ghost", VBool true)]])).
  assert (E : exists b, nth_error (objs st) 0 = Some b /\ ghost b = true) by (eexists; split; vm_compute; reflexivity).
  destruct E as (b & E & F). exists st, b. split; [|split; [vm_compute; reflexivity|auto]].
  apply run_history; [apply get_ok|]; vm_compute; reflexivity.
Qed.
