(** * The dictionary of spin maps and the timestream made from it *)
From Coq Require Import Reals String Lra Lia.
From Verif Require Import Common Cplx LibList Mat M_Alm M_Blm M_Mueller M_Tod M_Spin
  S_Alm S_Tod S_Spin L_Alm L_Blm L_Tod L_Tod2 L_Tod3 L_Spin.
Open Scope R_scope.

Lemma strip_some x : strip1 (map Some x) = x.
Proof. unfold strip1. rewrite map_map. apply map_id. Qed.
Lemma finite_some x : finite (map Some x) = true.
Proof. unfold finite. apply forallb_forall. intros z H. apply in_map_iff in H. destruct H as (c & <- & _). reflexivity. Qed.

Lemma crash_loop_fine (x : raw) : forallb finite x = true -> forall n i,
  (List.length x - i <= n)%nat -> crash_loop x n i = (false, Nat.max i (List.length x)).
Proof.
  intros H. induction n as [|n IH]; intros i Hn; cbn [crash_loop].
  - f_equal. lia.
  - destruct (Nat.ltb_spec i (List.length x)) as [L|L]; [|f_equal; lia].
    assert (finite (nth i x []) = true) as ->.
    { rewrite forallb_forall in H. apply H. apply nth_In. exact L. }
    cbn [negb]. rewrite IH by lia. f_equal. lia.
Qed.

Lemma nan_check_fine a b : forallb finite a = true -> forallb finite b = true -> nan_check a b = None.
Proof.
  intros Ha Hb. unfold nan_check. rewrite (crash_loop_fine a Ha) by lia.
  rewrite (crash_loop_fine b Hb) by lia. reflexivity.
Qed.

Section Dict.
Variables (Y : Z -> nat -> Z -> nat -> C) (npix L : nat).
Variables (alm2map : list C -> list R) (alm2map_spin : list C -> list C -> Z -> list R * list R).
Hypothesis HY : conj_symmetric Y.
Hypothesis HP : healpix Y npix L alm2map alm2map_spin.
Variables aI aE aB : nat -> nat -> C.
Hypothesis RI : real_m0 aI.
Hypothesis RE : real_m0 aE.
Hypothesis RB : real_m0 aB.

Let Sp := plus2 aE aB.
Let Sm := minus2 aE aB.

Definition Imap (bI : nat -> nat -> C) (s : Z) : list C :=
  map (field Y L s (fun l m => mode aI aI l m * mode bI bI l s)%C) (seq 0 npix).
Definition Pmap (bm bp : nat -> nat -> C) (s : Z) : list C :=
  map (field Y L s (fun l m => mode Sp Sm l m * mode bm bp l s)%C) (seq 0 npix).

Lemma eb2spin_modes E B : eb2spin (of_modes L L E) (of_modes L L B)
  = (of_modes L L (minus2 E B), of_modes L L (plus2 E B)).
Proof.
  unfold eb2spin. rewrite (zipwith_modes (fun e b => fst (eb2spin1 e b))), (zipwith_modes (fun e b => snd (eb2spin1 e b))).
  f_equal; apply of_modes_ext; intros; unfold eb2spin1, minus2, plus2; cbn [fst snd];
   match goal with |- context [E ?l ?m] => destruct (E l m), (B l m) end; ceq; ring.
Qed.

Lemma pm_conj E B l : real_m0 E -> real_m0 B -> minus2 E B l 0%nat = Cconj (plus2 E B l 0%nat).
Proof.
  intros HE HB. specialize (HE l). specialize (HB l). unfold minus2, plus2.
  destruct (E l 0%nat), (B l 0%nat). cbn in *. subst. ceq; ring.
Qed.

Lemma complex_maps_eb E B bm bp spins : real_m0 E -> real_m0 B ->
  (forall l, bm l 0%nat = Cconj (bp l 0%nat)) ->
  Forall (fun s => Z.abs s <= Z.of_nat L)%Z spins ->
  (let '(blmE, blmB) := spin2eb (of_modes L L bm) (of_modes L L bp) 2 in
   spinmaps_complex alm2map alm2map_spin (of_modes L L E) (of_modes L L B) blmE blmB spins)
  = Ok (map (fun s => map (field Y L s (fun l m => mode (plus2 E B) (minus2 E B) l m * mode bm bp l s)%C) (seq 0 npix)) spins).
Proof.
  intros HE HB Hb HS.
  pose proof (eb_roundtrip (of_modes L L bm) (of_modes L L bp) 2 ltac:(rewrite !length_of_modes; reflexivity) eq_refl) as RT.
  destruct (spin2eb (of_modes L L bm) (of_modes L L bp) 2) as [blmE blmB].
  unfold spinmaps_complex. rewrite eb2spin_modes, RT.
  apply mapr_ok. eapply Forall_impl; [|exact HS]. intros s Hs. cbv beta in Hs |- *.
  apply (complex_map1 Y npix L); auto. intros l. apply pm_conj; assumption.
Qed.

Definition unpol_spins (symmetric : bool) (S : nat) : list Z := if symmetric then [0%Z] else spins_upto S.
Definition pol_spins (symmetric : bool) (S : nat) : list Z := if symmetric then [2%Z] else spins_both S.
Definition leak_spins (symmetric : bool) (S : nat) : list Z := if symmetric then [0%Z] else spins_both S.

Lemma spin_values_eq symmetric S :
  spin_values symmetric S = (unpol_spins symmetric S, pol_spins symmetric S, leak_spins symmetric S).
Proof. destruct symmetric; reflexivity. Qed.

Lemma unpol_range symmetric S : (S <= L)%nat ->
  Forall (fun s => 0 <= s <= Z.of_nat L)%Z (unpol_spins symmetric S).
Proof.
  intros H. destruct symmetric; cbn.
  - repeat constructor; lia.
  - apply Forall_forall. intros s Hs. unfold spins_upto in Hs. apply in_map_iff in Hs.
    destruct Hs as (k & <- & Hk). apply in_seq in Hk. lia.
Qed.
Lemma both_range S : (S <= L)%nat -> Forall (fun s => Z.abs s <= Z.of_nat L)%Z (spins_both S).
Proof.
  intros H. apply Forall_forall. intros s Hs. unfold spins_both in Hs. apply in_map_iff in Hs.
  destruct Hs as (k & <- & Hk). apply in_seq in Hk. lia.
Qed.
Lemma pol_range symmetric S : (S <= L)%nat -> (2 <= L)%nat ->
  Forall (fun s => Z.abs s <= Z.of_nat L)%Z (pol_spins symmetric S).
Proof.
  intros H H2. destruct symmetric; cbn; [repeat constructor; lia|]. apply both_range. exact H.
Qed.
Lemma leak_range symmetric S : (S <= L)%nat ->
  Forall (fun s => Z.abs s <= Z.of_nat L)%Z (leak_spins symmetric S).
Proof.
  intros H. destruct symmetric; cbn; [repeat constructor; lia|]. apply both_range. exact H.
Qed.
Lemma unpol_ne symmetric S : unpol_spins symmetric S <> [].
Proof. destruct symmetric; cbn; [discriminate|]. unfold spins_upto. rewrite Nat.add_comm. cbn. discriminate. Qed.

Lemma no_plate bI bm bp symmetric S :
  real_m0 bI -> (forall l, bm l 0%nat = Cconj (bp l 0%nat)) -> (S <= L)%nat -> (2 <= L)%nat ->
  make_spinmaps alm2map alm2map_spin [of_modes L L aI; of_modes L L aE; of_modes L L aB]
    [of_modes L L bI; of_modes L L bm; of_modes L L bp] S symmetric None false false
  = Ok [("s0a0", {| ss_maps := map (Imap bI) (unpol_spins symmetric S); ss_svals := unpol_spins symmetric S |});
        ("s2a4", {| ss_maps := map (Pmap bm bp) (pol_spins symmetric S); ss_svals := pol_spins symmetric S |})]%string.
Proof.
  intros Rb Hb HS H2. unfold make_spinmaps. rewrite spin_values_eq. cbn [index nth_error bind andb].
  pose proof (complex_maps_eb aE aB bm bp (pol_spins symmetric S) RE RB Hb (pol_range _ _ HS H2)) as CM.
  destruct (spin2eb (of_modes L L bm) (of_modes L L bp) 2) as [blmE blmB].
  rewrite (real_maps Y npix L alm2map alm2map_spin HY HP aI bI) by (auto using unpol_ne, unpol_range).
  cbn [bind]. rewrite CM. cbn [bind]. reflexivity.
Qed.

(** ** The sums over spins *)
Lemma value_map (f : nat -> C) q : (q < npix)%nat -> value (map f (seq 0 npix)) (Pix q) = f q.
Proof. intros H. cbn [value]. apply nth_map_seq. exact H. Qed.

Lemma combine_map_self {A B} (f : A -> B) l : combine l (map f l) = map (fun a => (a, f a)) l.
Proof. induction l; cbn; congruence. Qed.

Lemma Pmap_sum bm bp spins q psi : (q < npix)%nat ->
  spin_sum (map (Pmap bm bp) spins) spins (Pix q) psi
  = convolved Y L (mode Sp Sm) (mode bm bp) spins q psi.
Proof.
  intros H. unfold spin_sum, convolved. rewrite combine_map_self, map_map. apply csum_map_eq.
  intros s _. cbn [fst snd]. unfold Pmap. rewrite value_map by exact H. reflexivity.
Qed.

Lemma Imap_conj bI s : real_m0 bI -> (Z.abs s <= Z.of_nat L)%Z -> Imap bI (- s) = map Cconj (Imap bI s).
Proof.
  intros Rb Hs. unfold Imap. rewrite map_map. apply map_ext. intros p.
  rewrite field_conj by exact HY. apply field_ext. intros l m Hl Hm.
  rewrite (mode_opp aI aI l m) by (auto using real_conj).
  rewrite sg_add, Cconj_mul, sg_conj, Cconj_conj.
  destruct (Z_le_gt_dec (Z.abs s) (Z.of_nat l)) as [I|I].
  - rewrite (mode_opp bI bI l s) by (auto using real_conj).
    rewrite !sg_parity. pose proof (parity_sq m) as Q.
    transitivity (parity m * parity m * (parity s * mode aI aI l m * Cconj (mode bI bI l s)))%C; [|ring].
    rewrite Q. ring.
  - rewrite !(mode_out bI bI) by lia. rewrite Cconj_R.
    unfold sg. destruct (Z.even s), (Z.even m); ring.
Qed.

Lemma Imap_sum bI S q psi : (q < npix)%nat -> (S <= L)%nat -> real_m0 bI ->
  RtoC (two_sided_sum (map (Imap bI) (spins_upto S)) (spins_upto S) (Pix q) psi)
  = convolved Y L (mode aI aI) (mode bI bI) (spins_both S) q psi.
Proof.
  intros Hq HS Rb.
  rewrite <- (real_is_two_sided S (map (Imap bI) (spins_upto S)) (map (Imap bI) (spins_both S))).
  - unfold spin_sum, convolved. rewrite combine_map_self, map_map. apply csum_map_eq.
    intros s _. cbn [fst snd]. unfold Imap. rewrite value_map by exact Hq. reflexivity.
  - unfold spins_upto. rewrite !map_length, seq_length. reflexivity.
  - unfold spins_both. rewrite !map_length, seq_length. reflexivity.
  - intros k Hk. unfold spins_both, spins_upto. rewrite !map_map.
    rewrite !nth_map_seq by lia. cbn [Nat.add].
    replace (Z.of_nat (S + k) - Z.of_nat S)%Z with (Z.of_nat k) by lia.
    replace (Z.of_nat (S - k) - Z.of_nat S)%Z with (- Z.of_nat k)%Z by lia.
    split; [reflexivity|]. apply Imap_conj; [exact Rb|lia].
Qed.

Definition both_spins (symmetric : bool) (S : nat) : list Z := if symmetric then [0%Z] else spins_both S.

Lemma Imap_sum' bI symmetric S q psi : (q < npix)%nat -> (S <= L)%nat -> real_m0 bI ->
  RtoC (two_sided_sum (map (Imap bI) (unpol_spins symmetric S)) (unpol_spins symmetric S) (Pix q) psi)
  = convolved Y L (mode aI aI) (mode bI bI) (both_spins symmetric S) q psi.
Proof.
  intros Hq HS Rb. destruct symmetric; cbn [unpol_spins both_spins]; [|apply Imap_sum; assumption].
  apply (Imap_sum bI 0 q psi Hq); [lia|exact Rb].
Qed.

Lemma ws_maps (f : Z -> list C) spins :
  spins <> [] -> (forall s, List.length (f s) = npix) ->
  well_sized npix {| ss_maps := map f spins; ss_svals := spins |}.
Proof.
  intros NE H. split; [exact NE|]. cbn [ss_maps ss_svals]. split; [apply map_length|].
  apply Forall_forall. intros m Hm. apply in_map_iff in Hm. destruct Hm as (s & <- & _). apply H.
Qed.
Lemma Imap_len bI s : List.length (Imap bI s) = npix.
Proof. unfold Imap. rewrite map_length, seq_length. reflexivity. Qed.
Lemma Pmap_len bm bp s : List.length (Pmap bm bp s) = npix.
Proof. unfold Pmap. rewrite map_length, seq_length. reflexivity. Qed.
Lemma both_ne S : spins_both S <> [].
Proof. unfold spins_both. rewrite Nat.add_comm. cbn. discriminate. Qed.
Lemma pol_ne symmetric S : pol_spins symmetric S <> [].
Proof. destruct symmetric; cbn; [discriminate|apply both_ne]. Qed.
Lemma leak_ne symmetric S : leak_spins symmetric S <> [].
Proof. destruct symmetric; cbn; [discriminate|apply both_ne]. Qed.

Lemma tod_no_plate bI bm bp symmetric S n qs pa polang h d :
  real_m0 bI -> (forall l, bm l 0%nat = Cconj (bp l 0%nat)) -> (S <= L)%nat -> (2 <= L)%nat ->
  List.length qs = n -> List.length pa = n -> angles_for n h -> Forall (fun q => (q < npix)%nat) qs ->
  make_spinmaps alm2map alm2map_spin [of_modes L L aI; of_modes L L aE; of_modes L L aB]
    [of_modes L L bI; of_modes L L bm; of_modes L L bp] S symmetric None false false = Ok d ->
  exists tod, scan_tod n d (map Pix qs) pa polang h = Ok (map RtoC tod) /\ List.length tod = n
  /\ forall i, (i < n)%nat ->
     let psi := PI - nth i pa 0 * (PI / 180) in
     nth i tod 0
     = Re (convolved Y L (mode aI aI) (mode bI bI) (both_spins symmetric S) (nth i qs 0%nat) psi)
       + Re (convolved Y L (mode Sp Sm) (mode bm bp) (pol_spins symmetric S) (nth i qs 0%nat) psi
             * cis (4 * angle_at h i + 2 * (polang * (PI / 180))))%C.
Proof.
  intros Rb Hb HS H2 Lq La Hh Hq E.
  rewrite no_plate in E by assumption. injection E as <-.
  match goal with |- context [scan_tod n ?d] => set (dd := d) end.
  destruct (timestream_old npix n (map Pix qs) pa polang h dd
     {| ss_maps := map (Imap bI) (unpol_spins symmetric S); ss_svals := unpol_spins symmetric S |}
     {| ss_maps := map (Pmap bm bp) (pol_spins symmetric S); ss_svals := pol_spins symmetric S |})
    as (tod & E1 & E2 & V); auto.
  - rewrite map_length. exact Lq.
  - apply Forall_forall. intros p Hp. apply in_map_iff in Hp. destruct Hp as (q & <- & Iq).
    cbn. rewrite Forall_forall in Hq. apply Hq. exact Iq.
  - repeat constructor; cbn; intuition discriminate.
  - intros k. cbn. intuition congruence.
  - cbn. tauto.
  - cbn. tauto.
  - apply ws_maps; [apply unpol_ne|intros; apply Imap_len].
  - apply ws_maps; [apply pol_ne|intros; apply Pmap_len].
  - cbn [ss_svals]. eapply Forall_impl; [|apply (unpol_range symmetric S HS)]. cbn. lia.
  - exists tod. split; [exact E1|]. split; [exact E2|]. intros i Hi psi.
    rewrite V by exact Hi. fold psi. cbn [ss_maps ss_svals].
    assert (Eq : nth i (map Pix qs) (Pix 0) = Pix (nth i qs 0%nat)) by apply (map_nth Pix).
    assert (Lt : (nth i qs 0 < npix)%nat) by (rewrite Forall_forall in Hq; apply Hq, nth_In; lia).
    rewrite Eq. rewrite Pmap_sum by exact Lt.
    rewrite <- Imap_sum' by assumption. reflexivity.
Qed.
End Dict.

(** ** Band limits *)
Lemma match_bands Ls Lb aI aE aB bI bm bp :
  let L := Nat.min Ls Lb in
  match_bandlimits [of_modes Ls Ls aI; of_modes Ls Ls aE; of_modes Ls Ls aB]
                   [of_modes Lb Lb bI; of_modes Lb Lb bm; of_modes Lb Lb bp] false false
  = Ok ([of_modes L L aI; of_modes L L aE; of_modes L L aB],
        [of_modes L L bI; of_modes L L bm; of_modes L L bp]).
Proof.
  intros L. unfold match_bandlimits. cbn [index nth_error bind].
  rewrite !length_of_modes, !getlmax_full.
  destruct (Nat.ltb_spec Lb Ls) as [H|H]; [|destruct (Nat.ltb_spec Ls Lb) as [H'|H']].
  - pose proof (trunc_alms_spec Ls Ls [aI; aE; aB] Lb None ltac:(discriminate) ltac:(lia) ltac:(lia) ltac:(auto)) as T.
    cbn [map] in T. rewrite T. cbn [bind].
    replace L with Lb by lia. rewrite Nat.min_l by lia. reflexivity.
  - pose proof (trunc_alms_spec Lb Lb [bI; bm; bp] Ls None ltac:(discriminate) ltac:(lia) ltac:(lia) ltac:(auto)) as T.
    cbn [map] in T. rewrite T. cbn [bind].
    replace L with Ls by lia. rewrite Nat.min_l by lia. reflexivity.
  - replace L with Lb by lia. replace Ls with Lb by lia. reflexivity.
Qed.

Lemma init_is_make a2m a2ms Ls Lb aI aE aB bI bm bp S symmetric hwp :
  let L := Nat.min Ls Lb in
  init_spinmaps1 a2m a2ms (sky_arrays Ls aI aE aB) (beam_arrays Lb bI bm bp) S symmetric hwp false false
  = match make_spinmaps a2m a2ms [of_modes L L aI; of_modes L L aE; of_modes L L aB]
            [of_modes L L bI; of_modes L L bm; of_modes L L bp] S symmetric hwp false false with
    | Ok d => Maps d | Err e => Raises e end.
Proof.
  intros L. unfold init_spinmaps1. rewrite !andb_false_r.
  assert (Fa : forallb finite (sky_arrays Ls aI aE aB) = true)
    by (unfold sky_arrays; cbn [forallb]; rewrite !finite_some; reflexivity).
  assert (Fb : forallb finite (beam_arrays Lb bI bm bp) = true)
    by (unfold beam_arrays; cbn [forallb]; rewrite !finite_some; reflexivity).
  rewrite nan_check_fine by assumption. rewrite Fa, Fb. cbn [andb].
  unfold sky_arrays, beam_arrays. cbn [map]. rewrite !strip_some, match_bands. cbn [bind]. reflexivity.
Qed.

(** The timestream is the convolution of sky and beam. *)
Lemma convolution Y npix Ls Lb a2m a2ms aI aE aB bI bm bp symmetric S n qs pa polang h :
  let L := Nat.min Ls Lb in
  conj_symmetric Y -> healpix Y npix L a2m a2ms ->
  real_m0 aI -> real_m0 aE -> real_m0 aB -> real_m0 bI ->
  (forall l, bm l 0%nat = Cconj (bp l 0%nat)) -> (S <= L)%nat -> (2 <= L)%nat ->
  List.length qs = n -> List.length pa = n -> angles_for n h -> Forall (fun q => (q < npix)%nat) qs ->
  exists d tod,
  init_spinmaps1 a2m a2ms (sky_arrays Ls aI aE aB) (beam_arrays Lb bI bm bp) S symmetric None false false
  = Maps d
  /\ scan_tod n d (map Pix qs) pa polang h = Ok (map RtoC tod) /\ List.length tod = n
  /\ forall i, (i < n)%nat ->
     let q := nth i qs 0%nat in
     let psi := PI - nth i pa 0 * (PI / 180) in
     nth i tod 0
     = Re (convolved Y L (mode aI aI) (mode bI bI) (if symmetric then [0%Z] else spins_both S) q psi)
       + Re (convolved Y L (mode (plus2 aE aB) (minus2 aE aB)) (mode bm bp)
               (if symmetric then [2%Z] else spins_both S) q psi
             * cis (4 * angle_at h i + 2 * (polang * (PI / 180))))%C.
Proof.
  intros L HY HP RI RE RB Rb Hb HS H2 Lq La Hh Hq.
  pose proof (no_plate Y npix L a2m a2ms HY HP aI aE aB RI RE RB bI bm bp symmetric S Rb Hb HS H2) as E.
  match type of E with _ = Ok ?x => set (d := x) in E end.
  destruct (tod_no_plate Y npix L a2m a2ms HY HP aI aE aB RI RE RB bI bm bp symmetric S n qs pa polang h d)
    as (tod & E1 & E2 & V); auto.
  exists d, tod. split; [|auto]. rewrite init_is_make. fold L. rewrite E. reflexivity.
Qed.
