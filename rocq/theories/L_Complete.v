(** * Settings with which nothing fails *)
From Coq Require Import Reals Lra.
From Verif Require Import Common LibList M_Chunks M_Steps M_Hwp M_Mpi M_Detpair M_Scan S_Chunks S_Detpair S_Scan S_Complete
  L_Chunks L_Steps L_Hwp L_Scan L_Scan4 L_Scan15.
Open Scope R_scope.

Definition gen_ok {A} (g : gen A) : Prop := (g_pos g < length (g_angles g))%nat.

Lemma gen_next {A} (g : gen A) : gen_ok g -> exists a g', next g = Ok (a, g') /\ gen_ok g' /\ g_angles g' = g_angles g.
Proof.
  unfold gen_ok, next, index. intros H. destruct (nth_error (g_angles g) (g_pos g)) as [a|] eqn:E.
  - cbn [bind]. eexists _, _. split; [reflexivity|]. cbn. split; [|reflexivity]. apply Nat.mod_upper_bound. lia.
  - apply nth_error_None in E. lia.
Qed.
Lemma gen_fresh {A} (l : list A) : l <> [] -> gen_ok (angle_gen l).
Proof. unfold gen_ok. destruct l; [congruence|]. cbn. lia. Qed.

Lemma step_loop_ok {A} (add : A -> A -> A) size : forall n arr i a g, gen_ok g ->
  exists x j a' g', step_loop add n arr i size a g = Ok (x, j, a', g') /\ gen_ok g' /\ g_angles g' = g_angles g.
Proof.
  induction n as [|n IH]; intros arr i a g H; cbn [step_loop]; [eauto 10|].
  destruct (gen_next g H) as (b & g1 & E & H1 & A1). rewrite E. cbn [bind].
  destruct (IH (add_slice add arr i (i + size) b) (i + size)%nat b g1 H1) as (x & j & a' & g' & E' & H' & A').
  rewrite E'. exists x, j, a', g'. split; auto. split; auto. congruence.
Qed.

Lemma step_array_ok {A} (add : A -> A -> A) arr d : (0 < st_size d)%nat -> gen_ok (st_gen d) ->
  exists l d', step_array add arr d = Ok (l, d') /\ length l = length arr /\ st_size d' = st_size d
    /\ gen_ok (st_gen d').
Proof.
  intros Hs Hg.
  assert (X : exists l d', step_array add arr d = Ok (l, d') /\ st_size d' = st_size d /\ gen_ok (st_gen d')).
  { unfold step_array. destruct (Nat.eqb_spec (st_size d) 0); [lia|].
    destruct (_ =? 1)%nat.
    - destruct (_ <=? _)%nat; [eexists _, _; split; [reflexivity|]; auto|].
      destruct (gen_next _ Hg) as (a & g & -> & Hg' & _). cbn [bind]. eexists _, _. split; [reflexivity|]. auto.
    - destruct (step_loop_ok add (st_size d)
        ((if ceil_div (length arr - st_rem d) (st_size d) <? 1 then 1 else ceil_div (length arr - st_rem d) (st_size d)) - 1)%nat
        (if (st_rem d =? 0)%nat then arr else add_slice add arr 0 (st_rem d) (st_angle d)) (st_rem d) (st_angle d) _ Hg)
        as (x & j & a & g & E & Hg' & _).
      rewrite E. cbn [bind].
      destruct (gen_next _ Hg') as (b & g2 & -> & Hg2 & _). cbn [bind]. eexists _, _. split; [reflexivity|]. auto. }
  destruct X as (l & d' & E & S' & G'). exists l, d'. split; auto. split; auto. eapply step_array_length; eauto.
Qed.

(** Settings, at any moment of a scan. *)
Record steady (m : hmode) (u : strat) : Prop := mksteady {
  sy_rot : rot_fine (ir_rot (sg_rot u));
  sy_rot_gen : gen_ok (ir_gen (sg_rot u));
  sy_rot_angles : ir_angles (sg_rot u) <> [];
  sy_mode : h_mode (sg_hwp u) = m;
  sy_known : m <> OtherMode;
  sy_hwp_size : m = Stepped -> (0 < st_size (h_steps (sg_hwp u)))%nat;
  sy_hwp_gen : gen_ok (st_gen (h_steps (sg_hwp u)));
  sy_hwp_angles : h_angles (sg_hwp u) <> [];
  sy_el : forall e, sg_el u = Some e -> (el_on e = true -> (0 < st_size (el_st e))%nat)
            /\ gen_ok (st_gen (el_st e)) /\ el_steps e <> [] }.

Lemma steady_reset m u : steady m u -> steady m (reset u).
Proof.
  intros [H1 H2 H3 H4 H5 H6 H7 H8 H9]. constructor; cbn; auto using gen_fresh.
  - unfold rot_fine, set_rem in *. cbn. intros P. destruct (H1 P). split; [auto|lia].
  - intros e He. unfold reset_el_steps in He. destruct (sg_el u) as [e0|]; [|discriminate].
    injection He as <-. cbn. destruct (H9 e0 eq_refl) as (A & B & C). auto using gen_fresh.
Qed.

Lemma steady_sub m u c : steady m u -> (c_start c < c_end c)%Z ->
  exists l u', run_op (OSub c) u = (Ok (XSub l), u') /\ steady m u'
    /\ tiles (c_start c) (c_end c) (map span l) /\ forall x, In x l -> c_cidx x = c_cidx c.
Proof.
  intros [H1 H2 H3 H4 H5 H6 H7 H8 H9] Hc. cbn [run_op].
  assert (X : exists l r, subpart_chunk (ir_rot (sg_rot u)) c = Ok (l, r)).
  { unfold subpart_chunk. destruct (rot_period (ir_rot (sg_rot u))) eqn:P; cbn [negb]; [|eauto].
    destruct (H1 P) as [Hp _]. destruct (Z.eqb_spec (rot_chunk_size (ir_rot (sg_rot u))) 0); [lia|].
    destruct (_ =? 1)%Z.
    - destruct (_ >=? _)%Z; eauto.
    - destruct (if (rot_remainder (ir_rot (sg_rot u)) =? 0)%Z then _ else _) as [first start].
      destruct (full_rot_chunks _ _ _ _). eauto. }
  destruct X as (l & r & E). rewrite E.
  destruct (subpart_tiles _ _ _ _ H1 Hc E) as (T & F & I & P).
  eexists _, _. split; [reflexivity|]. split; [constructor; cbn; auto|]. auto.
Qed.

Lemma steady_rotate m u : steady m u -> exists x u', run_op ORotate u = (Ok x, u') /\ steady m u'.
Proof.
  intros [H1 H2 H3 H4 H5 H6 H7 H8 H9]. cbn [run_op]. unfold rotate_instr.
  destruct (rot_period (ir_rot (sg_rot u))).
  - destruct (gen_next _ H2) as (a & g & -> & G & _). cbn [bind].
    eexists _, _. split; [reflexivity|]. constructor; cbn; auto.
  - eexists _, _. split; [reflexivity|]. constructor; cbn; auto.
Qed.

Definition hwp_fit (n : nat) (h : hwp_out) : Prop :=
  match h with HScalar _ => True | HArray l => length l = n | HStale => False end.

Lemma last_item_ok {A} (l : list A) : l <> [] -> exists x, last_item l = Ok x.
Proof.
  unfold last_item. intros H. destruct (rev l) as [|x r] eqn:E; [|eauto].
  apply (f_equal (@rev A)) in E. rewrite rev_involutive in E. contradiction.
Qed.
Lemma nonempty_length {A} (l : list A) : (0 < length l)%nat -> l <> [].
Proof. destruct l; cbn; [lia|discriminate]. Qed.

Lemma steady_hwp m u n : steady m u -> (0 < n)%nat ->
  exists h u', run_op (OHwp None n) u = (Ok (XHwp h), u') /\ steady m u' /\ hwp_fit n h.
Proof.
  intros [H1 H2 H3 H4 H5 H6 H7 H8 H9] Hn. cbn [run_op]. unfold rotate_hwp. subst m.
  assert (Still : forall a, exists h u', (Ok (XHwp (HScalar a)), mkstrat (sg_fsamp u) (sg_rot u) (sg_hwp u) (sg_el u)) = (Ok (XHwp h), u')
    /\ steady (h_mode (sg_hwp u)) u' /\ hwp_fit n h).
  { intros a. eexists _, _. split; [reflexivity|]. split; [constructor; auto|exact I]. }
  destruct (h_mode (sg_hwp u)) eqn:M; [apply Still| | |congruence];
    (destruct (h_freq (sg_hwp u)) as [f|]; [|apply Still]);
    (destruct (truthy (Some f)) eqn:Tf; cbn [negb]; [|apply Still]).
  - destruct (step_array_ok Rplus (repeat 0 n) (h_steps (sg_hwp u)) (H6 eq_refl) H7) as (l & d & E & L & S' & G).
    rewrite E. cbn [bind]. rewrite repeat_length in L.
    destruct (last_item_ok (map radians l)) as (x & Ex); [apply nonempty_length; rewrite map_length; lia|].
    rewrite Ex. cbn [bind]. eexists _, _. split; [reflexivity|]. split.
    + constructor; cbn; auto. intros _. rewrite S'. auto.
    + cbn. rewrite map_length. exact L.
  - match goal with |- context [last_item ?l] => destruct (last_item_ok l) as (x & Ex) end.
    { apply nonempty_length. unfold linspace. rewrite map_length, seq_length. exact Hn. }
    rewrite Ex. cbn [bind]. eexists _, _. split; [reflexivity|]. split.
    + constructor; cbn; auto.
    + cbn. unfold linspace. rewrite map_length, seq_length. reflexivity.
Qed.

Lemma steady_el m u arr : steady m u ->
  exists l u', run_op (OEl arr) u = (Ok (XEl l), u') /\ steady m u' /\ length l = length arr.
Proof.
  intros [H1 H2 H3 H4 H5 H6 H7 H8 H9]. cbn [run_op].
  destruct (sg_el u) as [e|] eqn:Ee; [|eexists _, _; split; [reflexivity|]; split; [constructor; auto; congruence|auto]].
  destruct (el_on e) eqn:On; cbn [negb]; [|eexists _, _; split; [reflexivity|]; split; [constructor; auto; rewrite Ee; auto|auto]].
  destruct (H9 e eq_refl) as (S1 & G & N).
  destruct (step_array_ok Rplus arr (el_st e) (S1 On) G) as (l & d & E & L & S' & G').
  rewrite E. eexists _, _. split; [reflexivity|]. split; [|exact L].
  constructor; cbn; auto. intros e' He. injection He as <-. cbn. rewrite S'. auto.
Qed.

(** Sound settings are accepted and steady. *)
Lemma trunc_pos x : 1 <= x -> (1 <= trunc x)%Z.
Proof.
  intros H. unfold trunc. destruct (Rle_dec 0 x) as [_|C]; [|exfalso; apply C; lra].
  destruct (base_Int_part x) as [_ L].
  assert (I : IZR 0 < IZR (Int_part x)) by lra. apply lt_IZR in I. lia.
Qed.

Lemma truthy_inv x : truthy x = true -> exists v, x = Some v /\ v <> 0.
Proof. destruct x as [v|]; cbn; [|discriminate]. destruct (Req_EM_T v 0); [discriminate|eauto]. Qed.

Lemma sound_steady f u : sound_settings f -> configure f = Ok u -> steady (cf_mode f) u.
Proof.
  intros [P RA M HS HA EL] C. unfold configure in C. inv_bind C h Hh. inv_bind C e He. injection C as <-.
  assert (HA' : match cf_hwp_angles f with Some a => a | None => default_angles (cf_hwp_start f) 22.5 16 end <> []).
  { destruct (cf_hwp_angles f); [congruence|]. apply nonempty_length. unfold default_angles. rewrite map_length, seq_length. lia. }
  assert (Hw : h_mode h = cf_mode f /\ (cf_mode f = Stepped -> (0 < st_size (h_steps h))%nat)
               /\ gen_ok (st_gen (h_steps h)) /\ h_angles h <> []).
  { unfold set_hwp_mod in Hh. destruct (cf_mode f) eqn:Em; try (injection Hh as <-; cbn; repeat split; auto using gen_fresh; discriminate).
    destruct (HS eq_refl) as (q & Eq & Q0 & Q1). rewrite Eq in Hh.
    destruct (Req_EM_T q 0); [contradiction|]. injection Hh as <-. cbn. repeat split; auto using gen_fresh.
    intros _. pose proof (trunc_pos _ Q1). lia. }
  destruct Hw as (W1 & W2 & W3 & W4).
  assert (RA' : match cf_rot_angles f with Some a => a | None => default_angles (cf_rot_start f) 45 8 end <> []).
  { destruct (cf_rot_angles f); [congruence|]. apply nonempty_length. unfold default_angles. rewrite map_length, seq_length. lia. }
  constructor; cbn; auto using gen_fresh.
  - unfold rot_fine. cbn. intros T. rewrite T. destruct (truthy_inv _ T) as (p & Ep & P0). rewrite Ep.
    pose proof (trunc_pos _ (P p Ep P0)). lia.
  - intros e' ->. destruct (cf_el f) as [[p l]|] eqn:Ef; [|discriminate].
    inv_bind He e0 He0. injection He as <-. destruct (EL p l eq_refl) as [L0 L1].
    unfold set_el_steps in He0. inv_bind He0 a Ha. injection He0 as <-. cbn [el_on el_st el_steps st_size st_gen].
    assert (N : match l with Some s => s | None => map IZR [0; 1; 2; 3; 4; 4; 3; 2; 1; 0]%Z end <> []).
    { destruct l; [congruence|discriminate]. }
    split; [|split; [apply gen_fresh; exact N|exact N]].
    intros T. destruct (truthy_inv (Some p) T) as (v & Ev & V0). injection Ev as <-.
    pose proof (trunc_pos _ (L1 V0)). lia.
Qed.

Lemma sound_accepted f : sound_settings f -> exists u, configure f = Ok u.
Proof.
  intros [P RA M HS HA EL]. unfold configure.
  assert (X : exists h, set_hwp_mod (cf_fsamp f) (cf_mode f) (cf_freq f) (cf_hwp_start f) (cf_hwp_angles f) = Ok h).
  { unfold set_hwp_mod. destruct (cf_mode f); eauto. destruct (HS eq_refl) as (q & -> & Q0 & _).
    destruct (Req_EM_T q 0); [contradiction|eauto]. }
  destruct X as (h & ->). cbn [bind]. destruct (cf_el f) as [[p l]|]; [|cbn; eauto].
  destruct (EL p l eq_refl) as [L0 _]. unfold set_el_steps. destruct l as [[|a l]|]; [congruence| |]; cbn; eauto.
Qed.
