(** * Proofs about generators and stepped arrays *)
From Verif Require Import Common LibList M_Steps.
From Coq Require Import ZifyBool ZifyNat.
Open Scope nat_scope.
Ltac Zify.zify_post_hook ::= Z.div_mod_to_equations.

Section Proofs.
  Context {A : Type}.

  Lemma next_ok (angles : list A) q :
    angles <> [] ->
    exists a, nth_error angles (q mod length angles) = Some a
      /\ next (mkgen angles (q mod length angles)) = Ok (a, mkgen angles (S q mod length angles)).
  Proof.
    intros H. assert (L : length angles <> 0) by (destruct angles; [congruence|discriminate]).
    assert (Hlt : q mod length angles < length angles) by (apply Nat.mod_upper_bound; auto).
    destruct (nth_error angles (q mod length angles)) as [a|] eqn:E.
    - exists a. split; auto. unfold next, index; cbn [g_angles g_pos]. rewrite E. cbn [bind].
      do 3 f_equal. rewrite Nat.add_mod_idemp_l by auto. f_equal. lia.
    - apply nth_error_None in E. lia.
  Qed.

  Lemma draw_spec (angles : list A) k q :
    angles <> [] ->
    exists l, draw k (mkgen angles (q mod length angles))
                = Ok (l, mkgen angles ((q + k) mod length angles))
      /\ length l = k
      /\ forall i, i < k -> nth_error l i = nth_error angles ((q + i) mod length angles).
  Proof.
    intros H. revert q; induction k as [|k IH]; intros q.
    - exists []. rewrite Nat.add_0_r. repeat split; auto. intros; lia.
    - destruct (next_ok angles q H) as (a & Ea & En).
      destruct (IH (S q)) as (l & El & Ll & Hl).
      exists (a :: l). cbn [draw]. rewrite En. cbn [bind]. rewrite El. cbn [bind].
      replace (S q + k) with (q + S k) by lia.
      split; [reflexivity|]. split; [simpl; congruence|].
      intros [|i] Hi; cbn [nth_error].
      + now rewrite Nat.add_0_r.
      + rewrite Hl by lia. f_equal. f_equal. lia.
  Qed.

  Lemma draw_from_start (angles : list A) k :
    angles <> [] ->
    exists l g, draw k (angle_gen angles) = Ok (l, g)
      /\ length l = k
      /\ forall i, i < k -> nth_error l i = nth_error angles (i mod length angles).
  Proof.
    intros H. destruct (draw_spec angles k 0 H) as (l & E & L & N).
    rewrite Nat.mod_0_l in E by (destruct angles; [congruence|discriminate]).
    exists l. eexists. split; [exact E|]. auto.
  Qed.

  Lemma draw_empty k : k <> 0 -> draw k (angle_gen (@nil A)) = Err IndexError.
  Proof. destruct k; [congruence|reflexivity]. Qed.

  Context (add : A -> A -> A).

  Lemma add_slice_length arr i j v : length (add_slice add arr i j v) = length arr.
  Proof.
    unfold add_slice, slice.
    rewrite !app_length, map_length, !firstn_length, !skipn_length. lia.
  Qed.

  Lemma add_slice_nth arr i j v k :
    i <= j ->
    nth_error (add_slice add arr i j v) k
    = if (i <=? k) && (k <? j) then option_map (fun x => add x v) (nth_error arr k)
      else nth_error arr k.
  Proof.
    intros Hij. unfold add_slice, slice. rewrite Nat.max_r by auto.
    destruct (Nat.leb_spec i k) as [Hik|Hik]; cbn [andb].
    - destruct (Nat.le_gt_cases (length arr) i) as [Hl|Hl].
      + (* slice empty *)
        rewrite (skipn_all2 arr) by auto. rewrite firstn_nil. cbn [map app].
        rewrite (skipn_all2 arr) by lia. rewrite app_nil_r, firstn_all2 by auto.
        assert (nth_error arr k = None) as -> by (apply nth_error_None; lia).
        now destruct (k <? j).
      + rewrite nth_error_app2; rewrite firstn_length, Nat.min_l by lia; [|lia].
        destruct (Nat.ltb_spec k j) as [Hkj|Hkj].
        * destruct (Nat.le_gt_cases (length arr) k).
          { assert (nth_error arr k = None) as -> by (apply nth_error_None; lia).
            apply nth_error_None. rewrite app_length, map_length, firstn_length, !skipn_length. lia. }
          rewrite nth_error_app1 by (rewrite map_length, firstn_length, skipn_length; lia).
          rewrite nth_error_map, nth_error_firstn by lia. rewrite nth_error_skipn.
          now replace (i + (k - i)) with k by lia.
        * destruct (Nat.le_gt_cases (length arr) k).
          { assert (nth_error arr k = None) as -> by (apply nth_error_None; lia).
            apply nth_error_None. rewrite app_length, map_length, firstn_length, !skipn_length. lia. }
          rewrite nth_error_app2; rewrite map_length, firstn_length, skipn_length; [|lia].
          rewrite nth_error_skipn. f_equal. lia.
    - destruct (Nat.le_gt_cases (length arr) k).
      { assert (nth_error arr k = None) as -> by (apply nth_error_None; lia).
        apply nth_error_None. rewrite !app_length, map_length, !firstn_length, !skipn_length. lia. }
      rewrite nth_error_app1 by (rewrite firstn_length; lia).
      apply nth_error_firstn; auto.
  Qed.

  Lemma add_slice_empty arr i v : add_slice add arr i i v = arr.
  Proof.
    unfold add_slice, slice. rewrite Nat.sub_diag, Nat.max_id. cbn [firstn map app].
    apply firstn_skipn.
  Qed.

  (** Sample [i] of the array, [q] draws made before position [s0]. *)
  Definition stepped (angles : list A) (idx : nat) (x : option A) : option A :=
    match x, nth_error angles (idx mod length angles) with
    | Some x, Some a => Some (add x a)
    | _, _ => None
    end.

  Lemma stepped_map angles q a x :
    nth_error angles (q mod length angles) = Some a ->
    option_map (fun y => add y a) x = stepped angles q x.
  Proof. intros E. unfold stepped. rewrite E. now destruct x. Qed.

  Lemma step_loop_spec angles n arr s0 size ang q :
    angles <> [] -> 0 < size ->
    exists out a,
      step_loop add n arr s0 size ang (mkgen angles (q mod length angles))
        = Ok (out, s0 + n * size, a, mkgen angles ((q + n) mod length angles))
      /\ length out = length arr
      /\ forall i, nth_error out i
           = if (s0 <=? i) && (i <? s0 + n * size)
             then stepped angles (q + (i - s0) / size) (nth_error arr i)
             else nth_error arr i.
  Proof.
    intros Hne Hs. revert arr s0 ang q; induction n as [|n IH]; intros arr s0 ang q.
    - cbn [step_loop]. exists arr, ang. replace (s0 + 0 * size) with s0 by lia. rewrite Nat.add_0_r.
      repeat split; auto. intros i.
      destruct (Nat.leb_spec s0 i), (Nat.ltb_spec i s0); cbn [andb]; auto; lia.
    - cbn [step_loop]. destruct (next_ok angles q Hne) as (a & Ea & En).
      rewrite En. cbn [bind].
      destruct (IH (add_slice add arr s0 (s0 + size) a) (s0 + size) a (S q))
        as (out & a' & E & L & N).
      exists out, a'. rewrite E.
      replace (s0 + size + n * size) with (s0 + S n * size) by lia.
      replace (S q + n) with (q + S n) by lia.
      split; [reflexivity|]. split; [now rewrite L, add_slice_length|].
      intros i. rewrite N, add_slice_nth by lia.
      destruct (Nat.leb_spec (s0 + size) i) as [H1|H1]; cbn [andb].
      + destruct (Nat.leb_spec s0 i); [|lia]. cbn [andb].
        destruct (Nat.ltb_spec i (s0 + size)); [lia|].
        replace (s0 + S n * size) with (s0 + size + n * size) by lia.
        destruct (Nat.ltb_spec i (s0 + size + n * size)); auto.
        f_equal.
        assert ((i - s0) / size = 1 + (i - (s0 + size)) / size); [|lia].
        replace (i - s0) with (1 * size + (i - (s0 + size))) by lia.
        rewrite Nat.div_add_l by lia. lia.
      + destruct (Nat.leb_spec s0 i); cbn [andb]; auto.
        destruct (Nat.ltb_spec i (s0 + size)); [|lia].
        destruct (Nat.ltb_spec i (s0 + S n * size)); [|nia].
        rewrite Nat.div_small by lia. rewrite Nat.add_0_r.
        apply stepped_map; auto.
  Qed.

  Lemma ceil_div_spec a b : 0 < b -> ceil_div a b * b < a + b /\ a <= ceil_div a b * b.
  Proof. intros. unfold ceil_div. nia. Qed.

  (** State of the stepper before mission sample [k]; [rem] samples are left of
      the current step and [angle] is what they get. *)
  Definition steps_at (angles : list A) (size : nat) (k : nat) (d : steps A) : Prop :=
    st_size d = size /\ 0 < size /\ st_rem d < size
    /\ (k + st_rem d) mod size = 0
    /\ st_gen d = mkgen angles ((k + st_rem d) / size mod length angles).

  (** One chunk. *)
  Lemma step_array_spec angles size k d arr :
    angles <> [] -> steps_at angles size k d ->
    exists out d',
      step_array add arr d = Ok (out, d')
      /\ steps_at angles size (k + length arr) d'
      /\ length out = length arr
      /\ (forall i, nth_error out i
            = if i <? st_rem d then option_map (fun x => add x (st_angle d)) (nth_error arr i)
              else stepped angles ((k + i) / size) (nth_error arr i))
      /\ (0 < st_rem d' ->
            if length arr <=? st_rem d then st_angle d' = st_angle d
            else nth_error angles ((k + length arr) / size mod length angles) = Some (st_angle d'))
      /\ (st_rem d < length arr ->
            nth_error angles ((k + length arr - 1) / size mod length angles) = Some (st_angle d')).
  Proof.
    intros Hne (Es & Hs & Hr & Hm & Eg).
    destruct d as [sz ang rem g]. cbn [st_size st_angle st_rem st_gen] in *. subst sz g.
    set (n := length arr).
    assert (exists q, k + rem = q * size) as [q Hq] by (exists ((k + rem) / size); nia).
    assert (Hqd : (k + rem) / size = q) by (rewrite Hq; apply Nat.div_mul; lia).
    rewrite Hqd.
    unfold step_array. cbn [st_size st_angle st_rem st_gen].
    destruct (Nat.eqb_spec size 0); [lia|].
    pose proof (ceil_div_spec (length arr - rem) size Hs) as [HB1 HB2].
    set (c := ceil_div (length arr - rem) size) in *. fold n in HB1, HB2 |- *.
    destruct (Nat.leb_spec n rem) as [Hle|Hgt].
    - assert (c = 0) as -> by nia. change (0 <? 1) with true; change (1 =? 1) with true; cbv iota.
      do 2 eexists. split; [reflexivity|]. cbn [st_size st_angle st_rem st_gen].
      split.
      { unfold steps_at; cbn [st_size st_angle st_rem st_gen].
        replace (k + n + (rem - n)) with (k + rem) by lia. rewrite Hqd. repeat split; auto; lia. }
      split; [apply add_slice_length|].
      split.
      { intros i. rewrite add_slice_nth by lia. change (0 <=? i) with true; cbn [andb].
        destruct (Nat.ltb_spec i n), (Nat.ltb_spec i rem); auto; try lia.
        - assert (nth_error arr i = None) as -> by (apply nth_error_None; fold n; lia). reflexivity.
        - assert (nth_error arr i = None) as -> by (apply nth_error_None; fold n; lia). reflexivity. }
      split; [auto|lia].
    - assert (Hc : 1 <= c) by nia.
      destruct (Nat.ltb_spec c 1); [lia|].
      assert (Hki : forall i, rem <= i -> (k + i) / size = q + (i - rem) / size).
      { intros i Hi. replace (k + i) with (q * size + (i - rem)) by lia.
        rewrite Nat.div_add_l by lia. reflexivity. }
      destruct (Nat.eqb_spec c 1) as [Hc1|Hc1].
      + destruct (next_ok angles q Hne) as (a & Ea & En). rewrite En. cbn [bind].
        rewrite skipn_length, !add_slice_length. fold n.
        do 2 eexists. split; [reflexivity|].
        cbn [st_size st_angle st_rem st_gen].
        split.
        { unfold steps_at; cbn [st_size st_angle st_rem st_gen].
          assert (E : k + n + (size - (n - rem)) = S q * size) by lia.
          rewrite E, Nat.mod_mul, Nat.div_mul by lia. repeat split; auto; lia. }
        split; [now rewrite !add_slice_length|].
        split.
        { intros i. rewrite add_slice_nth by lia. rewrite add_slice_nth by lia. change (0 <=? i) with true; cbn [andb].
          destruct (Nat.leb_spec rem i), (Nat.ltb_spec i rem); try lia; cbn [andb]; auto.
          destruct (Nat.ltb_spec i n).
          - rewrite Hki by lia. rewrite Nat.div_small by lia. rewrite Nat.add_0_r.
            apply stepped_map; auto.
          - assert (nth_error arr i = None) as -> by (apply nth_error_None; fold n; lia). reflexivity. }
        split.
        * intros Hrem. replace (k + n) with (k + n) by lia. rewrite Hki by lia.
          rewrite Nat.div_small by lia. rewrite Nat.add_0_r. exact Ea.
        * intros _. replace (k + n - 1) with (k + (n - 1)) by lia. rewrite Hki by lia.
          rewrite Nat.div_small by lia. rewrite Nat.add_0_r. exact Ea.
      + set (arr1 := if rem =? 0 then arr else add_slice add arr 0 rem ang).
        assert (Earr : arr1 = add_slice add arr 0 rem ang).
        { unfold arr1. destruct (Nat.eqb_spec rem 0) as [->|]; auto; now rewrite ?add_slice_empty. }
        clearbody arr1. subst arr1.
        destruct (step_loop_spec angles (c - 1) (add_slice add arr 0 rem ang) rem size ang q Hne Hs)
          as (out & a0 & E & L & N).
        rewrite E. cbn [bind].
        destruct (next_ok angles (q + (c - 1)) Hne) as (a & Ea & En). rewrite En. cbn [bind].
        rewrite skipn_length, !add_slice_length, L, add_slice_length. fold n.
        set (e := rem + (c - 1) * size) in *.
        assert (He : e < n <= e + size) by (unfold e; nia).
        do 2 eexists. split; [reflexivity|].
        cbn [st_size st_angle st_rem st_gen].
        split.
        { unfold steps_at; cbn [st_size st_angle st_rem st_gen].
          assert (EE : k + n + (size - (n - e)) = (S (q + (c - 1))) * size) by (unfold e in *; nia).
          rewrite EE, Nat.mod_mul, Nat.div_mul by lia. repeat split; auto; lia. }
        split; [now rewrite add_slice_length, L, add_slice_length|].
        assert (Hdiv : forall i, e <= i -> i < e + size -> (i - rem) / size = c - 1).
        { intros i Hi1 Hi2. unfold e in *. symmetry. apply Nat.div_unique with (i - rem - (c - 1) * size); nia. }
        split.
        { intros i. rewrite add_slice_nth by lia. rewrite N.
          rewrite add_slice_nth by lia. change (0 <=? i) with true; cbn [andb].
          destruct (Nat.ltb_spec i rem) as [Hi|Hi].
          - destruct (Nat.leb_spec e i); [unfold e in *; lia|]. cbn [andb].
            destruct (Nat.leb_spec rem i); [lia|]. reflexivity.
          - destruct (Nat.leb_spec rem i); [|lia]. cbn [andb]. rewrite Hki by lia.
            destruct (Nat.leb_spec e i), (Nat.ltb_spec i e); try lia; cbn [andb]; auto.
            destruct (Nat.ltb_spec i n).
            + rewrite Hdiv by lia. apply stepped_map; auto.
            + assert (nth_error arr i = None) as -> by (apply nth_error_None; fold n; lia). reflexivity. }
        split.
        * intros Hrem. rewrite Hki by lia. rewrite Hdiv by lia. exact Ea.
        * intros _. replace (k + n - 1) with (k + (n - 1)) by lia. rewrite Hki by lia.
          rewrite Hdiv by lia. exact Ea.
  Qed.

  Definition fresh_steps (size : nat) (ang : A) (angles : list A) : steps A :=
    mksteps size ang 0 (angle_gen angles).

  Lemma fresh_steps_at angles size ang :
    angles <> [] -> 0 < size -> steps_at angles size 0 (fresh_steps size ang angles).
  Proof.
    intros Hne Hs. unfold steps_at, fresh_steps, angle_gen.
    cbn [st_size st_angle st_rem st_gen]. change (0 + 0) with 0.
    assert (length angles <> 0) by (destruct angles; [congruence|discriminate]).
    rewrite Nat.mod_0_l, Nat.div_0_l, Nat.mod_0_l by lia. repeat split; auto; lia.
  Qed.

  (** What each sample must get. *)
  Definition angle_ok (angles : list A) (size k : nat) (d : steps A) : Prop :=
    0 < st_rem d -> nth_error angles (k / size mod length angles) = Some (st_angle d).

  Lemma step_arrays_spec angles size arrs k d :
    angles <> [] -> steps_at angles size k d -> angle_ok angles size k d ->
    exists outs d',
      step_arrays add arrs d = Ok (outs, d')
      /\ steps_at angles size (k + length (concat arrs)) d'
      /\ map (@length A) outs = map (@length A) arrs
      /\ forall i, nth_error (concat outs) i
           = stepped angles ((k + i) / size) (nth_error (concat arrs) i).
  Proof.
    intros Hne. revert k d; induction arrs as [|arr arrs IH]; intros k d Hat Hok.
    - exists [], d. cbn. rewrite Nat.add_0_r. repeat split; auto; try apply Hat.
      intros [|i]; reflexivity.
    - destruct (step_array_spec angles size k d arr Hne Hat)
        as (out & d1 & E1 & Hat1 & L1 & N1 & R1 & _).
      assert (Hok1 : angle_ok angles size (k + length arr) d1).
      { intros Hr. specialize (R1 Hr).
        destruct (Nat.leb_spec (length arr) (st_rem d)) as [Hle|]; auto.
        rewrite R1. destruct Hat as (Es & Hs & Hrm & Hm & Eg).
        destruct Hat1 as (_ & _ & _ & Hm1 & Eg1).
        assert (Hrd : 0 < st_rem d \/ st_rem d = 0) by lia.
        (* the remaining samples belong to the same step *)
        assert (E : st_rem d1 = st_rem d - length arr).
        { unfold step_array in E1. rewrite Es in E1.
          destruct (Nat.eqb_spec size 0); [lia|].
          assert (ceil_div (length arr - st_rem d) size = 0) as Hc.
          { replace (length arr - st_rem d) with 0 by lia. unfold ceil_div.
            apply Nat.div_small. lia. }
          rewrite Hc in E1. change (0 <? 1) with true in E1; change (1 =? 1) with true in E1; cbv iota in E1.
          destruct (Nat.leb_spec (length arr) (st_rem d)); [|lia].
          injection E1 as <- <-. reflexivity. }
        rewrite <- Hok by lia. f_equal. f_equal.
        assert (exists q, k + st_rem d = q * size) as [q Hq]
          by (exists ((k + st_rem d) / size); nia).
        destruct q as [|q]; [lia|]. cbn [Nat.mul] in Hq.
        transitivity q; [symmetry; apply Nat.div_unique with (size - st_rem d + length arr); lia|].
        apply Nat.div_unique with (size - st_rem d); lia. }
      destruct (IH (k + length arr) d1 Hat1 Hok1) as (outs & d2 & E2 & Hat2 & L2 & N2).
      exists (out :: outs), d2. cbn [step_arrays]. rewrite E1. cbn [bind]. rewrite E2. cbn [bind].
      split; [reflexivity|]. cbn [concat map]. rewrite app_length, Nat.add_assoc.
      split; [exact Hat2|]. split; [congruence|].
      intros i. destruct (Nat.lt_ge_cases i (length arr)).
      + rewrite !nth_error_app1 by congruence. rewrite N1.
        destruct (Nat.ltb_spec i (st_rem d)) as [Hi|Hi]; auto.
        destruct Hat as (Es & Hs & Hrm & Hm & Eg).
        assert (exists q, k + st_rem d = q * size) as [q Hq]
          by (exists ((k + st_rem d) / size); nia).
        rewrite (stepped_map angles (k / size)) by (apply Hok; lia).
        f_equal.
        destruct q as [|q]; [lia|]. cbn [Nat.mul] in Hq.
        transitivity q; [symmetry; apply Nat.div_unique with (size - st_rem d); lia|].
        apply Nat.div_unique with (size - st_rem d + i); lia.
      + rewrite !nth_error_app2 by congruence. rewrite N2, L1. f_equal. f_equal. lia.
  Qed.

  (** From a freshly configured or reset stepper. *)
  Lemma step_arrays_fresh angles size ang arrs :
    angles <> [] -> 0 < size ->
    exists outs d',
      step_arrays add arrs (fresh_steps size ang angles) = Ok (outs, d')
      /\ map (@length A) outs = map (@length A) arrs
      /\ forall k x, nth_error (concat arrs) k = Some x ->
           exists a, nth_error angles ((k / size) mod length angles) = Some a
                     /\ nth_error (concat outs) k = Some (add x a).
  Proof.
    intros Hne Hs.
    destruct (step_arrays_spec angles size arrs 0 _ Hne (fresh_steps_at angles size ang Hne Hs))
      as (outs & d' & E & _ & L & N).
    { intros Hr. cbn in Hr. lia. }
    exists outs, d'. repeat split; auto. intros k x Hk.
    specialize (N k). rewrite Hk in N. cbn [Nat.add] in N. unfold stepped in N.
    destruct (nth_error angles ((k / size) mod length angles)) as [a|] eqn:Ea.
    - exists a. auto.
    - exfalso. apply nth_error_None in Ea.
      assert (length angles <> 0) by (destruct angles; [congruence|discriminate]).
      pose proof (Nat.mod_upper_bound (k / size) (length angles)). lia.
  Qed.

  Lemma step_zero_size arr d : st_size d = 0 -> step_array add arr d = Err ZeroDivisionError.
  Proof. intros H. unfold step_array. now rewrite H. Qed.
End Proofs.
