(** * The course of a scan follows the settings at every sample *)
From Coq Require Import Reals Lra.
From Verif Require Import Common LibList M_Chunks M_Steps M_Hwp M_Mpi M_Detpair M_Scan
  S_Chunks S_Hwp S_Detpair S_Scan S_Saved L_Chunks L_Steps L_Hwp L_Mpi L_Detpair L_Scan L_Scan2 L_Scan3 L_Scan4 L_Scan5
  L_Scan6 L_Scan7 L_Scan8 L_Scan10 L_Scan11 L_Scan12 L_Scan13 L_Scan14 L_Scan15 L_Scan16.
Open Scope R_scope.

(** ** Positions *)
Lemma before_tiles : forall (l : list chunk) lo hi i x, tiles lo hi (map span l) -> nth_error l i = Some x ->
  Z.of_nat (before (map csize l) i) = (c_start x - lo)%Z.
Proof.
  induction l as [|y l IH]; intros lo hi i x T E; [destruct i; discriminate|].
  cbn [map tiles] in T. destruct T as (E0 & Hlt & T). cbn in E0.
  destruct i as [|i]; cbn in E.
  - injection E as ->. unfold before. cbn. lia.
  - specialize (IH _ _ _ _ T E). unfold before in *. cbn [map firstn fold_right]. unfold csize at 1. cbn [span fst snd] in *. lia.
Qed.

Lemma nth_concat {A} : forall (ls : list (list A)) j l r, nth_error ls j = Some l -> (r < length l)%nat ->
  nth_error (concat ls) (before (map (@length A) ls) j + r) = nth_error l r.
Proof.
  induction ls as [|x ls IH]; intros j l r E H; [destruct j; discriminate|].
  destruct j as [|j]; cbn in E.
  - injection E as ->. unfold before. cbn. apply nth_error_app1. auto.
  - unfold before in *. cbn [map firstn fold_right concat]. rewrite nth_error_app2 by lia.
    rewrite <- (IH _ _ _ E H). f_equal. lia.
Qed.

Lemma subpart_all_tiles : forall cs r subss r1 lo hi, rot_fine r -> tiles lo hi (map span cs) ->
  subpart_all r cs = Ok (subss, r1) ->
  tiles lo hi (map span (concat subss)) /\ length subss = length cs
  /\ (forall q c subs, nth_error cs q = Some c -> nth_error subss q = Some subs ->
        tiles (c_start c) (c_end c) (map span subs)).
Proof.
  induction cs as [|c cs IH]; intros r subss r1 lo hi Hr T H; cbn [subpart_all] in H.
  { injection H as <- <-. cbn in *. repeat split; auto. intros [|]; discriminate. }
  inv_bind H x Hx. destruct x as [subs r2]. inv_bind H y Hy. destruct y as [ss r3]. injection H as <- <-.
  cbn [map tiles span] in T. destruct T as (E0 & Hlt & T). unfold span in T at 1. cbn in E0, Hlt.
  destruct (subpart_tiles _ _ _ _ Hr Hlt Hx) as (T1 & Hr2 & _ & _).
  destruct (IH _ _ _ _ _ Hr2 T Hy) as (T2 & L & N).
  split; [|split].
  - cbn [concat]. rewrite map_app. eapply tiles_app; [|exact T2]. rewrite <- E0. exact T1.
  - cbn. congruence.
  - intros [|q] c' subs' E1 E2; cbn in E1, E2; [injection E1 as <-; injection E2 as <-; auto|eauto].
Qed.

Lemma stretch_at : forall (cs : list chunk) (bs : list (list R)) subss i y,
  nth_error (concat (map (fun x => map (cut (fst (fst x)) (snd (fst x))) (snd x)) (combine (combine cs bs) subss))) i = Some y ->
  length bs = length cs -> length subss = length cs ->
  exists q c b subs x, nth_error cs q = Some c /\ nth_error bs q = Some b /\ nth_error subss q = Some subs
    /\ In x subs /\ nth_error (concat subss) i = Some x /\ y = cut c b x.
Proof.
  induction cs as [|c cs IH]; intros [|b bs] [|subs subss] i y H L1 L2; try discriminate; [destruct i; discriminate|].
  cbn [combine map concat fst snd] in H.
  destruct (Nat.lt_ge_cases i (length subs)) as [Hi|Hi].
  - rewrite nth_error_app1 in H by (rewrite map_length; auto). rewrite nth_error_map in H.
    destruct (nth_error subs i) as [x|] eqn:Ex; [|discriminate]. injection H as <-.
    exists 0%nat, c, b, subs, x. cbn. repeat split; auto; [eapply nth_error_In; eauto|].
    rewrite nth_error_app1; auto.
  - rewrite nth_error_app2 in H by (rewrite map_length; auto). rewrite map_length in H.
    apply IH in H; [|cbn in L1; lia|cbn in L2; lia]. destruct H as (q & c' & b' & subs' & x & E1 & E2 & E3 & E4 & E5 & E6).
    exists (S q), c', b', subs', x. cbn. repeat split; auto. rewrite nth_error_app2; auto.
Qed.

(** ** Elevation *)
Lemma points_steps elev l : forall cs st,
  points elev cs (Some (mkel true l st))
  = do (o, d) <- step_arrays Rplus (map elev cs) st; Ok (o, Some (mkel true l d)).
Proof.
  intros cs. induction cs as [|c cs IH]; intros st; [reflexivity|].
  cbn [points elop el_on negb map step_arrays el_st el_steps].
  destruct (step_array Rplus (elev c) st) as [[o d]|]; cbn [bind]; auto. rewrite IH.
  destruct (step_arrays Rplus (map elev cs) d) as [[os d2]|]; reflexivity.
Qed.
Lemma points_same elev : forall cs e, match e with Some e => el_on e = false | None => True end ->
  points elev cs e = Ok (map elev cs, e).
Proof.
  induction cs as [|c cs IH]; intros e He; [reflexivity|]. cbn [points]. unfold elop.
  destruct e as [e|]; [rewrite He|]; cbn [negb bind]; rewrite IH; auto.
Qed.
Lemma step_arrays_err (A : Type) (add : A -> A -> A) arr arrs d : st_size d = 0%nat -> step_arrays add (arr :: arrs) d = Err ZeroDivisionError.
Proof. intros H. cbn. rewrite step_zero_size; auto. Qed.

Lemma trunc_pos x : (0 < Z.to_nat (trunc x))%nat -> (0 < trunc x)%Z.
Proof. lia. Qed.

(** The boresight arrays: as given, plus the planned steps. *)
Lemma bores_law elev cs cf u bs e1 : configure cf = Ok u ->
  (forall c, length (elev c) = csize c) -> tiles 0 (Z.of_nat (length (concat (map elev cs)))) (map span cs) ->
  points elev cs (sg_el u) = Ok (bs, e1) ->
  map (@length R) bs = map csize cs /\
  forall k x, nth_error (concat (map elev cs)) k = Some x ->
    exists a, planned_el cf (Z.of_nat k) = Some a /\ nth_error (concat bs) k = Some (x + a).
Proof.
  intros Hc Hl T H. unfold configure in Hc. inv_bind Hc h Hh. inv_bind Hc e He. injection Hc as <-. cbn [sg_el] in H.
  assert (ML : map (@length R) (map elev cs) = map csize cs).
  { rewrite map_map. apply map_ext. auto. }
  assert (Plain : points elev cs e = Ok (map elev cs, e) ->
     map (@length R) bs = map csize cs /\ forall k x, nth_error (concat (map elev cs)) k = Some x -> nth_error (concat bs) k = Some (x + 0)).
  { intros P. rewrite P in H. injection H as <- _. split; auto. intros k x E. rewrite E. f_equal. lra. }
  unfold planned_el. destruct (cf_el cf) as [[p st]|].
  2:{ injection He as <-. destruct Plain as [P1 P2]; [apply points_same; exact I|]. split; auto. intros k x E. exists 0. auto. }
  inv_bind He e2 He2. injection He as <-. unfold set_el_steps in He2. inv_bind He2 a0 Ha0. injection He2 as <-.
  cbn [truthy] in *. destruct (Req_EM_T p 0) as [->|Hp].
  { destruct Plain as [P1 P2]; [apply points_same; reflexivity|]. split; auto. intros k x E. exists 0. auto. }
  clear Plain. rewrite points_steps in H.
  change (map IZR [0%Z; 1%Z; 2%Z; 3%Z; 4%Z; 4%Z; 3%Z; 2%Z; 1%Z; 0%Z]) with [0; 1; 2; 3; 4; 4; 3; 2; 1; 0] in *.
  set (l := match st with Some l => l | None => _ end) in *.
  assert (Hne : l <> []) by (intros E; rewrite E in Ha0; discriminate).
  destruct cs as [|c cs].
  { cbn in H. injection H as <- _. split; [reflexivity|]. intros [|k] x E; discriminate. }
  destruct (Nat.eq_dec (Z.to_nat (trunc (cf_fsamp cf * p))) 0) as [Hz|Hz].
  { rewrite Hz in H. cbn [map] in H. rewrite step_arrays_err in H; [discriminate|reflexivity]. }
  destruct (step_arrays_fresh Rplus l (Z.to_nat (trunc (cf_fsamp cf * p))) a0 (map elev (c :: cs)) Hne ltac:(lia))
    as (outs & d & E & L & V).
  unfold fresh_steps in E. rewrite E in H. cbn [bind] in H. injection H as <- _.
  split; [congruence|]. intros k x Ek. destruct (V k x Ek) as (a & Ea & Eo). exists a. split; auto.
  rewrite <- Ea. f_equal. f_equal.
  rewrite Z2Nat.inj_div by lia. rewrite Nat2Z.id. reflexivity.
Qed.

(** ** Boresight rotation *)
Lemma turns_still per l a g rs t : turns per l a g = Ok (rs, t) -> per = false -> forall r, In r rs -> r = a.
Proof.
  revert rs; induction l as [|b l IH]; intros rs H Hp; cbn [turns] in H.
  { injection H as <- _. intros r []. }
  subst per. rewrite orb_true_r in H. cbn [bind] in H. inv_bind H x Hx. destruct x as [l' e]. injection H as <- <-.
  intros r [->|Hr]; eauto.
Qed.

Lemma turns_law angles : angles <> [] -> forall subs q m a rs t,
  turns true (map c_norot subs) a (mkgen angles (q mod length angles)) = Ok (rs, t) ->
  (0 < m -> nth_error angles ((Z.to_nat (m - 1)) mod length angles) = Some a)%Z ->
  q = Z.to_nat m -> (0 <= m)%Z ->
  length rs = length subs /\
  forall i x r, nth_error subs i = Some x -> nth_error rs i = Some r ->
    exists m', nth_error (rotation_trace m subs) i = Some (x, m')
      /\ ((0 < m')%Z -> nth_error angles ((Z.to_nat (m' - 1)) mod length angles) = Some r).
Proof.
  intros Hne. induction subs as [|s subs IH]; intros q m a rs t H Ha Hq Hm; cbn [map turns] in H.
  { injection H as <- _. split; auto. intros [|] x r; discriminate. }
  rewrite orb_false_r in H. cbn [rotation_trace]. destruct (c_norot s).
  - cbn [bind] in H. inv_bind H y Hy. destruct y as [l e]. injection H as <- <-.
    destruct (IH _ _ _ _ _ Hy Ha Hq Hm) as (L & V). split; [cbn; auto|].
    intros [|i] x r E1 E2; cbn in *; [|eauto]. injection E1 as <-. injection E2 as <-. eauto.
  - destruct (next_ok angles q Hne) as (b & Eb & En). rewrite En in H. cbn [bind] in H.
    inv_bind H y Hy. destruct y as [l e]. injection H as <- <-.
    destruct (IH (S q) (m + 1)%Z _ _ _ Hy) as (L & V); try lia.
    { intros _. rewrite <- Eb. do 2 f_equal. lia. }
    split; [cbn; auto|].
    intros [|i] x r E1 E2; cbn in *; [|eauto]. injection E1 as <-. injection E2 as <-.
    eexists. split; [reflexivity|]. intros _. rewrite <- Eb. do 2 f_equal. lia.
Qed.

(** ** All of it *)
Record laws (cf : config) (ext : bool) (elev : chunk -> list R) (cs : list chunk) (n : Z) (V : list view) : Prop := mklaws {
  lw_tiles : tiles 0 n (map (fun v => (v_start v, v_start v + Z.of_nat (length (v_bore v)))%Z) V);
  lw_el : forall v j c, In v V -> (j < length (v_bore v))%nat -> In c cs ->
     (c_start c <= v_start v + Z.of_nat j < c_end c)%Z ->
     exists x a, nth_error (elev c) (Z.to_nat (v_start v + Z.of_nat j - c_start c)) = Some x
       /\ (if ext then a = 0 else planned_el cf (v_start v + Z.of_nat j) = Some a)
       /\ nth_error (v_bore v) j = Some (x + a);
  lw_rot_still : ~ on (cf_period cf) -> forall v, In v V -> v_rot v = cf_rot_start cf;
  lw_rot : forall p, cf_period cf = Some p -> p <> 0 -> forall v j, In v V -> (j < length (v_bore v))%nat ->
     let size := trunc (p * cf_fsamp cf) in
     let k := (v_start v + Z.of_nat j)%Z in
     nth_error (rot_angles cf)
       (Z.to_nat (k / size + count (inside_period size) (filter (fun ab => (fst ab <=? k)%Z) (map span cs)))
        mod length (rot_angles cf)) = Some (v_rot v);
  lw_hwp_still : cf_mode cf = NoMode \/ ~ on (cf_freq cf) -> forall v, In v V -> v_hwp v = Some (HScalar (radians (cf_hwp_start cf)));
  lw_hwp_stepped : forall f, cf_mode cf = Stepped -> cf_freq cf = Some f ->
     forall v, In v V -> exists l, v_hwp v = Some (HArray l) /\ length l = length (v_bore v)
       /\ forall j, (j < length l)%nat -> exists a w,
            nth_error (hwp_angles cf) (Z.to_nat ((v_start v + Z.of_nat j) / trunc (cf_fsamp cf / f)) mod length (hwp_angles cf)) = Some a
            /\ nth_error l j = Some w /\ same_phase w (radians a)
            /\ ((forall b, In b (hwp_angles cf) -> 0 <= b < 360) -> w = radians a);
  lw_hwp_spinning : forall f, cf_mode cf = Continuous -> cf_freq cf = Some f -> f <> 0 -> 0 < cf_fsamp cf ->
     forall i v, nth_error V i = Some v -> exists l, v_hwp v = Some (HArray l) /\ length l = length (v_bore v)
       /\ forall j, (j < length l)%nat -> exists w, nth_error l j = Some w
            /\ same_phase w (radians (cf_hwp_start cf)
                 + 2 * PI * f / cf_fsamp cf * (IZR (v_start v + Z.of_nat j) - INR i)) }.

Lemma hwps_still f ns h outs h' : rotate_hwps f ns h = Ok (outs, h') ->
  h_mode h = NoMode \/ truthy (h_freq h) = false ->
  forall o, In o outs -> o = HScalar (radians (st_angle (h_steps h))).
Proof.
  intros H Hm. revert outs H. induction ns as [|n ns IH]; intros outs H; cbn [rotate_hwps] in H.
  { injection H as <- _. intros o []. }
  assert (E : rotate_hwp f None n h = Ok (HScalar (radians (st_angle (h_steps h))), h)).
  { unfold rotate_hwp. destruct Hm as [->|Hm]; [reflexivity|]. destruct (h_freq h) as [fr|]; [rewrite Hm|]; destruct (h_mode h); reflexivity. }
  rewrite E in H. cbn [bind] in H. inv_bind H y Hy. destruct y as [os h2]. injection H as <- <-.
  intros o [<-|Ho]; eauto.
Qed.

Lemma step_array_empty (arr : list R) size a : (0 < length arr)%nat ->
  forall x, step_array Rplus arr (mksteps size a 0 (angle_gen [])) <> Ok x.
Proof.
  intros Hl x. unfold step_array. cbn [st_size st_rem st_gen st_angle].
  destruct (size =? 0)%nat; [discriminate|]. cbv zeta. rewrite Nat.sub_0_r.
  set (n := if (ceil_div (length arr) size <? 1)%nat then 1%nat else ceil_div (length arr) size).
  assert (Hn : (1 <= n)%nat) by (unfold n; destruct (Nat.ltb_spec (ceil_div (length arr) size) 1); lia).
  destruct (Nat.eqb_spec n 1) as [|Hn1].
  - destruct (Nat.leb_spec (length arr) 0); [lia|]. discriminate.
  - destruct (n - 1)%nat as [|m] eqn:Em; [lia|]. discriminate.
Qed.

Lemma stepped_runs fsamp f start angles n ns h outs h1 :
  set_hwp_mod fsamp Stepped (Some f) start (Some angles) = Ok h ->
  rotate_hwps fsamp (n :: ns) h = Ok (outs, h1) -> (0 < n)%nat ->
  (1 <= trunc (fsamp / f))%Z /\ angles <> [].
Proof.
  unfold set_hwp_mod. destruct (Req_EM_T f 0) as [|Hf]; [discriminate|]. intros E H Hn. injection E as <-.
  cbn [rotate_hwps] in H. inv_bind H y Hy. clear H. unfold rotate_hwp in Hy. cbn [h_mode h_freq truthy h_steps] in Hy.
  destruct (Req_EM_T f 0) as [|_]; [contradiction|]. cbn [negb] in Hy. inv_bind Hy z Hz. clear Hy.
  split.
  - destruct (Nat.eq_dec (Z.to_nat (trunc (fsamp / f))) 0) as [E|]; [|lia]. rewrite E in Hz.
    rewrite step_zero_size in Hz; [discriminate|reflexivity].
  - intros ->. apply step_array_empty in Hz; auto. rewrite repeat_length. auto.
Qed.

Lemma not_on x : ~ on x -> truthy x = false.
Proof.
  intros H. destruct x as [v|]; [|reflexivity]. cbn. destruct (Req_EM_T v 0); auto. destruct H. exists v. auto.
Qed.

Lemma map_nth_some {A B} (f : A -> B) l i a m : map f l = m -> nth_error l i = Some a -> nth_error m i = Some (f a).
Proof. intros <- E. rewrite nth_error_map, E. reflexivity. Qed.

Lemma nth_some_map {A B} (f : A -> B) l i b : nth_error (map f l) i = Some b -> exists a, nth_error l i = Some a /\ f a = b.
Proof. rewrite nth_error_map. destruct (nth_error l i); [|discriminate]. intros H. injection H as <-. eauto. Qed.

Lemma tiles_views (f : view -> Z * Z) : forall V (l : list chunk) lo hi, tiles lo hi (map span l) ->
  length V = length l ->
  (forall i v x, nth_error V i = Some v -> nth_error l i = Some x -> f v = span x) ->
  tiles lo hi (map f V).
Proof.
  intros V l lo hi T L H. replace (map f V) with (map span l); auto.
  clear T. revert l L H. induction V as [|v V IH]; intros [|x l] L H; try discriminate; auto.
  cbn. rewrite (H 0%nat v x eq_refl eq_refl). f_equal. apply IH; [cbn in L; lia|].
  intros i v' x' E1 E2. apply (H (S i)); auto.
Qed.

Lemma tiles_hull lo hi l : tiles lo hi l -> (lo <= hi)%Z. Proof. apply tiles_le. Qed.

Lemma total_size : forall (l : list chunk) lo hi, tiles lo hi (map span l) ->
  Z.of_nat (fold_right plus 0%nat (map csize l)) = (hi - lo)%Z.
Proof.
  induction l as [|x l IH]; intros lo hi T; cbn [map tiles fold_right] in *; [lia|].
  unfold span at 1 in T. destruct T as (E0 & H & T). specialize (IH _ _ T). rewrite Nat2Z.inj_add, IH. unfold csize. lia.
Qed.
Lemma concat_len {A} (ls : list (list A)) : length (concat ls) = fold_right plus 0%nat (map (@length A) ls).
Proof. induction ls as [|x ls IH]; cbn; auto. rewrite app_length. auto. Qed.

Lemma same_chunk cs lo hi q c c' k : tiles lo hi (map span cs) -> nth_error cs q = Some c -> In c' cs ->
  (c_start c <= k < c_end c)%Z -> (c_start c' <= k < c_end c')%Z -> c' = c.
Proof.
  intros T Eq Hin Hk Hk'. revert lo q T Eq Hin. induction cs as [|y cs IH]; intros lo q T Eq Hin; [destruct Hin|].
  cbn [map tiles] in T. unfold span at 1 in T. destruct T as (E0 & Hlt & T).
  assert (After : forall z, In z cs -> (c_end y <= c_start z)%Z).
  { intros z Hz. apply (tiles_in _ _ _ (c_start z) (c_end z) T). change (c_start z, c_end z) with (span z). now apply in_map. }
  destruct q as [|q], Hin as [<-|Hin]; cbn in Eq.
  - injection Eq as ->. auto.
  - injection Eq as <-. apply After in Hin. lia.
  - apply nth_error_In, After in Eq. lia.
  - eapply IH; eauto.
Qed.

Lemma course_laws cf u ext elev cs n V u' : configure cf = Ok u -> rot_fine (ir_rot (sg_rot u)) ->
  tiles 0 n (map span cs) -> (forall c, length (elev c) = csize c) ->
  course ext elev cs u = Ok (V, u') -> laws cf ext elev cs n V.
Proof.
  intros Hc Hr T Hl H. apply course_apart in H.
  assert (U : set_hwp_mod (cf_fsamp cf) (cf_mode cf) (cf_freq cf) (cf_hwp_start cf) (cf_hwp_angles cf) = Ok (sg_hwp u)
     /\ sg_fsamp u = cf_fsamp cf
     /\ sg_rot u = set_instr_rot (cf_fsamp cf) (cf_old_size cf) (cf_period cf) (cf_rot_start cf) (cf_rot_angles cf)).
  { unfold configure in Hc. inv_bind Hc h Hh'. inv_bind Hc e He. injection Hc as <-. auto. }
  destruct U as (Uh & Uf & Ur).
  destruct H as (bs & e1 & subss & r1 & outs & t & Hb & Hs & Vs & Vb & Vh & Hh & Ht).
  destruct (subpart_all_tiles _ _ _ _ _ _ Hr T Hs) as (TS & LS & NS).
  assert (Hn : Z.of_nat (length (concat (map elev cs))) = n).
  { rewrite concat_len, map_map. erewrite map_ext by apply Hl. rewrite (total_size _ _ _ T). lia. }
  assert (BL : map (@length R) bs = map csize cs
     /\ forall k x, nth_error (concat (map elev cs)) k = Some x ->
        exists a, (if ext then a = 0 else planned_el cf (Z.of_nat k) = Some a) /\ nth_error (concat bs) k = Some (x + a)).
  { unfold bores in Hb. destruct ext.
    - injection Hb as <- _. split; [rewrite map_map; apply map_ext; auto|].
      intros k x E. exists 0. split; auto. rewrite E. f_equal. lra.
    - eapply bores_law; eauto. rewrite Hn. exact T. }
  destruct BL as [BL BV].
  assert (LB : length bs = length cs) by (rewrite <- (map_length (@length R) bs), BL, map_length; auto).
  assert (LV : length V = length (concat subss)) by (rewrite <- (map_length v_start V), Vs, map_length; auto).
  (* a view, its stretch and its chunk *)
  assert (At : forall i v, nth_error V i = Some v -> exists q c b subs x,
     nth_error cs q = Some c /\ nth_error bs q = Some b /\ nth_error subss q = Some subs /\ In x subs
     /\ nth_error (concat subss) i = Some x /\ v_bore v = cut c b x /\ v_start v = c_start x
     /\ length (v_bore v) = csize x /\ (c_start c <= c_start x)%Z /\ (c_start x < c_end x)%Z /\ (c_end x <= c_end c)%Z /\ length b = csize c).
  { intros i v E. assert (E2 := map_nth_some _ _ _ _ _ Vb E). apply stretch_at in E2; auto.
    destruct E2 as (q & c & b & subs & x & E1 & E2 & E3 & E4 & E5 & E6).
    exists q, c, b, subs, x. do 6 (split; [auto|]).
    assert (E7 := map_nth_some _ _ _ _ _ Vs E). rewrite nth_error_map, E5 in E7. injection E7 as E7.
    split; [auto|].
    assert (Lb : length b = csize c).
    { assert (X := map_nth_some (@length R) _ _ _ _ BL E2). rewrite nth_error_map, E1 in X. injection X as X. auto. }
    assert (I := NS _ _ _ E1 E3). apply (tiles_in _ _ _ (c_start x) (c_end x)) in I.
    2:{ change (c_start x, c_end x) with (span x). now apply in_map. }
    split; [|intuition lia]. rewrite E6. unfold cut. unfold slice. rewrite firstn_length, skipn_length, Lb. clear - I. unfold csize. lia. }
  constructor.
  - eapply tiles_views; [exact TS|exact LV|]. intros i v x E1 E2.
    destruct (At _ _ E1) as (q & c & b & subs & x' & _ & _ & _ & _ & E5 & _ & E7 & E8 & _ & E9 & _).
    rewrite E2 in E5. injection E5 as <-. rewrite E7, E8. unfold span, csize. f_equal. lia.
  - intros v j c' Hin Hj Hc' Hk. apply In_nth_error in Hin as [i Ei].
    destruct (At _ _ Ei) as (q & c & b & subs & x & E1 & E2 & E3 & E4 & E5 & E6 & E7 & E8 & E9 & E10 & E11 & E12).
    rewrite E8 in Hj. unfold csize in Hj.
    assert (c' = c) as -> by (eapply (same_chunk cs); eauto; lia).
    set (r := Z.to_nat (v_start v + Z.of_nat j - c_start c)).
    assert (Hr0 : (r < csize c)%nat) by (unfold r, csize; lia).
    destruct (nth_error (elev c) r) as [y|] eqn:Ey; [|apply nth_error_None in Ey; rewrite Hl in Ey; lia].
    assert (Bq := before_tiles _ _ _ _ _ T E1).
    assert (Y : nth_error (concat (map elev cs)) (before (map csize cs) q + r) = Some y).
    { replace (map csize cs) with (map (@length R) (map elev cs)) by (rewrite map_map; apply map_ext; auto).
      erewrite nth_concat; [exact Ey|rewrite nth_error_map, E1; reflexivity|rewrite Hl; auto]. }
    destruct (BV _ _ Y) as (a & Ea & Eb). exists y, a. split; auto. split.
    + destruct ext; auto. rewrite <- Ea. f_equal. unfold r. lia.
    + rewrite <- BL in Eb. erewrite nth_concat in Eb; [|exact E2|rewrite E12; auto].
      rewrite E6. unfold cut.
      replace (Z.to_nat (c_end x - c_start c)) with (Z.to_nat (c_start x - c_start c) + csize x)%nat by (unfold csize; lia).
      rewrite slice_nth by (unfold csize; lia). rewrite <- Eb. f_equal. unfold r. lia.
  - intros Hoff v Hin. rewrite Ur in Ht. cbn [set_instr_rot ir_rot ir_angle ir_gen rot_period] in Ht.
    eapply (turns_still _ _ _ _ _ _ Ht); [apply not_on; auto|]. now apply in_map.
  - intros p Ep Hp v j Hin Hj. cbv zeta. apply In_nth_error in Hin as [i Ei].
    destruct (At _ _ Ei) as (q & c & b & subs & x & E1 & E2 & E3 & E4 & E5 & E6 & E7 & E8 & E9 & E10 & E11 & E12).
    assert (Tp : truthy (Some p) = true) by (cbn; destruct (Req_EM_T p 0); [contradiction|reflexivity]).
    rewrite Ur in Ht, Hs, Hr. cbn [set_instr_rot ir_rot ir_angle ir_gen rot_period] in Ht, Hs, Hr. rewrite Ep, Tp in Ht, Hs, Hr.
    set (size := trunc (p * cf_fsamp cf)) in *.
    assert (Hsz : (0 < size)%Z) by (apply Hr; reflexivity).
    fold (rot_angles cf) in Ht.
    change (match cf_rot_angles cf with Some a => a | None => default_angles (cf_rot_start cf) 45 8 end) with (rot_angles cf) in Ht.
    assert (Hne : rot_angles cf <> []).
    { intros E0. rewrite E0 in Ht. destruct (concat subss) as [|y ys] eqn:Ey; [destruct i; discriminate|].
      cbn [map turns] in Ht. (* the first stretch rotates *)
      assert (Cy : c_norot y = false \/ c_norot y = true) by (destruct (c_norot y); auto).
      destruct Cy as [Cy|Cy]; rewrite Cy in Ht; [discriminate|].
      assert (Z0 : In (y, 0%Z) (rotation_trace 0 (concat subss))) by (rewrite Ey; cbn; rewrite Cy; now left).
      rewrite Ey in *.
      assert (Z1 : (c_start y <= 0 < c_end y)%Z) by (cbn in TS; lia).
      assert (Z2 := rotation_exact size n cs subss r1 y 0 0 Hsz T Hs). rewrite Ey in Z2. specialize (Z2 Z0 Z1).
      rewrite Z.div_0_l in Z2 by lia. unfold count in Z2. lia. }
    unfold angle_gen in Ht.
    replace 0%nat with (0 mod length (rot_angles cf))%nat in Ht
      by (apply Nat.mod_0_l; destruct (rot_angles cf); [congruence|discriminate]).
    destruct (turns_law (rot_angles cf) Hne (concat subss) 0 0 _ _ _ Ht) as [_ Law]; try lia.
    destruct (Law i x (v_rot v) E5) as (m & Em & Hm); [rewrite nth_error_map, Ei; reflexivity|].
    assert (X := rotation_exact size n cs subss r1 x m (v_start v + Z.of_nat j) Hsz T Hs (nth_error_In _ _ Em)).
    rewrite E8 in Hj. unfold csize in Hj. specialize (X ltac:(lia)).
    rewrite <- X. apply Hm.
    assert (0 <= (v_start v + Z.of_nat j) / size)%Z.
    { apply Z.div_pos; [|lia]. assert (G := tiles_in _ _ _ (c_start c) (c_end c) T). 
      destruct G as (G & _); [change (c_start c, c_end c) with (span c); apply in_map; eapply nth_error_In; eauto|]. lia. }
    unfold count in X. lia.
  - intros Hoff v Hin. apply (in_map v_hwp) in Hin. rewrite Vh in Hin. apply in_map_iff in Hin as (o & Eo & Ho).
    rewrite <- Eo. f_equal. 
    assert (Hd : h_mode (sg_hwp u) = cf_mode cf /\ h_freq (sg_hwp u) = cf_freq cf /\ st_angle (h_steps (sg_hwp u)) = cf_hwp_start cf).
    { revert Uh. unfold set_hwp_mod. destruct (cf_mode cf), (cf_freq cf) as [fr|]; try discriminate;
        try (destruct (Req_EM_T fr 0); [discriminate|]); intros E; injection E as <-; auto. }
    destruct Hd as (D1 & D2 & D3). rewrite <- D3. eapply (hwps_still _ _ _ _ _ Hh); auto.
    rewrite D1, D2. destruct Hoff as [Hoff|Hoff]; auto. right. apply not_on. auto.
  - intros f Em Ef v Hin. apply In_nth_error in Hin as [i Ei].
    destruct (At _ _ Ei) as (q & c & b & subs & x & E1 & E2 & E3 & E4 & E5 & E6 & E7 & E8 & E9 & E10 & E11 & E12).
    rewrite Uf in Hh. rewrite Em, Ef in Uh.
    assert (Uh' : set_hwp_mod (cf_fsamp cf) Stepped (Some f) (cf_hwp_start cf) (Some (hwp_angles cf)) = Ok (sg_hwp u)).
    { rewrite <- Uh. unfold set_hwp_mod, hwp_angles. destruct (cf_hwp_angles cf); reflexivity. }
    assert (Hns : Forall (fun n => 0 < n)%nat (map csize (concat subss))).
    { apply Forall_forall. intros z Hz. apply in_map_iff in Hz as (y & <- & Hy). apply (tiles_pos _ _ _ _ TS) in Hy. unfold csize. lia. }
    assert (Run : (1 <= trunc (cf_fsamp cf / f))%Z /\ hwp_angles cf <> []).
    { destruct (concat subss) as [|y ys]; [destruct i; discriminate|]. inversion Hns; subst.
      eapply stepped_runs; [exact Uh'|exact Hh|auto]. }
    destruct Run as [Hsz Hne].
    destruct (stepped_hwp_law _ _ _ _ (map csize (concat subss)) _ Uh' Hsz Hne Hns) as (os & h' & Eo & Lo & Vo).
    rewrite Hh in Eo. injection Eo as -> _.
    assert (Ev := map_nth_some _ _ _ _ _ Vh Ei). rewrite map_map, nth_error_map in Ev.
    destruct (nth_error os i) as [l|] eqn:El; [|discriminate]. injection Ev as Ev. exists l. split; [congruence|].
    assert (Ll : length l = csize x).
    { assert (X := map_nth_some _ _ _ _ _ Lo El). rewrite nth_error_map, E5 in X. injection X as X. auto. }
    split; [congruence|]. intros j Hj.
    assert (Bq := before_tiles _ _ _ _ _ TS E5). rewrite <- Lo in Bq.
    assert (Nj := nth_concat _ _ _ _ El Hj).
    destruct (Vo (before (map (@length R) os) i + j)%nat) as (a & w & Ea & Ew & Hw).
    { apply nth_error_Some. rewrite Nj. apply nth_error_Some. auto. }
    exists a, w. split; [|split; [congruence|auto]].
    rewrite <- Ea. do 2 f_equal. rewrite E7. rewrite <- (Nat2Z.id (before (map (@length R) os) i + j)).
    rewrite <- Z2Nat.inj_div by lia. f_equal. f_equal. lia.
  - intros f Em Ef Hf Hfs i v Ei.
    destruct (At _ _ Ei) as (q & c & b & subs & x & E1 & E2 & E3 & E4 & E5 & E6 & E7 & E8 & E9 & E10 & E11 & E12).
    rewrite Uf in Hh. rewrite Em, Ef in Uh.
    assert (Hns : Forall (fun n => 0 < n)%nat (map csize (concat subss))).
    { apply Forall_forall. intros z Hz. apply in_map_iff in Hz as (y & <- & Hy). apply (tiles_pos _ _ _ _ TS) in Hy. unfold csize. lia. }
    destruct (continuous_hwp_law _ _ _ _ (map csize (concat subss)) _ Uh Hf Hfs Hns) as (os & h' & Eo & Lo & Vo).
    rewrite Hh in Eo. injection Eo as -> _.
    assert (Ev := map_nth_some _ _ _ _ _ Vh Ei). rewrite map_map, nth_error_map in Ev.
    destruct (nth_error os i) as [l|] eqn:El; [|discriminate]. injection Ev as Ev. exists l. split; [congruence|].
    assert (Ll : length l = csize x).
    { assert (X := map_nth_some _ _ _ _ _ Lo El). rewrite nth_error_map, E5 in X. injection X as X. auto. }
    split; [congruence|]. intros j Hj.
    assert (Bq := before_tiles _ _ _ _ _ TS E5).
    destruct (Vo i j l (csize x) El) as (w & Ew & Hw); [rewrite nth_error_map, E5; reflexivity|lia|].
    exists w. split; auto.
    replace (IZR (v_start v + Z.of_nat j)) with (INR (before (map csize (concat subss)) i + j)); auto.
    rewrite INR_IZR_INZ. f_equal. lia.
Qed.

Section I.
  Context {B : Type}.
  Implicit Types (s : state B) (E : env B) (d : det B).

  Lemma course_of E O s s' new chunks d : well_set E O s -> scan_instrument E O s = Ok s' ->
    s_log s' = s_log s ++ new -> chunks_used E s = Ok chunks -> observes E O s d ->
    exists u, course (e_ext E) (e_elev E) chunks (s_strat s) = Ok (sky_views (d_id d) new, u)
      /\ (o_binning O = true -> bin_views (d_id d) new = sky_views (d_id d) new).
  Proof.
    intros W H L C Hd. destruct (scan_course E O s s' W H) as (new' & cs & L' & C' & V).
    rewrite L in L'. apply app_inv_head in L'. subst new'. rewrite C in C'. injection C' as <-. auto.
  Qed.

  Lemma binned_as_scanned E O s s' new d : well_set E O s -> scan_instrument E O s = Ok s' ->
    s_log s' = s_log s ++ new -> observes E O s d -> o_binning O = true ->
    bin_views (d_id d) new = sky_views (d_id d) new.
  Proof.
    intros W H L Hd Hb. destruct (used_facts E s (ws_mission _ _ _ W)) as (cs & _ & C & _).
    destruct (course_of E O s s' new cs d W H L C Hd) as (u & _ & X). auto.
  Qed.

  Lemma same_course E E2 O O2 s s2 s' s2' new new2 d d2 :
    well_set E O s -> well_set E2 O2 s2 ->
    e_nsamp E2 = e_nsamp E -> e_ext E2 = e_ext E -> e_elev E2 = e_elev E ->
    s_strat s2 = s_strat s -> chunks_used E2 s2 = chunks_used E s ->
    scan_instrument E O s = Ok s' -> scan_instrument E2 O2 s2 = Ok s2' ->
    s_log s' = s_log s ++ new -> s_log s2' = s_log s2 ++ new2 ->
    observes E O s d -> observes E2 O2 s2 d2 ->
    sky_views (d_id d) new = sky_views (d_id d2) new2.
  Proof.
    intros W W2 En Ex Ee Es Ec H H2 L L2 Hd Hd2.
    destruct (used_facts E s (ws_mission _ _ _ W)) as (cs & _ & C & _).
    destruct (course_of E O s s' new cs d W H L C Hd) as (u & X & _).
    rewrite <- Ec in C. destruct (course_of E2 O2 s2 s2' new2 cs d2 W2 H2 L2 C Hd2) as (u2 & X2 & _).
    rewrite Ex, Ee, Es, X in X2. congruence.
  Qed.

  Lemma laws_of E O s s' new chunks d cf : well_set E O s -> configure cf = Ok (s_strat s) ->
    scan_instrument E O s = Ok s' ->
    s_log s' = s_log s ++ new -> chunks_used E s = Ok chunks -> observes E O s d ->
    laws cf (e_ext E) (e_elev E) chunks (e_nsamp E) (sky_views (d_id d) new).
  Proof.
    intros W Hc H L C Hd. destruct (course_of E O s s' new chunks d W H L C Hd) as (u & X & _).
    destruct (used_facts E s (ws_mission _ _ _ W)) as (cs & _ & C' & T & _). rewrite C in C'. injection C' as <-.
    eapply course_laws; eauto.
    - apply (ws_rotation _ _ _ W).
    - intros c. apply elev_len. apply (ws_elev _ _ _ W).
  Qed.

  Lemma el_law E O s s' new chunks d cf : well_set E O s -> configure cf = Ok (s_strat s) ->
    scan_instrument E O s = Ok s' ->
    s_log s' = s_log s ++ new -> chunks_used E s = Ok chunks -> observes E O s d ->
    forall v j c, In v (sky_views (d_id d) new) -> (j < length (v_bore v))%nat -> In c chunks ->
     (c_start c <= v_start v + Z.of_nat j < c_end c)%Z ->
     exists x a, nth_error (e_elev E c) (Z.to_nat (v_start v + Z.of_nat j - c_start c)) = Some x
       /\ (if e_ext E then a = 0 else planned_el cf (v_start v + Z.of_nat j) = Some a)
       /\ nth_error (v_bore v) j = Some (x + a).
  Proof. intros W Hc H L C Hd. apply (lw_el _ _ _ _ _ _ (laws_of _ _ _ _ _ _ _ _ W Hc H L C Hd)). Qed.
End I.
