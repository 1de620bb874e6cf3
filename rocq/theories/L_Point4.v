(** * Lemmas about the boresight motion: more witnesses *)
From Coq Require Import Reals Lra Lia.
From Verif Require Import Common LibList M_Chunks M_Steps M_Hwp L_Hwp M_Point S_Point L_Point L_Point2 L_Point3.
Open Scope R_scope.

(** Two patches on a sky that turns: [hor ra dec t = (ra + t, dec - t)]. *)
Definition sky (ra dec t : R) : R * R := (ra + t, dec - t).

Lemma sky_triangle start : exists az el,
  az_el 2 sky 10 0 [100; 200] [50; 60] 2 1 Triangle 5 45 true start 11 = Some (Ok (az, el))
  /\ length az = 11%nat /\ length el = 11%nat.
Proof.
  destruct (scan_chunk 2 sky 10 0 [100; 200] [50; 60] 2 1 Triangle 5 45 true start 11)
    as (az & el & E & La & Le & _); try lia; try lra; try discriminate; auto.
  eauto 10.
Qed.

(** A sky at rest, one patch at azimuth 100: sample 10 of the first chunk is at
    one end of the throw, the next sample back at the centre. *)
Definition still_sky (ra dec t : R) : R * R := (ra, dec).

Lemma triangle_jump : exists az el az' el',
  az_el 1 still_sky 10 0 [100] [50] 2 1 Triangle 5 45 true 0 11 = Some (Ok (az, el))
  /\ az_el 1 still_sky 10 0 [100] [50] 2 1 Triangle 5 45 true 11 11 = Some (Ok (az', el'))
  /\ nth_error az 10 = Some 101 /\ nth_error az' 0 = Some 100.
Proof.
  destruct (scan_chunk 1 still_sky 10 0 [100] [50] 2 1 Triangle 5 45 true 0 11)
    as (az & el & E & La & Le & N); try lia; try lra; try discriminate; auto.
  destruct (scan_chunk 1 still_sky 10 0 [100] [50] 2 1 Triangle 5 45 true 11 11)
    as (az' & el' & E' & La' & Le' & N'); try lia; try lra; try discriminate; auto.
  exists az, el, az', el'. do 2 (split; auto).
  assert (C : forall t a e f, chosen still_sky [100] [50] 45 true t a e f -> a = 100).
  { intros t a e f [(j & ra & dec & E1 & E2 & E3 & _)|(_ & _ & _ & ra & dec & E1 & E2 & ->)].
    - destruct j as [|[|]]; try discriminate. injection E1 as <-. now injection E3.
    - cbn in *. now injection E1. }
  split.
  - destruct (N 10%nat ltac:(lia)) as (a & e & f & x & Ch & _ & _ & Ex & _ & T).
    rewrite (C _ _ _ _ Ch) in Ex. rewrite Ex. f_equal. destruct (T 0%Z) as [T0 _].
    replace (INR 10) with 10 in T0 by (cbn; lra). rewrite T0; [lra|]. apply Rabs_le. lra.
  - destruct (N' 0%nat ltac:(lia)) as (a & e & f & x & Ch & _ & _ & Ex & _ & T).
    rewrite (C _ _ _ _ Ch) in Ex. rewrite Ex. f_equal. destruct (T 0%Z) as [T0 _]. cbn [INR] in T0.
    rewrite T0; [lra|]. apply Rabs_le. lra.
Qed.

Lemma el_steps_below : exists az el e d el',
  az_el 1 still_sky 1 0 [100] [40] 2 1 Triangle 1 45 true 0 1 = Some (Ok (az, el))
  /\ set_el_steps 1 1 (Some [-1]) = Ok e
  /\ step_array Rplus el (el_st e) = Ok (el', d)
  /\ nth_error el' 0 = Some 44.
Proof.
  destruct (scan_chunk 1 still_sky 1 0 [100] [40] 2 1 Triangle 1 45 true 0 1)
    as (az & el & E & La & Le & N); try lia; try lra; try discriminate; auto.
  destruct (N 0%nat ltac:(lia)) as (a & e & f & x & Ch & _ & Ee & _).
  assert (He : e = 45).
  { destruct Ch as [(j & ra & dec & E1 & E2 & E3 & E4 & _)|(_ & H & _)]; auto. exfalso.
    destruct j as [|[|]]; try discriminate. injection E2 as <-. cbn in E3. injection E3 as _ <-. lra. }
  destruct el as [|e' [|]]; try discriminate. cbn in Ee. injection Ee as ->. subst e.
  exists az, [45]. do 3 eexists. split; [exact E|]. split; [reflexivity|]. cbn [el_st].
  replace (trunc (1 * 1)) with 1%Z by (rewrite Rmult_1_r; symmetry; apply (trunc_Z 1)).
  split; [reflexivity|]. cbn. f_equal. lra.
Qed.

Lemma strictly_restarts : exists az az', fst (strictly_az 10 50 0 1 11) = az /\ fst (strictly_az 10 50 0 1 11) = az'
  /\ nth_error az 10 = Some 1 /\ nth_error az' 0 = Some 0.
Proof.
  do 2 eexists. split; [reflexivity|]. split; [reflexivity|]. unfold strictly_az. cbn [fst].
  destruct (Req_EM_T 1 0); [lra|]. rewrite !nth_seq_map by lia. cbn. split; f_equal; lra.
Qed.

Lemma strictly_law fsamp el0 az0 speed n : speed <> 0 ->
  length (fst (strictly_az fsamp el0 az0 speed n)) = n /\ length (snd (strictly_az fsamp el0 az0 speed n)) = n
  /\ forall i, (i < n)%nat -> nth_error (fst (strictly_az fsamp el0 az0 speed n)) i = Some (az0 + speed * (INR i / fsamp))
       /\ nth_error (snd (strictly_az fsamp el0 az0 speed n)) i = Some el0.
Proof.
  intros H. unfold strictly_az. destruct (Req_EM_T speed 0); [contradiction|]. cbn [fst snd].
  split; [now rewrite map_length, seq_length|]. split; [now rewrite repeat_length|]. intros i Hi.
  rewrite nth_seq_map, nth_error_repeat by auto. split; f_equal; [unfold Rdiv|]; ring.
Qed.

Lemma arc_out : ~ on_arc 350 10 (350 - 340 / 3).
Proof.
  intros (y & [k K] & B). destruct (Rlt_dec 10 350); [|lra].
  assert (k < 0)%Z by (apply lt_IZR; lra). assert (-1 < k)%Z by (apply lt_IZR; lra). lia.
Qed.

Lemma schedule_arc fsamp speed az0 az1 dt n : az0 < az1 -> 1 <= (az1 - az0) / speed * fsamp ->
  exists az, schedule_az fsamp speed Triangle az0 az1 dt n = Ok az /\ length az = n
    /\ forall a, In a az -> on_arc az0 az1 a.
Proof.
  intros Ha Hb. destruct (schedule_limits fsamp speed az0 az1 dt n Ha Hb) as (az & E & L & H).
  exists az. do 2 (split; auto). intros a Hin. exists a. split; [exists 0%Z; lra|].
  destruct (Rlt_dec az1 az0); [lra|]. auto.
Qed.
