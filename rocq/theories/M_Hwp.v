(** * Model of rotation / HWP / elevation-step configuration, evolution, reset

    All code cited is /repo/beamconv/instrument.py.  Angles and rates are real
    numbers (exact arithmetic); arrays are lists. *)
From Verif Require Import Common M_Chunks M_Steps.
From Coq Require Export Reals.
Open Scope R_scope.

(** ** Scalars *)

(** [np.mod(x, m)] for [m > 0]: [x - m * floor(x / m)]. *)
Definition rmod (x m : R) : R := x - m * IZR (Int_part (x / m)).

(** [np.radians], [np.degrees]. *)
Definition radians (d : R) : R := d * PI / 180.
Definition degrees (r : R) : R := r * 180 / PI.

(** Python [int(x)]: truncation towards zero. *)
Definition trunc (x : R) : Z :=
  if Rle_dec 0 x then Int_part x else (- Int_part (- x))%Z.

(** Python truth value of an optional number. *)
Definition truthy (x : option R) : bool :=
  match x with
  | None => false
  | Some v => if Req_EM_T v 0 then false else true
  end.

(** [np.arange(start, 360+start, step)], then [np.mod(., 360)], where the
    range has [n] elements. *)
Definition default_angles (start step : R) (n : nat) : list R :=
  map (fun i => rmod (start + INR i * step) 360) (seq 0 n).

(** ** HWP *)

Inductive hmode := NoMode | Stepped | Continuous | OtherMode.

Record hwp := mkhwp {
  h_mode : hmode;
  h_freq : option R;
  h_start : R;               (** 'start_ang' *)
  h_angles : list R;         (** 'angles' *)
  h_steps : steps R          (** 'step_size', 'angle' (deg), 'remainder', generator *)
}.

(** instrument.py:1386-1429 [set_hwp_mod].  Simplification: a negative step
    size (negative frequency) is not modelled: [Z.to_nat]. *)
Definition set_hwp_mod (fsamp : R) (mode : hmode) (freq : option R) (start_ang : R)
  (angles : option (list R)) : res hwp :=
  let angs := match angles with Some a => a | None => default_angles start_ang 22.5 16 end in
  match mode, freq with
  | Stepped, None => Err TypeError          (* float(None), 1416 *)
  | Stepped, Some f =>
      if Req_EM_T f 0 then Err ZeroDivisionError
      else Ok (mkhwp mode freq start_ang angs
                 (mksteps (Z.to_nat (trunc (fsamp / f))) start_ang 0 (angle_gen angs)))
  | _, _ => Ok (mkhwp mode freq start_ang angs (mksteps 0 start_ang 0 (angle_gen angs)))
  end.

(** instrument.py:1431-1439 [reset_hwp_mod]. *)
Definition reset_hwp_mod (h : hwp) : hwp :=
  mkhwp (h_mode h) (h_freq h) (h_start h) (h_angles h)
    (mksteps (st_size (h_steps h)) (h_start h) 0 (angle_gen (h_angles h))).

(** What [rotate_hwp] leaves in [self.hwp_ang] (radians). *)
Inductive hwp_out := HScalar (a : R) | HArray (l : list R) | HStale.

Definition set_angle (d : steps R) (a : R) : steps R :=
  mksteps (st_size d) a (st_rem d) (st_gen d).

(** [np.linspace(a, b, num=n, endpoint=False)]. *)
Definition linspace (a b : R) (n : nat) : list R :=
  map (fun i => a + INR i * ((b - a) / INR n)) (seq 0 n).

(** [l[-1]] *)
Definition last_item {A} (l : list A) : res A :=
  match rev l with [] => Err IndexError | x :: _ => Ok x end.

(** instrument.py:3095-3153 [rotate_hwp]; [n = end - start]. *)
Definition rotate_hwp (fsamp : R) (hwpang : option R) (n : nat) (h : hwp)
  : res (hwp_out * hwp) :=
  let with_steps d := mkhwp (h_mode h) (h_freq h) (h_start h) (h_angles h) d in
  let still := Ok (HScalar (radians (match hwpang with
                                     | Some a => if truthy hwpang then a else st_angle (h_steps h)
                                     | None => st_angle (h_steps h)
                                     end)), h) in
  match h_mode h, h_freq h with
  | NoMode, _ => still
  | _, None => still
  | mode, Some f =>
      if negb (truthy (Some f)) then still
      else
        match mode with
        | Continuous =>
            let start_ang := radians (st_angle (h_steps h)) in
            let arr := linspace start_ang
                         (start_ang + 2 * PI * INR n / (fsamp / f)) n in
            do l <- last_item arr;
            Ok (HArray arr,
                with_steps (set_angle (h_steps h) (degrees (rmod l (2 * PI)))))
        | Stepped =>
            do (arr, d) <- step_array Rplus (repeat 0 n) (h_steps h);
            let arr := map radians arr in
            do l <- last_item arr;
            Ok (HArray arr, with_steps (set_angle d (degrees (rmod l (2 * PI)))))
        | _ => Ok (HStale, h)
        end
  end.

(** Successive chunks of the given lengths. *)
Fixpoint rotate_hwps (fsamp : R) (ns : list nat) (h : hwp) : res (list hwp_out * hwp) :=
  match ns with
  | [] => Ok ([], h)
  | n :: rest =>
      do (o, h1) <- rotate_hwp fsamp None n h;
      do (os, h2) <- rotate_hwps fsamp rest h1;
      Ok (o :: os, h2)
  end.

(** ** Boresight rotation *)

Record irot := mkirot {
  ir_rot : rot;              (** 'period' (as truth value), 'rot_chunk_size', 'remainder' *)
  ir_start : R;
  ir_angles : list R;
  ir_angle : R;
  ir_gen : gen R
}.

(** instrument.py:1331-1365 [set_instr_rot].  [old_size] is the value an
    earlier call left in rot_dict['rot_chunk_size']. *)
Definition set_instr_rot (fsamp : R) (old_size : Z) (period : option R) (start_ang : R)
  (angles : option (list R)) : irot :=
  let angs := match angles with Some a => a | None => default_angles start_ang 45 8 end in
  let size := match period with
              | Some p => if truthy period then trunc (p * fsamp) else old_size
              | None => old_size
              end in
  mkirot (mkrot (truthy period) size 0) start_ang angs start_ang (angle_gen angs).

(** instrument.py:1367-1375 [reset_instr_rot]. *)
Definition reset_instr_rot (i : irot) : irot :=
  mkirot (set_rem (ir_rot i) 0) (ir_start i) (ir_angles i) (ir_start i)
    (angle_gen (ir_angles i)).

(** instrument.py:1377-1384 [rotate_instr]. *)
Definition rotate_instr (i : irot) : res irot :=
  if rot_period (ir_rot i) then
    do (a, g) <- next (ir_gen i);
    Ok (mkirot (ir_rot i) (ir_start i) (ir_angles i) a g)
  else Ok i.

(** ** Elevation steps *)

(** [el_on]: truth value of step_dict['period']. *)
Record elsteps := mkel { el_on : bool; el_steps : list R; el_st : steps R }.

(** instrument.py:1441-1471 [set_el_steps]. *)
Definition set_el_steps (fsamp period : R) (steps : option (list R)) : res elsteps :=
  let l := match steps with
           | Some s => s
           | None => map IZR [0; 1; 2; 3; 4; 4; 3; 2; 1; 0]%Z
           end in
  do a <- index l 0;
  Ok (mkel (truthy (Some period)) l (mksteps (Z.to_nat (trunc (fsamp * period))) a 0 (angle_gen l))).

(** instrument.py:1473-1484 [reset_el_steps]: the generator and the remainder
    are reset; the current angle is not (line 1483 writes the unused key
    'step'). *)
Definition reset_el_steps (e : option elsteps) : option elsteps :=
  match e with
  | None => None
  | Some e => Some (mkel (el_on e) (el_steps e)
                      (mksteps (st_size (el_st e)) (st_angle (el_st e)) 0
                         (angle_gen (el_steps e))))
  end.

(** ** The evolving state of a scan strategy *)

Record strat := mkstrat {
  sg_fsamp : R;
  sg_rot : irot;
  sg_hwp : hwp;
  sg_el : option elsteps
}.

Inductive op :=
| OSub (c : chunk)                    (** [subpart_chunk(chunk)] *)
| ORotate                             (** [rotate_instr()] *)
| OHwp (hwpang : option R) (n : nat)  (** [rotate_hwp(start, end, hwpang)] *)
| OEl (el : list R)                   (** elevation stepping, 2341-2342 *)
| OReset.                             (** 1850-1852: the three resets *)

Inductive out :=
| XSub (l : list chunk)
| XAngle (a : R)
| XHwp (h : hwp_out)
| XEl (l : list R)
| XNone.

(** instrument.py:1848-1852. *)
Definition reset (s : strat) : strat :=
  mkstrat (sg_fsamp s) (reset_instr_rot (sg_rot s)) (reset_hwp_mod (sg_hwp s))
    (reset_el_steps (sg_el s)).

(** One call.  Simplification: a call that raises leaves the state as it was. *)
Definition run_op (o : op) (s : strat) : res out * strat :=
  match o with
  | OSub c =>
      match subpart_chunk (ir_rot (sg_rot s)) c with
      | Ok (l, r) =>
          let i := sg_rot s in
          (Ok (XSub l),
           mkstrat (sg_fsamp s)
             (mkirot r (ir_start i) (ir_angles i) (ir_angle i) (ir_gen i)) (sg_hwp s) (sg_el s))
      | Err e => (Err e, s)
      end
  | ORotate =>
      match rotate_instr (sg_rot s) with
      | Ok i => (Ok (XAngle (ir_angle i)), mkstrat (sg_fsamp s) i (sg_hwp s) (sg_el s))
      | Err e => (Err e, s)
      end
  | OHwp ha n =>
      match rotate_hwp (sg_fsamp s) ha n (sg_hwp s) with
      | Ok (o, h) => (Ok (XHwp o), mkstrat (sg_fsamp s) (sg_rot s) h (sg_el s))
      | Err e => (Err e, s)
      end
  | OEl arr =>
      match sg_el s with
      | None => (Ok (XEl arr), s)
      | Some e =>
          if negb (el_on e) then (Ok (XEl arr), s)
          else match step_array Rplus arr (el_st e) with
          | Ok (l, d) =>
              (Ok (XEl l),
               mkstrat (sg_fsamp s) (sg_rot s) (sg_hwp s) (Some (mkel (el_on e) (el_steps e) d)))
          | Err e => (Err e, s)
          end
      end
  | OReset => (Ok XNone, reset s)
  end.

Fixpoint run_ops (l : list op) (s : strat) : list (res out) * strat :=
  match l with
  | [] => ([], s)
  | o :: rest =>
      let '(x, s1) := run_op o s in
      let '(xs, s2) := run_ops rest s1 in
      (x :: xs, s2)
  end.

(** Configuration: the arguments of the three set functions. *)
Record config := mkconfig {
  cf_fsamp : R;
  cf_old_size : Z;
  cf_period : option R; cf_rot_start : R; cf_rot_angles : option (list R);
  cf_mode : hmode; cf_freq : option R; cf_hwp_start : R; cf_hwp_angles : option (list R);
  cf_el : option (R * option (list R))
}.

Definition configure (c : config) : res strat :=
  do h <- set_hwp_mod (cf_fsamp c) (cf_mode c) (cf_freq c) (cf_hwp_start c) (cf_hwp_angles c);
  do e <- match cf_el c with
          | None => Ok None
          | Some (p, steps) =>
              do e <- set_el_steps (cf_fsamp c) p steps; Ok (Some e)
          end;
  Ok (mkstrat (cf_fsamp c)
        (set_instr_rot (cf_fsamp c) (cf_old_size c) (cf_period c) (cf_rot_start c)
           (cf_rot_angles c))
        h e).
