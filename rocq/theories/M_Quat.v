(** * Model of the quaternion helpers (tools.py:545-672) and of their use in
      ScanStrategy.scan (instrument.py:3473-3487)

    Arrays of four floats are 4-tuples of reals; rounding is not modelled.
    NumPy divides by a zero float without raising, giving nan/inf: the model
    uses Coq's total division there, so theorems about [quat_norm], [quat_inv]
    and [quat_conj_by] assume a non-zero divisor. *)
From Coq Require Import Reals.
Open Scope R_scope.

(** A float array of shape (4,): scalar part first. *)
Record quat := Q4 { q0 : R; q1 : R; q2 : R; q3 : R }.

(** tools.py:545-572 [quat_left_mult(q2, q)]; [p] is the argument called q2. *)
Definition quat_left_mult (p q : quat) : quat :=
  Q4 (q0 p * q0 q - q1 p * q1 q - q2 p * q2 q - q3 p * q3 q)
     (q1 p * q0 q + q0 p * q1 q - q3 p * q2 q + q2 p * q3 q)
     (q2 p * q0 q + q3 p * q1 q + q0 p * q2 q - q1 p * q3 q)
     (q3 p * q0 q - q2 p * q1 q + q1 p * q2 q + q0 p * q3 q).

(** [np.sum(q**2)] (tools.py:595, 644). *)
Definition sumsq (q : quat) : R :=
  q0 q * q0 q + q1 q * q1 q + q2 q * q2 q + q3 q * q3 q.

(** [q /= x] for a scalar x. *)
Definition quat_div (q : quat) (x : R) : quat :=
  Q4 (q0 q / x) (q1 q / x) (q2 q / x) (q3 q / x).

(** tools.py:574-597 [quat_norm(q, inplace)].  The result is the returned
    array and what the caller's array holds afterwards. *)
Definition quat_norm (q : quat) (inplace : bool) : quat * quat :=
  let r := quat_div q (sqrt (sumsq q)) in
  if inplace then (r, r) else (r, q).

(** tools.py:599-623. *)
Definition quat_conj (q : quat) : quat :=
  Q4 (q0 q) (- q1 q) (- q2 q) (- q3 q).

(** tools.py:625-646. *)
Definition quat_inv (q : quat) : quat :=
  let qi := quat_conj q in quat_div qi (sumsq qi).

(** tools.py:648-672 [quat_conj_by(q, q2)]; [p] is the argument called q2. *)
Definition quat_conj_by (q p : quat) : quat :=
  quat_left_mult p (quat_left_mult q (quat_inv p)).

(** instrument.py:3483-3487: the offset quaternion of a detector after the
    instrument rotation [rot_dict['angle']].  [off] is what qpoint's
    det_offset(az, el, 0) returned; np.radians(x) is x * pi / 180. *)
Definition scan_q_off (angle : R) (off : quat) : quat :=
  let ang := angle * PI / 180 in
  let q_rot := Q4 (cos (ang / 2)) 0 0 (sin (ang / 2)) in
  quat_left_mult q_rot off.

(** instrument.py:2363-2369 (= 2399-2404, 2742-2747, 2774-2779, 3046-3050,
    3082-3086): the horizontal pointing quaternion used for ground scans at
    azimuth [az] and elevation [el] in degrees. *)
Definition q_boreground (az el : R) : quat :=
  let caz := cos (az * PI / 180 / 2) in
  let saz := sin (az * PI / 180 / 2) in
  let cel := cos (PI / 4 - el * PI / 180 / 2) in
  let sel := sin (PI / 4 - el * PI / 180 / 2) in
  Q4 (- saz * cel) (caz * sel) (saz * sel) (caz * cel).
