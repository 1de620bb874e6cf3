(** * Specification vocabulary for schedules *)
From Verif Require Import Common M_Chunks M_Sched.
Open Scope Q_scope.

(** Adjacent intervals, in order, from [lo] to [hi]; empty ones allowed. *)
Fixpoint chain (lo hi : Z) (l : list (Z * Z)) : Prop :=
  match l with
  | [] => lo = hi
  | (a, b) :: r => a = lo /\ (a <= b)%Z /\ chain b hi r
  end.

(** Samples scheduled in all scans of [l]. *)
Fixpoint scheduled (fs : Q) (l : list ces) : Q :=
  match l with
  | [] => 0
  | c :: r => (t1 c - t0 c) * fs + scheduled fs r
  end.

(** No scan ends within the last [c] samples before the end of the mission
    (ending exactly at, or beyond, the end of the mission is fine). *)
Fixpoint clear_of_end (fs : Q) (c nsamp : Z) (at_sample : Q) (l : list ces) : Prop :=
  match l with
  | [] => True
  | x :: r =>
      let e := at_sample + (t1 x - t0 x) * fs in
      (e < inject_Z nsamp -> e + inject_Z c <= inject_Z nsamp)
      /\ clear_of_end fs c nsamp e r
  end.

(** Slack needed at the end of the mission for a given chunk size. *)
Definition slack (chunksize : option Z) : Z :=
  match chunksize with Some c => c | None => 0 end.

Definition espan (e : entry) : Z * Z := (c_start (e_chunk e), c_end (e_chunk e)).

(** The chunk of [x] lies within the samples of the scan [e_ces x], which is
    a scan of the schedule [l] (starting at sample [at_sample]), and the start
    time of the chunk is the time at which its first sample is due: [q] samples
    after the start of the scan. *)
Definition in_own_scan (fs at_sample : Q) (l : list ces) (x : entry) : Prop :=
  exists before after q,
    l = before ++ e_ces x :: after
    /\ 0 <= q /\ q < (t1 (e_ces x) - t0 (e_ces x)) * fs
    /\ c_start (e_chunk x) = Qfloor (at_sample + scheduled fs before + q)
    /\ (c_end (e_chunk x) <= Qfloor (at_sample + scheduled fs before
                                     + (t1 (e_ces x) - t0 (e_ces x)) * fs))%Z
    /\ e_tstart x == t0 (e_ces x) + q / fs.
