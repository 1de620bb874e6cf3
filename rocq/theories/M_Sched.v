(** * Model of schedule files: [parse_schedule_file],
    [partition_schedule_file], [schedule_ctime]

    /repo/beamconv/instrument.py.  Times and sample rates are rationals (exact
    arithmetic); sample numbers of chunks are integers. *)
From Verif Require Import Common M_Chunks.
From Coq Require Export QArith Qround.
Open Scope Q_scope.

(** One constant-elevation scan. *)
Record ces := mkces { t0 : Q; t1 : Q; az0 : Q; az1 : Q; elv : Q }.

(** instrument.py:2811-2813. *)
Definition mjd2ctime (mjd : Q) : Q := (mjd - 40587) * 86400.

(** instrument.py:2785-2824 [parse_schedule_file] on the rows of the file
    (five numbers each).  [np.loadtxt] returns a one-dimensional array for
    fewer than two rows, so that [data[:, 0]] fails. *)
Definition parse_schedule (rows : list (Q * Q * Q * Q * Q)) : res (list ces) :=
  match rows with
  | [] => Err IndexError
  | [_] => Err IndexError
  | _ => Ok (map (fun r => match r with (a, b, c, d, e) =>
                   mkces (mjd2ctime a) (mjd2ctime b) c d e end) rows)
  end.

(** Python [int()] of a rational. *)
Definition qtrunc (q : Q) : Z := if Qle_bool 0 q then Qfloor q else (- Qfloor (- q))%Z.

(** What one [chunks.append] and the appends that accompany it record
    (instrument.py:2889-2899): the chunk, its start time, and the scan whose
    azimuth, elevation and time limits go to the tables. *)
Record entry := mkentry { e_chunk : chunk; e_tstart : Q; e_ces : ces }.

(** instrument.py:2880-2905: loop over the chunks of one scan, from chunk
    number [k] on ([fuel] chunks left).  Returns the appended entries, [end],
    [cidx] and [done_chunking]. *)
Fixpoint ces_loop (fuel k : nat) (cs nsamp chunknum : Z) (fs samplenum nfull : Q) (c : ces)
  (start tstart : Q) : list entry * Q * nat * bool :=
  match fuel with
  | O => ([], start, k, false)
  | S f =>
      let e := start + inject_Z cs in
      let e := match f with O => samplenum + nfull | _ => e end in
      let e := if Qle_bool (inject_Z nsamp) e then inject_Z nsamp else e in
      let '(new, start', tstart') :=
        if Qeq_bool e start then ([], start, tstart)
        else ([mkentry (mkchunk (qtrunc start) (qtrunc e)
                          (Some (Z.to_nat (chunknum + Z.of_nat k))) false) tstart c],
              start + inject_Z cs, tstart + inject_Z cs / fs) in
      if Qle_bool (inject_Z nsamp) start' then (new, e, k, true)
      else match f with
           | O => (new, e, k, false)
           | S _ =>
               let '(rest, e', k', d) :=
                 ces_loop f (S k) cs nsamp chunknum fs samplenum nfull c start' tstart' in
               (new ++ rest, e', k', d)
           end
  end.

(** instrument.py:2868-2876: chunk size to use and number of chunks. *)
Definition ces_sizes (chunksize : option Z) (nfull : Q) : res (Z * Z) :=
  let whole := Ok (qtrunc nfull, 1%Z) in
  match chunksize with
  | None => whole
  | Some c =>
      if (c =? 0)%Z || Qle_bool nfull (inject_Z c) then whole
      else Ok (c, Qceiling (nfull / inject_Z c))
  end.

(** instrument.py:2858-2914: loop over the scans. *)
Fixpoint sched_loop (l : list ces) (chunksize : option Z) (nsamp : Z) (fs samplenum : Q)
  (chunknum : Z) : res (list entry) :=
  match l with
  | [] => Ok []
  | c :: rest =>
      let nfull := (t1 c - t0 c) * fs in
      do (cs, nch) <- ces_sizes chunksize nfull;
      if (nch <=? 0)%Z then Err UnboundLocalError
      else
        let '(new, e, k, d) :=
          ces_loop (Z.to_nat nch) 0 cs nsamp chunknum fs samplenum nfull c samplenum (t0 c) in
        if d then Ok new
        else do more <- sched_loop rest chunksize nsamp fs e (chunknum + nch)%Z;
             Ok (new ++ more)
  end.

(** instrument.py:2827-2921 [partition_schedule_file]. *)
Definition partition_schedule (l : list ces) (chunksize : option Z) (nsamp : Z) (fs : Q)
  : res (list entry) :=
  sched_loop l chunksize nsamp fs 0 0.

(** instrument.py:2923-2949 [schedule_ctime]: the start time used for a chunk
    is looked up with the chunk's index; 2980-2984: the same index addresses
    the tables of the scans. *)
Definition lookup_entry (entries : list entry) (c : chunk) : res entry :=
  match c_cidx c with
  | Some i => index entries i
  | None => Err KeyError
  end.
