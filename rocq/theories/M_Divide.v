(** * Model: dividing the mission anew, and the saved data *)
From Coq Require Import Reals QArith.
From Verif Require Import Common M_Chunks M_Sched M_Hwp M_Detpair M_Scan.

Section D.
  Context {B : Type}.

  (** instrument.py:1539-1540: [self._data[str(cidx)] = {}] for the chunks
      numbered below [n]. *)
  Definition forget (n : nat) (s : state B) : state B :=
    let s := set_data s (fun k i => if (k <? n)%nat then None else s_data s k i) in
    let s := set_point s (fun k i => if (k <? n)%nat then [] else s_point s k i) in
    set_hwps s (fun k => if (k <? n)%nat then [] else s_hwps s k).

  (** 1504-1543 [partition_mission]: the new division and emptied slots. *)
  Definition divide (E : env B) (chunksize : option Z) (s : state B) : res (state B) :=
    do l <- partition_mission (e_nsamp E) chunksize;
    Ok (set_chunks (forget (length l) s) (Some (map (fun c => (c, false)) l))).

  (** 2827-2921 [partition_schedule_file] for the scans [l] of a schedule:
      [self.chunks] only.  (The tables of azimuth, elevation and time are those
      of M_Sched; the state here does not hold them.) *)
  Definition divide_schedule (E : env B) (l : list ces) (chunksize : option Z) (fs : Q) (s : state B)
    : res (state B) :=
    do l <- partition_schedule l chunksize (e_nsamp E) fs;
    Ok (set_chunks s (Some (map (fun e => (e_chunk e, false)) l))).
End D.
