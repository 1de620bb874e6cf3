(** * Theorems C46 and C82: filters *)
From Coq Require Import Reals Lra Lia.
From Verif Require Import Common M_Hwp M_Filter L_Filter L_Filter2 L_Filter3.
Open Scope R_scope.

(** ** C46: the window *)

(** Every length except one: the length asked for, values between zero and one,
    symmetric, rising as half a cosine over the first quarter, one in the
    middle half. *)
Theorem C46_window_partial : forall n : nat, n <> 1%nat ->
  exists w, tukey_window n = Ok w /\ length w = n
    /\ (forall i x, nth_error w i = Some x -> 0 <= x <= 1)
    /\ (forall i, (i < n)%nat -> nth_error w i = nth_error w (n - 1 - i))
    /\ (forall i, (n + 1 <= 4 * i)%nat -> (n + 1 <= 4 * (n - 1 - i))%nat -> nth_error w i = Some 1)
    /\ (forall i, (4 * i <= n + 1)%nat -> (i < n)%nat ->
          nth_error w i = Some (1 / 2 * (1 - cos (4 * PI * INR i / INR (n + 1))))).
Proof. exact window_spec. Qed.
Print Assumptions C46_window_partial.

(** A window of one element cannot be made. *)
Theorem C46_window_refuted : tukey_window 1 = Err ValueError.
Proof. exact window_one. Qed.
Print Assumptions C46_window_refuted.

Example C46_window_case : (7 <> 1)%nat /\ (7 + 1 <= 4 * 3)%nat /\ (7 + 1 <= 4 * (7 - 1 - 3))%nat /\ (4 * 2 <= 7 + 1)%nat.
Proof. lia. Qed.

(** ** C46: a spectrum *)

(** Around [center], over [h] elements on either side, inside the spectrum: zero
    outside, a factor between zero and one inside, one on the inner half. *)
Theorem C46_spectrum_partial : forall (A : Type) (scale : R -> A -> A) (fd : list A) center width (h : nat),
  (0 < h)%nat -> (Z.of_nat h = width / 2)%Z ->
  (Z.of_nat h <= center)%Z -> (center + Z.of_nat h < Z.of_nat (length fd))%Z ->
  exists out, filter_ft_hwp scale fd center width = Ok out /\ length out = length fd
    /\ (forall j x, nth_error fd j = Some x ->
          (Z.of_nat j < center - Z.of_nat h \/ center + Z.of_nat h < Z.of_nat j)%Z ->
          nth_error out j = Some (scale 0 x))
    /\ (forall j x, nth_error fd j = Some x ->
          (center - Z.of_nat h <= Z.of_nat j <= center + Z.of_nat h)%Z ->
          exists g, nth_error out j = Some (scale g x) /\ 0 <= g <= 1
            /\ ((2 * Z.abs (Z.of_nat j - center) <= Z.of_nat h - 1)%Z -> g = 1)).
Proof. exact @filter_spectrum. Qed.
Print Assumptions C46_spectrum_partial.

(** A window that begins below the first element wipes the whole spectrum. *)
Theorem C46_low_refuted : forall (A : Type) (scale : R -> A -> A) (fd : list A) center width (h : nat),
  (0 <= width)%Z -> (Z.of_nat h = width / 2)%Z ->
  (0 <= center < Z.of_nat h)%Z -> (2 * Z.of_nat h + 1 <= Z.of_nat (length fd))%Z ->
  exists out, filter_ft_hwp scale fd center width = Ok out
    /\ forall j x, nth_error out j = Some x -> exists y, x = scale 0 y.
Proof. exact @filter_wiped. Qed.
Print Assumptions C46_low_refuted.

(** A width of zero or one element fails. *)
Theorem C46_narrow_refuted : forall (A : Type) (scale : R -> A -> A) (fd : list A) center width,
  (width = 0 \/ width = 1)%Z -> (0 <= center < Z.of_nat (length fd))%Z ->
  filter_ft_hwp scale fd center width = Err ValueError.
Proof. exact @filter_narrow. Qed.
Print Assumptions C46_narrow_refuted.

Example C46_spectrum_case : (0 < 3)%nat /\ (Z.of_nat 3 = 7 / 2)%Z /\ (Z.of_nat 3 <= 12)%Z /\
  (12 + Z.of_nat 3 < Z.of_nat (length (repeat 1%R 20)))%Z /\ (0 <= 2 < Z.of_nat 3)%Z.
Proof. vm_compute. repeat split; congruence || lia. Qed.

(** ** C46: a timestream *)

(** [x] is the plate frequency in units of the frequency step.  Modes further
    than [x + 3/2] from [4 x] are removed, modes within [x/2 - 5/4] and the mode
    nearest to [4 x] are kept, and no mode is amplified. *)
Theorem C46_timestream_partial : forall (A : Type) (scale : R -> A -> A) rfft irfft tod fsamp freq,
  let x := freq / fsamp * INR (length tod) in
  fsamp <> 0 -> 3 / 10 < x -> x <> 1 / 2 -> 5 * x + 4 <= INR (length (rfft tod)) ->
  exists fd : list A, filter_tod_hwp scale rfft irfft tod fsamp freq = Ok (irfft fd (length tod), fd)
    /\ length fd = length (rfft tod)
    /\ (forall j y, nth_error (rfft tod) j = Some y -> x + 3 / 2 < Rabs (INR j - 4 * x) ->
          nth_error fd j = Some (scale 0 y))
    /\ (forall j y, nth_error (rfft tod) j = Some y -> Rabs (INR j - 4 * x) <= x / 2 - 5 / 4 \/ Rabs (INR j - 4 * x) < 1 / 2 ->
          nth_error fd j = Some (scale 1 y))
    /\ (forall j y, nth_error (rfft tod) j = Some y -> exists g, nth_error fd j = Some (scale g y) /\ 0 <= g <= 1).
Proof. exact @filter_tod_spec. Qed.
Print Assumptions C46_timestream_partial.

(** A plate frequency under a tenth of the frequency step fails. *)
Theorem C46_slow_refuted : forall (A : Type) (scale : R -> A -> A) rfft irfft tod fsamp freq,
  let x := freq / fsamp * INR (length tod) in
  fsamp <> 0 -> 0 <= x < 1 / 10 -> rfft tod <> [] ->
  filter_tod_hwp scale rfft irfft tod fsamp freq = Err ValueError.
Proof. exact @filter_tod_slow. Qed.
Print Assumptions C46_slow_refuted.

(** Between a sixth and three tenths of the frequency step, and at one half, it
    fails as well. *)
Theorem C46_gap_refuted : forall (A : Type) (scale : R -> A -> A) rfft irfft tod fsamp freq,
  let x := freq / fsamp * INR (length tod) in
  fsamp <> 0 -> 1 / 6 < x < 3 / 10 \/ x = 1 / 2 -> (3 <= length (rfft tod))%nat ->
  filter_tod_hwp scale rfft irfft tod fsamp freq = Err ValueError.
Proof. exact @filter_tod_gap. Qed.
Print Assumptions C46_gap_refuted.

(** Between a tenth and an eighth nothing is left of the timestream. *)
Theorem C46_wiped_refuted : forall (A : Type) (scale : R -> A -> A) rfft irfft tod fsamp freq,
  let x := freq / fsamp * INR (length tod) in
  fsamp <> 0 -> 1 / 10 < x <= 1 / 8 -> (3 <= length (rfft tod))%nat ->
  exists fd : list A, filter_tod_hwp scale rfft irfft tod fsamp freq = Ok (irfft fd (length tod), fd)
    /\ forall j y, nth_error fd j = Some y -> exists z, y = scale 0 z.
Proof. exact @filter_tod_wiped. Qed.
Print Assumptions C46_wiped_refuted.

(** A window that reaches past the end of the spectrum is cut and its centre
    moves: with four times the plate frequency at the last mode, this mode is
    removed. *)
Theorem C46_high_refuted : forall (A : Type) (scale : R -> A -> A) (fd : list A) center width (h : nat) x,
  (0 < h)%nat -> (Z.of_nat h = width / 2)%Z -> (Z.of_nat h <= center)%Z ->
  (center = Z.of_nat (length fd) - 1)%Z -> nth_error fd (Z.to_nat center) = Some x ->
  exists out, filter_ft_hwp scale fd center width = Ok out
    /\ nth_error out (Z.to_nat center) = Some (scale 0 x).
Proof. exact @filter_high. Qed.
Print Assumptions C46_high_refuted.

Example C46_timestream_case : let x := 1 / 10 * INR (length (repeat 0 200)) in
  10 <> 0 /\ 3 / 10 < x /\ x <> 1 / 2 /\ 5 * x + 4 <= INR (length (repeat 0 106)) /\ Rabs (INR 81 - 4 * x) <= x / 2 - 5 / 4.
Proof.
  rewrite !repeat_length. rewrite !INR_IZR_INZ. cbn -[Rabs]. split; [lra|]. split; [lra|]. split; [lra|]. split; [lra|].
  rewrite Rabs_pos_eq; lra.
Qed.

Example C46_slow_case : let tod := repeat 0 200 in let x f := f / 10 * INR (length tod) in
  (10 <> 0) /\ 0 <= x (1 / 250) < 1 / 10 /\ 1 / 10 < x (3 / 500) <= 1 / 8 /\ 1 / 6 < x (1 / 100) < 3 / 10
  /\ x (1 / 40) = 1 / 2 /\ (3 <= length (repeat 1%R 101))%nat.
Proof.
  cbv zeta. rewrite !repeat_length. rewrite !INR_IZR_INZ. cbn. repeat split; try lra; lia.
Qed.

Example C46_high_case : (0 < 3)%nat /\ (Z.of_nat 3 = 7 / 2)%Z /\ (Z.of_nat 3 <= 19)%Z /\
  (19 = Z.of_nat (length (repeat 1%R 20)) - 1)%Z.
Proof. vm_compute. repeat split; congruence || lia. Qed.

(** In map making: the filter of the plate is refused unless the plate turns
    continuously; if it does, the timestream is filtered first, and the
    high-pass filter sees the result. *)
Theorem C46_in_map_making : forall (A : Type) (scale : R -> A -> A) rfft irfft tod fsamp freq fd hp mode,
  (mode <> Continuous -> bin_filters scale rfft irfft fsamp freq fd true hp mode tod = Err ValueError)
  /\ (forall t' fd', mode = Continuous -> filter_tod_hwp scale rfft irfft tod fsamp freq = Ok (t', fd') ->
      bin_filters scale rfft irfft fsamp freq fd true hp mode tod
      = bin_filters scale rfft irfft fsamp freq fd false hp mode t')
  /\ (forall e, mode = Continuous -> filter_tod_hwp scale rfft irfft tod fsamp freq = Err e ->
      bin_filters scale rfft irfft fsamp freq fd true hp mode tod = Err e).
Proof. exact @binned_plate. Qed.
Print Assumptions C46_in_map_making.

(** ** C82: the high-pass filter *)

(** The mean is removed, no mode is amplified, higher frequencies pass more
    than lower ones, and the power passed at frequency [f] is
    [f^2m / (f^2m + w_c^2m)]: one half at the cut-off. *)
Theorem C82_highpass_partial : forall (A : Type) (scale : R -> A -> A) rfft tod fsamp w_c (m : nat),
  tod <> [] -> 0 < fsamp -> 0 < w_c -> (0 < m)%nat ->
  exists gain : nat -> R,
    (forall k y, nth_error (rfft tod) k = Some y ->
       nth_error (filter_tod_highpass scale rfft tod fsamp w_c m) k = Some (Some (scale (gain k) y)))
    /\ gain 0%nat = 0
    /\ (forall k k', (k < k')%nat -> gain k < gain k')
    /\ (forall k, 0 <= gain k < 1)
    /\ (forall k, (0 < k)%nat -> let f := INR k * fsamp / INR (length tod) in
          gain k * gain k = f ^ (2 * m) / (f ^ (2 * m) + w_c ^ (2 * m))).
Proof. exact @highpass_spec. Qed.
Print Assumptions C82_highpass_partial.

(** A cut-off at zero does not leave the timestream alone: the mean becomes NaN. *)
Theorem C82_zero_cut_refuted : forall (A : Type) (scale : R -> A -> A) rfft tod fsamp m y,
  nth_error (rfft tod) 0 = Some y -> (0 < m)%nat ->
  nth_error (filter_tod_highpass scale rfft tod fsamp 0 m) 0 = Some None.
Proof. exact @highpass_zero_cut. Qed.
Print Assumptions C82_zero_cut_refuted.

(** Without filter settings the mean of the timestream is subtracted. *)
Theorem C82_average : forall tod, tod <> [] ->
  exists a, sub_average tod = map (fun x => x - a) tod /\ fold_right Rplus 0 (sub_average tod) = 0.
Proof. exact sub_average_spec. Qed.
Print Assumptions C82_average.

(** In map making: with [set_filter_dict(w_c, m)] the spectrum of the timestream
    is scaled with these gains and transformed back; without settings the mean
    is subtracted; with no filter asked for the timestream stays as it is. *)
Theorem C82_in_map_making : forall (A : Type) (scale : R -> A -> A) rfft irfft tod fsamp freq w_c (m : nat) mode,
  tod <> [] -> 0 < fsamp -> 0 < w_c -> (0 < m)%nat ->
  exists (gain : nat -> R) fd,
    bin_filters scale rfft irfft fsamp freq (set_filter_dict w_c m) false true mode tod
      = Ok (irfft fd (length tod))
    /\ length fd = length (rfft tod)
    /\ (forall k y, nth_error (rfft tod) k = Some y -> nth_error fd k = Some (scale (gain k) y))
    /\ gain 0%nat = 0
    /\ (forall k, (0 < k)%nat -> let f := INR k * fsamp / INR (length tod) in
          0 <= gain k /\ gain k * gain k = f ^ (2 * m) / (f ^ (2 * m) + w_c ^ (2 * m))).
Proof. exact @binned_highpass. Qed.
Print Assumptions C82_in_map_making.

Theorem C82_no_settings : forall (A : Type) (scale : R -> A -> A) rfft irfft tod fsamp freq mode, tod <> [] ->
  exists a, bin_filters scale rfft irfft fsamp freq None false true mode tod = Ok (map (fun x => x - a) tod)
    /\ fold_right Rplus 0 (map (fun x => x - a) tod) = 0.
Proof. exact @binned_average. Qed.
Print Assumptions C82_no_settings.

Theorem C82_no_filter : forall (A : Type) (scale : R -> A -> A) rfft irfft tod fsamp freq fd mode,
  bin_filters scale rfft irfft fsamp freq fd false false mode tod = Ok tod.
Proof. exact @binned_plain. Qed.
Print Assumptions C82_no_filter.

Example C82_case : [1; 2; 4] <> [] /\ 0 < 100 /\ 0 < 1 / 2 /\ (0 < 4)%nat.
Proof. repeat split; try lra; try lia. discriminate. Qed.
