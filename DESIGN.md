# Formal model of beamconv in Rocq (Coq 8.16.1)

## 1. Approach

The model is a set of shallow, computable Gallina functions that mirror the
Python functions branch by branch.  Exceptions are values of an inductive type
(`res A := Ok a | Err e`).  Mutable attributes are record fields threaded
through `state -> op -> res state` functions.  External things (random draws,
the clock, `qpoint`, `healpy` transforms, MPI transport) are parameters of the
modelled functions: theorems quantify over them.

Per area there are up to four files in `rocq/theories/`:

* `M_<Area>.v`  model definitions only, every definition cites `/repo` lines;
* `S_<Area>.v`  small specification vocabulary (independent of the model);
* `L_<Area>.v`  lemmas and proofs;
* `P_<Area>.v`  property theorems only, each closed by `exact`, each followed by
  `Print Assumptions` and a non-vacuity `Example`.

Numbers: Python ints are `Z` (or `nat` for lengths / indices); array elements
are polymorphic where the code never looks at them; angles, times and
coefficients are exact reals (`R`) or pairs of reals for complex numbers.
Floating point rounding is out of scope except where a file says otherwise.

A property the code violates is kept in view: the model is faithful, the
violation is a theorem `..._refuted` with a concrete witness, and the part that
does hold is a theorem `..._partial`.

## 2. Plan per property

| Id | Model | Proof |
|----|-------|-------|
| C01 | `array_split`, `scatter_list` over lists and nranks | list induction, arithmetic on quotient/remainder |
| C02 | `distribute_array` offsets by prefix sums | closed form of prefix sums; equality with C01 parts |
| C03 | size/offset computation + slice + per-sample map + gather | gather of slices = map (uses C02) |
| C04 | rank-indexed outer loop of `scan_instrument_mpi` | permutation/concatenation of processed pairs; refutation for scatter=False |
| C05 | loop with abstract per-pair contribution in a commutative monoid; the scan loop itself on every rank | sum over ranks = sum over pairs; permutation of what is binned, from C88 |
| C06 | `partition_mission` on Z | closed form of the loop |
| C07 | `subpart_chunk` on Z with remainder state | invariant `0 <= remainder < r`, case analysis |
| C08 | as C07 + rotation generator; sample -> angle trace | refutation by computation, partial theorem when no chunk lies inside one period |
| C09 | `_chunk2idx` composed with C06/C07 | corollary of tilings |
| C10, C11 | `partition_schedule_file` with sample counts as rationals | induction over CES list; refutations by computation |
| C12 | `step_array` as list update with remainder/generator state | refinement: state = absolute sample number |
| C13 | `rotate_hwp` continuous branch over R | refutation (2 chunks), partial: single chunk; exact lag formula |
| C14 | set/reset of the three mechanisms | observational equivalence of reset and fresh states |
| C15 | `angle_gen` as state machine | induction |
| C16 | ctime formulas over R | algebra |
| C17 | `__init__` decision tree over R with floor | case analysis |
| C18, C19 | focal plane state machine with a heap of beams | invariant over operation lists |
| C20 | `kill_channels` with the draw as parameter | NoDup counting |
| C21, C52 | `Beam.create_ghost`, `dead` setter | invariant |
| C22 | event trace of the full loop nest (chunks, sub-chunks, pairs, ghosts) | trace counting; refutation for pairs without A |
| C23 | `cross_talk` on lists | pointwise ring identity |
| C24, C25 | `_scan_modulate_pa` over complex pairs | induction on the spin list |
| C26, C50 | `_scan_detector` accumulation | list induction; refutation for ground |
| C27 | `trunc_alm` on lists with healpix layout | triangular index arithmetic |
| C28, C29 | `shift_blm`, `unpol2pol` slice by slice | pointwise characterisation |
| C30 | `spin2eb`, `eb2spin` | ring |
| C31 | `scale_blm` | field |
| C32 | `load_blm` padding | layout lemma |
| C33 | quaternions over R | ring / field |
| C34, C35, C53, C54 | `mueller2spin`, `blmxhwp`, HWP part of `scan` | matrix computation over C |
| C36, C37 | `JonesToMueller`, `MuellerRotation`, `JonesRotation` | ring / trig identities; refutation |
| C38 | `transferMatrix`, `stackTransferMatrix` over complex numbers, inverse by Cramer's rule | closed form of a layer; induction over layers |
| C39 | `BandAveragedMueller` with the two files as functions | sums over lists; refutations |
| C40 | while loop with fuel = npatches+1 | invariant; fuel never exhausted |
| C41 | az patterns over R, array shapes over Z | trig / arithmetic |
| C42 | satellite state over R | refutation |
| C43 | rotations over R | trig identities |
| C44, C45 | scalar functions with NumPy error branches | refutations, partial |
| C46 | `tukey_window`, `filter_ft_hwp`, `filter_tod_hwp`; FFT as parameter | slices with Python bounds, rounding |
| C47 | constructors with Python truthiness | refutation, partial for non-zero |
| C48 | while loops of the finiteness check | refutation, partial for sky |
| C49 | ghost index tables | refutation, partial for unshared ghosts |
| C50 | kwargs threading of the amplitude | refutation, partial for one ghost |
| C51 | `load_focal_plane` on abstract files | induction |
| C55 | state machine of a whole scan | refutation, partial with reset |
| C56 | per-pixel sums over R, ranks, `solve_for_map` | induction over calls; Cramer; Gram matrix of three angles is regular |
| C57 | `blm2bl` | layout |
| C58 | `create_focal_plane` loops | list enumeration |
| C59 | setters on the focal plane heap | frame theorem |
| C60 | `Beam` attribute setters | invariant, refutation |
| C61 | `schedule_scan`, `implement_scan`, `strictly_az` chunk by chunk | closed form of the sweep; refutations across chunks |
| C62, C63, C64 | `load_blm` options, `scale_blm` in place | case analysis on file shapes; refutations |
| C65 | `gen_gaussian_blm` composed with `unpol2pol` | layout lemma |
| C67 | `create_reflected_ghosts` on the heap of beams | induction over beams |
| C68 | `get_offsets`, `rotate_instr`, quaternion composition of `scan` | trigonometry |
| C69 | azimuth and elevation arrays of schedule-driven scans | closed form |
| C70 | `TranToJones` | linear system, regular by the power argument; in general exactly when no light comes out by itself; counterexample with rational angles |
| C71 | power flux of a layer's modes | conserved quantity along the stack; counterexample for other axes, a half-wave layer whose matrix is rational |
| C72 | `iquv2ippv`, `ippv2iquv` | matrix computation; refutation |
| C73, C74 | `HWP.stack_builder`, `HWP.choose_HWP_model` | lists; case analysis over the tables |
| C75 | `Beam.set_hwp_mueller` | C71 for the tables |
| C76 | `rotation` argument at normal incidence | conjugation by a rotation |
| C77 | `transferMatrix` against the characteristic matrix | eigenvectors; refutation |
| C78 | `_init_spinmaps`, `_spinmaps_real`, `_spinmaps_complex`; transforms as parameters | sums over modes, conjugation symmetry of harmonics |
| C79 | storage of timestreams in the scan loop against binning | trace invariant over the whole scan |
| C80 | per-sample elevation, rotation and HWP angle in the scan loop | invariant: state = absolute sample number |
| C81 | `ctime2bore` date handling | refutation |
| C82 | Butterworth factor per mode, NaN as `None` | monotone real functions; refutation at zero cut-off |
| C83 | `bin_tod` options on maps per pixel | refutation |
| C84, C85 | binary64 rounding (Flocq) of the divisions and products behind counts | relative error bound; refutation by exact rounding |
| C86 | saved positions and HWP angles (`save_point`) in the scan loop | trace invariant: every write is sound and covers its samples; refutation for a second scan |
| C87 | the scan loop run with two settings of `save_tod`, `save_point` | simulation in both directions; refutation with a ground template |
| C88 | two runs of the scan loop that share a pair | views from C80, values from C26, lengths from C22 |
| C89 | spin maps and timestream formula with linear transforms; three runs of the scan loop; filters; binned and solved maps | element-wise relation z = a x + b y carried through every step of the three runs |
| C90 | constructor of a beam with any keywords | a table of documented options and defaults apart from the model; the constructor unrolled symbolically |
| C91 | `input_focal_plane` with arrays of any lengths and any options | induction on the rows; every beam compared with the specification of a beam made with options (C90) |
| C92 | pointing quaternions of `scan` and `bin_tod`, the trace of the scan loop, the timestream formula, binning and solving, put together | quaternion algebra: both pointings differ by a turn about the line of sight; every binned sample is the model sample of C04; C78 for the maps of a symmetric beam |
| C93 | the scan loop as modelled for C22-C26, every exception a value | an invariant of the settings (generators inside their lists, step sizes positive) kept by every operation; progress lemma for each function of the loop from the innermost outwards; induction over sub-chunks, chunks, pairs and scans |
| C94 | `gen_gaussian_blm` over `gauss_blm` and `get_copol_blm`, healpy's window as documented | the variance from the half-maximum condition; both factors of the code as exponentials of that variance; coefficient by coefficient through `unpol2pol`; with C92 the smoothed sky |
| C66 | `set_global_prop_random` and `add_to_prop` with random numbers, over the object heap of the focal plane; the generator is a stream of draws with a counter | both loops as folds over (object, deviation) lists; each fold keeps what it does not name; numbering of the draws computed |
| C95 | `create_crosstalk_ghosts` on the heap of beams, any offset table | induction over the slots paired with offsets, as C67; empty places and zero azimuths by cases |
| C96 | the focal plane operations called by a list of processes, each with its own draws and files; `broadcast`, `broadcast_array` | the step of a constant list of states is the constant list of the single step; loading commutes with moving references |
| C97 | the whole scan (`scan_instrument`) with the stored spin maps as part of the state and `reuse_spinmaps` as an option | the stored maps are those the next pair would make: invariant over pairs and chunks, so both runs go through the same states; the maps survive into a later scan |
| C98 | `plot_iqu` and `plot_map` (`M_Plot.v`): keyword dictionaries, limits and settings carried from map to map; a call of healpy's function is a record | one turn of the loop yields one record; induction over the maps for what is carried along |
| C99 | `round_sig` over the reals with `np.round` to even halves | floor of the logarithm gives the place of the first digit; the nearest integer is within one half and between the integers around it |
| C100 | `reuse_blm` on the heap of beams | the four assignments computed one after another on the updated beam; other references untouched |
| C101 | the whole scan as for C55; `S_Interrupt.v` says in which states each function of the loop can be cut off | from the innermost function outwards: the log only grows, and beams, effective partition and settings are those of the start up to the steps, which the reset undoes; then the simulation of C55 |
| C102 | a session as a list of `allocate_maps`, `bin_tod`, `solve_for_map` calls and flag changes (`M_MapHist.v`), over the maps of C56; what the maps should hold is computed from the list alone (`in_maps`) | induction over the session with the invariant that each pixel is the sum over the accounted samples; then C56 for the solution |
| C103 | `scan_tod` (`M_Tod.v`) at two detector angles with the same pointing, and `cross_talk`; the unpolarised signal and the polarised signal are written as sums over the azimuthal modes (`two_sided_sum`, `spin_sum` of `S_Tod.v`) | from the closed forms of C24 (ideal) and C53 (any plate) by trigonometry |
| C104 | the scan model of C88 with cross-talk, the pointing and binning model of C92, the solver of C56; the scaled sky is `talked` (`S_Talk.v`) | every binned sample is shown to be the scaled sky at its pixel and angle (contribution lemma of C88, angle lemma of C92, and the partner's angle differing by 90 degrees), then C56 |
| C105 | `main_spinmaps` (`M_Modes.v`: the number of orders handed to the model of C78); which orders are needed is `enough` (`S_Modes.v`) | C78's formulas for the timestream, and a lemma that a sum over orders depends only on those where the beam has coefficients; refuted by computation for a beam with mmax = 0 behind a partial polariser |
| C106 | The pointing attributes of the scan loop (`M_Scan.v`: `s_bore`, `s_gbore`, `s_mmap`); `looks_where_pointed` (`S_Ground.v`) reads the trace of a scan | Invariant along sub-chunks, chunks and pairs: the attribute read is the one the last pointing event set; refuted for a memory map by computing a run with two pairs and two chunks |
| C107 | The arrays behind `data()` in the scan loop (`M_Scan.v`: `s_data`, `s_point`, `s_hwps`), from any earlier state | Every step keeps entries that were emptied, and the allocation empties those of live detectors; without `save_point` no step writes positions or HWP angles; the HWP part refuted by computing two scans |
| C108 | `divide`, `divide_schedule` (`M_Divide.v`: the division and the emptied slots of `data()`), the scan loop; `right_size` and the histories `campaign` are in `S_Divide.v` | Sizes are an invariant of sub-chunks, chunks and pairs (every splice fits), then induction over histories; the schedule part refuted by computing two scans |

(The final status of each property is in `MANIFEST.json`.)

## 3. Trusted base

* Coq 8.16.1's kernel, and `vm_compute` where a proof uses it.
* The axioms listed below: the standard library's construction of the reals
  (`ClassicalDedekindReals.sig_not_dec`, `ClassicalDedekindReals.sig_forall_dec`),
  `FunctionalExtensionality.functional_extensionality_dep` (used by the reals)
  and `Classical_Prop.classic` (used by the library's trigonometry and limits).
  No axiom of any other library and none of ours; no kernel check is switched
  off; no `Admitted`.
* The model: that the definitions in the `M_*.v` files say what the cited Python
  lines do.  Each definition cites its lines and names its simplifications.
* The external facts that appear as parameters or hypotheses of theorems (never
  as axioms): what numpy/healpy/qpoint/mpi4py functions return.  The healpy
  index layout, numpy's `array_split`, slicing and `mod`, qpoint's binning and
  mpi4py's collectives are transcribed from their documentation (M_Alm, M_Mpi,
  M_Hwp, M_Solve).
* Exact arithmetic stands for floating point.  P_Float.v relates the two for the
  float divisions behind chunk and step counts.  Flocq's definition of rounding
  is used there; Flocq adds no axioms.

What `Print Assumptions` lists for each theorem (generated by
`scripts/assumptions.py`):

<!-- assumptions: begin -->
**No axioms (closed under the global context)**: 55 theorems

* `P_Alm.v`: C27_truncation_keeps_low_multipoles, C27_larger_band_limit_rejected, C27_truncations_compose, C27_sequences, C27_every_array_has_modes, C31_no_options_unchanged
* `P_Chunks.v`: C06_mission_chunks_tile, C06_empty_mission_rejected, C06_negative_size_drops_mission_refuted, C07_subchunks_tile, C08_rotation_count_exact, C08_rotation_once_per_period_partial, C08_rotation_once_per_period_refuted, C09_slices_tile_chunk, C09_slices_without_rotation
* `P_Detpair.v`: C49_found_partial, C49_numbered, C49_lookup, C49_partner_partial, C49_ground_refuted, C49_gap_refuted, C49_partner_refuted, C49_absent_refuted, C49_again, C49_again_refuted
* `P_Divide.v`: C108_divided_anew, C108_schedule_keeps
* `P_Filter.v`: C82_no_filter
* `P_FocalInput.v`: C91_replacing_refuted
* `P_L2.v`: C43_chunk_refuted
* `P_Mpi.v`: C01_scatter_partition, C01_scatter_without_mpi, C02_distribute_partition, C03_parallel_pointing_is_serial, C04_every_pair_scanned_once, C04_without_mpi, C04_no_scatter_refuted, C04_predistributed_refuted, C05_map_independent_of_ranks, C05_pixel_is_sum
* `P_Random.v`: C66_draws_differ, C66_shared_draws
* `P_Ranks.v`: C96_broadcast_array, C04_predistributed_lost_refuted
* `P_Sched.v`: C10_schedule_covers_partial, C10_whole_scans_cover, C10_schedule_covers_refuted, C10_parse_rows, C10_single_row_refuted, C11_index_addresses_own_chunk_partial, C11_index_refuted
* `P_Steps.v`: C15_generator_cycles, C15_empty_list_fails, C12_stepping_independent_of_chunks, C12_zero_step_rejected

**`sig_forall_dec`**: 16 theorems

* `P_Alm.v`: C28_too_large_rejected, C29_copolar_coefficients, C29_monopole_only_fails, C32_one_component, C32_three_components, C32_four_components, C32_different_azimuthal_limits_rejected, C32_unequal_v_component_refuted, C57_row, C57_negative_rejected, C57_beyond_band_limit_refuted, C65_gaussian_profile
* `P_Linear.v`: C89_first_scan
* `P_Solve.v`: C56_bins, C83_flag_array_refuted
* `P_Tod.v`: C23_lengths

**`functional_extensionality_dep`, `sig_forall_dec`**: 58 theorems

* `P_Alm.v`: C28_shift_moves_modes, C28_shift_zero, C28_eb_even_shift_partial, C28_eb_odd_shift_refuted, C28_eb_odd_shift_witness, C30_spin_eb_spin, C30_eb_spin_eb, C30_odd_spin_sign, C65_gaussian_polarisation
* `P_Complete.v`: C93_settings
* `P_Config.v`: C16_sample_times, C17_mission_consistent, C17_two_are_enough, C17_three_must_agree, C17_bad_rate_rejected, C17_too_few_rejected_partial, C17_zero_duration_alone_refuted, C47_explicit_zero_refuted
* `P_Filter.v`: C82_average
* `P_Focal.v`: C58_symmetric_partial
* `P_Linear.v`: C89_binned_maps, C89_solved_maps
* `P_MapHist.v`: C102_since_allocation, C102_no_maps, C102_new_maps, C102_solved
* `P_Mueller.v`: C36_represents_the_jones_matrix, C36_real, C36_multiplicative_with_unit, C36_physical, C36_total_power_dominates, C72_round_trip, C72_exchanged_partial, C72_documented_meaning_refuted
* `P_Pair.v`: C103_crosstalk
* `P_Point.v`: C40_selection, C40_terminates, C41_schedule_partial, C41_schedule_refuted, C41_constant_speed, C61_schedule_partial, C61_schedule_refuted, C61_constant_speed_refuted
* `P_Quat.v`: C33_product_is_hamiltons, C33_associative_with_unit, C33_norms_multiply, C33_conjugation_reverses_products, C33_inverse, C33_conjugation_by
* `P_Solve.v`: C56_additive, C56_solve, C56_regular, C56_unseen, C56_ranks, C83_keep_destination_refuted
* `P_Tod.v`: C23_cross_talk
* `P_Transfer.v`: C73_builder, C73_sizes

**`functional_extensionality_dep`, `sig_forall_dec`, `sig_not_dec`**: 226 theorems

* `P_Alm.v`: C29_pol_beam, C31_monopole_is_one, C31_ratios_kept, C31_normalising_is_idempotent, C31_overall_factor_irrelevant, C31_deconvolution, C64_argument_preserved_refuted, C64_argument_preserved_partial
* `P_Beam.v`: C90_given_or_default, C90_limits, C90_identity, C90_unknown_keyword, C90_accepted, C90_no_limit_refuted, C90_width_sets_limit_refuted, C90_read_only, C90_assigned, C90_stale_limit_refuted, C100_taken_over, C100_stale_limit_refuted
* `P_Bin.v`: C92_recovered, C92_turned, C92_smoothed_sky, C92_no_matrix, C92_ideal_plate, C92_same_angle, C92_line_of_sight
* `P_Complete.v`: C93_completes, C93_history, C93_ground_external_refuted, C93_preview_ground_refuted, C93_fast_rotation_refuted
* `P_Config.v`: C47_nonzero_honoured_partial, C47_zero_hwp_angle_refuted
* `P_Contrib.v`: C88_own_pair_only, C05_scans_bin_the_same, C05_scans_make_the_same_map
* `P_Cross.v`: C95_crosstalk_ghosts, C95_azimuth_zero_refuted, C95_unpaired_refuted, C95_unpaired_error_refuted, C50_crosstalk_amplitudes_refuted
* `P_Divide.v`: C108_right_size, C108_scan_keeps_size, C108_schedule_first, C108_schedule_refuted
* `P_Filter.v`: C46_window_partial, C46_window_refuted, C46_spectrum_partial, C46_low_refuted, C46_narrow_refuted, C46_timestream_partial, C46_slow_refuted, C46_gap_refuted, C46_wiped_refuted, C46_high_refuted, C46_in_map_making, C82_highpass_partial, C82_zero_cut_refuted, C82_in_map_making, C82_no_settings
* `P_Focal.v`: C18_count_is_number_of_beams_partial, C18_removal_leaves_others, C18_count_refuted, C19_indices_differ_partial, C19_input_refuted, C20_kills_exactly_the_drawn_partial, C20_empty_partner_refuted, C21_ghost_bookkeeping, C21_dead_flag_reaches_ghosts, C21_ghosts_have_no_ghosts, C67_reflected_ghosts, C50_first_amplitude_partial, C50_amplitudes_refuted, C51_loaded_beams, C51_malformed_rejected, C51_shared_dictionary_refuted, C51_shared_dead_refuted, C52_ghost_options_partial, C52_ghost_name, C52_ghost_limits, C52_ghost_options_refuted, C58_complete_grid, C58_names_unique, C58_single_position_refuted, C59_set_global_prop, C59_add_to_prop_partial, C59_add_to_ghosts_refuted, C60_limits_valid, C60_mmax_below_lmax_partial, C60_lowered_lmax_refuted
* `P_FocalInput.v`: C91_as_described, C91_accepted, C91_ignored_refuted, C91_ghost_refuted, C18_unequal_arrays_refuted
* `P_Ground.v`: C106_sky, C106_ground_partial, C106_memmap_refuted
* `P_Interrupt.v`: C101_restart_partial, C101_ends, C101_no_reset_refuted
* `P_L2.v`: C44_2pi_partial, C44_npi_partial, C44_npi_negative_partial, C45_partial, C45_pixels_partial, C45_south_refuted, C81_date_refuted
* `P_Left.v`: C107_nothing_stale, C107_others_kept, C107_other_positions_kept, C107_hwp_kept, C107_hwp_refuted
* `P_Linear.v`: C89_linear_in_the_sky, C89_linear_in_the_beam, C89_scans, C89_fails_alike, C89_filters
* `P_Modes.v`: C105_same_timestream, C105_axisymmetric, C105_band_limit, C105_mmax_behind_plate_refuted
* `P_Mueller.v`: C34_acts_on_spin_components, C34_multiplicative_with_unit, C34_conjugate_elements, C34_ideal_half_wave_plate, C35_ideal_plate_is_the_default, C35_below_band_limit_four_refuted, C36_phase_drops_out, C37_rotated_jones_matrix, C37_jones_rotations_compose, C37_rotated_mueller_matrix_partial, C37_rotated_mueller_matrix_at_right_angles_partial, C37_rotated_mueller_matrix_refuted, C54_intensity_leakage_partial, C54_intensity_leakage_refuted, C54_circular_leakage_partial, C54_circular_leakage_refuted
* `P_Pair.v`: C103_pair, C103_any_plate, C103_same_sum, C103_plate_refuted, C103_half_turn
* `P_Quat.v`: C33_normalisation, C33_conjugation_rotates, C68_instrument_rotation, C68_rotations_add, C69_ground_pointing
* `P_Random.v`: C66_own_draws, C66_centred_refuted, C66_documented_call_refuted, C66_add_random, C66_add_fixed
* `P_Ranks.v`: C96_same_focal_plane, C96_random_ghosts_refuted, C96_random_properties_refuted
* `P_Repeat.v`: C55_reset_partial, C55_still_partial, C55_rotation_refuted, C55_assigned_refuted, C55_ground_refuted
* `P_Reuse.v`: C97_same_beams, C97_again, C97_needs_one_beam
* `P_Save.v`: C87_saving_changes_nothing, C87_saving_not_needed, C87_saving_never_fails, C87_ground_refuted
* `P_Saved.v`: C79_saved_as_binned, C79_nothing_else, C80_same_for_all, C80_binned_as_scanned, C80_views_in_order, C80_elevation, C80_rotation, C80_no_rotation, C80_stepped_hwp, C80_spinning_hwp, C80_still_hwp, C55_second_scan_refuted, C86_saved_positions, C86_nothing_else, C86_saved_hwp, C86_second_scan_refuted
* `P_Scan.v`: C22_single, C22_all_ranks, C22_process, C22_absent_refuted, C26_superposed_partial, C26_ground_partial, C26_ground_ghost_refuted, C26_ground_point_refuted
* `P_Spin.v`: C78_timestream_is_the_convolution, C78_behind_a_plate_partial, C78_modulating_plate, C78_circular_polarisation, C78_circular_plate_partial, C78_circular_modulating_plate, C35_ideal_plate_timestream, C53_identity_plate, C48_sky_partial, C48_named_component_partial, C48_named_component_refuted, C48_beam_refuted, C48_finite_accepted
* `P_Steps.v`: C12_stepped_hwp_independent_of_chunks, C13_continuous_hwp_exact, C13_continuous_hwp_one_chunk_partial, C13_continuous_hwp_refuted, C14_reset_replays
* `P_Talk.v`: C104_map, C104_samples
* `P_Tod.v`: C24_spin_sum, C24_real_mode, C24_negative_spin_in_real_mode, C24_timestream, C25_real_mode_is_two_sided, C53_aligned_detector_partial, C53_any_angle_partial, C53_axisymmetric, C53_intensity_leakage_refuted, C53_unmodulated_polarisation_refuted
* `P_Transfer.v`: C74_names, C74_plates, C74_as_built

**`classic`, `functional_extensionality_dep`, `sig_forall_dec`, `sig_not_dec`**: 79 theorems

* `P_Alm.v`: C62_amplitude_polarised_partial, C62_amplitude_copolar_partial, C62_amplitude_refuted, C63_four_components_partial, C63_option_ignored_refuted, C63_cross_polar_kept_refuted
* `P_Float.v`: C84_smallest_count, C84_as_modelled, C84_as_modelled_nat, C85_integers_partial, C85_near_partial, C85_lost_sample_refuted
* `P_Gauss.v`: C94_gaussian, C94_one_width, C94_pencil, C94_smoothed, C94_falls, C94_monopole_raises
* `P_L2.v`: C43_angles, C43_vector, C43_scan_partial, C43_options_refuted, C44_refuted
* `P_Plot.v`: C98_pictures, C98_limits, C98_default_limits, C98_automatic_limits, C98_three_maps, C98_stokes_v_refuted, C98_four_symmetric_refuted, C98_own_limits_refuted, C98_own_tight_refuted, C98_own_function_refuted, C98_dpi_refuted, C99_rounded, C99_error, C99_zero_refuted
* `P_Point.v`: C40_steps_refuted, C41_triangle, C41_sawtooth, C41_still_partial, C41_still_refuted, C42_motion_partial, C42_next_partial, C42_longitude_refuted, C42_latitude_refuted, C61_triangle_refuted
* `P_Transfer.v`: C38_ordered_product, C38_stacking, C38_empty_layer, C38_empty_layer_in_a_stack, C38_split_layer, C39_weighted_mean, C39_constant, C39_between_extremes, C39_rescaling, C39_single_frequency_refuted, C39_highest_frequency_refuted, C39_rotation_in_degrees_refuted, C70_scattering_partial, C70_any_axes, C70_glowing_plate_refuted, C70_empty_stack_refuted, C71_power_partial, C71_mueller_partial, C71_power_refuted, C71_mueller_refuted, C73_missing_arguments, C75_known_plates_at_the_centre, C75_custom_plates_at_the_centre, C75_away_from_the_centre_partial, C75_away_from_the_centre_refuted, C75_radial, C76_jones, C76_mueller, C77_normal_incidence, C77_isotropic, C77_axis_perpendicular, C77_axis_in_plane_refuted
<!-- assumptions: end -->

## 4. What is modelled

| Code | Model |
|------|-------|
| `detector.py` `Beam.gen_gaussian_blm` | M_Gauss |
| `tools.py` `trunc_alm`, `shift_blm`, `blm2bl`, `unpol2pol`, `get_copol_blm`, `spin2eb`, `eb2spin`, `scale_blm`, `gauss_blm` | M_Alm, M_Blm |
| `tools.py` quaternions, `angle_gen`, `sawtooth_wave`, `cross_talk`, coordinate conversion | M_Quat, M_Steps, M_Point, M_Tod, M_L2 |
| `tools.py` `tukey_window`, `filter_ft_hwp`, `filter_tod_hwp`, `filter_tod_highpass`; `instrument.py` `set_filter_dict`, filters of `bin_tod` | M_Filter |
| `tools.py` `iquv2ippv`, `ippv2iquv`, `mueller2spin` | M_Mueller |
| `transfer_matrix.py` layers, stacks, Jones/Mueller conversion, rotation, band average | M_Transfer, M_Mueller |
| `detector.py` `Beam` attributes, ghosts, `load_blm`, `gen_gaussian_blm`, `blm` property, `reuse_blm`, `delete_blm`, `get_offsets` | M_Beam, M_Blm, M_Detpair, M_Quat |
| `detector.py` `HWP`, `set_hwp_mueller` | M_Transfer |
| `scanning.py` all functions reached from `l2_scan` | M_L2 |
| `instrument.py` `MPIBase` | M_Mpi |
| `instrument.py` `Instrument` (constructor, focal plane, ghosts, setters) | M_Config, M_Focal |
| `instrument.py` `set_global_prop_random`, random part of `add_to_prop` | M_Random |
| `instrument.py` `broadcast`, `broadcast_array`, focal plane operations on several processes | M_Ranks |
| `instrument.py` constructor of `ScanStrategy`, sample times | M_Config |
| `instrument.py` rotation, HWP, elevation steps, chunks, schedules | M_Hwp, M_Steps, M_Chunks, M_Sched, M_Divide |
| `instrument.py` `init_detpair`, `init_spinmaps`, spin maps | M_Detpair, M_Spin, M_Modes |
| `instrument.py` `scan_instrument_mpi`, `_scan_detector`, `scan`, `_update_tod`, storage | M_Scan, M_Tod |
| `instrument.py` `implement_scan`, `strictly_az`, `schedule_scan`, `satellite_scan`, `l2_scan` | M_Scan, M_Point, M_L2 |
| `instrument.py` `allocate_maps`, `bin_tod`, `solve_for_map` | M_Solve, M_Filter |
| `instrument.py` detector quaternions of `scan` and `bin_tod` | M_Bin |
| sessions of `allocate_maps`, `bin_tod`, `solve_for_map` | M_MapHist |
| `plot_tools.py` | M_Plot |

Not modelled: printing and `verbose` options, `__str__`/`__del__`, memory-mapped
files and their cleanup (their contents are: `s_mmap`), reading files from disk (a file is its content),
the pictures themselves (`plot_tools.py` is modelled up to the call of healpy), `test.py`, the numerical values of healpy's transforms and
qpoint's frame conversions (parameters), rounding, performance.

## 5. Deviations found

Every property with status `partial` has a note in `MANIFEST.json` that names
what fails; each failure is a theorem whose name ends in `_refuted`, with a
witness.
