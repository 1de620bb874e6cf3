{
 "claims": [
  {
   "property": "C01",
   "status": "proved",
   "theorems": [
    "C01_scatter_partition",
    "C01_scatter_without_mpi"
   ],
   "note": ""
  },
  {
   "property": "C02",
   "status": "proved",
   "theorems": [
    "C02_distribute_partition"
   ],
   "note": ""
  },
  {
   "property": "C03",
   "status": "proved",
   "theorems": [
    "C03_parallel_pointing_is_serial"
   ],
   "note": ""
  },
  {
   "property": "C04",
   "status": "partial",
   "theorems": [
    "C04_every_pair_scanned_once",
    "C04_without_mpi",
    "C04_no_scatter_refuted",
    "C04_predistributed_refuted",
    "C04_predistributed_lost_refuted"
   ],
   "note": "Holds for scattered focal planes; refuted for scatter=False under MPI (each rank scans everything) and for focal planes already scattered before being added again."
  },
  {
   "property": "C05",
   "status": "proved",
   "theorems": [
    "C05_scans_bin_the_same",
    "C05_scans_make_the_same_map",
    "C05_map_independent_of_ranks",
    "C05_pixel_is_sum"
   ],
   "note": "C05_map_independent_of_ranks and C05_pixel_is_sum: reduction of per-pair contributions. C05_scans_*: the contributions of the modelled scans themselves, from C88."
  },
  {
   "property": "C06",
   "status": "proved",
   "theorems": [
    "C06_mission_chunks_tile",
    "C06_empty_mission_rejected",
    "C06_negative_size_drops_mission_refuted"
   ],
   "note": "Also: empty missions raise ZeroDivisionError and a negative chunk size silently yields no chunks (outside the documented domain)."
  },
  {
   "property": "C07",
   "status": "proved",
   "theorems": [
    "C07_subchunks_tile"
   ],
   "note": ""
  },
  {
   "property": "C08",
   "status": "partial",
   "theorems": [
    "C08_rotation_count_exact",
    "C08_rotation_once_per_period_partial",
    "C08_rotation_once_per_period_refuted"
   ],
   "note": "Exact law for the rotation number at each sample; the stated once-per-period property holds iff no chunk lies strictly inside a period, and is refuted by chunks of 4 samples with a period of 10."
  },
  {
   "property": "C09",
   "status": "proved",
   "theorems": [
    "C09_slices_tile_chunk",
    "C09_slices_without_rotation"
   ],
   "note": ""
  },
  {
   "property": "C10",
   "status": "partial",
   "theorems": [
    "C10_schedule_covers_partial",
    "C10_whole_scans_cover",
    "C10_schedule_covers_refuted",
    "C10_parse_rows",
    "C10_single_row_refuted"
   ],
   "note": "Contiguity, chunk-size bound and staying within nsamp proved for all schedules of scans with positive duration; full coverage when no scan ends within one chunk size of the end of the mission (always when no chunk size is given); refuted otherwise. Single-row schedule files fail to parse."
  },
  {
   "property": "C11",
   "status": "partial",
   "theorems": [
    "C11_index_addresses_own_chunk_partial",
    "C11_index_refuted"
   ],
   "note": "Proved for scans of positive duration; refuted by a zero-length scan."
  },
  {
   "property": "C12",
   "status": "proved",
   "theorems": [
    "C12_stepping_independent_of_chunks",
    "C12_zero_step_rejected",
    "C12_stepped_hwp_independent_of_chunks"
   ],
   "note": "A zero step is rejected with an exception."
  },
  {
   "property": "C13",
   "status": "partial",
   "theorems": [
    "C13_continuous_hwp_exact",
    "C13_continuous_hwp_one_chunk_partial",
    "C13_continuous_hwp_refuted"
   ],
   "note": "Exact phase law proved; the property (phase continues across chunks) holds within one chunk and is refuted across chunks."
  },
  {
   "property": "C14",
   "status": "proved",
   "theorems": [
    "C14_reset_replays"
   ],
   "note": ""
  },
  {
   "property": "C15",
   "status": "proved",
   "theorems": [
    "C15_generator_cycles",
    "C15_empty_list_fails"
   ],
   "note": ""
  },
  {
   "property": "C16",
   "status": "proved",
   "theorems": [
    "C16_sample_times"
   ],
   "note": ""
  },
  {
   "property": "C17",
   "status": "partial",
   "theorems": [
    "C17_mission_consistent",
    "C17_two_are_enough",
    "C17_three_must_agree",
    "C17_bad_rate_rejected",
    "C17_too_few_rejected_partial",
    "C17_zero_duration_alone_refuted"
   ],
   "note": "Consistency proved for every accepted constructor call; rejection of under-specified calls refuted for duration 0."
  },
  {
   "property": "C18",
   "status": "partial",
   "theorems": [
    "C18_count_is_number_of_beams_partial",
    "C18_removal_leaves_others",
    "C18_count_refuted",
    "C18_unequal_arrays_refuted"
   ],
   "note": "Proved for all histories whose removals name beams and whose arrays have equal lengths; refuted when a removed pair has an empty slot (the count goes negative) and for arrays of different lengths given to input_focal_plane (the count is too high). Removal's effect on the others proved without restriction."
  },
  {
   "property": "C19",
   "status": "partial",
   "theorems": [
    "C19_indices_differ_partial",
    "C19_input_refuted"
   ],
   "note": "Proved for all histories without input_focal_plane and without a file holding one dictionary object twice, each beam added once; refuted for those two."
  },
  {
   "property": "C20",
   "status": "partial",
   "theorems": [
    "C20_kills_exactly_the_drawn_partial",
    "C20_empty_partner_refuted"
   ],
   "note": "Proved for all reachable focal planes of full pairs, all fractions and draws; refuted (AttributeError) when a detector has no partner."
  },
  {
   "property": "C21",
   "status": "proved",
   "theorems": [
    "C21_ghost_bookkeeping",
    "C21_dead_flag_reaches_ghosts",
    "C21_ghosts_have_no_ghosts"
   ],
   "note": ""
  },
  {
   "property": "C22",
   "status": "partial",
   "theorems": [
    "C22_single",
    "C22_all_ranks",
    "C22_process",
    "C22_absent_refuted"
   ],
   "note": "For every scan that returns, every chunking, rotation period, liveness pattern, crosstalk, ground template, MPI layout. Refuted for pairs whose A detector is absent (AttributeError). Detectors must have distinct idx."
  },
  {
   "property": "C23",
   "status": "proved",
   "theorems": [
    "C23_cross_talk",
    "C23_lengths"
   ],
   "note": ""
  },
  {
   "property": "C24",
   "status": "proved",
   "theorems": [
    "C24_spin_sum",
    "C24_real_mode",
    "C24_negative_spin_in_real_mode",
    "C24_timestream"
   ],
   "note": "Pixel lookup by number or by interpolation weights; map arithmetic over exact complex numbers."
  },
  {
   "property": "C25",
   "status": "proved",
   "theorems": [
    "C25_real_mode_is_two_sided"
   ],
   "note": ""
  },
  {
   "property": "C26",
   "status": "partial",
   "theorems": [
    "C26_superposed_partial",
    "C26_ground_partial",
    "C26_ground_ghost_refuted",
    "C26_ground_point_refuted"
   ],
   "note": "Superposition proved for scans without ground template (main beam of B is A's, as documented) and, with ground template, for single detectors and pairs without ghosts, crosstalk included. Refuted with ground template: ghosts never see the sky; save_point plus ground raises UnboundLocalError."
  },
  {
   "property": "C27",
   "status": "proved",
   "theorems": [
    "C27_truncation_keeps_low_multipoles",
    "C27_larger_band_limit_rejected",
    "C27_truncations_compose",
    "C27_sequences",
    "C27_every_array_has_modes"
   ],
   "note": ""
  },
  {
   "property": "C28",
   "status": "partial",
   "theorems": [
    "C28_shift_moves_modes",
    "C28_shift_zero",
    "C28_too_large_rejected",
    "C28_eb_even_shift_partial",
    "C28_eb_odd_shift_refuted",
    "C28_eb_odd_shift_witness"
   ],
   "note": "Shift law proved for all shifts <= lmax (negative ones included); with E/B arrays it holds for even shifts (used by the code: 2 and 4) and is refuted for odd shifts, whose m=0 modes are erased."
  },
  {
   "property": "C29",
   "status": "proved",
   "theorems": [
    "C29_copolar_coefficients",
    "C29_pol_beam",
    "C29_monopole_only_fails"
   ],
   "note": "For lmax >= 1; lmax = 0 raises UnboundLocalError (theorem)."
  },
  {
   "property": "C30",
   "status": "proved",
   "theorems": [
    "C30_spin_eb_spin",
    "C30_eb_spin_eb",
    "C30_odd_spin_sign"
   ],
   "note": ""
  },
  {
   "property": "C31",
   "status": "proved",
   "theorems": [
    "C31_monopole_is_one",
    "C31_ratios_kept",
    "C31_normalising_is_idempotent",
    "C31_overall_factor_irrelevant",
    "C31_deconvolution",
    "C31_no_options_unchanged"
   ],
   "note": ""
  },
  {
   "property": "C32",
   "status": "partial",
   "theorems": [
    "C32_one_component",
    "C32_three_components",
    "C32_four_components",
    "C32_different_azimuthal_limits_rejected",
    "C32_unequal_v_component_refuted"
   ],
   "note": "Expansion proved for 1, 3 and 4 components with a common limit; differing limits of the first three are rejected; a V component with other limits is accepted and misplaced (refuted)."
  },
  {
   "property": "C33",
   "status": "proved",
   "theorems": [
    "C33_product_is_hamiltons",
    "C33_associative_with_unit",
    "C33_norms_multiply",
    "C33_conjugation_reverses_products",
    "C33_inverse",
    "C33_normalisation",
    "C33_conjugation_by",
    "C33_conjugation_rotates"
   ],
   "note": ""
  },
  {
   "property": "C34",
   "status": "proved",
   "theorems": [
    "C34_acts_on_spin_components",
    "C34_multiplicative_with_unit",
    "C34_conjugate_elements",
    "C34_ideal_half_wave_plate"
   ],
   "note": ""
  },
  {
   "property": "C35",
   "status": "partial",
   "theorems": [
    "C35_ideal_plate_is_the_default",
    "C35_below_band_limit_four_refuted",
    "C35_ideal_plate_timestream"
   ],
   "note": "Proved for band limits of at least four and every real beam without power in the two highest azimuthal modes of a degree (all axisymmetric ones); below band limit four the code raises (refuted)."
  },
  {
   "property": "C36",
   "status": "proved",
   "theorems": [
    "C36_represents_the_jones_matrix",
    "C36_real",
    "C36_multiplicative_with_unit",
    "C36_phase_drops_out",
    "C36_physical",
    "C36_total_power_dominates"
   ],
   "note": ""
  },
  {
   "property": "C37",
   "status": "partial",
   "theorems": [
    "C37_rotated_jones_matrix",
    "C37_jones_rotations_compose",
    "C37_rotated_mueller_matrix_partial",
    "C37_rotated_mueller_matrix_at_right_angles_partial",
    "C37_rotated_mueller_matrix_refuted"
   ],
   "note": "Jones rotation proved in full. MuellerRotation: I, Q, V right at every angle, all of it where sin 2t = 0; refuted elsewhere (sign in the U row)."
  },
  {
   "property": "C38",
   "status": "proved",
   "theorems": [
    "C38_ordered_product",
    "C38_stacking",
    "C38_empty_layer",
    "C38_empty_layer_in_a_stack",
    "C38_split_layer"
   ],
   "note": "All parts proved for layers below total reflection with positive indices, any losses and thicknesses."
  },
  {
   "property": "C39",
   "status": "partial",
   "theorems": [
    "C39_weighted_mean",
    "C39_constant",
    "C39_between_extremes",
    "C39_rescaling",
    "C39_single_frequency_refuted",
    "C39_highest_frequency_refuted",
    "C39_rotation_in_degrees_refuted"
   ],
   "note": "Weighted mean, constant matrices, bounds and rescaling proved for at least two frequencies. Refuted: one frequency gives 0/0; the highest frequency is never used; the rotation is documented in degrees but used in radians."
  },
  {
   "property": "C40",
   "status": "partial",
   "theorems": [
    "C40_selection",
    "C40_terminates",
    "C40_steps_refuted"
   ],
   "note": "Selection, termination and limit proved for any number of patches. Elevation steps are added after the limit is applied: with negative steps the scanned elevation is below el_min (refuted). Frame conversion is a parameter."
  },
  {
   "property": "C41",
   "status": "partial",
   "theorems": [
    "C41_triangle",
    "C41_sawtooth",
    "C41_still_partial",
    "C41_still_refuted",
    "C41_schedule_partial",
    "C41_schedule_refuted",
    "C41_constant_speed"
   ],
   "note": "Triangle and sawtooth in full for positive throw and speed. A zero throw works only for chunks that are whole check intervals (refuted otherwise). Schedule-driven scans: limits proved when az0 < az1; a scan through north sweeps the wrong way (refuted)."
  },
  {
   "property": "C42",
   "status": "partial",
   "theorems": [
    "C42_motion_partial",
    "C42_next_partial",
    "C42_longitude_refuted",
    "C42_latitude_refuted"
   ],
   "note": "Within a chunk the motion law is proved. Between chunks the latitude is kept but its direction is lost, and the longitude changes sign (both refuted)."
  },
  {
   "property": "C43",
   "status": "partial",
   "theorems": [
    "C43_angles",
    "C43_vector",
    "C43_scan_partial",
    "C43_chunk_refuted",
    "C43_options_refuted"
   ],
   "note": "Geometry and psi proved for every time, angle and rate, one sample per call and away from the poles of the coordinate system; with more than one sample the wrap-around helpers raise, so no longer chunk can be scanned (refuted). The angles, rates and jitter given to l2_scan are ignored (C43_options_refuted)."
  },
  {
   "property": "C44",
   "status": "partial",
   "theorems": [
    "C44_2pi_partial",
    "C44_npi_partial",
    "C44_npi_negative_partial",
    "C44_refuted"
   ],
   "note": "Proved for one non-negative angle (and one negative angle off the period for the n-pi helper); refuted for arrays, empty arrays, negative angles and the lower edge."
  },
  {
   "property": "C45",
   "status": "partial",
   "theorems": [
    "C45_partial",
    "C45_pixels_partial",
    "C45_south_refuted"
   ],
   "note": "Proved for declinations above -90; at -90 the colatitude becomes 0 instead of pi (refuted). Pixel numbers: for any pixelisation by colatitude and periodic longitude (parameter)."
  },
  {
   "property": "C46",
   "status": "partial",
   "theorems": [
    "C46_window_partial",
    "C46_window_refuted",
    "C46_spectrum_partial",
    "C46_low_refuted",
    "C46_narrow_refuted",
    "C46_timestream_partial",
    "C46_slow_refuted",
    "C46_gap_refuted",
    "C46_wiped_refuted",
    "C46_high_refuted",
    "C46_in_map_making"
   ],
   "note": "Window: proved for every length except one, where the call fails (C46_window_refuted). Spectrum: proved for windows inside the spectrum; a window that begins below the first element zeroes everything (C46_low_refuted), widths 0 and 1 fail, and a window past the end is cut and moves, so that a 4f line at the last mode is removed (C46_high_refuted). Timestream: with x the plate frequency in frequency steps, proved for x > 3/10 except 1/2 where the band lies inside the spectrum; the call fails below 1/10, between 1/6 and 3/10 and at 1/2, and wipes the timestream between 1/10 and 1/8 (refuted). Map making applies it before the high-pass filter and refuses plates that do not turn continuously (C46_in_map_making). The Fourier transforms are parameters."
  },
  {
   "property": "C47",
   "status": "partial",
   "theorems": [
    "C47_nonzero_honoured_partial",
    "C47_explicit_zero_refuted",
    "C47_zero_hwp_angle_refuted"
   ],
   "note": "Non-zero values are honoured; explicit zeros are replaced by defaults (refuted)."
  },
  {
   "property": "C48",
   "status": "partial",
   "theorems": [
    "C48_sky_partial",
    "C48_named_component_partial",
    "C48_named_component_refuted",
    "C48_beam_refuted",
    "C48_finite_accepted"
   ],
   "note": "Sky part proved; the beam loop continues with the index of the sky loop, so a beam with as many components is never checked, and the component named can be wrong (both refuted). Overflow of a sum of finite numbers is not modelled."
  },
  {
   "property": "C49",
   "status": "partial",
   "theorems": [
    "C49_found_partial",
    "C49_numbered",
    "C49_lookup",
    "C49_partner_partial",
    "C49_ground_refuted",
    "C49_gap_refuted",
    "C49_partner_refuted",
    "C49_absent_refuted",
    "C49_again",
    "C49_again_refuted"
   ],
   "note": "Holds for the A detector when the ghost indices in use have no gap (always true for ghosts as created); B's ghosts find a map only if A has a ghost with that index, and then it is A's beam. Refuted: index gaps, ground maps built from the last ghost's beam, pairs without A, coefficients lost on a second initialisation."
  },
  {
   "property": "C50",
   "status": "partial",
   "theorems": [
    "C50_crosstalk_amplitudes_refuted",
    "C50_first_amplitude_partial",
    "C50_amplitudes_refuted"
   ],
   "note": "The amplitudes are a cumulative sum of the random numbers (law in C67_reflected_ghosts); the property holds for the first ghost only and is refuted for the others."
  },
  {
   "property": "C51",
   "status": "partial",
   "theorems": [
    "C51_loaded_beams",
    "C51_malformed_rejected",
    "C51_shared_dictionary_refuted",
    "C51_shared_dead_refuted"
   ],
   "note": "Order, indices, angles, overriding keywords and rejection proved for all directories; refuted for a file holding the same dictionary object twice."
  },
  {
   "property": "C52",
   "status": "partial",
   "theorems": [
    "C52_ghost_options_partial",
    "C52_ghost_name",
    "C52_ghost_limits",
    "C52_ghost_options_refuted"
   ],
   "note": "Exact law for every option; refuted for sensitive_freq, symmetric, hwp and hwp_mueller, which are not taken over."
  },
  {
   "property": "C53",
   "status": "partial",
   "theorems": [
    "C53_identity_plate",
    "C53_aligned_detector_partial",
    "C53_any_angle_partial",
    "C53_axisymmetric",
    "C53_intensity_leakage_refuted",
    "C53_unmodulated_polarisation_refuted"
   ],
   "note": "Proved for detectors at multiples of 180 degrees behind any plate, and at any angle without unmodulated polarisation and intensity leakage. Refuted otherwise: leakage of intensity follows cos(2 polang), unmodulated polarisation ignores the detector angle, so an identity plate is not 'no plate'."
  },
  {
   "property": "C54",
   "status": "partial",
   "theorems": [
    "C54_intensity_leakage_partial",
    "C54_intensity_leakage_refuted",
    "C54_circular_leakage_partial",
    "C54_circular_leakage_refuted"
   ],
   "note": "Exact laws proved for intensity and circular polarisation; refuted: one of the two couplings uses the first (last) row instead of the first (last) column."
  },
  {
   "property": "C55",
   "status": "partial",
   "theorems": [
    "C55_reset_partial",
    "C55_still_partial",
    "C55_rotation_refuted",
    "C55_assigned_refuted",
    "C55_ground_refuted",
    "C55_second_scan_refuted"
   ],
   "note": "Any number of repetitions replay the first scan exactly if rotation/HWP/elevation steps are reset in between, or if nothing rotates or steps (no ground template, coefficients from settings, no reuse). Refuted without reset when the boresight rotates, for assigned coefficients (dropped by the first scan) and after a scan with ground template (UnboundLocalError)."
  },
  {
   "property": "C56",
   "status": "proved",
   "theorems": [
    "C56_additive",
    "C56_bins",
    "C56_solve",
    "C56_regular",
    "C56_unseen",
    "C56_ranks"
   ],
   "note": "qpoint's from_tod, solve_map and proj_cond are modelled from their documentation, with real numbers; the condition-number test is a parameter. Refused flag arrays and kept destinations are C83."
  },
  {
   "property": "C57",
   "status": "partial",
   "theorems": [
    "C57_row",
    "C57_negative_rejected",
    "C57_beyond_band_limit_refuted"
   ],
   "note": "Row extraction and rejection of negative m proved; m > lmax is not rejected (refuted)."
  },
  {
   "property": "C58",
   "status": "partial",
   "theorems": [
    "C58_complete_grid",
    "C58_names_unique",
    "C58_symmetric_partial",
    "C58_single_position_refuted"
   ],
   "note": "Grid, names, angles proved for all sizes; symmetry for at least two positions, refuted for one."
  },
  {
   "property": "C59",
   "status": "partial",
   "theorems": [
    "C59_set_global_prop",
    "C59_add_to_prop_partial",
    "C59_add_to_ghosts_refuted"
   ],
   "note": "Setting: exact law for all reachable states. Adding: exact law for main beams (rand_stdev=0); refuted for ghosts."
  },
  {
   "property": "C60",
   "status": "partial",
   "theorems": [
    "C60_limits_valid",
    "C60_mmax_below_lmax_partial",
    "C60_lowered_lmax_refuted"
   ],
   "note": "Validity over all histories; mmax <= lmax as long as lmax is not reassigned; refuted by lowering lmax."
  },
  {
   "property": "C62",
   "status": "partial",
   "theorems": [
    "C62_amplitude_polarised_partial",
    "C62_amplitude_copolar_partial",
    "C62_amplitude_refuted"
   ],
   "note": "Proved for polarised files and un-normalised co-polar beams; refuted for normalised co-polar beams, whose amplitude is lost."
  },
  {
   "property": "C63",
   "status": "partial",
   "theorems": [
    "C63_four_components_partial",
    "C63_option_ignored_refuted",
    "C63_cross_polar_kept_refuted"
   ],
   "note": "Proved for four-component files; refuted for three-component files (operator precedence: the option is ignored)."
  },
  {
   "property": "C64",
   "status": "partial",
   "theorems": [
    "C64_argument_preserved_refuted",
    "C64_argument_preserved_partial"
   ],
   "note": "Refuted: the argument is overwritten in place; preserved only when no option is set."
  },
  {
   "property": "C65",
   "status": "proved",
   "theorems": [
    "C65_gaussian_polarisation",
    "C65_gaussian_profile"
   ],
   "note": ""
  },
  {
   "property": "C67",
   "status": "proved",
   "theorems": [
    "C67_reflected_ghosts"
   ],
   "note": ""
  },
  {
   "property": "C68",
   "status": "proved",
   "theorems": [
    "C68_instrument_rotation",
    "C68_rotations_add"
   ],
   "note": ""
  },
  {
   "property": "C69",
   "status": "proved",
   "theorems": [
    "C69_ground_pointing"
   ],
   "note": ""
  },
  {
   "property": "C72",
   "status": "partial",
   "theorems": [
    "C72_round_trip",
    "C72_exchanged_partial",
    "C72_documented_meaning_refuted"
   ],
   "note": "Round trip proved; the documented meaning is refuted and proved for the opposite function."
  },
  {
   "property": "C70",
   "status": "partial",
   "theorems": [
    "C70_scattering_partial",
    "C70_any_axes",
    "C70_glowing_plate_refuted",
    "C70_empty_stack_refuted"
   ],
   "note": "Proved for stacks of passive layers at normal incidence, or isotropic, or with the axis in or perpendicular to the plane of incidence, where the linear system is shown to be regular. For any other stack of transparent layers the matrices solve the problem exactly when no light comes out without light coming in (C70_any_axes); refuted: there is a lossless plate, lit obliquely with its axis at 45 degrees, where light does (C70_glowing_plate_refuted). Refuted for the empty stack, which raises AttributeError."
  },
  {
   "property": "C71",
   "status": "partial",
   "theorems": [
    "C71_power_partial",
    "C71_mueller_partial",
    "C71_power_refuted",
    "C71_mueller_refuted"
   ],
   "note": "Proved for the same stacks as C70, for polarised fields and for Stokes vectors of any degree of polarisation. Refuted for birefringent layers lit obliquely with other axes: the code's mode fields are not orthogonal there, and a lossless plate gives out 1.7 times the power it receives."
  },
  {
   "property": "C73",
   "status": "proved",
   "theorems": [
    "C73_builder",
    "C73_sizes",
    "C73_missing_arguments"
   ],
   "note": "Complete."
  },
  {
   "property": "C74",
   "status": "proved",
   "theorems": [
    "C74_names",
    "C74_plates",
    "C74_as_built"
   ],
   "note": "Complete."
  },
  {
   "property": "C75",
   "status": "partial",
   "theorems": [
    "C75_known_plates_at_the_centre",
    "C75_custom_plates_at_the_centre",
    "C75_away_from_the_centre_partial",
    "C75_away_from_the_centre_refuted",
    "C75_radial"
   ],
   "note": "Proved at the centre for all plates; away from the centre for plates with parallel axes in the plane of incidence. Refuted away from the centre for a custom plate with its axis at 45 degrees. Missing: the named multi-plate stacks away from the centre."
  },
  {
   "property": "C76",
   "status": "proved",
   "theorems": [
    "C76_jones",
    "C76_mueller"
   ],
   "note": "Complete, for passive layers."
  },
  {
   "property": "C77",
   "status": "partial",
   "theorems": [
    "C77_normal_incidence",
    "C77_isotropic",
    "C77_axis_perpendicular",
    "C77_axis_in_plane_refuted"
   ],
   "note": "Proved at normal incidence, for isotropic layers and for an axis perpendicular to the plane of incidence. Refuted for an axis in the plane of incidence, where the code uses the direction-dependent index in the dielectric tensor. Other axes at oblique incidence are not covered."
  },
  {
   "property": "C78",
   "status": "partial",
   "theorems": [
    "C78_timestream_is_the_convolution",
    "C78_behind_a_plate_partial",
    "C78_modulating_plate",
    "C78_circular_polarisation",
    "C78_circular_plate_partial",
    "C78_circular_modulating_plate"
   ],
   "note": "Relative to the stated behaviour of the HEALPix transforms (hypothesis `healpix`). Without plate in full, with and without circular polarisation; behind a plate for detectors at multiples of 180 degrees and plates with M_IQ = M_QI, M_IU = M_UI (with circular polarisation also M_QV = M_VQ, M_UV = M_VU), and for any detector angle if the plate neither mixes linear polarisation with intensity (or V) nor passes unmodulated polarisation, with and without circular polarisation (C78_modulating_plate, C78_circular_modulating_plate). The remaining angles and plates are wrong in the code (C53, C54)."
  },
  {
   "property": "C79",
   "status": "proved",
   "theorems": [
    "C79_saved_as_binned",
    "C79_nothing_else"
   ],
   "note": "For every scan that returns, filters off. The model keeps the saved array per (chunk index, detector id)."
  },
  {
   "property": "C80",
   "status": "proved",
   "theorems": [
    "C80_same_for_all",
    "C80_binned_as_scanned",
    "C80_views_in_order",
    "C80_elevation",
    "C80_rotation",
    "C80_no_rotation",
    "C80_stepped_hwp",
    "C80_spinning_hwp",
    "C80_still_hwp"
   ],
   "note": "The course is the same for all observing detectors; per-sample laws for elevation, rotation and HWP, including the known deviations of C08 (extra rotation for a chunk inside a period) and C13 (one sample of drift per stretch) in exact form. Azimuth is part of the external elevation/boresight array. HWP mode other than None/stepped/continuous excluded."
  },
  {
   "property": "C61",
   "status": "partial",
   "theorems": [
    "C61_schedule_partial",
    "C61_schedule_refuted",
    "C61_triangle_refuted",
    "C61_constant_speed_refuted"
   ],
   "note": "Within a chunk of a schedule-driven scan the step bound is proved. Across chunks the azimuth jumps in schedule-driven, triangle and constant-speed scans (refuted)."
  },
  {
   "property": "C81",
   "status": "partial",
   "theorems": [
    "C81_date_refuted"
   ],
   "note": "Refuted: 2415020 days are subtracted twice, and that is no whole number of years."
  },
  {
   "property": "C82",
   "status": "partial",
   "theorems": [
    "C82_highpass_partial",
    "C82_zero_cut_refuted",
    "C82_average",
    "C82_in_map_making",
    "C82_no_settings",
    "C82_no_filter"
   ],
   "note": "Proved for positive cut-off and order; refuted for a cut-off of zero (NaN). The Fourier transform is a parameter; the factor is computed with real numbers."
  },
  {
   "property": "C83",
   "status": "partial",
   "theorems": [
    "C83_flag_array_refuted",
    "C83_keep_destination_refuted"
   ],
   "note": "Both claims are false: the documented array of flags fails for every array of two or more flags, and init=False with add_to_global counts the earlier samples twice."
  },
  {
   "property": "C84",
   "status": "proved",
   "theorems": [
    "C84_smallest_count",
    "C84_as_modelled",
    "C84_as_modelled_nat"
   ],
   "note": "Binary64 arithmetic from Flocq (rounding to nearest even, no overflow)."
  },
  {
   "property": "C85",
   "status": "partial",
   "theorems": [
    "C85_integers_partial",
    "C85_near_partial",
    "C85_lost_sample_refuted"
   ],
   "note": "Holds for whole seconds at whole rates; in general the count is n or n - 1 (proved below 2^51 samples), and 29 samples at 100 Hz become 28 (refuted): int() truncates the rounded product. Consequently ScanStrategy(duration=0.29, sample_rate=100, num_samples=29) is rejected."
  },
  {
   "property": "C86",
   "status": "partial",
   "theorems": [
    "C86_saved_positions",
    "C86_nothing_else",
    "C86_saved_hwp",
    "C86_second_scan_refuted"
   ],
   "note": "Positions: proved for every history. HWP angles: proved for scans from freshly configured settings; refuted for a second scan without reset, where the first pair continues the HWP and the last pair's angles overwrite the shared array. With a ground template save_point raises UnboundLocalError (see C26/C79), so o_ground is off."
  },
  {
   "property": "C87",
   "status": "partial",
   "theorems": [
    "C87_saving_changes_nothing",
    "C87_saving_not_needed",
    "C87_saving_never_fails",
    "C87_ground_refuted"
   ],
   "note": "Proved for all settings and states: any two settings that both complete have the same log of scans and bins and leave the same state. Completion carries over in both directions, except for save_point with a ground template (C87_ground_refuted, UnboundLocalError) and, by hypothesis, preview_pointing."
  },
  {
   "property": "C88",
   "status": "proved",
   "theorems": [
    "C88_own_pair_only"
   ],
   "note": "Proved for freshly configured settings (ScanStrategy as set up, not continued from an earlier scan without reset; C55_second_scan_refuted shows the difference), with binning and without a ground template, filters or reused spin maps."
  },
  {
   "property": "C89",
   "status": "proved",
   "theorems": [
    "C89_linear_in_the_sky",
    "C89_linear_in_the_beam",
    "C89_scans",
    "C89_first_scan",
    "C89_fails_alike",
    "C89_filters",
    "C89_binned_maps",
    "C89_solved_maps"
   ],
   "note": "Linearity in the sky and in the beam is proved for the spin maps and timestream formula with healpy's transforms as linear parameters; for the scan loop, what a beam sees is the parameter e_signal, of which the third scan's is the superposition; the filters of bin_tod are proved linear for linear Fourier transforms; binned and solved maps are separate theorems about the same calls of bin_tod. Exact real arithmetic."
  },
  {
   "property": "C90",
   "status": "partial",
   "theorems": [
    "C90_given_or_default",
    "C90_limits",
    "C90_identity",
    "C90_unknown_keyword",
    "C90_accepted",
    "C90_no_limit_refuted",
    "C90_width_sets_limit_refuted",
    "C90_read_only",
    "C90_assigned",
    "C90_stale_limit_refuted"
   ],
   "note": "Proved for every keyword list: stored options are the given value or the default of the separate table S_Beam.stored_options, the limits and width follow the documented rules, unknown keywords raise TypeError and acceptable values always give a beam; afterwards idx, ghost, ghosts and polang_truth cannot be assigned and other assignments change only that attribute. Refuted: the documented 'lmax=None uses 1.4*2*pi/fwhm' - Beam(lmax=None, ...) always raises AttributeError because the band limit is assigned before the width, and Beam(fwhm=x) has lmax 700 for every x; mmax <= lmax does not survive an assignment of a lower lmax."
  },
  {
   "property": "C91",
   "status": "partial",
   "theorems": [
    "C91_as_described",
    "C91_accepted",
    "C91_replacing_refuted",
    "C91_ignored_refuted",
    "C91_ghost_refuted"
   ],
   "note": "Proved for arrays of equal length: every row becomes a pair with exactly the described beams, old beams unchanged, and the call succeeds for acceptable options. Refuted: combine=False always raises NameError (undefined names); az/el/pol/name in the options raise TypeError and ghost is used, although documented as ignored."
  },
  {
   "property": "C92",
   "status": "proved",
   "theorems": [
    "C92_recovered",
    "C92_turned",
    "C92_smoothed_sky",
    "C92_no_matrix",
    "C92_ideal_plate",
    "C92_same_angle",
    "C92_line_of_sight"
   ],
   "note": "End to end over the scan loop (M_Scan), the pointing of scan and bin_tod (M_Bin), the timestream formula (M_Tod) and binning and solving (M_Solve). Assumed of qpoint: turning a quaternion about the line of sight changes only the position angle, by the angle turned (shown to hold of quaternions made from three angles, and met by the concrete pointing of C92_case); the order in which from_tod multiplies boresight, offset and plate. The map is sampled at pixel centres (no interpolation). Exact real arithmetic. Beams: symmetric ones without Mueller matrix (C92_no_matrix, C92_smoothed_sky) and axisymmetric co-polarised ones behind an ideal plate given by its Mueller matrix (C92_ideal_plate, through C35)."
  },
  {
   "property": "C93",
   "status": "partial",
   "theorems": [
    "C93_settings",
    "C93_completes",
    "C93_history",
    "C93_ground_external_refuted",
    "C93_preview_ground_refuted",
    "C93_fast_rotation_refuted"
   ],
   "note": "Progress theorem for the scan loop model: C93_completes for every state meeting [scannable] (S_Complete.v), C93_history for any sequence of scans, C93_settings for the setters. Refuted parts: a ground template with external pointing, a preview with a ground template, and a rotation period below one sample are accepted and raise in the middle of the scan. Exceptions of external libraries (healpy, qpoint, MPI) and of file access are outside the model."
  },
  {
   "property": "C94",
   "status": "proved",
   "theorems": [
    "C94_gaussian",
    "C94_one_width",
    "C94_pencil",
    "C94_smoothed",
    "C94_falls",
    "C94_monopole_raises"
   ],
   "note": "healpy gauss_beam is modelled by its documented formula; exact arithmetic; the band limit zero case is C94_monopole_raises."
  },
  {
   "property": "C66",
   "status": "partial",
   "theorems": [
    "C66_own_draws",
    "C66_draws_differ",
    "C66_centred_refuted",
    "C66_documented_call_refuted",
    "C66_add_random",
    "C66_shared_draws",
    "C66_add_fixed"
   ],
   "note": "Random numbers are an arbitrary stream of standard normal draws. Refuted: set_global_prop_random draws the deviations of main beams around the given size, not around zero (np.random.normal(1) sets the mean); the call shown in its documentation raises AttributeError (no attribute polang_err). Ghosts under add_to_prop are set, not moved: see C59."
  },
  {
   "property": "C95",
   "status": "partial",
   "theorems": [
    "C95_crosstalk_ghosts",
    "C95_azimuth_zero_refuted",
    "C95_unpaired_refuted",
    "C95_unpaired_error_refuted"
   ],
   "note": "Proved for histories in which beams are added once and not through input_focal_plane (as C67), including that beams without supplied offsets are untouched. Refuted: a ghost whose azimuth offset is exactly zero is created dead whatever its elevation (the code tests `not az`); a pair with an empty partner raises AttributeError although the code tests for it. Random amplitudes accumulate over the loop: C50_crosstalk_amplitudes_refuted."
  },
  {
   "property": "C96",
   "status": "partial",
   "theorems": [
    "C96_same_focal_plane",
    "C96_broadcast_array",
    "C96_random_ghosts_refuted",
    "C96_random_properties_refuted"
   ],
   "note": "Proved for all operations with scatter=False when the processes draw the same numbers for ghost amplitudes and properties; loading and killing need no such condition. Refuted: random ghost amplitudes and random properties are drawn by each process on its own, so the focal planes differ (scans use the beams of process 0). See also C04_predistributed_lost_refuted for scatter=True at creation."
  },
  {
   "property": "C97",
   "status": "proved",
   "theorems": [
    "C97_same_beams",
    "C97_again",
    "C97_needs_one_beam"
   ],
   "note": "The sky is fixed in the model: with reuse_spinmaps a sky changed between two scans is ignored by design, and nothing is said about it. C97_needs_one_beam shows that the condition on the beams cannot be dropped."
  },
  {
   "property": "C98",
   "status": "partial",
   "theorems": [
    "C98_pictures",
    "C98_limits",
    "C98_default_limits",
    "C98_automatic_limits",
    "C98_three_maps",
    "C98_stokes_v_refuted",
    "C98_four_symmetric_refuted",
    "C98_own_limits_refuted",
    "C98_own_tight_refuted",
    "C98_own_function_refuted",
    "C98_dpi_refuted"
   ],
   "note": "Proved for calls that do not fail, with per-map settings only for three maps and without plot_func in them. Refuted: with per-map settings the V map is silently left out; a scalar sym_limits fails for four maps; min/max among per-map settings always fail; a per-map plot_func is used for the following maps too; dpi is ignored. Automatic limits are those of the first map for all maps (C98_automatic_limits). Drawing and writing are external."
  },
  {
   "property": "C99",
   "status": "partial",
   "theorems": [
    "C99_rounded",
    "C99_error",
    "C99_zero_refuted"
   ],
   "note": "Refuted at zero, where the call fails. Real numbers, no rounding errors."
  },
  {
   "property": "C100",
   "status": "partial",
   "theorems": [
    "C100_taken_over",
    "C100_stale_limit_refuted"
   ],
   "note": "C100_taken_over covers every beam and partner whose limits are in order (any beam as constructed, C90_limits). Refuted when the partner's azimuthal limit exceeds its band limit, which a plain assignment can bring about: the limit is clipped instead of taken over, so it does not describe the coefficients. The coefficients themselves are in M_Detpair (C49)."
  },
  {
   "property": "C101",
   "status": "partial",
   "theorems": [
    "C101_restart_partial",
    "C101_ends",
    "C101_no_reset_refuted"
   ],
   "note": "S_Interrupt.v lists, function by function, the states in which the scan loop can be cut off. C101_restart_partial: what was done is an initial part, and after the resets the same scan succeeds and does everything again. C101_ends: beginning and end are among those states; the case shows a stop between two chunks. C101_no_reset_refuted: without the resets a rotating instrument goes on where it was. Partial: no ground template, coefficients from the settings, spin maps not reused; making the spin maps of one pair, one operation on the strategy, one stored array and one call of bin_tod are not divided."
  },
  {
   "property": "C102",
   "status": "proved",
   "theorems": [
    "C102_since_allocation",
    "C102_no_maps",
    "C102_new_maps",
    "C102_solved"
   ],
   "note": "Proved for all sessions with init=True (every call the package makes; init=False is C83). qpoint's from_tod and solve_map are modelled from their documentation, per pixel, over the reals. A call that raises leaves the maps unchanged (the exception comes before they are touched)."
  },
  {
   "property": "C103",
   "status": "partial",
   "theorems": [
    "C103_pair",
    "C103_any_plate",
    "C103_same_sum",
    "C103_plate_refuted",
    "C103_half_turn",
    "C103_crosstalk"
   ],
   "note": "Proved for scans without a plate or with an ideal one (C103_pair), for 180 degree turns and crosstalk, and, behind any plate, the dependence on the detector angle and the invariance of the pair sum. That the sum is free of polarisation does not hold behind every plate: C103_plate_refuted gives one (see C53 for the terms)."
  },
  {
   "property": "C104",
   "status": "proved",
   "theorems": [
    "C104_map",
    "C104_samples"
   ],
   "note": "Extends C92 to cross-talk, with the same assumptions on the pointing library ([sound]) and no ghosts, filters or ground. Pairs of which only one detector is alive have no cross-talk in the code and are excluded (both alive, or both dead)."
  },
  {
   "property": "C105",
   "status": "partial",
   "theorems": [
    "C105_same_timestream",
    "C105_axisymmetric",
    "C105_band_limit",
    "C105_mmax_behind_plate_refuted"
   ],
   "note": "C105_same_timestream for any two settings that compute all orders the beam has (enough, S_Modes.v), C105_axisymmetric for the symmetric flag, C105_band_limit for mmax and max_spin. Refuted in one part: behind a plate the last sentence fails, because the number of orders is min(mmax, max_spin) and the plate moves coefficients up to four orders further (C105_mmax_behind_plate_refuted: no value of max_spin brings them back). Missing: plates with M_IQ <> M_QI or M_IU <> M_UI, and circular polarisation."
  },
  {
   "property": "C106",
   "status": "partial",
   "theorems": [
    "C106_sky",
    "C106_ground_partial",
    "C106_memmap_refuted"
   ],
   "note": "C106_sky: always. C106_ground_partial: when no memory map is in use. C106_memmap_refuted: with a memory map (instrument.py:2249-2258 returns before q_boreground is computed) the second pair sees the ground at the last chunk's pointing. Pointing is the model's boresight (an elevation per sample); the q_bore and q_boreground of a chunk are both functions of it."
  },
  {
   "property": "C107",
   "status": "partial",
   "theorems": [
    "C107_nothing_stale",
    "C107_others_kept",
    "C107_other_positions_kept",
    "C107_hwp_kept",
    "C107_hwp_refuted"
   ],
   "note": "Full for timestreams and positions of scanned detectors (C107_nothing_stale) and of the others (C107_others_kept, C107_other_positions_kept; for positions in the chunks scanned, with distinct detector indices). For HWP angles the property is false: they stay unless save_point is set (C107_hwp_kept, for all scans), so that data() may give those of an earlier scan with other settings (C107_hwp_refuted; _allocate_hwp_data does nothing without save_point)."
  },
  {
   "property": "C108",
   "status": "partial",
   "theorems": [
    "C108_divided_anew",
    "C108_right_size",
    "C108_scan_keeps_size",
    "C108_schedule_first",
    "C108_schedule_keeps",
    "C108_schedule_refuted"
   ],
   "note": "Proved for partition_mission followed by any history of scans and changes of settings (an inductive relation in S_Divide.v), and for partition_schedule_file when nothing was saved before (C108_schedule_first). Partial as a whole: refuted for partition_schedule_file after a scan that saved, because the old arrays stay (computed case: HWP angles of 5 samples for a chunk of 2, after a scan of the new division without save_point)."
  }
 ]
}