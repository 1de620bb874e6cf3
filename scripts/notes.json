{
 "C04": {
  "note": "Holds for scattered focal planes; refuted for scatter=False under MPI (each rank scans everything) and for focal planes already scattered before being added again."
 },
 "C05": {
  "note": "C05_map_independent_of_ranks and C05_pixel_is_sum: reduction of per-pair contributions. C05_scans_*: the contributions of the modelled scans themselves, from C88."
 },
 "C06": {
  "note": "Also: empty missions raise ZeroDivisionError and a negative chunk size silently yields no chunks (outside the documented domain).",
  "status": "proved"
 },
 "C08": {
  "note": "Exact law for the rotation number at each sample; the stated once-per-period property holds iff no chunk lies strictly inside a period, and is refuted by chunks of 4 samples with a period of 10."
 },
 "C10": {
  "note": "Contiguity, chunk-size bound and staying within nsamp proved for all schedules of scans with positive duration; full coverage when no scan ends within one chunk size of the end of the mission (always when no chunk size is given); refuted otherwise. Single-row schedule files fail to parse."
 },
 "C100": {
  "note": "C100_taken_over covers every beam and partner whose limits are in order (any beam as constructed, C90_limits). Refuted when the partner's azimuthal limit exceeds its band limit, which a plain assignment can bring about: the limit is clipped instead of taken over, so it does not describe the coefficients. The coefficients themselves are in M_Detpair (C49)."
 },
 "C101": {
  "note": "S_Interrupt.v lists, function by function, the states in which the scan loop can be cut off. C101_restart_partial: what was done is an initial part, and after the resets the same scan succeeds and does everything again. C101_ends: beginning and end are among those states; the case shows a stop between two chunks. C101_no_reset_refuted: without the resets a rotating instrument goes on where it was. Partial: no ground template, coefficients from the settings, spin maps not reused; making the spin maps of one pair, one operation on the strategy, one stored array and one call of bin_tod are not divided."
 },
 "C102": {
  "note": "Proved for all sessions with init=True (every call the package makes; init=False is C83). qpoint's from_tod and solve_map are modelled from their documentation, per pixel, over the reals. A call that raises leaves the maps unchanged (the exception comes before they are touched)."
 },
 "C103": {
  "note": "Proved for scans without a plate or with an ideal one (C103_pair), for 180 degree turns and crosstalk, and, behind any plate, the dependence on the detector angle and the invariance of the pair sum. That the sum is free of polarisation does not hold behind every plate: C103_plate_refuted gives one (see C53 for the terms)."
 },
 "C104": {
  "note": "Extends C92 to cross-talk, with the same assumptions on the pointing library ([sound]) and no ghosts, filters or ground. Pairs of which only one detector is alive have no cross-talk in the code and are excluded (both alive, or both dead)."
 },
 "C105": {
  "note": "C105_same_timestream for any two settings that compute all orders the beam has (enough, S_Modes.v), C105_axisymmetric for the symmetric flag, C105_band_limit for mmax and max_spin. Refuted in one part: behind a plate the last sentence fails, because the number of orders is min(mmax, max_spin) and the plate moves coefficients up to four orders further (C105_mmax_behind_plate_refuted: no value of max_spin brings them back). Missing: plates with M_IQ <> M_QI or M_IU <> M_UI, and circular polarisation."
 },
 "C106": {
  "note": "C106_sky: always. C106_ground_partial: when no memory map is in use. C106_memmap_refuted: with a memory map (instrument.py:2249-2258 returns before q_boreground is computed) the second pair sees the ground at the last chunk's pointing. Pointing is the model's boresight (an elevation per sample); the q_bore and q_boreground of a chunk are both functions of it."
 },
 "C107": {
  "note": "Full for timestreams and positions of scanned detectors (C107_nothing_stale) and of the others (C107_others_kept, C107_other_positions_kept; for positions in the chunks scanned, with distinct detector indices). For HWP angles the property is false: they stay unless save_point is set (C107_hwp_kept, for all scans), so that data() may give those of an earlier scan with other settings (C107_hwp_refuted; _allocate_hwp_data does nothing without save_point)."
 },
 "C108": {
  "note": "Proved for partition_mission followed by any history of scans and changes of settings (an inductive relation in S_Divide.v), and for partition_schedule_file when nothing was saved before (C108_schedule_first). Partial as a whole: refuted for partition_schedule_file after a scan that saved, because the old arrays stay (computed case: HWP angles of 5 samples for a chunk of 2, after a scan of the new division without save_point)."
 },
 "C11": {
  "note": "Proved for scans of positive duration; refuted by a zero-length scan."
 },
 "C12": {
  "note": "A zero step is rejected with an exception.",
  "status": "proved"
 },
 "C13": {
  "note": "Exact phase law proved; the property (phase continues across chunks) holds within one chunk and is refuted across chunks."
 },
 "C17": {
  "note": "Consistency proved for every accepted constructor call; rejection of under-specified calls refuted for duration 0."
 },
 "C18": {
  "note": "Proved for all histories whose removals name beams and whose arrays have equal lengths; refuted when a removed pair has an empty slot (the count goes negative) and for arrays of different lengths given to input_focal_plane (the count is too high). Removal's effect on the others proved without restriction."
 },
 "C19": {
  "note": "Proved for all histories without input_focal_plane and without a file holding one dictionary object twice, each beam added once; refuted for those two."
 },
 "C20": {
  "note": "Proved for all reachable focal planes of full pairs, all fractions and draws; refuted (AttributeError) when a detector has no partner."
 },
 "C22": {
  "note": "For every scan that returns, every chunking, rotation period, liveness pattern, crosstalk, ground template, MPI layout. Refuted for pairs whose A detector is absent (AttributeError). Detectors must have distinct idx."
 },
 "C24": {
  "note": "Pixel lookup by number or by interpolation weights; map arithmetic over exact complex numbers."
 },
 "C26": {
  "note": "Superposition proved for scans without ground template (main beam of B is A's, as documented) and, with ground template, for single detectors and pairs without ghosts, crosstalk included. Refuted with ground template: ghosts never see the sky; save_point plus ground raises UnboundLocalError."
 },
 "C28": {
  "note": "Shift law proved for all shifts <= lmax (negative ones included); with E/B arrays it holds for even shifts (used by the code: 2 and 4) and is refuted for odd shifts, whose m=0 modes are erased."
 },
 "C29": {
  "note": "For lmax >= 1; lmax = 0 raises UnboundLocalError (theorem)."
 },
 "C32": {
  "note": "Expansion proved for 1, 3 and 4 components with a common limit; differing limits of the first three are rejected; a V component with other limits is accepted and misplaced (refuted)."
 },
 "C35": {
  "note": "Proved for band limits of at least four and every real beam without power in the two highest azimuthal modes of a degree (all axisymmetric ones); below band limit four the code raises (refuted)."
 },
 "C37": {
  "note": "Jones rotation proved in full. MuellerRotation: I, Q, V right at every angle, all of it where sin 2t = 0; refuted elsewhere (sign in the U row)."
 },
 "C38": {
  "note": "All parts proved for layers below total reflection with positive indices, any losses and thicknesses."
 },
 "C39": {
  "note": "Weighted mean, constant matrices, bounds and rescaling proved for at least two frequencies. Refuted: one frequency gives 0/0; the highest frequency is never used; the rotation is documented in degrees but used in radians."
 },
 "C40": {
  "note": "Selection, termination and limit proved for any number of patches. Elevation steps are added after the limit is applied: with negative steps the scanned elevation is below el_min (refuted). Frame conversion is a parameter."
 },
 "C41": {
  "note": "Triangle and sawtooth in full for positive throw and speed. A zero throw works only for chunks that are whole check intervals (refuted otherwise). Schedule-driven scans: limits proved when az0 < az1; a scan through north sweeps the wrong way (refuted)."
 },
 "C42": {
  "note": "Within a chunk the motion law is proved. Between chunks the latitude is kept but its direction is lost, and the longitude changes sign (both refuted)."
 },
 "C43": {
  "note": "Geometry and psi proved for every time, angle and rate, one sample per call and away from the poles of the coordinate system; with more than one sample the wrap-around helpers raise, so no longer chunk can be scanned (refuted). The angles, rates and jitter given to l2_scan are ignored (C43_options_refuted)."
 },
 "C44": {
  "note": "Proved for one non-negative angle (and one negative angle off the period for the n-pi helper); refuted for arrays, empty arrays, negative angles and the lower edge."
 },
 "C45": {
  "note": "Proved for declinations above -90; at -90 the colatitude becomes 0 instead of pi (refuted). Pixel numbers: for any pixelisation by colatitude and periodic longitude (parameter)."
 },
 "C46": {
  "note": "Window: proved for every length except one, where the call fails (C46_window_refuted). Spectrum: proved for windows inside the spectrum; a window that begins below the first element zeroes everything (C46_low_refuted), widths 0 and 1 fail, and a window past the end is cut and moves, so that a 4f line at the last mode is removed (C46_high_refuted). Timestream: with x the plate frequency in frequency steps, proved for x > 3/10 except 1/2 where the band lies inside the spectrum; the call fails below 1/10, between 1/6 and 3/10 and at 1/2, and wipes the timestream between 1/10 and 1/8 (refuted). Map making applies it before the high-pass filter and refuses plates that do not turn continuously (C46_in_map_making). The Fourier transforms are parameters."
 },
 "C47": {
  "note": "Non-zero values are honoured; explicit zeros are replaced by defaults (refuted)."
 },
 "C48": {
  "note": "Sky part proved; the beam loop continues with the index of the sky loop, so a beam with as many components is never checked, and the component named can be wrong (both refuted). Overflow of a sum of finite numbers is not modelled."
 },
 "C49": {
  "note": "Holds for the A detector when the ghost indices in use have no gap (always true for ghosts as created); B's ghosts find a map only if A has a ghost with that index, and then it is A's beam. Refuted: index gaps, ground maps built from the last ghost's beam, pairs without A, coefficients lost on a second initialisation."
 },
 "C50": {
  "note": "The amplitudes are a cumulative sum of the random numbers (law in C67_reflected_ghosts); the property holds for the first ghost only and is refuted for the others."
 },
 "C51": {
  "note": "Order, indices, angles, overriding keywords and rejection proved for all directories; refuted for a file holding the same dictionary object twice."
 },
 "C52": {
  "note": "Exact law for every option; refuted for sensitive_freq, symmetric, hwp and hwp_mueller, which are not taken over."
 },
 "C53": {
  "note": "Proved for detectors at multiples of 180 degrees behind any plate, and at any angle without unmodulated polarisation and intensity leakage. Refuted otherwise: leakage of intensity follows cos(2 polang), unmodulated polarisation ignores the detector angle, so an identity plate is not 'no plate'."
 },
 "C54": {
  "note": "Exact laws proved for intensity and circular polarisation; refuted: one of the two couplings uses the first (last) row instead of the first (last) column."
 },
 "C55": {
  "note": "Any number of repetitions replay the first scan exactly if rotation/HWP/elevation steps are reset in between, or if nothing rotates or steps (no ground template, coefficients from settings, no reuse). Refuted without reset when the boresight rotates, for assigned coefficients (dropped by the first scan) and after a scan with ground template (UnboundLocalError)."
 },
 "C56": {
  "note": "qpoint's from_tod, solve_map and proj_cond are modelled from their documentation, with real numbers; the condition-number test is a parameter. Refused flag arrays and kept destinations are C83."
 },
 "C57": {
  "note": "Row extraction and rejection of negative m proved; m > lmax is not rejected (refuted)."
 },
 "C58": {
  "note": "Grid, names, angles proved for all sizes; symmetry for at least two positions, refuted for one."
 },
 "C59": {
  "note": "Setting: exact law for all reachable states. Adding: exact law for main beams (rand_stdev=0); refuted for ghosts."
 },
 "C60": {
  "note": "Validity over all histories; mmax <= lmax as long as lmax is not reassigned; refuted by lowering lmax."
 },
 "C61": {
  "note": "Within a chunk of a schedule-driven scan the step bound is proved. Across chunks the azimuth jumps in schedule-driven, triangle and constant-speed scans (refuted)."
 },
 "C62": {
  "note": "Proved for polarised files and un-normalised co-polar beams; refuted for normalised co-polar beams, whose amplitude is lost."
 },
 "C63": {
  "note": "Proved for four-component files; refuted for three-component files (operator precedence: the option is ignored)."
 },
 "C64": {
  "note": "Refuted: the argument is overwritten in place; preserved only when no option is set."
 },
 "C66": {
  "note": "Random numbers are an arbitrary stream of standard normal draws. Refuted: set_global_prop_random draws the deviations of main beams around the given size, not around zero (np.random.normal(1) sets the mean); the call shown in its documentation raises AttributeError (no attribute polang_err). Ghosts under add_to_prop are set, not moved: see C59."
 },
 "C70": {
  "note": "Proved for stacks of passive layers at normal incidence, or isotropic, or with the axis in or perpendicular to the plane of incidence, where the linear system is shown to be regular. For any other stack of transparent layers the matrices solve the problem exactly when no light comes out without light coming in (C70_any_axes); refuted: there is a lossless plate, lit obliquely with its axis at 45 degrees, where light does (C70_glowing_plate_refuted). Refuted for the empty stack, which raises AttributeError."
 },
 "C71": {
  "note": "Proved for the same stacks as C70, for polarised fields and for Stokes vectors of any degree of polarisation. Refuted for birefringent layers lit obliquely with other axes: the code's mode fields are not orthogonal there, and a lossless plate gives out 1.7 times the power it receives."
 },
 "C72": {
  "note": "Round trip proved; the documented meaning is refuted and proved for the opposite function."
 },
 "C73": {
  "note": "Complete."
 },
 "C74": {
  "note": "Complete."
 },
 "C75": {
  "note": "Proved at the centre for all plates; away from the centre for plates with parallel axes in the plane of incidence. Refuted away from the centre for a custom plate with its axis at 45 degrees. Missing: the named multi-plate stacks away from the centre."
 },
 "C76": {
  "note": "Complete, for passive layers."
 },
 "C77": {
  "note": "Proved at normal incidence, for isotropic layers and for an axis perpendicular to the plane of incidence. Refuted for an axis in the plane of incidence, where the code uses the direction-dependent index in the dielectric tensor. Other axes at oblique incidence are not covered."
 },
 "C78": {
  "note": "Relative to the stated behaviour of the HEALPix transforms (hypothesis `healpix`). Without plate in full, with and without circular polarisation; behind a plate for detectors at multiples of 180 degrees and plates with M_IQ = M_QI, M_IU = M_UI (with circular polarisation also M_QV = M_VQ, M_UV = M_VU), and for any detector angle if the plate neither mixes linear polarisation with intensity (or V) nor passes unmodulated polarisation, with and without circular polarisation (C78_modulating_plate, C78_circular_modulating_plate). The remaining angles and plates are wrong in the code (C53, C54)."
 },
 "C79": {
  "note": "For every scan that returns, filters off. The model keeps the saved array per (chunk index, detector id)."
 },
 "C80": {
  "note": "The course is the same for all observing detectors; per-sample laws for elevation, rotation and HWP, including the known deviations of C08 (extra rotation for a chunk inside a period) and C13 (one sample of drift per stretch) in exact form. Azimuth is part of the external elevation/boresight array. HWP mode other than None/stepped/continuous excluded."
 },
 "C81": {
  "note": "Refuted: 2415020 days are subtracted twice, and that is no whole number of years."
 },
 "C82": {
  "note": "Proved for positive cut-off and order; refuted for a cut-off of zero (NaN). The Fourier transform is a parameter; the factor is computed with real numbers."
 },
 "C83": {
  "note": "Both claims are false: the documented array of flags fails for every array of two or more flags, and init=False with add_to_global counts the earlier samples twice."
 },
 "C84": {
  "note": "Binary64 arithmetic from Flocq (rounding to nearest even, no overflow)."
 },
 "C85": {
  "note": "Holds for whole seconds at whole rates; in general the count is n or n - 1 (proved below 2^51 samples), and 29 samples at 100 Hz become 28 (refuted): int() truncates the rounded product. Consequently ScanStrategy(duration=0.29, sample_rate=100, num_samples=29) is rejected."
 },
 "C86": {
  "note": "Positions: proved for every history. HWP angles: proved for scans from freshly configured settings; refuted for a second scan without reset, where the first pair continues the HWP and the last pair's angles overwrite the shared array. With a ground template save_point raises UnboundLocalError (see C26/C79), so o_ground is off."
 },
 "C87": {
  "note": "Proved for all settings and states: any two settings that both complete have the same log of scans and bins and leave the same state. Completion carries over in both directions, except for save_point with a ground template (C87_ground_refuted, UnboundLocalError) and, by hypothesis, preview_pointing."
 },
 "C88": {
  "note": "Proved for freshly configured settings (ScanStrategy as set up, not continued from an earlier scan without reset; C55_second_scan_refuted shows the difference), with binning and without a ground template, filters or reused spin maps."
 },
 "C89": {
  "note": "Linearity in the sky and in the beam is proved for the spin maps and timestream formula with healpy's transforms as linear parameters; for the scan loop, what a beam sees is the parameter e_signal, of which the third scan's is the superposition; the filters of bin_tod are proved linear for linear Fourier transforms; binned and solved maps are separate theorems about the same calls of bin_tod. Exact real arithmetic."
 },
 "C90": {
  "note": "Proved for every keyword list: stored options are the given value or the default of the separate table S_Beam.stored_options, the limits and width follow the documented rules, unknown keywords raise TypeError and acceptable values always give a beam; afterwards idx, ghost, ghosts and polang_truth cannot be assigned and other assignments change only that attribute. Refuted: the documented 'lmax=None uses 1.4*2*pi/fwhm' - Beam(lmax=None, ...) always raises AttributeError because the band limit is assigned before the width, and Beam(fwhm=x) has lmax 700 for every x; mmax <= lmax does not survive an assignment of a lower lmax."
 },
 "C91": {
  "note": "Proved for arrays of equal length: every row becomes a pair with exactly the described beams, old beams unchanged, and the call succeeds for acceptable options. Refuted: combine=False always raises NameError (undefined names); az/el/pol/name in the options raise TypeError and ghost is used, although documented as ignored."
 },
 "C92": {
  "note": "End to end over the scan loop (M_Scan), the pointing of scan and bin_tod (M_Bin), the timestream formula (M_Tod) and binning and solving (M_Solve). Assumed of qpoint: turning a quaternion about the line of sight changes only the position angle, by the angle turned (shown to hold of quaternions made from three angles, and met by the concrete pointing of C92_case); the order in which from_tod multiplies boresight, offset and plate. The map is sampled at pixel centres (no interpolation). Exact real arithmetic. Beams: symmetric ones without Mueller matrix (C92_no_matrix, C92_smoothed_sky) and axisymmetric co-polarised ones behind an ideal plate given by its Mueller matrix (C92_ideal_plate, through C35)."
 },
 "C93": {
  "note": "Progress theorem for the scan loop model: C93_completes for every state meeting [scannable] (S_Complete.v), C93_history for any sequence of scans, C93_settings for the setters. Refuted parts: a ground template with external pointing, a preview with a ground template, and a rotation period below one sample are accepted and raise in the middle of the scan. Exceptions of external libraries (healpy, qpoint, MPI) and of file access are outside the model."
 },
 "C94": {
  "note": "healpy gauss_beam is modelled by its documented formula; exact arithmetic; the band limit zero case is C94_monopole_raises."
 },
 "C95": {
  "note": "Proved for histories in which beams are added once and not through input_focal_plane (as C67), including that beams without supplied offsets are untouched. Refuted: a ghost whose azimuth offset is exactly zero is created dead whatever its elevation (the code tests `not az`); a pair with an empty partner raises AttributeError although the code tests for it. Random amplitudes accumulate over the loop: C50_crosstalk_amplitudes_refuted."
 },
 "C96": {
  "note": "Proved for all operations with scatter=False when the processes draw the same numbers for ghost amplitudes and properties; loading and killing need no such condition. Refuted: random ghost amplitudes and random properties are drawn by each process on its own, so the focal planes differ (scans use the beams of process 0). See also C04_predistributed_lost_refuted for scatter=True at creation."
 },
 "C97": {
  "note": "The sky is fixed in the model: with reuse_spinmaps a sky changed between two scans is ignored by design, and nothing is said about it. C97_needs_one_beam shows that the condition on the beams cannot be dropped."
 },
 "C98": {
  "note": "Proved for calls that do not fail, with per-map settings only for three maps and without plot_func in them. Refuted: with per-map settings the V map is silently left out; a scalar sym_limits fails for four maps; min/max among per-map settings always fail; a per-map plot_func is used for the following maps too; dpi is ignored. Automatic limits are those of the first map for all maps (C98_automatic_limits). Drawing and writing are external."
 },
 "C99": {
  "note": "Refuted at zero, where the call fails. Real numbers, no rounding errors."
 }
}