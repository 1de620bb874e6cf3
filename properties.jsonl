{"id": "C01", "title": "Scattering work over MPI ranks loses and duplicates nothing", "statement": "When a list is scattered from the root over the ranks, concatenating what the ranks received, in rank order, gives back exactly the original list; part sizes differ by at most one and never increase with rank. Without MPI the list is returned unchanged.", "quantifier": "every list (any length, also shorter than the number of ranks) and every number of ranks >= 1", "why_tests_cant": "Tests run on one rank with one length; the claim ranges over all (length, ranks) pairs including remainders and empty parts.", "anchors": ["beamconv/instrument.py:MPIBase.scatter_list"]}
{"id": "C02", "title": "Distributing a replicated array agrees with scattering it", "statement": "Every rank's view of a replicated array is a contiguous slice; the slices are disjoint, cover the array in rank order, differ in size by at most one, and are the same parts that scattering the list from the root would deliver.", "quantifier": "every array length, every number of ranks >= 1, every rank", "why_tests_cant": "Off-by-one errors in the offset arithmetic appear only for particular (length mod ranks, rank) combinations.", "anchors": ["beamconv/instrument.py:MPIBase.distribute_array", "beamconv/instrument.py:MPIBase.scatter_list"]}
{"id": "C03", "title": "Boresight pointing computed in parallel equals the serial pointing", "statement": "When the pointing of a chunk is computed by slicing the samples over the ranks and gathering the pieces, each rank ends up with the same array a single process would compute, for every per-sample pointing function.", "quantifier": "every number of ranks >= 1, every chunk length (including shorter than the number of ranks), every per-sample function", "why_tests_cant": "MPI is not available to the unit tests, and the claim is about every size/offset combination.", "anchors": ["beamconv/instrument.py:ScanStrategy.implement_scan", "beamconv/instrument.py:ScanStrategy.l2_scan", "beamconv/instrument.py:ScanStrategy.satellite_scan", "beamconv/instrument.py:ScanStrategy.strictly_az", "beamconv/instrument.py:ScanStrategy.schedule_scan"]}
{"id": "C04", "title": "Every detector pair is scanned exactly once across ranks, and ranks stay in lock step", "statement": "In a scan of the whole instrument, each detector pair of the focal plane is processed by exactly one rank exactly once, and all ranks run the same number of outer iterations (so that the collective pointing calls match up).", "quantifier": "every number of pairs (including zero and fewer than ranks), every number of ranks, both values of the scatter option", "why_tests_cant": "Needs all (pairs, ranks) combinations and reasoning about what all ranks do together.", "anchors": ["beamconv/instrument.py:ScanStrategy.scan_instrument_mpi", "beamconv/instrument.py:MPIBase.scatter_list"]}
{"id": "C05", "title": "The accumulated map does not depend on the number of ranks", "statement": "Starting from a freshly configured scan strategy, the sum over ranks of the accumulated map-making vectors equals the sum over detector pairs of each pair's own contribution, for any number of ranks and any order of pairs.", "quantifier": "every focal plane, number of ranks and per-pair contribution, exact addition", "why_tests_cant": "Requires comparing executions on every possible number of ranks.", "anchors": ["beamconv/instrument.py:ScanStrategy.scan_instrument_mpi", "beamconv/instrument.py:MPIBase.reduce_array", "beamconv/instrument.py:ScanStrategy.solve_for_map"]}
{"id": "C06", "title": "Mission chunks tile the mission", "statement": "After partitioning a mission of n >= 1 samples, the chunks are contiguous, start at 0, end at n, are nonempty, are never longer than the requested chunk size, all but the last have exactly that size, and chunk number i carries index i. A missing, zero or too large chunk size gives a single chunk.", "quantifier": "every nsamp >= 1 and every requested chunk size", "why_tests_cant": "Boundary arithmetic over all (nsamp, chunksize) pairs.", "anchors": ["beamconv/instrument.py:ScanStrategy.partition_mission"]}
{"id": "C07", "title": "Sub-chunks tile their chunk", "statement": "Splitting a chunk at instrument rotations yields sub-chunks that are contiguous and in order, start at the chunk's start, stop at the chunk's end, lie within one rotation period each and carry the index of the parent chunk, whatever was left over from the previous chunk.", "quantifier": "every sequence of non-empty chunks, every rotation period of at least one sample, every carried remainder reachable from a fresh strategy", "why_tests_cant": "Depends on the whole history of previously split chunks through the carried remainder.", "anchors": ["beamconv/instrument.py:ScanStrategy.subpart_chunk"]}
{"id": "C08", "title": "Instrument rotates once per rotation period regardless of chunking", "statement": "With a rotation period of r samples, sample k of the mission is observed with the (k div r)-th angle of the rotation sequence, however the mission is divided into chunks.", "quantifier": "every partition of the mission into chunks, every r >= 1, every sample", "why_tests_cant": "History property over all chunkings; the test suite only checks that sub-chunks cover chunks.", "anchors": ["beamconv/instrument.py:ScanStrategy.subpart_chunk", "beamconv/instrument.py:ScanStrategy.rotate_instr", "beamconv/instrument.py:ScanStrategy.scan_instrument_mpi"]}
{"id": "C09", "title": "Saved timestream slices tile each stored chunk", "statement": "The index ranges at which the sub-chunks of a chunk are written in the per-chunk storage arrays are in order, adjacent, start at 0 and end at the chunk length: after the chunk is scanned each stored sample was written exactly once.", "quantifier": "every mission partition, every chunk, every rotation period and carried remainder", "why_tests_cant": "Composition of two index computations over all histories.", "anchors": ["beamconv/instrument.py:ScanStrategy._chunk2idx", "beamconv/instrument.py:ScanStrategy.subpart_chunk", "beamconv/instrument.py:ScanStrategy._scan_detector"]}
{"id": "C10", "title": "A schedule file is cut into chunks that cover the scheduled samples", "statement": "Chunks generated from a schedule are contiguous from sample 0, no longer than the chunk size, never run past nsamp, and together cover min(nsamp, total scheduled samples).", "quantifier": "every list of constant-elevation scans, chunk size and nsamp", "why_tests_cant": "Covers all schedules and interaction of chunk size with mission length.", "anchors": ["beamconv/instrument.py:ScanStrategy.partition_schedule_file"]}
{"id": "C11", "title": "Schedule chunk indices address their own chunk", "statement": "For each chunk generated from a schedule, looking up the chunk list, start times and azimuth/elevation tables with the chunk's own index gives the data of that chunk.", "quantifier": "every list of constant-elevation scans (including ones of zero duration) and chunk size", "why_tests_cant": "The counters drift only for particular schedules.", "anchors": ["beamconv/instrument.py:ScanStrategy.partition_schedule_file", "beamconv/instrument.py:ScanStrategy.schedule_ctime", "beamconv/instrument.py:ScanStrategy.schedule_scan"]}
{"id": "C12", "title": "Stepped angles are independent of chunking", "statement": "For stepped HWP modulation and elevation stepping with step length s samples and n angles, mission sample k gets angle number (k div s) mod n, however the mission is divided into chunks; stepping adds to the supplied array and changes nothing else.", "quantifier": "every step length >= 1, every non-empty angle list, every partition of the mission into chunks of any length (including chunks shorter than a step)", "why_tests_cant": "The carried remainder makes this a property of the complete chunk history.", "anchors": ["beamconv/instrument.py:ScanStrategy.step_array", "beamconv/instrument.py:ScanStrategy.rotate_hwp", "beamconv/tools.py:angle_gen"]}
{"id": "C13", "title": "A continuously rotating HWP keeps its phase across chunks", "statement": "With a continuously rotating HWP of frequency f, mission sample k has HWP angle start + 2 pi k f / fsamp (mod 2 pi), however the mission is divided into chunks.", "quantifier": "every frequency, start angle, sampling rate and every partition into chunks", "why_tests_cant": "Only visible when comparing different chunkings of the same mission.", "anchors": ["beamconv/instrument.py:ScanStrategy.rotate_hwp", "beamconv/instrument.py:ScanStrategy.set_hwp_mod"]}
{"id": "C14", "title": "Reset replays the same rotation, HWP and elevation sequences", "statement": "After resetting instrument rotation, HWP modulation and elevation stepping, the strategy produces the same sub-chunks, rotation angles, HWP angles and elevation offsets it produced from its freshly configured state, whatever happened in between; hence all detector pairs on a rank observe with the same sequences.", "quantifier": "every history of operations between configuration and reset, every subsequent sequence of operations", "why_tests_cant": "Quantifies over all intermediate histories.", "anchors": ["beamconv/instrument.py:ScanStrategy.reset_instr_rot", "beamconv/instrument.py:ScanStrategy.reset_hwp_mod", "beamconv/instrument.py:ScanStrategy.reset_el_steps"]}
{"id": "C15", "title": "Angle generators cycle through their list forever", "statement": "The k-th value drawn from a rotation / HWP / elevation generator is element k mod n of the configured list.", "quantifier": "every non-empty list and every k", "why_tests_cant": "Infinite sequence.", "anchors": ["beamconv/tools.py:angle_gen"]}
{"id": "C16", "title": "Sample times do not depend on chunking", "statement": "Mission sample k has time ctime0 + k / fsamp in every scan mode that derives time from the sample number, whichever chunk it is in; times strictly increase and agree at chunk borders.", "quantifier": "every partition of the mission, every sample rate > 0, every start time", "why_tests_cant": "Quantifies over all chunkings and samples.", "anchors": ["beamconv/instrument.py:ScanStrategy.implement_scan", "beamconv/instrument.py:ScanStrategy.l2_ctime", "beamconv/instrument.py:ScanStrategy.satellite_ctime"]}
{"id": "C17", "title": "Duration, sample rate and number of samples are consistent", "statement": "If a scan strategy is created successfully, nsamp is the integer part of duration * sample rate, nsamp equals the requested number of samples when one was given, giving any two of the three is enough, and giving fewer than two or a non-positive rate is rejected.", "quantifier": "every combination of present / absent arguments and their values, exact arithmetic", "why_tests_cant": "Case analysis over all combinations and all values.", "anchors": ["beamconv/instrument.py:ScanStrategy.__init__"]}
{"id": "C18", "title": "Detector count equals the number of beams on the focal plane", "statement": "After any sequence of adding, creating, loading and removing beams, the reported number of detectors equals the number of beams present in the focal plane, and removal leaves all other beams untouched and in order.", "quantifier": "every sequence of focal plane operations", "why_tests_cant": "State machine invariant over all operation sequences.", "anchors": ["beamconv/instrument.py:Instrument.add_to_focal_plane", "beamconv/instrument.py:Instrument.remove_from_focal_plane", "beamconv/instrument.py:Instrument.create_focal_plane", "beamconv/instrument.py:Instrument.input_focal_plane", "beamconv/instrument.py:Instrument.load_focal_plane"]}
{"id": "C19", "title": "Detector indices are unique, so stored data never collide", "statement": "All beams on a focal plane built by any sequence of operations have different indices; as stored timestreams are keyed by (chunk, detector index), saving one detector's data never overwrites another detector's.", "quantifier": "every sequence of focal plane operations on distinct beams", "why_tests_cant": "State machine invariant over all operation sequences.", "anchors": ["beamconv/instrument.py:Instrument.add_to_focal_plane", "beamconv/instrument.py:Instrument.create_focal_plane", "beamconv/instrument.py:Instrument.input_focal_plane", "beamconv/instrument.py:Instrument.load_focal_plane", "beamconv/instrument.py:ScanStrategy._allocate_detector_data", "beamconv/instrument.py:ScanStrategy.data"]}
{"id": "C20", "title": "Killing channels kills exactly the drawn detectors", "statement": "Killing a fraction f of the channels marks exactly int(f * n) distinct detectors (or both detectors in int(f * n/2) distinct pairs) dead, with all their ghosts, and changes no other detector.", "quantifier": "every focal plane, kill fraction in [0,1] and every outcome of the random draw", "why_tests_cant": "Quantifies over random outcomes and all focal plane contents.", "anchors": ["beamconv/instrument.py:Instrument.kill_channels", "beamconv/detector.py:Beam.dead"]}
{"id": "C21", "title": "Ghost bookkeeping", "statement": "After any sequence of ghost creations and changes of the main beam's dead flag: the ghost count equals the number of ghosts, ghost number i has ghost index i, the ghosts have the main beam's dead flag whenever it was set after they were created, and a ghost can never be given ghosts.", "quantifier": "every sequence of ghost creations and dead-flag assignments", "why_tests_cant": "Invariant over all operation sequences.", "anchors": ["beamconv/detector.py:Beam.create_ghost", "beamconv/detector.py:Beam.dead", "beamconv/detector.py:Beam.ghost_count"]}
{"id": "C22", "title": "Live detectors are scanned for every sample, dead detectors never", "statement": "A scan of the instrument generates a timestream for each live detector exactly once for each mission sample, never touches a dead detector, and bins each generated sample exactly once when binning is on (with or without cross-talk).", "quantifier": "every focal plane of pairs with any pattern of dead or absent detectors, every chunking and rotation period", "why_tests_cant": "Quantifies over all liveness patterns and histories of the nested scan loop.", "anchors": ["beamconv/instrument.py:ScanStrategy.scan_instrument_mpi", "beamconv/instrument.py:ScanStrategy._scan_detector"]}
{"id": "C23", "title": "Cross-talk mixes a pair symmetrically", "statement": "With cross-talk amplitude c the pair's timestreams become a + c*b and b + c*a, sample by sample; amplitude 0 leaves them unchanged.", "quantifier": "every pair of timestreams of equal length, every amplitude", "why_tests_cant": "In-place mixing: order of updates matters for all values.", "anchors": ["beamconv/tools.py:cross_talk"]}
{"id": "C24", "title": "Timestream value is the spin-weighted sum over maps", "statement": "The modulated timestream of a set of spin maps at position angle psi is sum_s map_s(pixel) exp(-i s psi) over the given spins, consecutive or not and whatever the first spin value; the real mode gives the sum over both signs of s, and rejects negative spins and an empty list. The timestream of a detector adds the intensity and the polarisation maps, the latter modulated by exp(i (4 alpha + 2 polang)).", "quantifier": "every list of spins, all maps, all pixels, all angles", "why_tests_cant": "Recurrence-based evaluation over arbitrary many spins.", "anchors": ["beamconv/instrument.py:ScanStrategy._scan_modulate_pa"]}
{"id": "C25", "title": "Real-mode spin sum equals the full two-sided sum", "statement": "For maps with map_{-s} = conj(map_s), the real-mode evaluation over spins 0..S equals the complex evaluation over spins -S..S, which is real.", "quantifier": "every S, all maps, all angles", "why_tests_cant": "Holds for all S and values; tests use one S.", "anchors": ["beamconv/instrument.py:ScanStrategy._scan_modulate_pa"]}
{"id": "C26", "title": "A detector's timestream is the superposition of its main beam and live ghosts", "statement": "The timestream accumulated for a detector is the sum of the separate timestreams of its live ghosts and of its main beam; dead ghosts contribute nothing, and ghosts and main beam see the sky through their own beams, also when a ground template is observed.", "quantifier": "every list of ghosts with any pattern of dead ghosts, any timestreams, with and without ground template", "why_tests_cant": "Quantifies over ghost lists and accumulation order.", "anchors": ["beamconv/instrument.py:ScanStrategy._scan_detector", "beamconv/instrument.py:ScanStrategy.scan", "beamconv/instrument.py:ScanStrategy.init_spinmaps"]}
{"id": "C27", "title": "Truncating harmonic coefficients keeps the low multipoles", "statement": "Truncating coefficients with band limit L (and azimuthal limit M) to L' <= L gives an array of exactly the size for (L', min(M, L')) in which mode (l, m) has its original value for all l <= L', m <= min(M, L'); a larger band limit is rejected; truncations compose.", "quantifier": "every L, M, L', every coefficient array", "why_tests_cant": "Index arithmetic over all (L, M, L', l, m).", "anchors": ["beamconv/tools.py:trunc_alm"]}
{"id": "C28", "title": "Shifting beam coefficients moves azimuthal modes", "statement": "Shifting spin-+-2 coefficients by n gives +2b_new(l,m) = +2b(l,m-n) and -2b_new(l,m) = -2b(l,m+n), where negative m are given by b(l,-m) = (-1)^m conj(other spin's b(l,m)) and modes with |m| > l are zero; shift 0 is the identity; shifts larger than the band limit are rejected.", "quantifier": "every band limit, shift (positive and negative), l, m", "why_tests_cant": "Index arithmetic with four sign cases over all l, m, shift.", "anchors": ["beamconv/tools.py:shift_blm"]}
{"id": "C29", "title": "Unpolarised-to-polarised beam conversion", "statement": "The spin-+-2 coefficients built from an unpolarised beam are -2b(l,m) = b(l,m-2) and +2b(l,m) = b(l,m+2) for l >= 2 (b(l,-m) = (-1)^m conj b(l,m)), and zero where the source mode does not exist.", "quantifier": "every band limit >= 1, all l, m", "why_tests_cant": "Hand-written slice offsets for m = 0, 1 and >= 2.", "anchors": ["beamconv/tools.py:unpol2pol"]}
{"id": "C30", "title": "E/B and spin representations are mutually inverse", "statement": "Converting spin-+-s coefficients to E/B and back (and back again) is the identity for even spin.", "quantifier": "all coefficient arrays", "why_tests_cant": "Algebraic identity over all complex values.", "anchors": ["beamconv/tools.py:spin2eb", "beamconv/tools.py:eb2spin"]}
{"id": "C31", "title": "Beam normalisation and deconvolution", "statement": "Normalising a beam makes its monopole 1, keeps ratios of coefficients, is idempotent and independent of an overall factor; deconvolving multiplies every mode (l,m) by a factor depending on l only; with neither option the coefficients are returned unchanged.", "quantifier": "all coefficient arrays with non-zero monopole", "why_tests_cant": "Identity over all arrays.", "anchors": ["beamconv/tools.py:scale_blm"]}
{"id": "C32", "title": "Coefficient files with limited azimuthal modes expand correctly", "statement": "Loading coefficients stored with azimuthal limit M < L yields a full set in which mode (l,m) is the stored value for m <= M and zero for m > M.", "quantifier": "every (L, M), every coefficient array", "why_tests_cant": "Index layout over all L, M.", "anchors": ["beamconv/detector.py:Beam.load_blm"]}
{"id": "C33", "title": "Quaternion helper algebra", "statement": "Quaternion multiplication is associative with unit (1,0,0,0), norms multiply, conjugation reverses products, every non-zero quaternion times its inverse is the unit, and conjugation by a quaternion preserves norm and composes.", "quantifier": "all quaternions over the reals", "why_tests_cant": "Polynomial identities over all reals.", "anchors": ["beamconv/tools.py:quat_left_mult", "beamconv/tools.py:quat_norm", "beamconv/tools.py:quat_conj", "beamconv/tools.py:quat_inv", "beamconv/tools.py:quat_conj_by"]}
{"id": "C34", "title": "HWP Mueller matrix in spin basis", "statement": "Converting a Mueller matrix to the spin basis is multiplicative and maps the identity to the identity; for real matrices the (+2,+2)/(-2,-2) and (+2,-2)/(-2,+2) elements are complex conjugates; for the ideal half-wave plate only the I-I, V-V and spin-flipping elements survive, with values 1, -1 and 1.", "quantifier": "all 4x4 Mueller matrices", "why_tests_cant": "Algebraic identity over all matrices.", "anchors": ["beamconv/tools.py:mueller2spin", "beamconv/instrument.py:ScanStrategy.blmxhwp"]}
{"id": "C35", "title": "Ideal HWP Mueller matrix reproduces the default HWP treatment", "statement": "For an axisymmetric co-polar beam and the ideal half-wave-plate Mueller matrix, the beam coefficients used for the intensity and the 4-alpha polarisation maps are exactly those used when no Mueller matrix is given, and all other couplings are zero.", "quantifier": "every band limit, every real beam profile", "why_tests_cant": "Index shifting and matrix elements over all band limits; test uses lmax=4.", "anchors": ["beamconv/instrument.py:ScanStrategy.blmxhwp", "beamconv/instrument.py:ScanStrategy._init_spinmaps", "beamconv/tools.py:shift_blm"]}
{"id": "C36", "title": "Jones to Mueller conversion is a homomorphism", "statement": "The Mueller matrix of a Jones matrix has real entries, the identity maps to the identity, the Mueller matrix of a product is the product of Mueller matrices, a global phase has no effect, and the total-power element is non-negative and dominates.", "quantifier": "all 2x2 complex Jones matrices", "why_tests_cant": "Algebraic identity over all complex matrices.", "anchors": ["beamconv/transfer_matrix.py:JonesToMueller", "beamconv/transfer_matrix.py:kron"]}
{"id": "C37", "title": "Rotating a Mueller matrix is a change of frame", "statement": "Rotating a Mueller matrix by theta leaves the identity matrix unchanged, rotating by 0 changes nothing and rotating by a then b equals rotating by a+b; it agrees with rotating the Jones matrix.", "quantifier": "all Mueller matrices, all angles", "why_tests_cant": "Trigonometric identities over all angles.", "anchors": ["beamconv/transfer_matrix.py:MuellerRotation", "beamconv/transfer_matrix.py:JonesRotation"]}
{"id": "C38", "title": "Layers compose in the transfer matrix method", "statement": "A stack's transfer matrix is the ordered product of its layers' matrices; a zero-thickness layer is the identity; splitting a layer in two layers of the same material, whose thicknesses add up, changes nothing; stacking two stacks multiplies their matrices.", "quantifier": "every stack of layers, all thicknesses", "why_tests_cant": "Quantifies over stacks of any depth.", "anchors": ["beamconv/transfer_matrix.py:transferMatrix", "beamconv/transfer_matrix.py:stackTransferMatrix"]}
{"id": "C39", "title": "Band averaging is a proper average", "statement": "The band-averaged Mueller matrix is a weighted mean with weights summing to one: it reproduces a frequency-independent matrix exactly, lies elementwise between the extremes and is invariant under rescaling of the weights.", "quantifier": "every band, weight function and frequency grid", "why_tests_cant": "Quantifies over arbitrary spectra and matrices.", "anchors": ["beamconv/transfer_matrix.py:BandAveragedMueller"]}
{"id": "C40", "title": "Patch selection respects the elevation limit", "statement": "When several patches are given, each scanned position uses the first patch (in the order given) whose elevation is at least el_min, or el_min itself when no patch is high enough; the selection terminates and all used elevations are >= el_min.", "quantifier": "every number of patches and checks, all elevations and limits", "why_tests_cant": "Loop termination and result over all inputs.", "anchors": ["beamconv/instrument.py:ScanStrategy.implement_scan"]}
{"id": "C41", "title": "Azimuth patterns stay within the throw", "statement": "Triangle and sawtooth azimuth scans stay within half the throw of the patch centre, with the requested period, and the generated array always has exactly as many samples as the chunk; schedule-driven scans stay between the scheduled azimuth limits.", "quantifier": "every throw, speed, sampling rate and chunk size", "why_tests_cant": "Real-valued periodic functions over all parameters; array shape for all sizes.", "anchors": ["beamconv/instrument.py:ScanStrategy.implement_scan", "beamconv/instrument.py:ScanStrategy.strictly_az", "beamconv/instrument.py:ScanStrategy.schedule_scan", "beamconv/tools.py:sawtooth_wave"]}
{"id": "C42", "title": "Satellite scan continues where the previous chunk stopped", "statement": "In satellite scans the boresight longitude and latitude of consecutive chunks continue the motion of the previous chunk.", "quantifier": "every sequence of chunks, all scan parameters", "why_tests_cant": "History property over chunk sequences.", "anchors": ["beamconv/instrument.py:ScanStrategy.satellite_scan"]}
{"id": "C43", "title": "Space-mission boresight geometry", "statement": "The boresight vector generated by the L2 scan has unit norm and makes the constant angle theta_boresight with the spin axis and the spin axis makes the constant angle theta_antisun with the anti-Sun direction for all times.", "quantifier": "all times, all angles and rates", "why_tests_cant": "Real-valued identity over all times.", "anchors": ["beamconv/scanning.py:LB_rotmatrix_multi2", "beamconv/scanning.py:rotate_zy_phi_theta", "beamconv/scanning.py:matrix2x2_multi"]}
{"id": "C44", "title": "Angle wrap-around helpers", "statement": "The wrap-around helpers map an angle or array of angles to the equivalent angle in the base interval.", "quantifier": "all arrays of all lengths, all values", "why_tests_cant": "All values and lengths.", "anchors": ["beamconv/scanning.py:wraparound_2pi", "beamconv/scanning.py:wraparound_npi"]}
{"id": "C45", "title": "Equatorial to spherical coordinates", "statement": "Converting arrays (ra, dec) in degrees, in place, leaves longitude ra in [0, 2 pi) in the first and colatitude pi/2 - dec in [0, pi] in the second.", "quantifier": "all ra, all dec in [-90, 90]", "why_tests_cant": "All values including the poles.", "anchors": ["beamconv/tools.py:radec2colatlong"]}
{"id": "C46", "title": "HWP filter window", "statement": "The window has the requested length, values in [0,1], is symmetric, equals one in the plateau; filtering leaves frequencies inside the plateau unchanged and zeroes frequencies outside the window.", "quantifier": "every window length, every spectrum, every HWP frequency, sampling rate and timestream length", "why_tests_cant": "Slices depend on parity and rounding for all lengths.", "anchors": ["beamconv/tools.py:tukey_window", "beamconv/tools.py:filter_ft_hwp"]}
{"id": "C47", "title": "Explicit zero values of location and start time are honoured", "statement": "Latitude 0, longitude 0 and start time 0 given by the user are used as given.", "quantifier": "all values of the arguments, in particular zero", "why_tests_cant": "Boundary value of an argument.", "anchors": ["beamconv/instrument.py:Instrument.__init__", "beamconv/instrument.py:ScanStrategy.ctime0", "beamconv/instrument.py:ScanStrategy.rotate_hwp"]}
{"id": "C48", "title": "Non-finite coefficients are rejected", "statement": "Spin maps are never computed from sky or beam coefficients containing NaN or infinity: an error naming the offending component is raised.", "quantifier": "every number of sky and beam components, every position of the bad component", "why_tests_cant": "All positions of the bad component.", "anchors": ["beamconv/instrument.py:ScanStrategy._init_spinmaps"]}
{"id": "C49", "title": "Every ghost finds its own spin maps", "statement": "After initialising a detector (pair), every live ghost's spin map lookup succeeds and yields maps computed from that ghost's beam (or the beam it was told to share).", "quantifier": "every list of ghosts and every sharing pattern, on both detectors of a pair", "why_tests_cant": "All sharing patterns.", "anchors": ["beamconv/instrument.py:ScanStrategy.init_spinmaps", "beamconv/instrument.py:ScanStrategy.init_detpair", "beamconv/detector.py:Beam.reuse_blm", "beamconv/instrument.py:ScanStrategy.scan"]}
{"id": "C50", "title": "Random ghost amplitudes are drawn independently around the requested amplitude", "statement": "With a random amplitude spread, each ghost's amplitude is the requested amplitude plus its own random number.", "quantifier": "every number of beams, every sequence of random numbers", "why_tests_cant": "Quantifies over random draws and number of beams.", "anchors": ["beamconv/instrument.py:Instrument.create_reflected_ghosts", "beamconv/instrument.py:Instrument.create_crosstalk_ghosts"]}
{"id": "C51", "title": "Loaded focal planes number detectors consecutively and apply the angle offsets", "statement": "Loading n beam files in sorted order gives detectors with consecutive indices, pairs (idx, idx+1), polarisation angles increased by the A/B offsets, explicit keywords overriding file contents, B dead when pairs are disabled; malformed entries are rejected.", "quantifier": "every list of files and contents, every keyword combination", "why_tests_cant": "All file lists and contents.", "anchors": ["beamconv/instrument.py:Instrument.load_focal_plane"]}
{"id": "C52", "title": "Ghosts inherit unspecified options from the main beam", "statement": "A ghost created without a given option has the main beam's value for that option; given options are used as given; name, tag and index rules hold.", "quantifier": "every combination of given / absent options", "why_tests_cant": "All option subsets.", "anchors": ["beamconv/detector.py:Beam.create_ghost"]}
{"id": "C53", "title": "HWP leakage terms depend on the polarisation angle as a rotation of the detector", "statement": "For an axisymmetric beam behind an arbitrary HWP Mueller matrix, the timestream of a detector with polarisation angle p is the physical one: leakage of intensity into polarisation is modulated as 2(alpha+p), unmodulated polarisation as 2p, modulated polarisation as 4 alpha + 2p, leakage of polarisation into intensity as 2 alpha; in particular an identity Mueller matrix gives the timestream without HWP.", "quantifier": "all Mueller matrices, angles, sky values", "why_tests_cant": "Identity over all angles; tests only use the ideal HWP.", "anchors": ["beamconv/instrument.py:ScanStrategy.scan", "beamconv/instrument.py:ScanStrategy.blmxhwp"]}
{"id": "C54", "title": "Leakage into polarisation uses the matching column of the Mueller matrix", "statement": "The coupling of sky intensity to polarised beams depends only on the elements M_QI, M_UI of the HWP Mueller matrix, and that of circular polarisation only on M_QV, M_UV.", "quantifier": "all Mueller matrices", "why_tests_cant": "Quantifies over all Mueller matrices.", "anchors": ["beamconv/instrument.py:ScanStrategy.blmxhwp"]}
{"id": "C55", "title": "Repeating a scan gives the same result", "statement": "Scanning the instrument twice in a row with the same arguments uses the same pointing, rotation and HWP sequences the second time, irrespective of whether a ground template was used before.", "quantifier": "every configuration and every number of repetitions", "why_tests_cant": "History property.", "anchors": ["beamconv/instrument.py:ScanStrategy.scan_instrument_mpi", "beamconv/instrument.py:ScanStrategy.subpart_chunk"]}
{"id": "C56", "title": "Map solving inverts the binning", "statement": "If the timestream at each pixel is generated from a pixel vector m by the recorded projections, and the pixel's projection matrix is invertible, solving returns m for that pixel, for every set of observations; adding observations is additive.", "quantifier": "every pixel, every list of observations", "why_tests_cant": "Linear-algebra identity for every observation list.", "anchors": ["beamconv/instrument.py:ScanStrategy.solve_for_map", "beamconv/instrument.py:ScanStrategy.bin_tod"]}
{"id": "C57", "title": "Extracting one azimuthal mode of a beam", "statement": "Extracting azimuthal mode m from a coefficient array returns b(l,m) for l = m..lmax in order; in full form it returns lmax+1 values that are zero for l < m; values of m outside 0..lmax are rejected.", "quantifier": "every band limit, every m, every coefficient array", "why_tests_cant": "Index arithmetic over triangular arrays must be right for every band limit and m; a test checks a few.", "anchors": ["beamconv/tools.py: blm2bl"]}
{"id": "C58", "title": "Created focal plane is a complete grid", "statement": "Creating an nrow x ncol focal plane adds nrow*ncol pairs; every (row, column) name occurs exactly once per polarisation; A and B of a pair share their position; B's angle is A's plus the requested difference; offsets span the field of view symmetrically.", "quantifier": "every nrow, ncol, fov, angle difference", "why_tests_cant": "All sizes.", "anchors": ["beamconv/instrument.py:Instrument.create_focal_plane"]}
{"id": "C59", "title": "Property setters apply to the documented beams", "statement": "Setting or adding to a property changes that property (and no other) on exactly the selected A / B beams and, when requested, on their ghosts in the same way.", "quantifier": "every focal plane, selection flags and values", "why_tests_cant": "All focal planes and flags.", "anchors": ["beamconv/instrument.py:Instrument.set_global_prop", "beamconv/instrument.py:Instrument.add_to_prop"]}
{"id": "C60", "title": "Azimuthal band limit never exceeds the band limit", "statement": "For every beam at any time mmax <= lmax, and assigned widths and band limits are validated.", "quantifier": "every sequence of attribute assignments", "why_tests_cant": "Invariant over assignment sequences.", "anchors": ["beamconv/detector.py:Beam.lmax", "beamconv/detector.py:Beam.mmax", "beamconv/detector.py:Beam.fwhm"]}
{"id": "C62", "title": "Beam amplitude scales a loaded beam", "statement": "All coefficients of a beam loaded from file are the amplitude attribute times the coefficients it would have with amplitude 1 (as the documentation of load_blm says), whatever the normalisation, deconvolution and cross-polar options.", "quantifier": "every coefficient file, amplitude and option combination", "why_tests_cant": "Tests check single files with one option set; the claim is over all amplitudes, files and option combinations.", "anchors": ["beamconv/detector.py: Beam.load_blm", "beamconv/tools.py: scale_blm, get_copol_blm"]}
{"id": "C63", "title": "Cross-polar response can be switched off", "statement": "With cross_pol=False the beam loaded from a file with several components is the purely co-polar beam of its first component.", "quantifier": "every coefficient file with 1, 3 or 4 components and every option combination", "why_tests_cant": "The claim ranges over all files and option combinations.", "anchors": ["beamconv/detector.py: Beam.load_blm"]}
{"id": "C64", "title": "Scaling functions leave their argument unchanged", "statement": "Calling the public scaling helper returns the scaled coefficients and does not change the caller's array.", "quantifier": "every coefficient array and option combination", "why_tests_cant": "Absence of side effects for all inputs and options is not testable on samples.", "anchors": ["beamconv/tools.py: scale_blm"]}
{"id": "C65", "title": "Generated Gaussian beams are co-polar", "statement": "The spin -2 part returned for a polarised Gaussian beam is the co-polar conversion of its unpolarised part and the spin +2 part of that conversion is zero, for every beam profile.", "quantifier": "every band limit >= 1 and every profile", "why_tests_cant": "Ranges over all band limits and profiles.", "anchors": ["beamconv/tools.py: gauss_blm, unpol2pol"]}
{"id": "C67", "title": "Reflected ghosts sit opposite their beams", "statement": "Creating reflected ghosts gives every beam on the focal plane exactly one more ghost, at the opposite azimuth and elevation offset, with the given options and otherwise those of the beam; the focal plane itself is unchanged.", "quantifier": "every focal plane built by any sequence of operations, all options and random numbers", "why_tests_cant": "All focal planes and option combinations.", "anchors": ["beamconv/instrument.py:Instrument.create_reflected_ghosts", "beamconv/detector.py:Beam.create_ghost"]}
{"id": "C68", "title": "Instrument rotation turns detector offsets about the boresight", "statement": "With an instrument rotation of angle a, the direction every detector points to in the instrument frame is its offset direction turned by a about the boresight; rotations by a and b compose to a rotation by a+b, rotation by 0 changes nothing and offsets stay unit quaternions.", "quantifier": "all angles, all detector offsets", "why_tests_cant": "Trigonometric identity over all angles and offsets.", "anchors": ["beamconv/instrument.py:ScanStrategy.scan", "beamconv/tools.py:quat_left_mult"]}
{"id": "C69", "title": "Ground scans point at the scheduled azimuth and elevation", "statement": "The pointing used for ground scans is a unit quaternion that sends the boresight to the direction whose longitude is the azimuth and whose latitude is the elevation, without any roll of the instrument relative to the vertical.", "quantifier": "all azimuths and elevations", "why_tests_cant": "Trigonometric identity over all angles.", "anchors": ["beamconv/instrument.py:ScanStrategy.implement_scan", "beamconv/instrument.py:ScanStrategy.strictly_az", "beamconv/instrument.py:ScanStrategy.schedule_scan"]}
{"id": "C72", "title": "Mueller matrices in the (I, P, P*, V) basis", "statement": "Converting a Mueller matrix to the (I, Q+iU, Q-iU, V) basis gives the matrix that acts on those components as the Mueller matrix acts on Stokes vectors, and converting back recovers it.", "quantifier": "all 4x4 Mueller matrices and Stokes vectors", "why_tests_cant": "Algebraic identity over all matrices.", "anchors": ["beamconv/tools.py:iquv2ippv", "beamconv/tools.py:ippv2iquv"]}
{"id": "C70", "title": "Jones matrices of a stack solve the scattering problem", "statement": "For light of either polarisation entering a stack from one side, the transmission and reflection Jones matrices give exactly the outgoing waves compatible with the stack's transfer matrix and the two outer media; a stack without layers is a bare interface.", "quantifier": "every stack, frequency, incidence angle, rotation and incoming field", "why_tests_cant": "Quantifies over all stacks of any depth and all fields.", "anchors": ["beamconv/transfer_matrix.py:TranToJones", "beamconv/transfer_matrix.py:Jones"]}
{"id": "C71", "title": "A stack never creates power", "statement": "Transmitted plus reflected power never exceeds the incoming power, and equals it when no layer absorbs; so the Mueller matrices are physical.", "quantifier": "every stack of passive layers, frequency, angle and incoming field", "why_tests_cant": "An inequality over all stacks and fields.", "anchors": ["beamconv/transfer_matrix.py:transferMatrix", "beamconv/transfer_matrix.py:Mueller"]}
{"id": "C73", "title": "Plates built from arrays", "statement": "Building a half-wave plate from arrays gives the layers listed, in that order and in millimetres; arrays of different sizes and incomplete sets of arguments are rejected.", "quantifier": "all arrays of any length", "why_tests_cant": "Quantifies over arrays of any length.", "anchors": ["beamconv/detector.py:HWP.stack_builder", "beamconv/detector.py:Beam.set_hwp_mueller"]}
{"id": "C74", "title": "Named half-wave plates are well formed", "statement": "Exactly the documented plate names are accepted; each gives a stack with as many thicknesses, materials and angles, of dense passive layers, the same seen from both sides.", "quantifier": "every string", "why_tests_cant": "Rejection is a statement about all strings.", "anchors": ["beamconv/detector.py:HWP.choose_HWP_model"]}
{"id": "C75", "title": "Half-wave plates have physical Mueller matrices", "statement": "Setting a beam's half-wave plate by name or from passive layers gives, at every frequency and position in the focal plane, a Mueller matrix that transmits at most all the light and has no element larger than the first; only the distance from the centre matters.", "quantifier": "every plate, frequency and detector position", "why_tests_cant": "Quantifies over real frequencies and positions.", "anchors": ["beamconv/detector.py:Beam.set_hwp_mueller", "beamconv/detector.py:HWP.compute_mueller"]}
{"id": "C76", "title": "Rotating a stack turns its Mueller matrix", "statement": "At normal incidence the stack rotated by an angle acts on light turned by that angle as the unrotated stack acts on the original light, in transmission; in reflection the outgoing light turns the other way.", "quantifier": "every stack, angle and field", "why_tests_cant": "Equivariance over all stacks and angles.", "anchors": ["beamconv/transfer_matrix.py:stackTransferMatrix", "beamconv/transfer_matrix.py:Mueller"]}
{"id": "C77", "title": "A lossless layer has the textbook characteristic matrix", "statement": "The transfer matrix of a lossless layer is the solution of Maxwell's equations: cos and sin of the optical thickness with the admittances of the two polarisations.", "quantifier": "every lossless material, thickness, frequency, angle of incidence and axis", "why_tests_cant": "Identity over all real parameters.", "anchors": ["beamconv/transfer_matrix.py:transferMatrix"]}
{"id": "C78", "title": "The simulated timestream is the convolution of sky and beam", "statement": "For a sky given by harmonic coefficients and a beam given by its coefficients, the sample taken at pixel q with position angle psi is the sum over l, m and beam azimuthal orders s (up to the smaller of the two band limits and the requested maximum spin) of sky coefficient times beam coefficient times the spin-weighted harmonic at q times exp(-i s psi), for intensity, linear and (if requested) circular polarisation; behind a half-wave plate the beam coefficients are those of beam and plate combined.", "quantifier": "all sky and beam coefficients, both band limits, every maximum spin, symmetric or not, every list of pixels, position angles and plate angles", "why_tests_cant": "An identity between the whole pipeline (truncation, spin transforms, modulation) and a sum over all modes, for all inputs.", "anchors": ["beamconv/instrument.py:ScanStrategy._init_spinmaps", "beamconv/instrument.py:ScanStrategy._spinmaps_real", "beamconv/instrument.py:ScanStrategy._spinmaps_complex", "beamconv/instrument.py:ScanStrategy.scan"]}
{"id": "C79", "title": "Saved timestreams are the binned timestreams", "statement": "After a scan with save_tod=True, for every chunk and every detector of this process the array returned by data() holds, at each sample, the value that was binned into the map for this sample; no later sub-chunk, chunk, detector or ground scan overwrites it.", "quantifier": "all lists of detector pairs (live, dead, with ghosts and partners), all divisions of the mission into chunks, all boresight rotation periods, with and without ground templates, crosstalk, memory maps, any communicator", "why_tests_cant": "The arrays are written piecewise by nested loops over pairs, chunks and sub-chunks; overwriting depends on the whole history of the scan.", "anchors": ["beamconv/instrument.py:ScanStrategy.scan_instrument_mpi", "beamconv/instrument.py:ScanStrategy._scan_detector", "beamconv/instrument.py:ScanStrategy.allocate_chunk", "beamconv/instrument.py:ScanStrategy.data"]}
{"id": "C80", "title": "Every detector follows the same scan, and it is the one that was set", "statement": "In a scan that starts from freshly set (or reset) rotation, HWP and elevation-step settings, all live detectors, in whatever pair and on whatever process, see the same boresight elevation, boresight angle and HWP angle at each sample of the mission, and these are the ones the settings prescribe for that sample; the map is binned with the pointing the timestream was scanned with.", "quantifier": "all lists of pairs, all chunk divisions, all settings of boresight rotation, HWP (off, stepped, continuous) and elevation steps, memory map or not, external pointing or not, any communicator", "why_tests_cant": "The generators and remainders behind the settings are mutable state shared by all detectors; whether each pass over the mission starts and evolves identically is a statement about all histories.", "anchors": ["beamconv/instrument.py:ScanStrategy.scan_instrument_mpi", "beamconv/instrument.py:ScanStrategy.reset_instr_rot", "beamconv/instrument.py:ScanStrategy.reset_hwp_mod", "beamconv/instrument.py:ScanStrategy.reset_el_steps", "beamconv/instrument.py:ScanStrategy.rotate_hwp", "beamconv/instrument.py:ScanStrategy.step_array"]}
{"id": "C61", "title": "The azimuth has no jumps", "statement": "Within a chunk and from the last sample of a chunk to the first of the next, the azimuth of triangle, constant-speed and schedule-driven scans moves by no more than one sample of scan motion (sawtooth fly-backs aside).", "quantifier": "all scan limits, speeds, sampling rates and chunk divisions", "why_tests_cant": "Whether the phase carries over depends on the chunk boundaries, which can fall at any sample; a test checks a few divisions.", "anchors": ["beamconv/instrument.py:ScanStrategy.schedule_scan", "beamconv/instrument.py:ScanStrategy.implement_scan", "beamconv/instrument.py:ScanStrategy.strictly_az"]}
{"id": "C81", "title": "The L2 scan uses the Sun's position at the time of the sample", "statement": "The Sun's ecliptic longitude used for a sample of the L2 scan is the one for the sample's Unix time converted to a Dublin Julian date.", "quantifier": "all times", "why_tests_cant": "The phase is an angle modulo a turn; agreement at a test time does not show agreement at all times.", "anchors": ["beamconv/scanning.py:ctime2bore", "beamconv/scanning.py:ctime2DJD", "beamconv/scanning.py:convert_Julian2Dublin", "beamconv/scanning.py:sun_position_quick"]}
{"id": "C82", "title": "High-pass filter", "statement": "With filter settings, the high-pass filter removes the mean of a timestream, multiplies every Fourier mode by a real factor between zero and one that grows with frequency, and passes half of the power at the cut-off frequency; a cut-off of zero leaves the timestream alone. Without filter settings the mean is subtracted.", "quantifier": "every timestream, sampling rate, cut-off frequency and filter order", "why_tests_cant": "The factor must behave for every frequency, including zero frequency where the code divides by zero.", "anchors": ["beamconv/tools.py:filter_tod_highpass", "beamconv/instrument.py:ScanStrategy.bin_tod"]}
{"id": "C83", "title": "Options of direct binning", "statement": "Binning a timestream with an array of flags leaves out exactly the flagged samples, and binning without a new destination adds exactly the new samples to the accumulated maps.", "quantifier": "every timestream, flag array and sequence of calls", "why_tests_cant": "Depends on the history of calls and on every flag pattern.", "anchors": ["beamconv/instrument.py:ScanStrategy.bin_tod"]}
{"id": "C84", "title": "Chunk and step counts survive floating point", "statement": "The number of chunks of a mission, sub-chunks of a chunk, pairs per rank and steps per chunk, which the program computes as the ceiling of a float division, is the exact ceiling of the quotient.", "quantifier": "all integer numerators and positive integer denominators below 2^53", "why_tests_cant": "A rounding slip would show for particular pairs of large integers only.", "anchors": ["beamconv/instrument.py:ScanStrategy.partition_mission", "beamconv/instrument.py:ScanStrategy.subpart_chunk", "beamconv/instrument.py:ScanStrategy.step_array", "beamconv/instrument.py:ScanStrategy.scan_instrument_mpi"]}
{"id": "C85", "title": "A duration of n sample periods gives n samples", "statement": "A mission, rotation period or check interval whose duration is n divided by the sample rate (as a float) holds n samples.", "quantifier": "all sample numbers and sample rates", "why_tests_cant": "Truncation of a rounded product loses a sample for some pairs only.", "anchors": ["beamconv/instrument.py:ScanStrategy.__init__", "beamconv/instrument.py:ScanStrategy.set_instr_rot", "beamconv/instrument.py:ScanStrategy.set_el_steps"]}
{"id": "C86", "title": "Saved pointing is the pointing that was scanned", "statement": "After scan_instrument_mpi(save_point=True), data(chunk, beam, data_type='pix') and 'pa' hold, for every sample of every chunk and every live detector this process scanned, the pixel and position angle its main beam was scanned with; data(chunk, data_type='hwp_ang') holds the HWP angle, in degrees, that every one of these detectors saw at that sample, although the array is shared and rewritten by each detector.", "quantifier": "all focal planes, chunks, rotation, HWP and elevation settings, ghosts, crosstalk, ranks, and all histories of earlier scans (positions) or freshly configured settings (HWP angles)", "why_tests_cant": "Whether a shared array that is rewritten by every detector in every sub-chunk ends up with the right values depends on how chunks, sub-chunk boundaries, detector order and resets interleave; a test fixes one schedule.", "anchors": ["beamconv/instrument.py:_scan_detector", "beamconv/instrument.py:_allocate_detector_data", "beamconv/instrument.py:_allocate_hwp_data", "beamconv/instrument.py:data", "beamconv/instrument.py:scan_instrument_mpi"]}
{"id": "C87", "title": "Saving timestreams and pointing does not change the scan", "statement": "scan_instrument_mpi with any setting of save_tod and save_point bins the same timestreams with the same pointing in the same order as with any other setting, and leaves the scan strategy in the same state apart from the saved arrays; and a scan that completes without saving also completes with it (preview_pointing excludes saving).", "quantifier": "all instruments, chunks, rotation, HWP and elevation settings, ghosts, crosstalk, ground templates, ranks and states left by earlier scans, and all pairs of settings of the two options", "why_tests_cant": "The arrays are written inside the loops over detectors and sub-chunks, with four separate branches for the four settings; that none of them affects the signal or fails has to hold for every course the loops can take.", "anchors": ["beamconv/instrument.py:scan_instrument_mpi", "beamconv/instrument.py:_scan_detector", "beamconv/instrument.py:_allocate_detector_data", "beamconv/instrument.py:_allocate_hwp_data"]}
{"id": "C88", "title": "What a detector contributes depends on its own pair only", "statement": "The timestreams binned for a detector by scan_instrument_mpi, their values, pointing and order, depend only on the scan strategy, the sky and the detector's own pair (crosstalk), not on the other pairs on the focal plane, their order, the number of processes and the rank that gets the pair, create_memmap, save_tod or save_point.", "quantifier": "all focal planes that contain the pair, all positions in it, all communicators and ranks, all rotation, HWP, elevation and chunk settings as configured, all ghosts and crosstalk coefficients, and all settings of the options named", "why_tests_cant": "The pairs share one scan strategy object whose rotation, HWP and elevation generators, boresight and memory map are advanced and reset between pairs; independence is a statement about all histories that can precede a pair.", "anchors": ["beamconv/instrument.py:scan_instrument_mpi", "beamconv/instrument.py:implement_scan", "beamconv/instrument.py:init_detpair", "beamconv/instrument.py:scan"]}
{"id": "C89", "title": "Superposition", "statement": "Observing a weighted sum of two skies (or with a weighted sum of two beams) gives the weighted sum of the timestreams; a whole scan with scan_instrument_mpi of a weighted sum of skies scans, bins and saves the weighted sums of the timestreams of the two scans with the same pointing, and raises exactly when they do; the binned maps have the same matrices and condition numbers and weighted sums of the data vectors; the solved map is the weighted sum of the solved maps in every pixel that is not filled.", "quantifier": "all weights, skies and beams of equal band limits, plates, pointings, focal planes with ghosts and cross-talk, scan strategies, options of the scan, filters of bin_tod, places in a communicator, and any number of scans", "why_tests_cant": "A test compares a few skies and settings; linearity is a statement about all of them, and one misplaced absolute value, in-place update or stale array breaks it only for some.", "anchors": ["beamconv/instrument.py:ScanStrategy.init_detpair", "beamconv/instrument.py:ScanStrategy.scan_instrument_mpi", "beamconv/instrument.py:ScanStrategy.scan", "beamconv/instrument.py:ScanStrategy.bin_tod", "beamconv/instrument.py:ScanStrategy.solve_for_map", "beamconv/tools.py:filter_tod_hwp", "beamconv/tools.py:filter_tod_highpass", "beamconv/tools.py:cross_talk"]}
{"id": "C90", "title": "A beam has the options its caller gave, the documented defaults for the rest, and rejects options it does not have", "statement": "Every option given to Beam(...) is what the beam reports afterwards (the band limit clipped at 0, the azimuthal band limit at the band limit, the width made positive), every option left out has its documented default, an unknown option raises TypeError rather than being ignored, and any acceptable values of the documented options give a beam. Without a width the beam gets 1.4*2*pi/lmax; without a band limit it gets 1.4*2*pi/fwhm.", "quantifier": "every set of keyword arguments", "why_tests_cant": "There are 23 options of which any subset can be given in any combination; the setters depend on one another through the order in which the constructor assigns them.", "anchors": ["beamconv/detector.py:Beam.__init__", "beamconv/detector.py:Beam.lmax", "beamconv/detector.py:Beam.mmax", "beamconv/detector.py:Beam.fwhm"]}
{"id": "C91", "title": "A focal plane given by arrays has exactly the detectors they describe", "statement": "input_focal_plane(azs, els, polangs, deads, **opts) adds one pair per row behind the existing pairs, leaves existing detectors alone, and gives the A and B beams of row k the offsets, angle and dead flag in columns 0 and 1 of row k and the common options otherwise; with combine=False the new pairs replace the old; keywords az, el, pol, name and ghost are ignored as documented.", "quantifier": "every focal plane, arrays of every length and every set of common options", "why_tests_cant": "The number of rows and the options are unbounded, and the effect on an existing focal plane depends on its history.", "anchors": ["beamconv/instrument.py:Instrument.input_focal_plane"]}
{"id": "C92", "title": "Scanning, binning and solving give back the sky seen through the beam", "statement": "For an instrument with symmetric beams, without ghosts, cross-talk, ground and filters, scan_instrument_mpi followed by solve_for_map gives, in every pixel that was seen under three polarisation angles by whichever detectors and processes, the Stokes parameters of the sky smoothed by the beam, whatever the scan strategy, chunks, boresight rotation, detector offsets and angles and half-wave plate modulation. A common error of the detectors' polarisation angles turns the polarisation by that error, and a phase of the half-wave plate turns it by twice that phase.", "quantifier": "every scan strategy, focal plane, half-wave plate mode, number of processes, sky and band limit", "why_tests_cant": "The pointing used for scanning (rotation by the detector angle and plate applied to the spin maps) and for binning (applied to the quaternions) are separate pieces of code that must agree for every sample of every scan; a test compares one scan at finite tolerance.", "anchors": ["beamconv/instrument.py:ScanStrategy.scan", "beamconv/instrument.py:ScanStrategy.bin_tod", "beamconv/instrument.py:ScanStrategy.solve_for_map", "beamconv/instrument.py:ScanStrategy.init_spinmaps", "beamconv/detector.py:Beam.polang_truth"]}
{"id": "C93", "title": "A scan with settings that make sense runs to its end", "statement": "scan_instrument_mpi does not raise when rotation, half-wave plate and elevation settings make sense (periods of at least one sample, non-empty angle lists, a documented modulation), the options go together (a sky map unless it is a preview; no saving in a preview; with a ground template no external pointing, memory map or saved pointing), every pair of the focal plane has beams that can be made, and chunks cover the mission. The same holds for any number of scans in a row, with or without the documented resets, as long as all use a ground template or none does.", "quantifier": "every mission length, list of chunks, focal plane with ghosts and dead detectors, rotation and half-wave plate settings, option set, process of the communicator and history of scans", "why_tests_cant": "Whether a scan reaches its end depends on how chunk sizes, step sizes and rotation periods interleave over the whole mission and over earlier scans; a failure after hours of scanning shows only for particular combinations.", "anchors": ["beamconv/instrument.py:ScanStrategy.scan_instrument_mpi", "beamconv/instrument.py:ScanStrategy.implement_scan", "beamconv/instrument.py:ScanStrategy._scan_detector", "beamconv/instrument.py:ScanStrategy.scan", "beamconv/instrument.py:ScanStrategy.bin_tod", "beamconv/instrument.py:ScanStrategy.subpart_chunk", "beamconv/instrument.py:ScanStrategy.rotate_hwp", "beamconv/instrument.py:ScanStrategy.step_array"]}
{"id": "C94", "title": "The beam generated for a detector is the Gaussian of its width", "statement": "gen_gaussian_blm gives a beam of band limit one or more the harmonic coefficients of the one Gaussian whose full width at half maximum is fwhm arcmin, times the amplitude: the intensity window exp(-l(l+1) sigma^2/2) at m = 0, the polarisation window exp(-(l(l+1)-4) sigma^2/2) at m = 2 of the spin -2 part, and zero elsewhere. Scanning with it sees the sky with each intensity mode scaled by the first and each E and B mode by the second. A width of zero gives a pencil beam. A band limit of zero raises an error.", "quantifier": "every width, amplitude, band limit, sky and real multipole", "why_tests_cant": "A wrong factor in the width or in the polarisation correction changes all maps by a small, smooth, scale-dependent factor; the agreement of the two windows has to hold for every width and multipole.", "anchors": ["beamconv/detector.py:Beam.gen_gaussian_blm", "beamconv/tools.py:gauss_blm", "beamconv/tools.py:get_copol_blm", "beamconv/tools.py:unpol2pol"]}
{"id": "C66", "title": "Random deviations are drawn separately for every detector and centred on the given value", "statement": "set_global_prop_random moves each listed numeric attribute of every beam (and ghost, if included) by its own standard normal draw times the given size, and changes nothing else. add_to_prop with a standard deviation moves the attribute of each chosen detector by the value plus a draw of that standard deviation: its own draw, or one shared by the two partners when per_pair is set, whichever other detectors exist; without a standard deviation it adds the value only.", "quantifier": "every focal plane with ghosts and empty places, attribute, size, option set and sequence of random numbers", "why_tests_cant": "Results are random, so a test sees one sequence of draws; a bias or a draw shared by two detectors is visible only statistically.", "anchors": ["beamconv/instrument.py:Instrument.set_global_prop_random", "beamconv/instrument.py:Instrument.add_to_prop"]}
{"id": "C95", "title": "Crosstalk ghosts sit at the supplied offsets", "statement": "Creating crosstalk ghosts gives every beam of each pair for which offsets are supplied exactly one more ghost, at the azimuth and elevation supplied for that beam, with its polarization angle turned by 90 degrees, with the given options and otherwise those of the beam; a ghost is switched off only where no offset is supplied. Empty partners are skipped, other beams get no ghost, and beams and focal plane are otherwise unchanged.", "quantifier": "every focal plane built by any sequence of operations, all offsets, options and random numbers", "why_tests_cant": "All focal planes, offset tables and option combinations; offsets of exactly zero and unpaired detectors are corner cases of the table.", "anchors": ["beamconv/instrument.py:Instrument.create_crosstalk_ghosts", "beamconv/detector.py:Beam.create_ghost"]}
{"id": "C96", "title": "All processes have the same focal plane", "statement": "When a program that builds and modifies an instrument runs on several MPI processes, every process ends up with the same beams, places, dead detectors and count as a program of one process would; files are read and channels to kill are drawn by one process for all.", "quantifier": "every number of processes, every sequence of focal plane operations, all file systems and random numbers the processes see", "why_tests_cant": "All process counts and operation sequences; processes differ only in what they draw and read, which a single-process test cannot show.", "anchors": ["beamconv/instrument.py:MPIBase.broadcast", "beamconv/instrument.py:MPIBase.broadcast_array", "beamconv/instrument.py:Instrument.load_focal_plane", "beamconv/instrument.py:Instrument.kill_channels", "beamconv/instrument.py:Instrument.create_reflected_ghosts", "beamconv/instrument.py:Instrument.set_global_prop_random"]}
{"id": "C97", "title": "Reusing spin maps does not change a scan with one beam", "statement": "When all detector pairs a process scans have the same beam and ghost beams, scanning with reuse_spinmaps=True gives the same timestreams, map contributions and saved data as without, both when the maps are made during this scan and when they are left from an earlier scan of the same sky, whatever was changed in between in chunks, rotation, plate or options. With different beams it does not.", "quantifier": "every instrument whose pairs have one beam, every schedule of chunks and rotations, every process, every change between two scans", "why_tests_cant": "All schedules, pairs and histories of scans; stale maps only show for particular histories.", "anchors": ["beamconv/instrument.py:ScanStrategy.scan_instrument_mpi", "beamconv/instrument.py:ScanStrategy.init_detpair"]}
{"id": "C98", "title": "plot_iqu draws each map once, with what was asked for", "statement": "plot_iqu writes one picture for each of the three or four Stokes maps, <tag>_I/Q/U/V.png, showing exactly the pixels the mask leaves visible, with the plotting function, resolution and keywords of the call (settings for one map before settings for all), and with the limits asked for: limits, else sym_limits, else min and max, else -10 and 10.", "quantifier": "all maps, masks, limits, per-map settings and keywords", "why_tests_cant": "All combinations of the optional arguments; the pictures are not compared by any test.", "anchors": ["beamconv/plot_tools.py:plot_iqu", "beamconv/plot_tools.py:plot_map"]}
{"id": "C99", "title": "Limits are rounded to significant digits", "statement": "round_sig(x, sig) is a number of sig significant digits whose relative distance from x is at most half a unit of the last digit.", "quantifier": "every number x, every sig >= 1", "why_tests_cant": "All numbers and digit counts.", "anchors": ["beamconv/plot_tools.py:round_sig"]}
{"id": "C100", "title": "A beam that takes over another beam's coefficients reports what they were made with", "statement": "After b.reuse_blm(p) the type, band limits and amplitude of b are those of p (and its ghost index, if both are ghosts). Every other setting of b (position, angles, width, files, name, whether dead), its ghosts, and every setting of every other beam, p included, is as before.", "quantifier": "every collection of beams, every two of them (including a beam and itself), every settings", "why_tests_cant": "Quantifies over all settings, over all other beams of the focal plane and over the histories of assignments that produced them.", "anchors": ["beamconv/detector.py:Beam.reuse_blm"]}
{"id": "C101", "title": "An interrupted scan can be started again", "statement": "If scan_instrument is cut off at any point (interrupt, kill of the job step inside a session, exception in an external call), what it has scanned, stored and binned so far is an initial part of what the whole scan does, and nothing else. After reset_instr_rot, reset_hwp_mod and reset_el_steps, calling scan_instrument again with the same objects and options succeeds and does everything the whole scan does, from the beginning, in the same order with the same angles. Without allocating new maps, the initial part is binned twice.", "quantifier": "every strategy settings, focal plane, partition and options (no ground template, coefficients from the settings, spin maps not reused), every point at which the scan can be cut off", "why_tests_cant": "Quantifies over every crash point of every scan; a test interrupts at one place.", "anchors": ["beamconv/instrument.py:ScanStrategy.scan_instrument_mpi", "beamconv/instrument.py:ScanStrategy.scan", "beamconv/instrument.py:ScanStrategy.reset_instr_rot", "beamconv/instrument.py:ScanStrategy.reset_hwp_mod", "beamconv/instrument.py:ScanStrategy.reset_el_steps"]}
{"id": "C102", "title": "The maps hold what was binned since they were allocated", "statement": "In any session that allocates maps, bins timestreams (adding to the maps or not, with or without flags, with calls that raise and are caught), changes the flags and solves for the map, in any order, the maps hold in every pixel the sums over exactly the unflagged samples added since the last allocate_maps, at the resolution given there. Nothing done before an allocation is left. Solving changes nothing and can be done at any time, on any number of processes each with its own session; it gives the sky in every pixel those samples determine.", "quantifier": "every sequence of calls of any length, every resolution, flags and samples, every number of processes", "why_tests_cant": "Quantifies over all histories of calls, including failing ones, and over all sessions of all processes.", "anchors": ["beamconv/instrument.py:ScanStrategy.allocate_maps", "beamconv/instrument.py:ScanStrategy.bin_tod", "beamconv/instrument.py:ScanStrategy.solve_for_map", "beamconv/instrument.py:MPIBase.reduce_array"]}
{"id": "C103", "title": "A pair of orthogonal detectors separates intensity and polarisation", "statement": "Two detectors with the same beams and pointing whose angles differ by 90 degrees: the sum of their timestreams is twice the unpolarised signal, whatever the angle of the pair, and the difference is twice the polarised signal of the first. Turning a detector by 180 degrees changes nothing. Crosstalk scales the sum by one plus, and the difference by one minus, its size, and mixes nothing else in. Behind a half-wave plate that is not ideal a timestream is a constant plus a cosine and a sine of twice the detector angle and the sum is still the same for pairs at any angle; but it can then contain polarised signal.", "quantifier": "every sky, beam with any azimuthal modes, scan, interpolation, plate angle per sample, detector angle, crosstalk and plate", "why_tests_cant": "Quantifies over all real angles, skies, beams and scans of any length.", "anchors": ["beamconv/instrument.py:ScanStrategy.scan", "beamconv/instrument.py:ScanStrategy._scan_modulate_pa", "beamconv/tools.py:cross_talk"]}
{"id": "C104", "title": "Cross-talk in orthogonal pairs scales the map and mixes nothing", "statement": "Scanning an instrument made of pairs of detectors in one place at right angles, with symmetric beams and cross-talk c between the two detectors of a pair, binning both and solving for the map gives in every determined pixel the sky seen through the beam with the intensity multiplied by 1 + c and the polarisation by 1 - c. No intensity leaks into polarisation or back. This holds on any number of processes, for any scan strategy, half-wave plate without leakage, chunking and instrument rotation.", "quantifier": "every cross-talk, sky, number of pairs and processes, scan, plate mode and chunking", "why_tests_cant": "Quantifies over all scans of any length, all skies and all real values of the cross-talk.", "anchors": ["beamconv/instrument.py:ScanStrategy.scan_instrument_mpi", "beamconv/tools.py:cross_talk", "beamconv/instrument.py:ScanStrategy.bin_tod", "beamconv/instrument.py:ScanStrategy.solve_for_map"]}
{"id": "C105", "title": "Azimuthal orders a beam does not have make no difference", "statement": "Scanning gives the same timestream for any two settings of the beam's symmetric flag, the beam's mmax and the max_spin argument, as long as both compute every azimuthal order at which the beam has coefficients: an axisymmetric beam may be declared symmetric or not, and raising mmax or max_spin above the beam's highest order changes nothing. The same holds behind a half-wave plate given by its Mueller matrix once the orders to which the plate moves the beam's coefficients are computed as well, and mmax equal to the beam's highest order is enough there too.", "quantifier": "every sky, beam, band limit, pointing, detector angle, plate matrix and angle, and every pair of settings of symmetric, mmax and max_spin", "why_tests_cant": "Quantifies over all beams and skies of any band limit and over all settings; a test compares one beam at two settings to a tolerance.", "anchors": ["beamconv/instrument.py:ScanStrategy.init_spinmaps", "beamconv/instrument.py:ScanStrategy._init_spinmaps", "beamconv/instrument.py:ScanStrategy.scan", "beamconv/detector.py:Beam.mmax"]}
{"id": "C106", "title": "The ground and the sky are seen where the telescope points", "statement": "Every timestream of a scan, of the sky and of the ground template alike, main beam and ghosts, is computed with the boresight that was last computed, at the very samples the timestream covers. For the sky this holds always. For the ground it holds when no memory map is in use. With create_memmap, a ground template and more than one pair it is false: from the second pair on, the celestial pointing is read from the memory map chunk by chunk while the horizontal pointing is that of the last chunk of the first pair, so sky and ground of the same samples are seen in different directions.", "quantifier": "every instrument, number of pairs, chunking, rotation period, process, keyword arguments and state the scan starts from", "why_tests_cant": "The pointing is an attribute overwritten chunk by chunk and read later by another method; whether a read sees the right chunk depends on the number of pairs, chunks, sub-chunks and on the flags, in all combinations", "anchors": ["beamconv/instrument.py: ScanStrategy.implement_scan (use_precomputed, ground, q_boreground)", "beamconv/instrument.py: ScanStrategy.scan", "beamconv/instrument.py: ScanStrategy.scan_instrument_mpi (create_memmap, ground_alm)"]}
{"id": "C107", "title": "Saved data are not those of an earlier scan", "statement": "When scan_instrument_mpi runs without save_tod (save_point), ScanStrategy.data() afterwards finds no timestream (no pixels and position angles) for any detector that was scanned, in any chunk, even if an earlier scan of the same ScanStrategy had saved some: stale data of a scanned detector are never returned. Timestreams, pixels and position angles of detectors that were not scanned stay as they were. The HWP angles, kept once per chunk, also stay unless the scan saves positions itself, so data(data_type='hwp_ang') can return the angles of an earlier scan with other HWP settings.", "quantifier": "every instrument, process, chunking, history of earlier scans and keyword arguments of the last one", "why_tests_cant": "What is found depends on the whole history of scans, on which of them saved what, and on which detectors were alive in each", "anchors": ["beamconv/instrument.py: ScanStrategy.data", "beamconv/instrument.py: ScanStrategy._allocate_detector_data", "beamconv/instrument.py: ScanStrategy._allocate_hwp_data", "beamconv/instrument.py: ScanStrategy.scan_instrument_mpi (save_tod, save_point)"]}
{"id": "C108", "title": "Saved data belong to the division of the mission in force", "statement": "After ScanStrategy.partition_mission, data() finds nothing for any chunk of the new division, whatever earlier scans had saved. From then on, through any sequence of scans with any keyword arguments and any changes of detectors, rotation or HWP settings in between, the division stays the one made, and every array data() gives for one of its chunks (timestream, pixels and position angles, HWP angles) has exactly one element per sample of that chunk. The same holds after partition_schedule_file if nothing was saved before, but it does not empty the slots: after an earlier scan that saved, data() gives the arrays saved under the old division, with the wrong length, and the HWP angles keep it even after a further scan.", "quantifier": "every mission, chunk size, earlier history, and sequence of later scans and changes of settings (positions are not saved together with a ground template; detector indices are distinct)", "why_tests_cant": "The length of an array depends on the division in force when it was allocated, so on the whole history of divisions and scans", "anchors": ["beamconv/instrument.py: ScanStrategy.partition_mission", "beamconv/instrument.py: ScanStrategy.partition_schedule_file", "beamconv/instrument.py: ScanStrategy.data", "beamconv/instrument.py: ScanStrategy._init_data"]}
