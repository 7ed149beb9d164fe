{
 "claims": [
  {
   "property": "C01",
   "status": "proved",
   "theorems": [
    "allocate_tasks_balanced",
    "allocate_tasks_exact",
    "allocate_tasks_outcome"
   ],
   "note": ""
  },
  {
   "property": "C02",
   "status": "proved",
   "theorems": [
    "distribute_tasks_tiles",
    "parallel_gather_is_serial",
    "distribute_proc_total_ignored_refuted",
    "distribute_proc_total_effect"
   ],
   "note": "Tiling and parallel=serial proved; documented 'proc_total ignored' is refuted (finding) and its actual effect characterised."
  },
  {
   "property": "C03",
   "status": "proved",
   "theorems": [
    "restore_warnings_unique",
    "restore_warnings_shown"
   ],
   "note": ""
  },
  {
   "property": "C04",
   "status": "proved",
   "theorems": [
    "extrap_pad_correct",
    "extrap_lin_correct",
    "extrap_lin_compose",
    "extrap_loglin_correct",
    "extrap_loglin_compose",
    "extrap_loglin_outcome"
   ],
   "note": "Real-number model of the 1-d extrapolators: shape, centre, exact tails, and composition of two extensions; also which inputs give NaN."
  },
  {
   "property": "C05",
   "status": "partial",
   "theorems": [
    "cpp_extrap_pad_agrees",
    "cpp_extrap_lin_agrees",
    "cpp_extrap_loglin_agrees",
    "extrap_loglin_same_domain_refuted"
   ],
   "note": "Refuted as stated in its last clause: the two accept different inputs (extrap_loglin_same_domain_refuted). Proved: they agree on every input both accept."
  },
  {
   "property": "C06",
   "status": "partial",
   "theorems": [
    "extrap2d_lin_correct",
    "extrap2d_lin_order_independent",
    "extrap2d_loglin_correct",
    "extrap2d_loglin_order_independent",
    "extrap2d_int_ext",
    "extrap2d_pad_correct",
    "extrap2d_pad_extents_refuted",
    "extrap2d_refuses_thin",
    "extrap2d_lin_shape"
   ],
   "note": "Refuted as stated in its last sentence: extrap2d_pad swaps row and column extents (extrap2d_pad_extents_refuted). Proved: shape, centre, tails and independence of the order of the two directions for extrap2d_lin and extrap2d_loglin, what extrap2d_pad does return, and that all three refuse an array with fewer than two rows or columns."
  },
  {
   "property": "C07",
   "status": "partial",
   "theorems": [
    "check_sorted_accepts_constants",
    "check_sorted_refuted",
    "check_sorted_2d_refuted",
    "check_lin_accepts_progressions"
   ],
   "note": "Refuted as stated: the sortedness check as coded accepts exactly the constant arrays (1-d and 2-d); that exact acceptance set is proved."
  },
  {
   "property": "C08",
   "status": "proved",
   "theorems": [
    "extrap_oscil_decays",
    "extrap_oscil_total",
    "extrap_oscil_two_samples",
    "extrap_oscil_growing",
    "extrap_oscil_falling",
    "extrap2d_oscil_correct"
   ],
   "note": "Tails keep sign, decay geometrically, warning means constant; four or more samples always succeed, two never do; exact tails when magnitudes are strictly monotone; 2-d version."
  },
  {
   "property": "C09",
   "status": "proved",
   "theorems": [
    "reshape_triu_correct",
    "triu_index_bijective",
    "reshape_triu_flattens_back",
    "reshape_full_correct",
    "reshape_rejects"
   ],
   "note": "Both shapes, both directions, exact acceptance condition, and bijection of the C++ triangular index."
  },
  {
   "property": "C10",
   "status": "proved",
   "theorems": [
    "set_bins_lin_log",
    "lin_bins_correct",
    "log_bins_correct",
    "set_bins_refusals",
    "set_bins_reversed_range_refuted",
    "custom_bins_correct"
   ],
   "note": "Linear and logarithmic bins cover [min,max) exactly once; refusals; a reversed range is accepted (counterexample)."
  },
  {
   "property": "C11",
   "status": "partial",
   "theorems": [
    "linpad_bins_correct",
    "logpad_bins_correct",
    "padded_bins_validated_refuted",
    "padded_bins_count_refuted"
   ],
   "note": "Refuted as stated: parameters that pass validation can give decreasing edges. Proved under the missing condition (5 x padding below the maximum, more than five bins)."
  },
  {
   "property": "C12",
   "status": "partial",
   "theorems": [
    "grid_bins_width",
    "grid_bins_documented_refuted"
   ],
   "note": "Refuted as stated for every even grid number; the exact width and maximum the code produces are proved."
  },
  {
   "property": "C13",
   "status": "partial",
   "theorems": [
    "binning_success_in_sync",
    "binning_failure_keeps_visible_bins",
    "binning_failure_atomic_refuted",
    "binning_failure_loses_bins_refuted",
    "custom_blocks_set_bins"
   ],
   "note": "Refuted as stated (two counterexamples). Proved over all histories: a successful call synchronises both sides, a failed one never changes the visible edges."
  },
  {
   "property": "C14",
   "status": "proved",
   "theorems": [
    "flat_index_bijective",
    "flat_index_row_major"
   ],
   "note": "Every mesh size; the flat index is the row-major one."
  },
  {
   "property": "C15",
   "status": "partial",
   "theorems": [
    "wave_index_even",
    "wave_index_congruent_injective",
    "wave_index_mirror",
    "wave_index_odd",
    "wave_index_odd_minimal_refuted",
    "grid_vector_signed"
   ],
   "note": "Refuted as stated: on odd grids the middle index is given a mode outside the minimal range (wave_index_odd_minimal_refuted, for every odd grid number). Proved for even grids; congruence and injectivity for all grids; exact behaviour on odd grids."
  },
  {
   "property": "C16",
   "status": "proved",
   "theorems": [
    "assign_conserves_weight"
   ],
   "note": "Exact real arithmetic."
  },
  {
   "property": "C17",
   "status": "proved",
   "theorems": [
    "spline_positive_centred",
    "assign_positive_bounded",
    "assign_is_spline"
   ],
   "note": "Kernel facts plus assign_is_spline, which says that the mesh holds exactly those kernel values."
  },
  {
   "property": "C18",
   "status": "proved",
   "theorems": [
    "parallel_assignment",
    "parallel_assignment_shadow",
    "parallel_run_exists"
   ],
   "note": "Real addition (no rounding); atomic updates modelled as single steps; any dealing of particles to threads and any interleaving."
  },
  {
   "property": "C19",
   "status": "partial",
   "theorems": [
    "shadow_is_shifted_spline",
    "shadow_conserves_weight",
    "shadow_tsc_conserves_refuted",
    "shadow_seam_conserves_refuted"
   ],
   "note": "Refuted as stated: TSC loses weight for particles in the first half of the last two cells, and every scheme loses weight for a particle exactly half a cell from the upper face. Proved for all other positions."
  },
  {
   "property": "C20",
   "status": "proved",
   "theorems": [
    "alias_is_mean_power",
    "alias_positive",
    "alias_interlaced_bounds"
   ],
   "note": "Non-interlaced functions; the isotropic approximation used with interlacing is bounded here and exact along the axes (C88)."
  },
  {
   "property": "C21",
   "status": "proved",
   "theorems": [
    "window_nonzero",
    "window_cache_correct",
    "window_request_fills",
    "window_single_cell_refuted"
   ],
   "note": "Non-zero for every grid with at least two cells per axis, even or odd; single-cell axes give a zero window (window_single_cell_refuted)."
  },
  {
   "property": "C22",
   "status": "partial",
   "theorems": [
    "binned_vectors_exact",
    "expected_entries",
    "binned_vectors_lin_log",
    "binned_vectors_bad_space",
    "binned_vectors_padded_refuted"
   ],
   "note": "Refuted as stated: for padded bins accepted by validation whose padding exceeds bin_max, vectors inside a bin are left out. Proved for every mesh, ordered bins up to bin_max and thread order: each vector is listed exactly once with its bin, sorted by bin; other spaces are rejected."
  },
  {
   "property": "C23",
   "status": "partial",
   "theorems": [
    "fine_binning_exact",
    "fine_binning_tolerance",
    "fine_binning_one_bin",
    "fine_binning_aligned",
    "mode_counts_match_recorded",
    "mode_bin_refuted"
   ],
   "note": "Refuted as stated: wavenumbers are rounded down to multiples of 1e-5, so a mode just above an edge can be counted in the bin below. Proved: exact counts and means for any thread order, at most one bin per mode, error below one fine step, and agreement with record_binned_vectors when the edges are multiples of the step."
  },
  {
   "property": "C24",
   "status": "partial",
   "theorems": [
    "data_vector_covered",
    "data_vector_unknown_shape",
    "shotnoise_row_entries",
    "shotnoise_col_entries",
    "shotnoise_equal_entries",
    "shotnoise_in_range",
    "shotnoise_full_in_range_refuted"
   ],
   "note": "Refuted as stated: for the full shape with ell1 = 0 the shot noise is written past the end of the data vector (threept.cpp 927, 2103, 3879). Proved: raw statistic entries are written once each in order and cover exactly the bin pairs of each shape; shot noise entries match except in the refuted case."
  },
  {
   "property": "C25",
   "status": "proved",
   "theorems": [
    "raw_sum_complete",
    "shot_sum_complete",
    "box_sum_complete",
    "orders_rejected",
    "orders_computed_once",
    "wigner_reversal",
    "wigner_selection",
    "accepted_degrees_even",
    "raw_sum_complete_wigner"
   ],
   "note": "Stated for any components obeying the conjugation symmetry; couplings between zero and the code's threshold 1e-9 are excluded by hypothesis (the code drops them). The 3-j symbols are given by the Racah formula in WignerProps.v, which is what GSL is taken to return."
  },
  {
   "property": "C26",
   "status": "partial",
   "theorems": [
    "mixed_norm_restores",
    "mixed_norm_box_restores",
    "mixed_norm_translation",
    "norm_box_covers",
    "mixed_norm_alias_refuted",
    "mixed_norm_failure_refuted"
   ],
   "note": "Refuted as stated: with one object in both roles the shift is not undone, and a failed call with grid padding leaves the random catalogue moved (the Python layer always passes distinct objects). For distinct initialised catalogues every catalogue is exactly restored."
  },
  {
   "property": "C27",
   "status": "proved",
   "theorems": [
    "powspec_norm_reciprocal",
    "bispec_norm_reciprocal",
    "particle_norms_scale",
    "particle_norms_refusal",
    "particle_amplitudes_order",
    "particle_norms_additive",
    "shotnoise_particles",
    "ylm_shotnoise_monopole",
    "shotnoise_agreement",
    "ylm_shotnoise_mirror",
    "mesh_norms_scale",
    "mesh_norms_order",
    "mesh_norm_zero_refuted"
   ],
   "note": "Also found: the mesh-based normalisations do not reject a zero sum (mesh_norm_zero_refuted)."
  },
  {
   "property": "C28",
   "status": "proved",
   "theorems": [
    "cutoff_axis_best",
    "cutoff_axis_python",
    "cutoff_ngrid_best",
    "cutoff_axis_iff",
    "best_grid_unique",
    "cutoff_zero"
   ],
   "note": "Both rules give the unique best grid for every positive box and cutoff; outside that range (zero cutoff) see cutoff_zero and C29."
  },
  {
   "property": "C29",
   "status": "partial",
   "theorems": [
    "validate_accepts",
    "validate_accepts_cutoff",
    "validate_outcome",
    "validate_grid",
    "validate_again",
    "validate_accepts_again",
    "validate_data_files",
    "validate_measurement_dir",
    "zero_cutoff_diverges",
    "grid_padding_needs_grid",
    "validate_init_twice_estimate",
    "validate_negative_box_refuted",
    "validate_terminates_refuted",
    "validate_init_twice_refuted",
    "validate_again_refuted",
    "validate_env_refuted",
    "default_bvec_truncated",
    "default_bvec_tag"
   ],
   "note": "Refuted as stated: two negative sides are accepted, a zero cutoff recurses without end, validating twice as if new is refused under the estimate planner, and empty file names or environment values that are references change on re-validation. Acceptance is characterised exactly when the grid is given or there is no box, and for derived grids when all sides are positive; outcome and idempotence are proved in general (idempotence for paths without environment references, colons in the catalogue directory, or blank file names)."
  },
  {
   "property": "C30",
   "status": "partial",
   "theorems": [
    "set_failed",
    "set_failed_old",
    "set_any",
    "update_failed",
    "update_any",
    "bad_bins_stuck",
    "bad_bins_rebuild",
    "set_rollback_refuted",
    "set_twice",
    "wisdom_grows",
    "set_twice_refuted",
    "progbar_refused",
    "progbar_on_refuted"
   ],
   "note": "Refuted as stated: a rejected assignment is not rolled back; the rejected value stays readable (set_failed, set_any, update_failed for every key and value outside the derived entries) and a set left with a number of bins below two rejects every later assignment to another entry (bad_bins_stuck, set_rollback_refuted). Repeating an accepted assignment with wisdom off changes nothing (set_twice), but with a wisdom directory each update lower-cases it and adds a slash (wisdom_grows, set_twice_refuted). Documented progress-bar values on and fractional steps are refused after all writes (progbar_refused, progbar_on_refuted). Interlacing is normalised as stated in set_interlace."
  },
  {
   "property": "C31",
   "status": "partial",
   "theorems": [
    "sampling_accepted",
    "sampling_exact",
    "sampling_defaults",
    "measure_exact",
    "template_accepted",
    "template_exact",
    "set_exact",
    "degree_sticks",
    "both_pads_late",
    "index_refused",
    "index_override_refuted",
    "boxpad_refused",
    "boxpad_override_refuted",
    "container_default_refuted"
   ],
   "note": "Refuted as stated for parameter sets: assignments are validated one by one, so a bin index is checked against the old number of bins (index_refused, index_override_refuted) and box padding against the old factor (boxpad_refused, boxpad_override_refuted); asking for both paddings is refused only after expand and alignment are written (both_pads_late); the caller's set is the one modified (degree_sticks); defaults with parts are reported untouched though changed (container_default_refuted). On dictionaries the property holds exactly (sampling_accepted, sampling_exact, sampling_defaults, measure_exact), for measurements from the template including the defaults warned about (template_accepted, template_exact), and for accepted overrides of a parameter set outside derived entries (set_exact)."
  },
  {
   "property": "C32",
   "status": "partial",
   "theorems": [
    "centre_aligns",
    "pad_in_box_aligns",
    "pad_grids_aligns",
    "align_single_catalogue",
    "common_shift_keeps_separations",
    "centre_inside",
    "pad_inside",
    "centre_fit_refuted",
    "pad_fit_refuted",
    "centre_alias_refuted",
    "py_centre_aligns",
    "py_centre_self",
    "py_pad_aligns",
    "py_centre_alias_refuted",
    "stale_centre_refuted"
   ],
   "note": "Refuted as stated: extents that fit the box do not imply the particles end inside it (the other catalogue or the padding may stick out), one object in both roles is shifted twice, and Python bounds left stale by an assignment misplace the catalogue. The midpoint and padding postconditions and the common shift hold for distinct catalogues with current extents in C++ and Python."
  },
  {
   "property": "C33",
   "status": "partial",
   "theorems": [
    "wrap_coord_range",
    "wrap_twice",
    "periodicity_wraps",
    "wrap_coord_half_open_refuted",
    "wrapped_particle_lost_refuted",
    "py_periodise_wraps",
    "py_periodise_full_width",
    "py_periodise_range64_refuted"
   ],
   "note": "Refuted as stated: C++ sends a negative multiple of the box to exactly the box size, and such particles are lost on the mesh; in binary64 Python can do the same. In real arithmetic the Python result is always in the half-open box, and the C++ result in the closed box."
  },
  {
   "property": "C34",
   "status": "partial",
   "theorems": [
    "catalogues_in_step",
    "load_particle_data_spec",
    "py_new_spec",
    "py_catalogues_in_step",
    "coordinate_ops_refresh",
    "setitem_stale_refuted",
    "setitem_exact",
    "density_exact"
   ],
   "note": "Refuted as stated: assigning a column in Python leaves bounds or total weights behind. Every other history keeps them current, in Python and in C++."
  },
  {
   "property": "C35",
   "status": "partial",
   "theorems": [
    "los_unit",
    "compute_los_spec",
    "alignment_idempotent",
    "los_repeat",
    "los_repeat_refuted"
   ],
   "note": "Refuted as stated: the first measurement moves the catalogues, so a second one without supplied lines of sight uses different ones. They agree when supplied, without alignment, and from the second measurement on."
  },
  {
   "property": "C36",
   "status": "partial",
   "theorems": [
    "grid_counters_exact",
    "memory_exact",
    "memory_drift",
    "counters_return",
    "maxima_running",
    "counters_nonneg",
    "reload_leak_refuted",
    "reload_negative_refuted"
   ],
   "note": "Refuted as stated: reloading a catalogue with another number of particles leaves the memory counter off by the difference, possibly negative (the new count is stored before the old data are released). Grid counters are always exact, memory is exact without such reloads, the general drift is given, and the maxima are the running maxima at every statement."
  },
  {
   "property": "C37",
   "status": "partial",
   "theorems": [
    "fft_size",
    "fft_shrink_refused",
    "fft_reads_outside",
    "fft_pairs",
    "fft_spacing",
    "fft_ascending",
    "fft_log_spaced",
    "fft_points_refuted",
    "outer_points",
    "outer_shrink_refuted"
   ],
   "note": "Refuted as stated: negative log-spaced points are accepted and come out descending (fft_points_refuted); a Python 'outer' extrapolation with extrap_exp below one half is accepted and leaves no points (outer_shrink_refuted). Sizes, spacing, pairing and ascending order are proved for positive points and factors of at least one."
  },
  {
   "property": "C38",
   "status": "proved",
   "theorems": [
    "lowring_near",
    "lowring_real",
    "lowring_free",
    "lowring_free_phase",
    "lowring_free_real"
   ],
   "note": "A requested pivot is positive; without one (pivot <= 0) the pivot is in [1, e^spacing) and the mid-point phase is exact up to the stated gamma-ratio error."
  },
  {
   "property": "C39",
   "status": "partial",
   "theorems": [
    "fft_real",
    "fft_energy",
    "fft_twice",
    "fft_inverse",
    "fft_energy_refuted"
   ],
   "note": "Refuted as stated: without the low-ringing pivot an even-sized transform can annihilate the alternating samples. Proved for odd sizes or with the low-ringing pivot."
  },
  {
   "property": "C40",
   "status": "partial",
   "theorems": [
    "transform_keeps",
    "transform_scales",
    "transform_refuted",
    "double_transform"
   ],
   "note": "Refuted as stated: float and complex arrays are multiplied in place unless extrapolated in the outer layer, so a second call differs (transform_refuted). Proved for lists, integer arrays and outer extrapolation; the exact change is proved otherwise."
  },
  {
   "property": "C41",
   "status": "proved",
   "theorems": [
    "py_prefactors",
    "cpp_prefactors",
    "direction_refused",
    "py_cpp_agree"
   ],
   "note": "Any number of dimensions in Python; one dimension in C++; values of whole transforms agree as well."
  },
  {
   "property": "C42",
   "status": "partial",
   "theorems": [
    "order_refuted",
    "sorted_refuted",
    "order_exact",
    "order_lengths",
    "order_trans",
    "order_three",
    "order_total_2pt",
    "tied_3pt",
    "sorted_exact",
    "stable_unique",
    "sorted_order_free",
    "sorted_tie"
   ],
   "note": "Refuted as stated: the last degree but one is never compared (index[:-2]), so allowed three-point multipoles such as 202 and 222 are neither <, == nor > (order_refuted) and a sorted list depends on the input order (sorted_refuted, sorted_tie). Exact: what < > <= >= answer (order_exact, order_lengths), transitivity (order_trans), exactly one of before/after/agreeing outside that position (order_three, tied_3pt), totality for two-point multipoles (order_total_2pt), what any stable sort returns (sorted_exact, stable_unique) and independence of input order when no two members are tied (sorted_order_free)."
  },
  {
   "property": "C43",
   "status": "partial",
   "theorems": [
    "roundtrip_refuted",
    "roundtrip_one",
    "roundtrip_many",
    "read_plain",
    "roundtrip_abstr",
    "mstr_inj",
    "abstr_refuted"
   ],
   "note": "Refuted as stated: a two-point multipole of degree ten or more is read back digit by digit (roundtrip_refuted); roundtrip_one gives what a single degree becomes in every case, roundtrip_many that all other lengths round-trip, read_plain and roundtrip_abstr that abbreviated strings are read digit by digit, mstr_inj that strings are distinct, abstr_refuted that abbreviated ones are not."
  },
  {
   "property": "C44",
   "status": "proved",
   "theorems": [
    "wilson_exact",
    "wilson_missing",
    "leg_orthogonal",
    "leg_one"
   ],
   "note": "For any number of window multipoles, even multipoles of the correlation function up to four, any interpolation; Legendre polynomials by recurrence with general orthogonality (leg_orthogonal)."
  },
  {
   "property": "C45",
   "status": "partial",
   "theorems": [
    "serial_never",
    "serial_refuted",
    "mpi_exact",
    "matrix_product",
    "mpi_idle_root"
   ],
   "note": "Refuted as stated: without MPI the method raises TypeError for every input after doing all the work, and leaves warnings capture off (serial_never, serial_refuted). With MPI, for any convolution, sizes, flags, arrival order and process count that gives the root a basis vector, the matrices hold the responses to unit models and diag picks the diagonal rows (mpi_exact); for linear convolutions the product with a flattened model is the convolution (matrix_product); with more processes than that the gather fails (mpi_idle_root)."
  },
  {
   "property": "C46",
   "status": "partial",
   "theorems": [
    "inplace_exact",
    "new_fails",
    "new_points_lost",
    "subselect_refuted",
    "idx_dict_fails",
    "idx_dict_empties",
    "range_key_fails",
    "zero_upper_ignored",
    "resample_exact",
    "resample_one",
    "default_loses_samples",
    "sized_resampling",
    "resampling_refuted",
    "init_exact"
   ],
   "note": "Refuted as stated: in the default mode subselect raises NameError (new_fails, subselect_refuted), or with a tuple of indices returns points filed under no multipole (new_points_lost); the default make_loglin leaves one sample (default_loses_samples, resampling_refuted). Dictionary index ranges raise or empty the multipole, string and tuple keys raise KeyError, an upper end of zero is ignored. In-place selection is exact for every other range (inplace_exact); integer sizes are honoured (sized_resampling, resample_exact)."
  },
  {
   "property": "C47",
   "status": "partial",
   "theorems": [
    "twopt_distinct",
    "threept_distinct",
    "twopt_dotted",
    "threept_dotted",
    "paths_refuted",
    "form_unbound"
   ],
   "note": "Refuted as stated: everything after the last dot of a tag is dropped (twopt_dotted, threept_dotted), and digits, multi-digit degrees and wide-angle tags run together (paths_refuted). With tags free of dots, slashes and leading digits, and single-digit degrees, different measurements have different paths (twopt_distinct, threept_distinct). A form outside the four raises NameError."
  },
  {
   "property": "C48",
   "status": "partial",
   "theorems": [
    "has_extension_iff",
    "filepath_is_set_iff",
    "split_spec",
    "segments_exist",
    "join_split",
    "join_split_trailing",
    "join_split_refuted",
    "split_join",
    "split_join_refuted"
   ],
   "note": "Refuted as stated: a final delimiter is lost by split then join (join_split_refuted), and a part ending in half a delimiter does not survive join then split (split_join_refuted). Proved: suffix and path tests hold exactly of the documented strings, split gives exactly the stretches between successive first delimiters for every string, join then gives the string back up to that one delimiter, and parts free of stray delimiters survive."
  },
  {
   "property": "C49",
   "status": "partial",
   "theorems": [
    "expand_spec",
    "expand_tokens",
    "expand_plain",
    "expand_nested_refuted",
    "expand_twice_refuted"
   ],
   "note": "Refuted as stated: a reference inside an unset or unclosed one is skipped although its variable is set (expand_nested_refuted). Proved: expansion terminates with exactly the leftmost-first, never-rescanned replacement for every path and environment, and for paths made of plain text and references each set reference becomes its value and nothing else changes."
  },
  {
   "property": "C50",
   "status": "proved",
   "theorems": [
    "elapsed_text",
    "elapsed_agree",
    "elapsed_negative_throws"
   ],
   "note": "Every non-negative duration in C++ and Python (exact reals; int overflow not modelled); negative durations throw in C++ (elapsed_negative_throws)."
  },
  {
   "property": "C51",
   "status": "partial",
   "theorems": [
    "named_levels",
    "levels_ordered",
    "log_generic_refuted",
    "log_int_exact",
    "log_int_printed",
    "log_level_args_refuted"
   ],
   "note": "Refuted as stated for Logger::log, which throws at every named level above the threshold (log_generic_refuted) and drops arguments (log_level_args_refuted). Proved for the five named methods at every threshold, and the exact behaviour of Logger::log for every integer level."
  },
  {
   "property": "C52",
   "status": "partial",
   "theorems": [
    "progress_run",
    "default_nodes_good",
    "interval_nodes",
    "interval_nodes_good",
    "set_progress_spec",
    "progress_overrun",
    "bispec_updates_sorted",
    "bispec_progress_complete",
    "progress_repeat_refuted",
    "progress_short_nodes_refuted",
    "interval_nodes_refuted",
    "bispec_row_refuted"
   ],
   "note": "Refuted as stated: completing twice or nodes ending below 1 read past the node list, form 'row' never reaches 100%, and in binary32 a small interval makes set_nodes_by_str loop forever. Proved: for every node list ending in 1 (default or built from an interval) and every increasing task sequence no read is out of range, percentages are right, non-decreasing, at most 100 and 100 at the end."
  },
  {
   "property": "C53",
   "status": "proved",
   "theorems": [
    "assign_is_spline",
    "window_is_kernel_transform",
    "kernel_transform",
    "kernel_transform_zero"
   ],
   "note": ""
  },
  {
   "property": "C54",
   "status": "proved",
   "theorems": [
    "azimuth_correct",
    "ylm_opposite_order",
    "ylm_parity",
    "ylm_direction",
    "ylm_special",
    "legendre_is_like"
   ],
   "note": "GSL's associated Legendre function enters by its parity and its zero at the poles; legendre_is_like shows that the explicit formula has both."
  },
  {
   "property": "C55",
   "status": "partial",
   "theorems": [
    "component_mirrored",
    "band_field_opposite_order",
    "G_LM_opposite_order",
    "ylm_field_opposite_order",
    "fourier_hermitian",
    "bispectrum_sum_complete",
    "band_field_nyquist_refuted"
   ],
   "note": "Refuted as stated: a bin that contains a mode at the Nyquist frequency breaks the symmetry (band_field_nyquist_refuted). Proved for bins below the Nyquist frequency, with the sum over orders as a consequence."
  },
  {
   "property": "C56",
   "status": "partial",
   "theorems": [
    "norm_params_estimate",
    "norm_params_wisdom",
    "norm_params_refuted",
    "copy_params_iff",
    "copy_params_refuted"
   ],
   "note": "Refuted as stated: with the estimate planner the normalisation always fails, otherwise it turns wisdom on in the root directory; copies lose the shape."
  },
  {
   "property": "C57",
   "status": "partial",
   "theorems": [
    "set_agrees",
    "set_shows",
    "set_interlace",
    "set_none_keeps",
    "unset_box_refuted",
    "bvec_ignored",
    "save_vectors_refuted",
    "cutoff_needs_space"
   ],
   "note": "Refuted as stated: a box size taken back to None is accepted and C++ keeps the old one (unset_box_refuted, set_none_keeps), and save_binned_vectors never reaches C++ (bvec_ignored, save_vectors_refuted). For entries that are set the agreement holds (set_agrees), derived fields read back as C++ has them (set_shows) and interlacing is normalised consistently (set_interlace). Deriving the grid from a cutoff in the constructor requires an undocumented 'space' entry (cutoff_needs_space)."
  },
  {
   "property": "C58",
   "status": "proved",
   "theorems": [
    "multipole_round_trip",
    "multipole_round_trip_exists",
    "py_round_trip",
    "py_round_trip_exists"
   ],
   "note": "For odd sizes or with the low-ringing pivot (see C39 for the exception), in C++ and Python."
  },
  {
   "property": "C59",
   "status": "partial",
   "theorems": [
    "double_points",
    "double_points_refuted",
    "double_round_trip",
    "double_pivot_error",
    "double_tuple_error"
   ],
   "note": "Refuted as stated: both indices get the points of the first, which are wrong for the second whenever the low-ringing pivots differ; the round trip is then off by the cube of the ratio of the pivots; the pivot property always raises and a pair of options is always refused."
  },
  {
   "property": "C60",
   "status": "proved",
   "theorems": [
    "double_transform",
    "double_product",
    "double_swap"
   ],
   "note": "Matrix form of both transforms included."
  },
  {
   "property": "C61",
   "status": "partial",
   "theorems": [
    "formulae_requirements",
    "extra_points_refused",
    "covered_spec",
    "points_accepted",
    "missing_points_error",
    "array_points",
    "points_refuted"
   ],
   "note": "Refuted as stated: input points for a multipole more than needed are refused with ValueError, and points lacking a needed one give KeyError (the subset check is the wrong way round). Proved exactly: what the formulae require, when the constructor accepts, which error otherwise, when a coverage warning is issued."
  },
  {
   "property": "C62",
   "status": "partial",
   "theorems": [
    "convolve2_sum",
    "convolve2_linear",
    "convolve2_unit",
    "wilson_unit",
    "convolve2_keys",
    "convolve2_keys_refused",
    "convolve3_sum",
    "convolve3_keys_refused",
    "convolve3_real",
    "diag_needs_ic",
    "diag_agrees",
    "assumptions_hold"
   ],
   "note": "Refuted as stated: samples keyed by strings, integers or tuples are never found (KeyError), only Multipole keys are. Everything else proved: the sum, linearity, unit window (with the Wilson formulae), real part, diagonal; interpolation enters through stated assumptions shown to hold together."
  },
  {
   "property": "C63",
   "status": "partial",
   "theorems": [
    "ic_constant",
    "constant_removed",
    "sugiyama_unit",
    "ic_needs_monopole",
    "ic_used",
    "ic_array_refused",
    "assumptions_hold",
    "ic_value"
   ],
   "note": "Refuted as stated: with input points given as one array, the documented automatic calculation always fails with ValueError. The cancellation of a constant, the value of the constraint and the refusals are proved for every window."
  },
  {
   "property": "C64",
   "status": "partial",
   "theorems": [
    "conv_range",
    "conv_range_within",
    "conv_range_disjoint",
    "conv_range_refuted",
    "enforced_covered"
   ],
   "note": "Refuted as stated: arrays that do not overlap are not refused and the derived points leave one of them. Proved: end points, number and spacing of the points for any arrays, containment and absence of warnings when the arrays overlap."
  },
  {
   "property": "C65",
   "status": "partial",
   "theorems": [
    "kwargs_used",
    "kwargs_caller",
    "kwargs_shared",
    "respaced_exact",
    "respaced_refuted"
   ],
   "note": "Refuted as stated: a non-empty dictionary of the caller gains the defaults (so a shared dictionary carries extrap=4 into a bispectrum convolution), and respaced arrays all get the length of the first array that failed. The exact behaviour is proved."
  },
  {
   "property": "C66",
   "status": "proved",
   "theorems": [
    "sugiyama_exact",
    "tripolar_orthogonal",
    "sugiyama_truncated"
   ],
   "note": "Every coefficient equals the projection; also that the table is truncated."
  },
  {
   "property": "C67",
   "status": "partial",
   "theorems": [
    "zero_mode_is_total_weight",
    "fluctuation_modes",
    "box_mean_refuted"
   ],
   "note": "Refuted as stated: with interlacing the mean is subtracted from the main mesh only, so the zero mode of the overdensities is N/2. The total-weight part holds for all schemes (with interlacing for particles the shadow mesh handles, at least two cells per axis)."
  },
  {
   "property": "C68",
   "status": "partial",
   "theorems": [
    "box_corrfunc_whole",
    "box_corrfunc_offset",
    "fluctuation_modes"
   ],
   "note": "Refuted as stated: with interlacing the correlation function lies higher by N^2/(4V) at every separation (one quarter with the box normalisation); without interlacing the average is exactly minus the self-pairs."
  },
  {
   "property": "C69",
   "status": "partial",
   "theorems": [
    "window_scales",
    "window_whole",
    "window_scales_refuted"
   ],
   "note": "Refuted as stated: with interlacing alpha multiplies only the main mesh, so the total weight enters with (alpha+1)/2 while the self-pairs carry alpha^2. Without interlacing the window scales with alpha^2 for every degree."
  },
  {
   "property": "C70",
   "status": "partial",
   "theorems": [
    "fields_compatible_spec",
    "fields_compatible_refuted"
   ],
   "note": "Refuted as stated: the volume of the first field is never compared (the second field is compared twice); everything else is compared."
  },
  {
   "property": "C71",
   "status": "proved",
   "theorems": [
    "corrfunc_mesh_pairs",
    "corrfunc_is_pair_sum",
    "window_is_pair_sum",
    "order_sum_wigner"
   ],
   "note": "The 3-j symbols are those of the Racah formula; harmonics are the code's with any Legendre function."
  },
  {
   "property": "C72",
   "status": "proved",
   "theorems": [
    "box_corrfunc_mesh_pairs",
    "box_corrfunc_natural"
   ],
   "note": "Pairs are counted on the mesh of nearest grid points, periodically."
  },
  {
   "property": "C73",
   "status": "proved",
   "theorems": [
    "powspec_is_mode_average",
    "powspec_shot_monopole",
    "box_powspec_is_mode_average",
    "twopt_coordinates",
    "mean_in_bin",
    "box_powspec_shot"
   ],
   "note": "Exact identity for the model over the reals; particles must lie in the box and, with interlacing, be handled by the shadow mesh."
  },
  {
   "property": "C74",
   "status": "partial",
   "theorems": [
    "powspec_monopole_positive",
    "box_powspec_monopole_positive",
    "powspec_parity",
    "box_powspec_odd_vanish",
    "box_powspec_odd_refuted"
   ],
   "note": "Refuted as stated: at the Nyquist frequency the mesh holds a mode without its opposite, and a box with one galaxy has a nonzero dipole. Proved: positivity of monopoles always, and the parity statements for every bin whose modes lie below the Nyquist frequency."
  },
  {
   "property": "C75",
   "status": "proved",
   "theorems": [
    "powspec_catalogue_order",
    "powspec_weight_scale"
   ],
   "note": "Real arithmetic; rounding is not modelled."
  },
  {
   "property": "C76",
   "status": "proved",
   "theorems": [
    "interlacing_images"
   ],
   "note": "Sampling without assignment window; the phases are those of fourier_transform."
  },
  {
   "property": "C77",
   "status": "partial",
   "theorems": [
    "component_triangles",
    "bispectrum_is_triangle_average",
    "mesh_vectors",
    "resolved_triangles",
    "resolved_safe",
    "triangles_closed_refuted",
    "box_bispectrum_is_triangle_average"
   ],
   "note": "Refuted as stated: two modes below the Nyquist frequency can be combined with a third that does not close the triangle, when their sum leaves the mesh. Proved: the mean over pairs of modes with the closing mode modulo the mesh, for surveys and boxes, and that triangles do close when the bins lie below half the Nyquist frequency. Bins whose own modes reach the Nyquist frequency are excluded; real arithmetic."
  },
  {
   "property": "C78",
   "status": "proved",
   "theorems": [
    "wigner_exchange",
    "bispectrum_parity",
    "box_bispectrum_parity",
    "bispectrum_exchange",
    "box_bispectrum_exchange",
    "bispectrum_catalogue_order",
    "bispectrum_weight_scale",
    "bispec_coordinates"
   ],
   "note": "Bins with all modes below the Nyquist frequency; real arithmetic."
  },
  {
   "property": "C79",
   "status": "partial",
   "theorems": [
    "third_amplitude",
    "third_amplitude_refuted"
   ],
   "note": "Refuted as stated: the code adds alpha cubed times the sum over the randoms. Proved: the exact value, which exceeds the sum over objects by twice the random term."
  },
  {
   "property": "C80",
   "status": "partial",
   "theorems": [
    "shot_mesh_pairs",
    "threepcf_shot_is_pair_sum",
    "threepcf_shot_sign_refuted"
   ],
   "note": "Refuted as stated: the sign is applied in the uncoupled statistic and again in compute_3pcf, so it is always +1 (witness with degrees 1, 0, 1). Proved: the exact pair sum, NGP without interlacing; at zero separation it also lacks twice the random term of C79."
  },
  {
   "property": "C81",
   "status": "partial",
   "theorems": [
    "bispec_shot_is_pair_sum",
    "bispec_monopole_shot",
    "bispec_lone_random_refuted"
   ],
   "note": "Refuted as stated: the amplitude of C79 counts the cubed random weights five times instead of once in the monopole. Proved: the exact decomposition for all accepted degrees, NGP without interlacing, bins below the Nyquist frequency."
  },
  {
   "property": "C82",
   "status": "proved",
   "theorems": [
    "threepcf_is_mode_sum",
    "threepcf_monopole_is_mode_sum",
    "ipow_is_power"
   ],
   "note": "All schemes without interlacing; degrees other than zero need an even mesh and no populated Nyquist modes (C83 shows what happens otherwise)."
  },
  {
   "property": "C83",
   "status": "partial",
   "theorems": [
    "threepcf_real",
    "threepcf_exchange",
    "threepcf_catalogue_order",
    "threepcf_weight_scale",
    "threepcf_real_refuted"
   ],
   "note": "Refuted as stated: with populated Nyquist modes the measurement has an imaginary part (plane of four objects on a 2x2x2 mesh, degrees 1, 0, 1). Proved without populated Nyquist modes, without interlacing."
  },
  {
   "property": "C84",
   "status": "proved",
   "theorems": [
    "window_is_survey",
    "window_shot_is_pair_sum",
    "box_threepcf_is_mode_sum",
    "box_threepcf_shot"
   ],
   "note": "No interlacing; shot noise for NGP."
  },
  {
   "property": "C85",
   "status": "proved",
   "theorems": [
    "single_moved",
    "powspec_placement",
    "corrfunc_placement",
    "bispec_placement",
    "threepcf_placement",
    "box_placement",
    "window_placement"
   ],
   "note": "With and without interlacing, except 3PCF windows (without); the line of sight of each object is an input, kept by the move."
  },
  {
   "property": "C86",
   "status": "partial",
   "theorems": [
    "wide_angle_changes_raw_only",
    "wide_angle_order_zero",
    "wide_angle_placement_refuted"
   ],
   "note": "Refuted as stated: distances in the correction are measured, periodically, from the corner of the mesh, so one random in two different cells gives two different windows. Proved: only the raw value changes, and order zero changes nothing."
  },
  {
   "property": "C87",
   "status": "proved",
   "theorems": [
    "box_bispec_shot",
    "box_lone_shot"
   ],
   "note": "NGP without interlacing; real arithmetic."
  },
  {
   "property": "C88",
   "status": "proved",
   "theorems": [
    "alias_interlaced_axes"
   ],
   "note": "The isotropic approximation is exact along the axes only; off the axes it is only bounded (C20)."
  },
  {
   "property": "C89",
   "status": "partial",
   "theorems": [
    "plain_file",
    "plain_file_read",
    "plain_file_order",
    "line_effect",
    "other_lines_ignored",
    "comment_hidden",
    "line_sets_others_refuted",
    "assignment_order_sets_assignment",
    "indented_comment_refuted",
    "param_numeral"
   ],
   "note": "Refuted as stated: a line whose value contains another parameter's name sets that one too (output_tag = 2_ell1 sets ell1), assignment_order sets assignment, and a comment after a blank is read. Proved for files whose values name no parameter, and the exact effect of every line."
  },
  {
   "property": "C90",
   "status": "partial",
   "theorems": [
    "file_text",
    "file_numbers",
    "file_box",
    "plain_file",
    "box_left_out_refuted"
   ],
   "note": "Refuted as stated: box sizes and grid numbers left out take whatever the uninitialised variables held. Proved for every other parameter."
  },
  {
   "property": "C91",
   "status": "partial",
   "theorems": [
    "used_file_rejected",
    "used_file_reads",
    "used_file_parsed",
    "read_int_to_string",
    "read_num_fixed",
    "read_num_fixed_exact"
   ],
   "note": "Refuted as stated, for every parameter set: the line assignment_order makes the file unreadable. Proved without that line: texts and integers come back, numbers rounded to the printed decimals, the Nyquist cutoff is lost."
  },
  {
   "property": "C92",
   "status": "partial",
   "theorems": [
    "overflow_iff",
    "fits_read",
    "overflow_refuted"
   ],
   "note": "Refuted as stated: catalogue_dir = /data/mocks/uniform overflows. The exact condition of an overflow is proved."
  },
  {
   "property": "C93",
   "status": "partial",
   "theorems": [
    "override_unset",
    "override_texts",
    "override_scheme",
    "override_wisdom",
    "override_verbose_terminates",
    "override_tag_stale_refuted",
    "override_wisdom_refuted",
    "override_verbose_refuted"
   ],
   "note": "Refuted as stated: the wisdom directory gets no separator, the binned-vector file keeps the old tag, a level that is not a number terminates the program. The exact effect of each variable is proved for validated sets."
  },
  {
   "property": "C94",
   "status": "partial",
   "theorems": [
    "load_rows",
    "column_functional",
    "load_column_order",
    "load_needs_coordinates",
    "load_short_line",
    "load_blank_line",
    "load_comma_separated",
    "load_no_rows",
    "load_missing_file",
    "load_any_line_ends_refuted"
   ],
   "note": "Refuted as stated: a line of blanks (an empty line with CRLF ends), a comma-separated line, a short line or a missing coordinate column makes the code index outside the row. Proved: every file of blank-separated numerals with the coordinate columns is read exactly, independent of column order; the outcome of each bad layout."
  },
  {
   "property": "C95",
   "status": "partial",
   "theorems": [
    "load_twice",
    "failed_load_repeated_refuted",
    "failed_load_keeps_particles"
   ],
   "note": "Refuted as stated: the source is recorded before anything is read, so after any load, failed or not, every later one is refused. Proved: exactly that, and that a failed load leaves particles, totals and extents as they were."
  },
  {
   "property": "C96",
   "status": "partial",
   "theorems": [
    "load_parts",
    "load_parts_unclosed_refuted"
   ],
   "note": "Refuted as stated for parts without a final newline, whose last line is a row of its own. Proved for all parts that are empty or end with a newline."
  },
  {
   "property": "C97",
   "status": "partial",
   "theorems": [
    "arguments_decide",
    "further_arguments_ignored",
    "unknown_option_refuted"
   ],
   "note": "Refuted as stated: an unknown option that is the only argument is taken for a parameter file (unknown_option_refuted). arguments_decide gives the outcome for every argument list."
  },
  {
   "property": "C98",
   "status": "partial",
   "theorems": [
    "bins_terminate_iff",
    "padded_bins_unsized",
    "custom_bins_count",
    "custom_bins_reach",
    "custom_bins_centres",
    "custom_bins_refuted",
    "run_bins"
   ],
   "note": "Refuted as stated: custom bins are one more than asked for and the first num_bins end before bin_max (custom_bins_refuted); in Fourier space custom bins, and log bins from 0, terminate the program (bins_terminate_iff, the only cases); padded bins are made before the box is sized and are then not finite (padded_bins_unsized). custom_bins_reach and custom_bins_centres give the exact edges, widths and centres."
  },
  {
   "property": "C99",
   "status": "partial",
   "theorems": [
    "catalogues_needed",
    "load_exits",
    "load_terminates",
    "load_failure_refuted"
   ],
   "note": "Refuted as stated: a file without data rows and an HDF5 file raise uncaught exceptions, a short line or missing coordinate column is undefined behaviour (load_failure_refuted, load_terminates). Which catalogues are loaded, and the reported failures, are proved (catalogues_needed, load_exits)."
  },
  {
   "property": "C100",
   "status": "partial",
   "theorems": [
    "box_sized",
    "sized_grid",
    "box_covers_randoms_iff"
   ],
   "note": "Refuted as stated: the box is sized by the data alone, so that randoms are inside exactly when their extent is at most the expansion factor times that of the data (box_covers_randoms_iff). Sizing itself is proved (box_sized, sized_grid)."
  },
  {
   "property": "C101",
   "status": "partial",
   "theorems": [
    "run_factor",
    "zero_density",
    "no_density_column",
    "survey_estimate"
   ],
   "note": "Refuted as stated: whatever the convention, a run without densities (zero_density, no_density_column) and a two-point survey run with the estimate planner (survey_estimate) never reach a measurement; mesh-mixed without data or randoms is accepted and gives factor 0. The factor of every run that ends is proved (run_factor); what mesh-mixed gives for surveys is under C26."
  },
  {
   "property": "C102",
   "status": "proved",
   "theorems": [
    "run_request",
    "session_completes",
    "run_vectors"
   ],
   "note": "run_request: which function, particles, lines of sight and bins; session_completes: when a run ends. Runs whose box has no volume or whose random weights add up to zero are not followed."
  },
  {
   "property": "C103",
   "status": "partial",
   "theorems": [
    "names_agree"
   ],
   "note": "Refuted as stated: exactly the wide-angle windows are named differently (orders before the form in C++, after it in Python); paths are cut at 1023 characters."
  },
  {
   "property": "C104",
   "status": "partial",
   "theorems": [
    "survey_as_program",
    "survey_completes",
    "survey_runs",
    "survey_particles",
    "padded_bins",
    "padded_bins_refuted",
    "custom_bins_raise"
   ],
   "note": "Refuted as stated for padded bins (padded_bins_refuted: pad widths 1/1000 and 10 from Python, from box and mesh in the program) and custom bins (custom_bins_raise). Proved for linear and logarithmic bins with entries spelled as the C++ side has them: survey_as_program; survey_completes and survey_runs say when a measurement returns."
  },
  {
   "property": "C105",
   "status": "partial",
   "theorems": [
    "box_as_program",
    "box_outcome",
    "box_same_values",
    "box_positions_refuted"
   ],
   "note": "Refuted as stated: Python moves the catalogue to the middle of the box, the program does not (box_positions_refuted). box_as_program: the requests agree up to that displacement modulo the box, and the factor unless the convention is mesh; box_same_values: the statistics agree when the displacement is a whole number of cells. For other displacements the placement on the mesh differs (C85, C86)."
  },
  {
   "property": "C106",
   "status": "partial",
   "theorems": [
    "window_as_program",
    "window_padded",
    "window_outcome",
    "window_alignment_refuted",
    "stray_apart",
    "wide_angle_name"
   ],
   "note": "Refuted as stated: with alignment pad the program pads and Python centres (window_alignment_refuted, window_padded); a coordinate a whole number of boxes below the origin goes to opposite faces (stray_apart); a wide-angle window is saved under the statistic name of the plain one (wide_angle_name). With alignment centre and no such coordinate the requests agree (window_as_program); window_outcome says when the call returns."
  },
  {
   "property": "C107",
   "status": "partial",
   "theorems": [
    "convention_case_refuted",
    "survey_unmoved",
    "alignment_letters_refuted",
    "padscale_raises",
    "padscale_never_returns",
    "padscale_letters_refuted",
    "unset_box_raises",
    "box_must_be_given",
    "estimate_never_returns"
   ],
   "note": "Refuted as stated: a convention in other letters or mesh-mixed for boxes raises NameError (convention_case_refuted); an alignment in other letters leaves the catalogues unmoved though the C++ parameters say centre (survey_unmoved, alignment_letters_refuted); a padding scale in other letters raises NameError (padscale_raises, padscale_letters_refuted); a box left out raises TypeError (unset_box_raises, box_must_be_given); the estimate planner never returns for two-point surveys (estimate_never_returns)."
  },
  {
   "property": "C108",
   "status": "partial",
   "theorems": [
    "survey_given",
    "survey_runs",
    "box_given_bins",
    "window_given",
    "short_los_refuted"
   ],
   "note": "Refuted as stated: a list of lines of sight shorter than the catalogue is read out of bounds instead of raising (short_los_refuted, survey_runs); lists that are long enough and all bins are handed on unchanged (survey_given, box_given_bins, window_given)."
  },
  {
   "property": "C109",
   "status": "partial",
   "theorems": [
    "survey_again",
    "survey_again_given",
    "survey_settles",
    "survey_again_refuted",
    "box_density_stays",
    "box_again",
    "box_again_same",
    "box_again_refuted",
    "box_density_refuted",
    "window_again"
   ],
   "note": "Refuted as stated: box_again_refuted (other positions when the catalogue is wider than the box), box_density_refuted (the mean density of the first box is kept), survey_again_refuted (lines of sight taken from moved positions). Proved: what is the same and what changes on repetition for surveys, boxes and windows (survey_again, survey_again_given, survey_settles, box_again, box_again_same, box_density_stays, window_again)."
  },
  {
   "property": "C110",
   "status": "partial",
   "theorems": [
    "program_table",
    "tabulates_read",
    "python_table",
    "python_rows_same",
    "vectors_table",
    "scientific_near",
    "scientific_exact",
    "scientific_form",
    "program_label_refuted"
   ],
   "note": "Refuted as stated: the program cuts the degrees in three-point column names off after seven characters, so tables of different multipoles are labelled alike (program_label_refuted). Otherwise proved for every table of both programs and for binned vectors; results are finite numbers (infinities and NaN are not modelled), and the rows of both programs are the same texts."
  },
  {
   "property": "C111",
   "status": "partial",
   "theorems": [
    "program_header",
    "program_factor",
    "python_header",
    "survey_file",
    "box_file",
    "window_file",
    "header_alignment_refuted"
   ],
   "note": "Refuted as stated: a window function saved with alignment 'pad' states that alignment although its particle is at the middle of the box (header_alignment_refuted). Proved for all runs: every other statement, for the program (box, mesh, assignment, factor of the run, alternatives, catalogues and table) and for the ten Python functions (factor passed on, alternatives, box and mesh, catalogues describing the very particles passed, table); alignment and mesh settings are printed as the entries are spelled."
  },
  {
   "property": "C112",
   "status": "partial",
   "theorems": [
    "measured_first",
    "saved_kinds",
    "saved_alike",
    "other_formats",
    "saving_needs",
    "saving_entries_refuted",
    "wide_angle_path",
    "wide_angle_overwritten",
    "program_orders_named"
   ],
   "note": "Refuted as stated: a set without 'assignment' can be measured but saving raises NonParameterError after the measurement (saving_entries_refuted); formats are only looked at after measuring (other_formats); wide-angle windows of different orders go to one file (wide_angle_path, wide_angle_overwritten), unlike in the program (program_orders_named). Proved for all runs: the measurement comes first and does not depend on saving, the kinds of file, spellings alike, which entries saving needs."
  },
  {
   "property": "C113",
   "status": "partial",
   "theorems": [
    "powspec_unit",
    "powspec_odd",
    "powspec_unit_refuted",
    "powspec_accepts"
   ],
   "note": "Refuted as stated: multipoles of odd degree come back zero, because only the real part of the (imaginary) correlation function is kept (powspec_unit_refuted, powspec_odd). For even degrees without extrapolation the samples come back exactly (powspec_unit); powspec_accepts shows such convolutions exist for every degree and number of samples. Splines enter through the assumptions that a constant stays constant and that nodes are met. With extrapolation the round trip is not stated."
  },
  {
   "property": "C114",
   "status": "partial",
   "theorems": [
    "powspec_keeps",
    "powspec_scales",
    "powspec_again",
    "powspec_zero",
    "powspec_zero_refuted"
   ],
   "note": "Refuted as stated: without extrapolation the caller's arrays are multiplied by k^(3/2) in place, so the second call returns k^(3/2) times the first (powspec_scales, powspec_again), and with the default extrapolation a vanishing multipole gives not-a-number (powspec_zero, powspec_zero_refuted). With extrapolation on the outer layer nothing is changed (powspec_keeps)."
  },
  {
   "property": "C115",
   "status": "partial",
   "theorems": [
    "bispec_unit",
    "bispec_unit_exact",
    "bispec_odd",
    "bispec_unit_refuted",
    "bispec_accepts",
    "convolve3_unit",
    "double_there_and_back"
   ],
   "note": "Refuted as stated: with low-ringing pivots and unequal degrees the result is multiplied by the cube of the ratio of the two pivots (bispec_unit, bispec_unit_refuted), and an odd sum of degrees gives zero (bispec_odd). Exact for equal degrees or without low ringing (bispec_unit_exact); bispec_accepts shows such convolutions exist for all degrees."
  },
  {
   "property": "C116",
   "status": "partial",
   "theorems": [
    "bispec_keeps",
    "bispec_scales",
    "bispec_again",
    "bispec_zeta_keeps",
    "bispec_zeta_scales"
   ],
   "note": "Refuted as stated: without extrapolation, and with logarithmically spaced points, the caller's matrices are multiplied in place by the 3/2 power of the second wavenumber, so the second call returns that (bispec_scales, bispec_again). With extrapolation or re-interpolation they are kept (bispec_keeps)."
  },
  {
   "property": "C117",
   "status": "partial",
   "theorems": [
    "powspec_default_out",
    "bispec_default_out",
    "powspec_common_out",
    "bispec_common_out",
    "powspec_spacing",
    "common_spacing",
    "powspec_any_out",
    "bispec_any_out",
    "powspec_outside_refuted",
    "bispec_resampled"
   ],
   "note": "Refuted as stated: output wavenumbers that are given are used as they are, without a warning (powspec_any_out, bispec_any_out, powspec_outside_refuted). Defaults are proved for exactly spaced points and any extrapolation: the input wavenumbers themselves (powspec_default_out, bispec_default_out) or points inside every transform's range (powspec_common_out, bispec_common_out). Unspaced points are refused for power spectra and common separations (powspec_spacing, common_spacing) and resampled for bispectra."
  },
  {
   "property": "C118",
   "status": "partial",
   "theorems": [
    "coeff_formula",
    "coeff_trivial_window",
    "coeff_terms_trivial",
    "coeff_constant",
    "coeff_selection",
    "coeff_undefined",
    "coeff_total_refuted"
   ],
   "note": "Refuted as stated: where the 3-j symbol of the window's or the correlation function's multipole vanishes (odd sum of degrees, or no triangle) the coefficient is nan or its conversion raises a TypeError, never a number (coeff_undefined, coeff_total_refuted). Wherever both symbols do not vanish, all parts are proved for all degrees. sympy's wigner_3j, racah sums and wigner_9j are modelled as the sums sympy documents."
  },
  {
   "property": "C119",
   "status": "partial",
   "theorems": [
    "sugiyama_terms",
    "coeff_rational",
    "sugiyama_complete_refuted"
   ],
   "note": "Refuted as stated: the table leaves out couplings among its own multipoles, for instance of the window's (2,0,2) and the correlation function's (1,1,2) to (1,1,0), with coefficient 1/5 (sugiyama_complete_refuted). All its terms agree exactly (sugiyama_terms) and all coefficients, of any degrees, are rational (coeff_rational)."
  },
  {
   "property": "C120",
   "status": "partial",
   "theorems": [
    "matrix_convolves",
    "bispec_linear",
    "convolve3_linear",
    "double_three",
    "double_linear",
    "ic_linear",
    "matrix_serial_never",
    "matrix_loglin_never",
    "oscil_not_additive"
   ],
   "note": "Refuted as stated: without MPI the call ends in a TypeError (matrix_serial_never); with log-linear extrapolation (extrap=4) no unit model convolves, so there is no matrix on any number of processes (matrix_loglin_never); the extrapolation that is the default (extrap=5) is not additive (oscil_not_additive), so nothing makes the product the convolution there: that the final samples differ is not proved. Without extrapolation and with zero, constant or linear extrapolation (extrap=0 to 3) three transforms of which the third model is combined from the others fail alike or stay combined (double_three), the convolution is linear for all models (bispec_linear), and the matrix, made on any number of processes that leaves the root something to do, times any model is its convolution (matrix_convolves), given splines linear in the samples and one model that convolves."
  },
  {
   "property": "C121",
   "status": "partial",
   "theorems": [
    "fresh_mesh",
    "fresh_needs_both",
    "fresh_unset",
    "dict_mesh",
    "set_mesh",
    "call_mesh",
    "vectors_exact",
    "fresh_vectors",
    "one_bin_refuted",
    "caller_set_refuted"
   ],
   "note": "Refuted as stated: without a parameter set a binning of a single bin is refused with ValueError, as the number of bins is passed through the validation of a measurement (one_bin_refuted; fresh_mesh and fresh_vectors say exactly when), and the box size and grid numbers given to a call stay in the caller's set or dictionary (caller_set_refuted, set_mesh, dict_mesh). Proved in full: whenever the call does not raise, the records are exactly those of the mesh asked for, for every binning in sync with ordered edges, and nothing else in the set matters (vectors_exact); a box or grid alone is refused (fresh_needs_both), as is a binning without bins (fresh_unset)."
  },
  {
   "property": "C122",
   "status": "partial",
   "theorems": [
    "warning_verbatim",
    "source_unique",
    "warning_brace_wrong",
    "warning_raises",
    "warning_verbatim_refuted",
    "stage_added",
    "stage_unique",
    "stage_after_arguments",
    "level_tags",
    "tags_distinct",
    "colour_when",
    "colour_surrounds",
    "plain_tag",
    "one_line"
   ],
   "note": "Refuted as stated: braces in the message are escaped before the second str.format, those in the file name are not, so a warning from a file whose path has an undoubled brace raises (warning_raises, warning_verbatim_refuted), and one with doubled braces is shown with a part missing (warning_brace_wrong). For every file name without braces the warning is exact (warning_verbatim, source_unique). The rest holds for all messages: stage text, arguments, tags, one line after any number of set-ups."
  },
  {
   "property": "C123",
   "status": "partial",
   "theorems": [
    "text_names",
    "ready",
    "only_missing",
    "stays_sound",
    "only_on_the_way",
    "second_run",
    "succeeds",
    "blocked",
    "root_refused",
    "root_fails",
    "existing_refuted",
    "existing_accepted",
    "result_opens",
    "slashed_tag"
   ],
   "note": "Refuted as stated: for the root as measurement directory validation makes '/' into '//', which make_write_dir strips to the empty text and refuses, so that such a run always fails (root_fails, existing_refuted). For every other existing directory the text is accepted and the file system left alone (existing_accepted), and a result with a tag without slashes and a name that fits opens there (result_opens); a slash in the tag leads to a directory nothing prepares (slashed_tag). Texts with '..' are covered by ready, only_missing, stays_sound and second_run; succeeds, blocked and only_on_the_way are for texts without it. Symbolic links and other processes are not modelled."
  },
  {
   "property": "C124",
   "status": "partial",
   "theorems": [
    "h5_rows",
    "h5_last_columns",
    "h5_given_columns",
    "h5_as_text",
    "h5_loaded",
    "h5_file_or_fault",
    "h5_first_fault",
    "h5_no_rows",
    "h5_needs_coordinates",
    "h5_failed_keeps",
    "h5_twice",
    "h5_by_ending",
    "h5_own_columns_refuted",
    "h5_own_ending_refuted"
   ],
   "note": "Refuted as stated: column names found in attributes are set anew by each file but used only after all files are read, so every row is read by the last file's columns (h5_own_columns_refuted, h5_last_columns); and the ending of the whole path decides how all files are read (h5_own_ending_refuted, h5_by_ending). With the same columns in all files, in particular with columns given by name, the property is proved (h5_rows, h5_given_columns, h5_as_text, h5_loaded, h5_first_fault)."
  },
  {
   "property": "C125",
   "status": "partial",
   "theorems": [
    "resample_lin_1d",
    "resample_lglin_1d",
    "few_come_back",
    "numbers_there",
    "lost_end_refused",
    "resample_lglin_refuted",
    "resample_2d_values",
    "resample_lengths_refused",
    "lglin_2d_outside"
   ],
   "note": "Refuted as stated: whatever np.log10 and np.power do, fewer than half of the numbers between 16 and 32 come back from 10**log10(x) (few_come_back, numbers_there), and a number that does not come back ends or begins points of any number that 1-d resample_lglin refuses with a ValueError (lost_end_refused, resample_lglin_refuted), while in 2-d the points returned leave the range (lglin_2d_outside); two arrays of points of different lengths are refused (resample_lengths_refused). Proved: resample_lin in 1-d for all increasing points, with every operation of linspace rounded (resample_lin_1d); the exact condition for 1-d resample_lglin (resample_lglin_1d); sizes and values in 2-d, and the range for linear spacing (resample_2d_values). Overflow and underflow are not represented."
  },
  {
   "property": "C126",
   "status": "partial",
   "theorems": [
    "bins_cover",
    "lin_rounded",
    "lin_rounded_resolved",
    "pad_rounded",
    "linpad_rounded",
    "log_rounded",
    "logpad_rounded",
    "log_accurate",
    "log_inside",
    "log_edges",
    "lin_rounded_refuted",
    "log_rounded_refuted"
   ],
   "note": "Refuted as stated: bins narrower than neighbouring numbers are apart can be empty, and logarithmic ones can overshoot bin_max. Proved: linear and padded linear bins always cover the range exactly once, and are increasing with centred centres when resolved; logarithmic bins do exactly when the last computed edge is not above bin_max, which holds for any logarithm and exponential of stated accuracy once bins are a few errors wide."
  },
  {
   "property": "C127",
   "status": "partial",
   "theorems": [
    "names_for_text",
    "read_astropy",
    "read_nbodykit",
    "readers_agree",
    "kwargs_changed",
    "read_refused",
    "exchange_refuted",
    "readers_agree_refuted",
    "absent_field_refuted",
    "names_dropped_refuted"
   ],
   "note": "Refuted as stated: exchanging columns is refused by one reader and gives one column twice with the other, fields mapped away differ between readers, fields not in the file can be found, the caller's table_kwargs are changed, and an unknown format is reported by the path. Proved: with astropy and each field asked for once, a catalogue comes back exactly when names are free in turn and coordinates present, and it is the constructor's catalogue of the columns asked for, with warnings naming the defaults; the same with nbodykit when no field is read after its name was written; both agree when no column is mapped away unreplaced."
  },
  {
   "property": "C128",
   "status": "partial",
   "theorems": [
    "loaded_window",
    "loaded_default",
    "one_bin_fails",
    "one_bin_refuted",
    "columns_refused",
    "sources_refuted"
   ],
   "note": "Refuted as stated: a window measured in one bin cannot be loaded (one_bin_fails, one_bin_refuted), sources are in the order of the keys as written and not of the multipoles (sources_refuted), and by default the samples can be replaced by a single one (loaded_default). Otherwise proved (loaded_window) from the table as printed to the matrix as loaded."
  },
  {
   "property": "C129",
   "status": "partial",
   "theorems": [
    "expr_says",
    "says_one",
    "expr_injective",
    "zero_dropped",
    "degrees_refuted",
    "leading_plus_refuted"
   ],
   "note": "Refuted as stated: degrees of two digits run together (degrees_refuted), and a formula whose first coefficient is zero is printed with a plus sign in front (leading_plus_refuted). Proved for degrees of one digit and coefficients other than zero (expr_says, says_one, expr_injective), and for zero coefficients after the first (zero_dropped)."
  },
  {
   "property": "C130",
   "status": "partial",
   "theorems": [
    "gpu_count_exact",
    "limit_cases",
    "gpu_ids_exact",
    "gpu_enabled_exact",
    "enabled_available",
    "colours_exact",
    "python_colours_exact",
    "colours_agree",
    "colours_refuted",
    "limit_refuted",
    "mode_refuted",
    "gpu_available_exact"
   ],
   "note": "Refuted as stated: a TRV_GPU_MAXNUM beyond the range of int ends the program, with or without GPUs (limit_refuted); spellings such as False or OFF leave GPU mode on (mode_refuted, as documented but unlike what the text suggests); the Python log is coloured under TRV_INTERACTIVE=false (colours_refuted). Exact behaviour of all switches proved."
  },
  {
   "property": "C131",
   "status": "partial",
   "theorems": [
    "saved_loaded",
    "save_elsewhere",
    "save_unextended",
    "saved_apart",
    "saved_over",
    "array_not_loaded",
    "subselected_lost",
    "usable_loaded",
    "extension_refuted",
    "subselected_refuted"
   ],
   "note": "Refuted as stated: np.savez appends .npz to a path without it and np.load does not, so that the window saved as 'window' is not found there, or an older file is loaded (extension_refuted); a window returned by subselect has a single array for its points and cannot be loaded after saving (subselected_refuted). Proved for all other windows and paths ending in .npz (saved_loaded, usable_loaded), with the exact behaviour elsewhere."
  },
  {
   "property": "C132",
   "status": "partial",
   "theorems": [
    "loc_bounds",
    "loc_error",
    "loc_inside",
    "loc_inside_power",
    "assign_fl_conserves",
    "assign_fl_moved",
    "face_refuted",
    "wrap_bounds",
    "wrapped_inside",
    "wrap_refuted",
    "shadow_bounds",
    "shadow_inside",
    "assign_shadow_fl_conserves",
    "shadow_refuted"
   ],
   "note": "Refuted as stated: for grid numbers that are not powers of two a particle just below the upper face can be located at ngrid itself, and is then dropped (first axis) or put into a cell of the wrong row (last axis) (face_refuted); a coordinate just below zero is wrapped to the box size itself, off the grid for every grid number (wrap_refuted); half a cell from the upper face the shadow mesh of interlacing locates particles at ngrid that exact arithmetic does not (shadow_refuted). Proved otherwise: locations never exceed ngrid, errors are bounded, weight is conserved on the main mesh for powers of two and for particles 2^-51 of the box off the upper face; shadow locations are on the grid and weight is conserved there, except by TSC, away from that position; wrapping of non-negative coordinates is exact. Rounding of window values, overflow and underflow are not modelled."
  },
  {
   "property": "C133",
   "status": "proved",
   "theorems": [
    "gamma_terminates",
    "gamma_defined",
    "gamma_reflection",
    "gamma_conj",
    "gamma_real"
   ],
   "note": "In exact arithmetic with the decimal coefficients as written. That the series has no zero with Re z > 0 is a Routh-Hurwitz argument checked by computation on the whole coefficients of its numerator. Accuracy against the true gamma function is shown at 1/2 only (half_case)."
  },
  {
   "property": "C134",
   "status": "proved",
   "theorems": [
    "mixed_norm_scale",
    "mixed_sum_sym",
    "mixed_norm_box_mesh"
   ],
   "note": "In exact arithmetic, through the shifts of the alignment; added after mutants taking the square of the data field, and a wrong cell volume of the own box, survived."
  }
 ]
}
