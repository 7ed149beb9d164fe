# Axioms of the theorems named in MANIFEST.json

Output of `Print Assumptions`, grouped by the set of axioms printed.  All axioms are from
the standard library (`Coq.Reals`, `Coq.Logic`).

## No axioms (closed under the global context)

* `CounterProps.v`: grid_counters_exact, memory_exact, memory_drift, counters_return, maxima_running, counters_nonneg, reload_leak_refuted, reload_negative_refuted
* `DirProps.v`: text_names, ready, only_missing, stays_sound, only_on_the_way, second_run, succeeds, blocked, root_refused, root_fails, existing_refuted, existing_accepted, result_opens, slashed_tag
* `EnvProps.v`: gpu_count_exact, limit_cases, gpu_ids_exact, gpu_enabled_exact, enabled_available, colours_exact, python_colours_exact, colours_agree, colours_refuted, limit_refuted, mode_refuted, gpu_available_exact
* `FileNameProps.v`: twopt_distinct, threept_distinct, twopt_dotted, threept_dotted, paths_refuted, form_unbound
* `H5Props.v`: h5_given_columns, h5_file_or_fault
* `LatexProps.v`: expr_says, says_one, expr_injective, zero_dropped, degrees_refuted, leading_plus_refuted
* `LoadProps.v`: column_functional
* `MeshIndexProps.v`: flat_index_bijective, flat_index_row_major, wave_index_even, wave_index_congruent_injective, wave_index_mirror, wave_index_odd, wave_index_odd_minimal_refuted
* `MonitorProps.v`: named_levels, levels_ordered, log_generic_refuted, log_int_exact, log_int_printed, log_level_args_refuted, bispec_updates_sorted, bispec_progress_complete, bispec_row_refuted
* `MpiProps.v`: allocate_tasks_balanced, allocate_tasks_exact, allocate_tasks_outcome, distribute_tasks_tiles, parallel_gather_is_serial, distribute_proc_total_ignored_refuted, distribute_proc_total_effect, restore_warnings_unique, restore_warnings_shown
* `MultipoleProps.v`: order_refuted, sorted_refuted, order_exact, order_lengths, order_trans, order_three, order_total_2pt, tied_3pt, sorted_exact, stable_unique, sorted_order_free, sorted_tie, roundtrip_refuted, roundtrip_one, roundtrip_many, read_plain, roundtrip_abstr, mstr_inj, abstr_refuted
* `NpzProps.v`: saved_loaded, save_elsewhere, save_unextended, saved_apart, saved_over, array_not_loaded
* `ParamFilePrintProps.v`: read_int_to_string
* `ParamFileUseProps.v`: comment_hidden, indented_comment_refuted, overflow_refuted
* `ParamFixProps.v`: default_bvec_truncated, default_bvec_tag, copy_params_iff
* `PyLogProps.v`: warning_verbatim, source_unique, warning_brace_wrong, warning_raises, warning_verbatim_refuted, stage_added, stage_unique, stage_after_arguments, level_tags, tags_distinct, colour_when, colour_surrounds, plain_tag
* `PyReadProps.v`: names_for_text
* `ReshapeProps.v`: triu_index_bijective
* `SaveEndProps.v`: program_orders_named
* `StrProps.v`: has_extension_iff, filepath_is_set_iff, split_spec, segments_exist, join_split, join_split_trailing, join_split_refuted, split_join, split_join_refuted, expand_spec, expand_tokens, expand_plain, expand_nested_refuted, expand_twice_refuted
* `ThreePtProps.v`: data_vector_covered, data_vector_unknown_shape, shotnoise_row_entries, shotnoise_col_entries, shotnoise_equal_entries
* `TransformProps.v`: double_pivot_error, double_tuple_error
* `WinConvProps.v`: formulae_requirements
* `WinConvRangeProps.v`: kwargs_used, kwargs_caller, kwargs_shared

## `ClassicalDedekindReals.sig_forall_dec`

* `MainProps.v`: names_agree
* `MeshIndexProps.v`: grid_vector_signed
* `MeshProps.v`: parallel_run_exists
* `NpzProps.v`: usable_loaded
* `PyColProps.v`: setitem_exact
* `ThreePtProps.v`: shotnoise_in_range, shotnoise_full_in_range_refuted
* `WinConvSumProps.v`: diag_needs_ic
* `WinMatProps.v`: serial_never, serial_refuted, mpi_exact, mpi_idle_root

## `ClassicalDedekindReals.sig_forall_dec`, `FunctionalExtensionality.functional_extensionality_dep`

* `Array2dProps.v`: extrap2d_lin_order_independent, extrap2d_loglin_correct, extrap2d_loglin_order_independent, extrap2d_int_ext, extrap2d_pad_correct, extrap2d_pad_extents_refuted, check_sorted_2d_refuted
* `Array2dShapeProps.v`: extrap2d_refuses_thin, extrap2d_lin_shape
* `BinRoundProps.v`: bins_cover
* `BinVecProps.v`: fine_binning_exact, fine_binning_tolerance, fine_binning_one_bin, fine_binning_aligned
* `BinningProps.v`: lin_bins_correct, custom_bins_correct, linpad_bins_correct
* `CatProps.v`: centre_aligns, pad_in_box_aligns, pad_grids_aligns, align_single_catalogue, common_shift_keeps_separations, centre_inside, pad_inside, centre_fit_refuted, pad_fit_refuted, centre_alias_refuted, wrap_coord_range, wrap_twice, periodicity_wraps, wrap_coord_half_open_refuted, wrapped_particle_lost_refuted, catalogues_in_step, load_particle_data_spec
* `FieldProps.v`: fields_compatible_spec, fields_compatible_refuted
* `FourierConv3Props.v`: convolve3_unit
* `FourierConvLinearProps.v`: convolve3_linear, ic_linear
* `H5Props.v`: h5_rows, h5_last_columns, h5_as_text, h5_loaded, h5_first_fault, h5_no_rows, h5_needs_coordinates, h5_failed_keeps, h5_twice, h5_by_ending, h5_own_columns_refuted, h5_own_ending_refuted
* `LegendreProps.v`: leg_one
* `LoadProps.v`: param_numeral, load_rows, load_column_order, load_needs_coordinates, load_short_line, load_blank_line, load_comma_separated, load_no_rows, load_missing_file, load_any_line_ends_refuted, load_twice, failed_load_repeated_refuted, failed_load_keeps_particles, load_parts, load_parts_unclosed_refuted
* `MainProps.v`: load_exits, load_terminates, load_failure_refuted
* `MeshProps.v`: assign_conserves_weight, spline_positive_centred, assign_positive_bounded, assign_is_spline, parallel_assignment, parallel_assignment_shadow, shadow_is_shifted_spline, shadow_conserves_weight, shadow_tsc_conserves_refuted, shadow_seam_conserves_refuted
* `MonitorProps.v`: elapsed_text, elapsed_agree, elapsed_negative_throws, progress_run, default_nodes_good, interval_nodes, interval_nodes_good, set_progress_spec, progress_overrun, progress_repeat_refuted, progress_short_nodes_refuted
* `NormMixProps.v`: mixed_norm_scale, mixed_sum_sym, mixed_norm_box_mesh
* `NormProps.v`: mixed_norm_restores, mixed_norm_box_restores, mixed_norm_translation, norm_box_covers, mixed_norm_alias_refuted, mixed_norm_failure_refuted, powspec_norm_reciprocal, bispec_norm_reciprocal, particle_norms_scale, particle_norms_refusal, particle_amplitudes_order, particle_norms_additive, shotnoise_particles, mesh_norms_scale, mesh_norms_order, mesh_norm_zero_refuted
* `NpzProps.v`: subselected_lost, extension_refuted, subselected_refuted
* `OrderProps.v`: raw_sum_complete, shot_sum_complete, box_sum_complete, orders_rejected, orders_computed_once
* `ParamFilePrintProps.v`: used_file_reads, used_file_parsed, read_num_fixed, read_num_fixed_exact
* `ParamFileProps.v`: line_effect, other_lines_ignored, file_text, file_numbers, file_box
* `ParamFileUseProps.v`: plain_file, plain_file_read, plain_file_order, line_sets_others_refuted, assignment_order_sets_assignment, box_left_out_refuted, overflow_iff, fits_read
* `PyAmalgProps.v`: sampling_accepted, sampling_exact, sampling_defaults, measure_exact, template_accepted, template_exact, both_pads_late, container_default_refuted
* `PyCatProps.v`: py_centre_aligns, py_centre_self, py_pad_aligns, py_centre_alias_refuted, stale_centre_refuted, py_periodise_wraps, py_periodise_full_width, py_new_spec, py_catalogues_in_step, coordinate_ops_refresh, setitem_stale_refuted
* `PyColProps.v`: density_exact
* `PyLogProps.v`: one_line
* `PyReadProps.v`: read_astropy, read_nbodykit, readers_agree, kwargs_changed, read_refused, exchange_refuted, readers_agree_refuted, absent_field_refuted, names_dropped_refuted
* `PyWinProps.v`: stray_apart
* `SaveProps.v`: tabulates_read
* `ThreePcfProps.v`: ipow_is_power
* `WinConvCases.v`: wilson_unit, assumptions_hold, sugiyama_unit
* `WinConvProps.v`: covered_spec
* `WinConvSumProps.v`: convolve2_sum, convolve2_linear, convolve2_unit, convolve2_keys, convolve2_keys_refused, convolve3_sum, convolve3_keys_refused, convolve3_real, diag_agrees, ic_constant, ic_needs_monopole, ic_used, ic_value
* `WinFormulaProps.v`: wilson_missing
* `WinMatProps.v`: matrix_product
* `WindowProps.v`: inplace_exact, new_fails, new_points_lost, subselect_refuted, idx_dict_fails, idx_dict_empties, range_key_fails, zero_upper_ignored

## `ClassicalDedekindReals.sig_forall_dec`, `ClassicalDedekindReals.sig_not_dec`, `FunctionalExtensionality.functional_extensionality_dep`

* `AliasProps.v`: alias_interlaced_axes
* `BinVecProps.v`: binned_vectors_exact, expected_entries, binned_vectors_bad_space, mode_counts_match_recorded, mode_bin_refuted
* `BispecProps.v`: mesh_vectors, resolved_triangles, resolved_safe, wigner_exchange
* `CoeffProps.v`: coeff_formula, coeff_trivial_window, coeff_terms_trivial, coeff_constant, coeff_selection, coeff_undefined, coeff_total_refuted
* `CoeffTableProps.v`: sugiyama_terms, coeff_rational, sugiyama_complete_refuted
* `CorrProps.v`: order_sum_wigner, box_corrfunc_mesh_pairs
* `FftlogProps.v`: cpp_prefactors
* `FieldMeshProps.v`: fresh_mesh, fresh_needs_both, fresh_unset, dict_mesh, set_mesh, call_mesh, vectors_exact, caller_set_refuted
* `FieldProps.v`: zero_mode_is_total_weight, fluctuation_modes, box_mean_refuted, box_corrfunc_offset
* `MainProps.v`: catalogues_needed, box_sized, sized_grid, box_covers_randoms_iff
* `MeshKernelProps.v`: kernel_transform_zero
* `MeshWindowProps.v`: alias_is_mean_power, alias_positive, alias_interlaced_bounds, window_nonzero, window_cache_correct, window_request_fills, window_single_cell_refuted
* `ParamEnvProps.v`: override_unset, override_texts, override_scheme, override_wisdom, override_verbose_terminates, override_tag_stale_refuted, override_wisdom_refuted, override_verbose_refuted
* `ParamFilePrintProps.v`: used_file_rejected
* `ParamFixProps.v`: validate_again, validate_accepts_again, validate_data_files, validate_measurement_dir, zero_cutoff_diverges, grid_padding_needs_grid, validate_init_twice_estimate, validate_negative_box_refuted, validate_terminates_refuted, validate_init_twice_refuted, validate_again_refuted, validate_env_refuted, norm_params_estimate, norm_params_wisdom, norm_params_refuted, copy_params_refuted
* `ParamProps.v`: cutoff_axis_best, cutoff_axis_python, cutoff_ngrid_best, cutoff_axis_iff, best_grid_unique, cutoff_zero
* `ParamValProps.v`: validate_accepts, validate_accepts_cutoff, validate_outcome, validate_grid
* `PowProps.v`: mean_in_bin, interlacing_images
* `PyAmalgProps.v`: set_exact, degree_sticks, index_refused, index_override_refuted, boxpad_refused, boxpad_override_refuted
* `PyCatProps.v`: los_unit, compute_los_spec, alignment_idempotent, los_repeat, los_repeat_refuted
* `PyParamProps.v`: set_failed, set_failed_old, set_any, update_failed, update_any, bad_bins_stuck, bad_bins_rebuild, set_rollback_refuted, set_twice, wisdom_grows, set_twice_refuted, progbar_refused, progbar_on_refuted, set_agrees, set_shows, set_interlace, set_none_keeps, unset_box_refuted, bvec_ignored, save_vectors_refuted, cutoff_needs_space
* `ReshapeProps.v`: reshape_triu_correct, reshape_triu_flattens_back, reshape_full_correct, reshape_rejects
* `SphHarmProps.v`: legendre_is_like, fourier_hermitian
* `TransformProps.v`: py_prefactors, direction_refused
* `TranslateProps.v`: single_moved
* `WignerProps.v`: wigner_reversal, wigner_selection, accepted_degrees_even, raw_sum_complete_wigner

## `ClassicalDedekindReals.sig_forall_dec`, `ClassicalDedekindReals.sig_not_dec`, `Classical_Prop.classic`, `FunctionalExtensionality.functional_extensionality_dep`

* `Array2dProps.v`: extrap2d_lin_correct
* `ArrayProps.v`: extrap_pad_correct, extrap_lin_correct, extrap_lin_compose, extrap_loglin_correct, extrap_loglin_compose, extrap_loglin_outcome, cpp_extrap_pad_agrees, cpp_extrap_lin_agrees, cpp_extrap_loglin_agrees, extrap_loglin_same_domain_refuted, check_sorted_accepts_constants, check_sorted_refuted, check_lin_accepts_progressions
* `BinRoundProps.v`: lin_rounded, lin_rounded_resolved, pad_rounded, linpad_rounded, log_rounded, logpad_rounded, log_accurate, log_inside, log_edges, lin_rounded_refuted, log_rounded_refuted
* `BinVecProps.v`: binned_vectors_lin_log, binned_vectors_padded_refuted
* `BinningProps.v`: set_bins_lin_log, log_bins_correct, set_bins_refusals, set_bins_reversed_range_refuted, logpad_bins_correct, padded_bins_validated_refuted, padded_bins_count_refuted, grid_bins_width, grid_bins_documented_refuted, binning_success_in_sync, binning_failure_keeps_visible_bins, binning_failure_atomic_refuted, binning_failure_loses_bins_refuted, custom_blocks_set_bins
* `BispecProps.v`: component_triangles, bispectrum_is_triangle_average, triangles_closed_refuted, box_bispectrum_is_triangle_average, bispectrum_parity, box_bispectrum_parity, bispectrum_exchange, box_bispectrum_exchange, bispectrum_catalogue_order, bispectrum_weight_scale, bispec_coordinates
* `BoxShotProps.v`: box_bispec_shot, box_lone_shot
* `CorrProps.v`: corrfunc_mesh_pairs, corrfunc_is_pair_sum, window_is_pair_sum, box_corrfunc_natural
* `ExtrapLinearProps.v`: double_three
* `FftlogProps.v`: fft_size, fft_shrink_refused, fft_reads_outside, fft_pairs, fft_spacing, fft_ascending, fft_log_spaced, fft_points_refuted, lowring_near, lowring_real, lowring_free, lowring_free_phase, lowring_free_real, fft_real, fft_energy, fft_twice, fft_inverse, fft_energy_refuted, multipole_round_trip, multipole_round_trip_exists
* `FieldMeshProps.v`: fresh_vectors, one_bin_refuted
* `FieldProps.v`: box_corrfunc_whole, window_scales, window_whole, window_scales_refuted
* `FourierConv3Props.v`: bispec_unit, bispec_unit_exact, bispec_odd, bispec_keeps, bispec_scales, bispec_again
* `FourierConvCases.v`: powspec_unit_refuted, powspec_accepts, powspec_zero_refuted, bispec_unit_refuted, bispec_accepts
* `FourierConvLinearProps.v`: bispec_linear, double_linear
* `FourierConvPointProps.v`: powspec_default_out, bispec_default_out, powspec_common_out, bispec_common_out, powspec_spacing, common_spacing, powspec_any_out, bispec_any_out, powspec_outside_refuted
* `FourierConvProps.v`: powspec_unit, powspec_odd, powspec_keeps, powspec_scales, powspec_again, powspec_zero
* `FourierConvResampleProps.v`: bispec_zeta_keeps, bispec_zeta_scales, bispec_resampled
* `GammaProps.v`: gamma_terminates, gamma_defined, gamma_reflection, gamma_conj, gamma_real
* `LegendreProps.v`: leg_orthogonal
* `MainProps.v`: arguments_decide, further_arguments_ignored, unknown_option_refuted, bins_terminate_iff, padded_bins_unsized, custom_bins_count, custom_bins_reach, custom_bins_centres, custom_bins_refuted, run_bins, run_factor, zero_density, no_density_column, survey_estimate, run_request, session_completes, run_vectors
* `MeshKernelProps.v`: window_is_kernel_transform, kernel_transform
* `MeshRoundProps.v`: loc_bounds, loc_error, loc_inside, loc_inside_power, assign_fl_conserves, assign_fl_moved, face_refuted, wrap_bounds, wrapped_inside, wrap_refuted, shadow_bounds, shadow_inside, shadow_refuted, assign_shadow_fl_conserves
* `MonitorProps.v`: interval_nodes_refuted
* `NormProps.v`: ylm_shotnoise_monopole, shotnoise_agreement, ylm_shotnoise_mirror
* `OscilProps.v`: extrap_oscil_decays, extrap_oscil_total, extrap_oscil_two_samples, extrap_oscil_growing, extrap_oscil_falling, extrap2d_oscil_correct
* `PowProps.v`: powspec_is_mode_average, powspec_shot_monopole, box_powspec_is_mode_average, twopt_coordinates, box_powspec_shot, powspec_monopole_positive, box_powspec_monopole_positive, powspec_parity, box_powspec_odd_vanish, box_powspec_odd_refuted, powspec_catalogue_order, powspec_weight_scale
* `PyAgainProps.v`: survey_again, survey_again_given, survey_settles, survey_again_refuted, box_density_stays, box_again, box_again_same, box_again_refuted, box_density_refuted, window_again
* `PyBoxProps.v`: box_as_program, box_outcome, box_same_values, box_positions_refuted, convention_case_refuted
* `PyCatProps.v`: py_periodise_range64_refuted
* `PyGivenProps.v`: survey_given, box_given_bins, window_given, short_los_refuted
* `PyLetterProps.v`: survey_particles, padded_bins, padded_bins_refuted, custom_bins_raise, survey_unmoved, alignment_letters_refuted, padscale_raises, padscale_never_returns, padscale_letters_refuted, estimate_never_returns
* `PyRunProps.v`: survey_as_program, survey_completes, survey_runs, unset_box_raises, box_must_be_given
* `PyWinProps.v`: window_as_program, window_padded, window_outcome, window_alignment_refuted, wide_angle_name
* `ResampleProps.v`: resample_lin_1d, resample_lglin_1d, few_come_back, numbers_there, lost_end_refused, resample_lglin_refuted, resample_2d_values, resample_lengths_refused, lglin_2d_outside
* `SaveEndProps.v`: header_alignment_refuted, measured_first, saved_kinds, saved_alike, other_formats, saving_needs, saving_entries_refuted, wide_angle_path, wide_angle_overwritten
* `SaveHeadProps.v`: program_header, program_factor, python_header, survey_file, box_file, window_file
* `SaveProps.v`: program_table, python_table, python_rows_same, vectors_table, scientific_near, scientific_exact, scientific_form, program_label_refuted
* `ShotProps.v`: third_amplitude, third_amplitude_refuted, shot_mesh_pairs, threepcf_shot_is_pair_sum, threepcf_shot_sign_refuted, bispec_shot_is_pair_sum, bispec_monopole_shot, bispec_lone_random_refuted
* `SphHarmProps.v`: azimuth_correct, ylm_opposite_order, ylm_parity, ylm_direction, ylm_special, component_mirrored, band_field_opposite_order, G_LM_opposite_order, ylm_field_opposite_order, bispectrum_sum_complete, band_field_nyquist_refuted
* `SugiyamaProps.v`: sugiyama_exact, tripolar_orthogonal, sugiyama_truncated
* `ThreePcfProps.v`: threepcf_is_mode_sum, threepcf_monopole_is_mode_sum, threepcf_real, threepcf_exchange, threepcf_catalogue_order, threepcf_weight_scale, threepcf_real_refuted, window_is_survey, window_shot_is_pair_sum, box_threepcf_is_mode_sum, box_threepcf_shot
* `TransformProps.v`: outer_points, outer_shrink_refuted, transform_keeps, transform_scales, transform_refuted, double_transform, py_cpp_agree, py_round_trip, py_round_trip_exists, double_points, double_points_refuted, double_round_trip, double_product, double_swap, double_there_and_back
* `TranslateProps.v`: powspec_placement, corrfunc_placement, bispec_placement, threepcf_placement, box_placement, window_placement, wide_angle_changes_raw_only, wide_angle_order_zero, wide_angle_placement_refuted
* `WinConvProps.v`: extra_points_refused, points_accepted, missing_points_error, array_points, points_refuted
* `WinConvRangeProps.v`: conv_range, conv_range_within, conv_range_disjoint, conv_range_refuted, enforced_covered, respaced_exact, respaced_refuted
* `WinConvSumProps.v`: constant_removed, ic_array_refused
* `WinFormulaProps.v`: wilson_exact
* `WinMatConvProps.v`: matrix_convolves, matrix_serial_never, matrix_loglin_never, oscil_not_additive
* `WinTextProps.v`: loaded_window, loaded_default, one_bin_fails, columns_refused, sources_refuted
* `WindowProps.v`: resample_exact, resample_one, default_loses_samples, sized_resampling, resampling_refuted, init_exact
