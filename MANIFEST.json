{
 "claims": [
  {
   "property": "C01",
   "status": "proved",
   "theorems": [
    "C01_unvecp_vecp",
    "C01_vecp_unvecp",
    "C01_unvecp_defined",
    "C01_unvecp_symmetric",
    "C01_vecp_rejects_non_square"
   ],
   "note": "Over every field with 1+1<>0; floating-point rounding is not modelled."
  },
  {
   "property": "C02",
   "status": "proved",
   "theorems": [
    "C02_symmetric_enumeration",
    "C02_full_enumeration",
    "C02_enumeration_defined"
   ],
   "note": ""
  },
  {
   "property": "C03",
   "status": "proved",
   "theorems": [
    "C03_duplication",
    "C03_elimination",
    "C03_commutation",
    "C03_unvec_vec"
   ],
   "note": "transition_matrix (numpy pinv) is not modelled."
  },
  {
   "property": "C04",
   "status": "proved",
   "theorems": [
    "C04_exact_intersection",
    "C04_any_order",
    "C04_empty_rejected",
    "C04_single_as_given",
    "C04_exact_union",
    "C04_union_any_order",
    "C04_union_needs_two"
   ],
   "note": ""
  },
  {
   "property": "C05",
   "status": "proved",
   "theorems": [
    "C05_aligned",
    "C05_succeeds",
    "C05_unsorted_misaligned_refuted"
   ],
   "note": "The 'fails otherwise' part is C05_unsorted_misaligned_refuted."
  },
  {
   "property": "C06",
   "status": "proved",
   "theorems": [
    "C06_block",
    "C06_assembled"
   ],
   "note": "Per block and for the assembled covariance, over every field."
  },
  {
   "property": "C07",
   "status": "proved",
   "theorems": [
    "C07_symmetric"
   ],
   "note": "Symmetry hypotheses only on stored auto spectra; each unordered probe pair stored in one orientation."
  },
  {
   "property": "C08",
   "status": "proved",
   "theorems": [
    "C08_terms",
    "C08_symmetric_terms",
    "C08_order_of_parameters",
    "C08_succeeds"
   ],
   "note": "Symmetry, labels, values, parameter-order independence and success conditions; the combined vector's total is C10."
  },
  {
   "property": "C09",
   "status": "proved",
   "theorems": [
    "C09_positive_semidefinite",
    "C09_positive_covariance"
   ],
   "note": "Stronger: from positive semi-definite covariance; also derived from positive semi-definite spectra."
  },
  {
   "property": "C10",
   "status": "proved",
   "theorems": [
    "C10_counted_once"
   ],
   "note": ""
  },
  {
   "property": "C11",
   "status": "proved",
   "theorems": [
    "C11_free_parameters"
   ],
   "note": ""
  },
  {
   "property": "C12",
   "status": "proved",
   "theorems": [
    "C12_sum",
    "C12_operands_unchanged"
   ],
   "note": ""
  },
  {
   "property": "C13",
   "status": "proved",
   "theorems": [
    "C13_commutes",
    "C13_associates",
    "C13_any_order"
   ],
   "note": "Up to name and label order, over every field."
  },
  {
   "property": "C14",
   "status": "proved",
   "theorems": [
    "C14_subtraction",
    "C14_subtraction_undoes_addition",
    "C14_antisymmetric",
    "C14_operands_unchanged"
   ],
   "note": ""
  },
  {
   "property": "C15",
   "status": "proved",
   "theorems": [
    "C15_fix",
    "C15_unknown_raises_unchanged",
    "C15_two_steps"
   ],
   "note": "Two-step theorem also covers the other order, by exchanging the sets."
  },
  {
   "property": "C16",
   "status": "proved",
   "theorems": [
    "C16_covariance_kept",
    "C16_schur_complement",
    "C16_unknown_raises_unchanged",
    "C16_succeeds",
    "C16_posdef_succeeds",
    "C16_posdef_kept",
    "C16_failed_marginalisation_half_updates"
   ],
   "note": "Over every field; also shown: a failing second inversion with ret_copy=False leaves a half-updated object."
  },
  {
   "property": "C17",
   "status": "proved",
   "theorems": [
    "C17_composes",
    "C17_either_order",
    "C17_nothing"
   ],
   "note": ""
  },
  {
   "property": "C18",
   "status": "proved",
   "theorems": [
    "C18_marginalize_nuisance",
    "C18_nuisance_flag_off",
    "C18_nuisance_before_or_after",
    "C18_before_or_after",
    "C18_sum_posdef",
    "C18_shared_nuisance_differs"
   ],
   "note": "Includes the counterexample with a shared nuisance parameter."
  },
  {
   "property": "C19",
   "status": "proved",
   "theorems": [
    "C19_marginalised_ge_unmarginalised",
    "C19_fixing_never_increases"
   ],
   "note": "Over every ordered field with square roots."
  },
  {
   "property": "C20",
   "status": "partial",
   "theorems": [
    "C20_reported_errors_partial",
    "C20_fresh_errors",
    "C20_stale_errors_refuted"
   ],
   "note": "False of the code (C20_stale_errors_refuted); C20_reported_errors_partial proves it for every history in which the matrix is not edited while an inverse is held."
  },
  {
   "property": "C21",
   "status": "partial",
   "theorems": [
    "C21_copy_changes_inverse_only",
    "C21_copy_unchanged_refuted",
    "C21_objects"
   ],
   "note": "False of the code (C21_copy_unchanged_refuted): the stored inverse of the original changes; C21_copy_changes_inverse_only proves nothing else does."
  },
  {
   "property": "C22",
   "status": "partial",
   "theorems": [
    "C22_correlation",
    "C22_unit_diagonal_symmetric",
    "C22_after_marginalising_refuted"
   ],
   "note": "False of the code after a marginalisation (C22_after_marginalising_refuted); proved whenever the inverse has the labels of the matrix in the same order."
  },
  {
   "property": "C23",
   "status": "proved",
   "theorems": [
    "C23_figure_of_merit",
    "C23_unchanged_by_marginalising"
   ],
   "note": ""
  },
  {
   "property": "C24",
   "status": "partial",
   "theorems": [
    "C24_prior",
    "C24_zero_raises_unchanged",
    "C24_known_names_keep_consistency",
    "C24_unknown_rejected_refuted"
   ],
   "note": "First half proved; the rejection of unknown names is false of the code (C24_unknown_rejected_refuted)."
  },
  {
   "property": "C25",
   "status": "partial",
   "theorems": [
    "C25_round_trip",
    "C25_existing_file",
    "C25_no_path_raises",
    "C25_other_paths_unchanged",
    "C25_permuted_columns_refuted",
    "C25_h5py3_refuted"
   ],
   "note": "Round trip, flag cases and frame condition proved for consistent objects with h5py 2. Refuted: columns ordered differently from rows are accepted by checkAttributes and lost on disk; with h5py 3 (allowed by pyproject) names come back as printed byte strings."
  },
  {
   "property": "C26",
   "status": "partial",
   "theorems": [
    "C26_same_file_iff_same_words",
    "C26_project_names_distinct",
    "C26_all_names_refuted"
   ],
   "note": "Exact collision criterion and injectivity on the project's own names proved; false for arbitrary names."
  },
  {
   "property": "C27",
   "status": "proved",
   "theorems": [
    "C27_combination",
    "C27_missing_operand_skipped",
    "C27_dictionary",
    "C27_result_name"
   ],
   "note": ""
  },
  {
   "property": "C28",
   "status": "proved",
   "theorems": [
    "C28_depends_on_base_only",
    "C28_independent_of_history",
    "C28_base_unchanged",
    "C28_session_keeps_base"
   ],
   "note": ""
  },
  {
   "property": "C29",
   "status": "partial",
   "theorems": [
    "C29_dictionary_kept",
    "C29_order_is_permutation",
    "C29_list_kept_refuted",
    "C29_order_refuted",
    "C29_subset"
   ],
   "note": "Holds for dictionaries and duplicate-free orders. Refuted: a list of matrices is dropped, an order naming a matrix twice is accepted."
  },
  {
   "property": "C30",
   "status": "proved",
   "theorems": [
    "C30_relative_error",
    "C30_never_negative",
    "C30_fom_unchanged",
    "C30_no_fiducial_is_nan",
    "C30_tables"
   ],
   "note": ""
  },
  {
   "property": "C31",
   "status": "proved",
   "theorems": [
    "C31_accepted",
    "C31_conversion",
    "C31_equal_and_hash",
    "C31_reverse",
    "C31_reverse_commutes"
   ],
   "note": ""
  },
  {
   "property": "C32",
   "status": "proved",
   "theorems": [
    "C32_lookup",
    "C32_malformed_key_rejected"
   ],
   "note": "SmartKeyDict and ClSmartKeyDict; a ClSmartKeyDict built from a ClSmartKeyDict object (which yields an empty dictionary) is outside the statement and listed as a finding."
  },
  {
   "property": "C33",
   "status": "partial",
   "theorems": [
    "C33_name",
    "C33_brief",
    "C33_printed",
    "C33_empty_refuted"
   ],
   "note": "Proved for every non-empty data vector; the empty data vector's name and brief string do not parse back (C33_empty_refuted)."
  },
  {
   "property": "C34",
   "status": "partial",
   "theorems": [
    "C34_same_length_partial",
    "C34_prefix_refuted",
    "C34_accepted_texts",
    "C34_garbage_accepted_refuted"
   ],
   "note": "Refuted as stated: zip-equality accepts a prefix (C34_prefix_refuted) and the key pattern accepts trailing text (C34_garbage_accepted_refuted); the exact conditions are proved."
  },
  {
   "property": "C35",
   "status": "proved",
   "theorems": [
    "C35_value",
    "C35_monotone",
    "C35_monotone_negative_fiducial",
    "C35_ordered",
    "C35_distinct_values"
   ],
   "note": "Displacements are assumed non-zero and distinct up to sign for the strict ordering; for a negative fiducial the order is reversed."
  },
  {
   "property": "C36",
   "status": "proved",
   "theorems": [
    "C36_sum_to_one",
    "C36_history",
    "C36_refused_update_displaces"
   ],
   "note": "Also over any history of updates; beside it, a refused update (both densities free) is shown to displace the parameter before raising."
  },
  {
   "property": "C37",
   "status": "partial",
   "theorems": [
    "C37_one_step",
    "C37_run",
    "C37_all_parameters",
    "C37_reset_restores",
    "C37_after_an_error_refuted"
   ],
   "note": "Proved for runs that succeed and, up to a reset, for all; refuted after an exception: the parameter stays displaced and the next run is computed there."
  },
  {
   "property": "C38",
   "status": "partial",
   "theorems": [
    "C38_round_trip",
    "C38_only_cosmological",
    "C38_interrupted_write",
    "C38_zero_displacement_refuted",
    "C38_key_differs_from_name_refuted",
    "C38_description_refuted"
   ],
   "note": "Proved when no displacement is zero and parameters are stored under their names; refuted otherwise, and for descriptions. Interrupted writes leave an unreadable file."
  },
  {
   "property": "C39",
   "status": "partial",
   "theorems": [
    "C39_files",
    "C39_pipeline",
    "C39_ten_displacements_refuted",
    "C39_only_seven_displacements_refuted"
   ],
   "note": "Files: proved for up to nine displacements, refuted for ten. In memory: proved; anything but seven displacements raises."
  },
  {
   "property": "C40",
   "status": "proved",
   "theorems": [
    "C40_scalar",
    "C40_vectorised",
    "C40_pipeline"
   ],
   "note": "Scalar, vectorised (other columns arbitrary) and end-to-end; exact arithmetic."
  },
  {
   "property": "C41",
   "status": "partial",
   "theorems": [
    "C41_terminates",
    "C41_succeeds",
    "C41_scalar_window",
    "C41_vectorised_window",
    "C41_agree",
    "C41_negative_data_refuted",
    "C41_zero_entry_refuted",
    "C41_last_window_refuted"
   ],
   "note": "Termination proved for all inputs. Agreement proved for positive data that becomes linear while more than three points are left; refuted for negative data, zero entries and the last window."
  },
  {
   "property": "C42",
   "status": "proved",
   "theorems": [
    "C42_zero",
    "C42_related",
    "C42_pipeline"
   ],
   "note": "The zero result of computeDerivative and, for the pipeline that bypasses the test, zero for spectra that do not move."
  },
  {
   "property": "C43",
   "status": "partial",
   "theorems": [
    "C43_round_trip",
    "C43_two_digits_refuted",
    "C43_distinct_names",
    "C43_name"
   ],
   "note": "Proved exactly for |step| <= 9; refuted for every other step."
  },
  {
   "property": "C44",
   "status": "proved",
   "theorems": [
    "C44_fisher_directories",
    "C44_combination_keys",
    "C44_reverse_involutive"
   ],
   "note": ""
  },
  {
   "property": "C45",
   "status": "partial",
   "theorems": [
    "C45_panels",
    "C45_linear",
    "C45_exact",
    "C45_exact_linear",
    "C45_trapezoid",
    "C45_rows",
    "C45_rejects",
    "C45_cols_whole",
    "C45_axis0_refuted",
    "C45_axis0_fails_refuted",
    "C45_spacing_unchecked"
   ],
   "note": "Fully proved for one-dimensional data and the last axis. With another axis the leftover weights are paired with the last axis, which gives a wrong value or a ValueError (refuted theorems). Unequal spacing is only logged."
  },
  {
   "property": "C46",
   "status": "proved",
   "theorems": [
    "C46_exact",
    "C46_degree_five"
   ],
   "note": ""
  },
  {
   "property": "C47",
   "status": "proved",
   "theorems": [
    "C47_ends",
    "C47_symmetric",
    "C47_monotone",
    "C47_top_hat"
   ],
   "note": ""
  },
  {
   "property": "C48",
   "status": "partial",
   "theorems": [
    "C48_array",
    "C48_table_positive",
    "C48_table_symmetric",
    "C48_table_negative",
    "C48_sign_refuted",
    "C48_opposite_refuted"
   ],
   "note": "Arrays and tables of positive sums: proved. For tables with negative sums the result is negative, and 100|x-y| when the values are opposite (refuted theorems)."
  },
  {
   "property": "C49",
   "status": "proved",
   "theorems": [
    "C49_overlap",
    "C49_absent_iff",
    "C49_symmetric",
    "C49_rejects"
   ],
   "note": ""
  },
  {
   "property": "C50",
   "status": "proved",
   "theorems": [
    "C50_defined",
    "C50_value",
    "C50_order",
    "C50_order_independent",
    "C50_accepts",
    "C50_constant_not_sorted",
    "C50_number",
    "C50_no_number"
   ],
   "note": ""
  },
  {
   "property": "C51",
   "status": "partial",
   "theorems": [
    "C51_linear",
    "C51_linear_integral",
    "C51_linear_overshoot_refuted",
    "C51_log",
    "C51_widths_from_centers",
    "C51_rejects",
    "C51_empty_accepted_refuted",
    "C51_nan_accepted_refuted"
   ],
   "note": "Proved for whole-number ranges (linear) and positive ranges with at least one bin (logarithmic). A fractional range overshoots l_max; zero bins or a non-positive l_min are not rejected (refuted theorems)."
  },
  {
   "property": "C52",
   "status": "partial",
   "theorems": [
    "C52_present",
    "C52_pairs",
    "C52_multipoles",
    "C52_spelling",
    "C52_spelling_refuted",
    "C52_unsorted_refuted",
    "C52_loaded",
    "C52_check",
    "C52_checked"
   ],
   "note": "Pairs, common multipoles and alignment proved for increasing grids. The widths are those of the first probe named, so the spelling matters exactly when the probes' widths differ; unsorted grids misalign (refuted theorems)."
  },
  {
   "property": "C53",
   "status": "partial",
   "theorems": [
    "C53_equal_iff",
    "C53_flag",
    "C53_probes",
    "C53_marginalize",
    "C53_half_loaded",
    "C53_fsky_refuted",
    "C53_zero_fsky_refuted",
    "C53_free_refuted",
    "C53_shot_noise_refuted"
   ],
   "note": "Exact condition of equality proved. Sky fractions are never compared (only tested for being non-zero), nor are free flags or the shot noise file (refuted theorems)."
  },
  {
   "property": "C54",
   "status": "partial",
   "theorems": [
    "C54_today",
    "C54_closure",
    "C54_positive",
    "C54_lambda",
    "C54_curvature",
    "C54_accepted",
    "C54_rounded_refuted"
   ],
   "note": "E(0)=1, Omega_m(0)=Omm and closure at every redshift hold; the reported OmK is rounded to 10 digits, so the three reported densities close only to 5e-11 and a flat cosmology is accepted up to that (C54_rounded_refuted)."
  },
  {
   "property": "C55",
   "status": "proved",
   "theorems": [
    "C55_camb",
    "C55_class",
    "C55_negative"
   ],
   "note": "Exact for CAMB and CLASS; CLASS's Omega_k is rounded to 6 digits; a negative cold dark matter density is passed on (C55_negative)."
  },
  {
   "property": "C56",
   "status": "proved",
   "theorems": [
    "C56_batches",
    "C56_empty",
    "C56_few"
   ],
   "note": "For every non-empty grid; an empty grid is a ValueError (C56_empty)."
  },
  {
   "property": "C57",
   "status": "partial",
   "theorems": [
    "C57_roundtrip",
    "C57_reread",
    "C57_updated",
    "C57_equals_refuted"
   ],
   "note": "Exact condition: keys and values without line breaks or surrounding blanks, keys not starting with '#', values without '='. A value with '=' is misread (C57_equals_refuted). Whatever was read from a file round-trips."
  },
  {
   "property": "C58",
   "status": "partial",
   "theorems": [
    "C58_tuned",
    "C58_finetune",
    "C58_ten",
    "C58_target_refuted"
   ],
   "note": "At most two evaluations, exact result, for every target except one within 1e-12 (relative) of the hard-coded start 10, which is never tuned (C58_target_refuted)."
  },
  {
   "property": "C59",
   "status": "proved",
   "theorems": [
    "C59_auto",
    "C59_once",
    "C59_cross",
    "C59_total",
    "C59_kernel",
    "C59_swap"
   ],
   "note": ""
  },
  {
   "property": "C60",
   "status": "partial",
   "theorems": [
    "C60_restart_exact",
    "C60_existing_not_recomputed",
    "C60_cut_file_never_repaired",
    "C60_second_run_raises",
    "C60_batch_restart_refuted",
    "C60_interrupted_write_refuted",
    "C60_overwrite",
    "C60_selected"
   ],
   "note": "Proved for the interactive stage interrupted between writes (C60_restart_exact, C60_existing_not_recomputed). Refuted: an interruption inside a file write leaves a torn file that is skipped for ever, and the batch form treats an existing store as complete (C60_interrupted_write_refuted, C60_batch_restart_refuted)."
  },
  {
   "property": "C61",
   "status": "partial",
   "theorems": [
    "C61_completes",
    "C61_restart_exact",
    "C61_interrupted_refuted",
    "C61_failure_blocks_reruns"
   ],
   "note": "Exact condition proved (C61_restart_exact): re-running completes iff nothing was done or the pickle was already written. Refuted in general (C61_interrupted_refuted); a failing derivative also blocks every later run."
  },
  {
   "property": "C62",
   "status": "partial",
   "theorems": [
    "C62_listed",
    "C62_before_limit",
    "C62_empty_listing_refuted",
    "C62_not_all_done_refuted",
    "C62_spurious_row_refuted",
    "C62_no_job"
   ],
   "note": "Exact outcome proved for listings in the usual form (C62_listed, C62_before_limit). Refuted in general: jobs missing from the listing or owned by a user whose name has a digit count as done, the time limit ends the wait normally, and the rest of a line can be read as another job."
  },
  {
   "property": "C63",
   "status": "partial",
   "theorems": [
    "C63_exact",
    "C63_honest_command",
    "C63_silent_failure_refuted",
    "C63_warning_refuted",
    "C63_jobs_in_order"
   ],
   "note": "The outcome depends on standard error alone (C63_exact), so the statement holds for commands that print there exactly when they fail, and is refuted in both directions."
  },
  {
   "property": "C64",
   "status": "partial",
   "theorems": [
    "C64_one_each",
    "C64_dry_run",
    "C64_order",
    "C64_nothing_to_run",
    "C64_power_spectra",
    "C64_external_directory_refuted",
    "C64_equal_identifiers",
    "C64_bad_name",
    "C64_identifiers",
    "C64_stem",
    "C64_command",
    "C64_options"
   ],
   "note": "Proved when external_dirs.json does not replace the directories (C64_one_each); a power spectrum directory given there replaces every run's own (C64_external_directory_refuted)."
  },
  {
   "property": "C65",
   "status": "partial",
   "theorems": [
    "C65_complete",
    "C65_no_duplicates",
    "C65_exact",
    "C65_prefix_refuted"
   ],
   "note": "Nothing is missed (C65_complete); exactness is proved equivalent to no foreign directory starting with one of the identifiers (C65_exact), and fails otherwise (C65_prefix_refuted)."
  },
  {
   "property": "C66",
   "status": "partial",
   "theorems": [
    "C66_stages",
    "C66_no_execution",
    "C66_no_execution_refuted"
   ],
   "note": "Proved for batch and interactive execution (C66_stages); with execution 'no' the densities are still computed when the power spectrum stage is absent (C66_no_execution_refuted)."
  },
  {
   "property": "C67",
   "status": "partial",
   "theorems": [
    "C67_cosmological",
    "C67_cosmological_unknown",
    "C67_physical",
    "C67_unknown_refuted",
    "C67_never_raises",
    "C67_two_digits_refuted",
    "C67_probes",
    "C67_unknown_probe",
    "C67_combination_recovered",
    "C67_single_probe_refuted",
    "C67_shared_name_refuted",
    "C67_cosmologies"
   ],
   "note": "Cosmological parameters, known physical parameters, the four probes and their combinations have different TeX names; cosmological parameters and combinations of two or more probes are recovered; unknown cosmological parameters and probes raise. Refuted: a single probe's TeX name is never recovered, GCsp and IST_GCsp share one, unknown physical parameters give an empty text, bins from ten on collide."
  },
  {
   "property": "C68",
   "status": "partial",
   "theorems": [
    "C68_newton_cotes",
    "C68_value",
    "C68_other",
    "C68_auto",
    "C68_cross",
    "C68_two_digits_refuted",
    "C68_piecewise"
   ],
   "note": "Proved equal to the true derivative of the computed spectra for bins 0-9; the bin is taken from the last character of the name, so bin 10 is confused with bin 0 (C68_two_digits_refuted)."
  },
  {
   "property": "C69",
   "status": "partial",
   "theorems": [
    "C69_density_round_trip",
    "C69_density_equal",
    "C69_kernel_round_trip",
    "C69_kernel_equality_raises",
    "C69_kernel_equal",
    "C69_power_round_trip",
    "C69_delta_round_trip",
    "C69_bias_round_trip",
    "C69_other_places",
    "C69_second_save_refused",
    "C69_collection_round_trip",
    "C69_empty_collection",
    "C69_weight_round_trip",
    "C69_densities_file",
    "C69_second_save_refuted",
    "C69_collections_merge_refuted",
    "C69_weights_merge_refuted",
    "C69_weight_refuted",
    "C69_kernel_refuted",
    "C69_new_file_says_when",
    "C69_update_says_when",
    "C69_member_says_nothing"
   ],
   "note": "Round trips are proved for densities, bias functions, kernels, power spectra, weight functions, Delta C_l blocks and collections, with the exact condition for equality, and second saves of single objects are refused with every dataset kept. Refuted as stated: a refused second save still changes attributes, collections and weight functions without common datasets are merged, a kernel that knows its weight functions cannot be compared after loading."
  },
  {
   "property": "C70",
   "status": "partial",
   "theorems": [
    "C70_nothing_else",
    "C70_written",
    "C70_kept",
    "C70_formats",
    "C70_unknown_format_refuted"
   ],
   "note": "Proved for all file states and names, with the exact condition under which other formats are rejected. Refuted: an unknown format is accepted in silence when the file exists and overwrite is not set."
  },
  {
   "property": "C71",
   "status": "partial",
   "theorems": [
    "C71_early_interruption_detected",
    "C71_late_interruption_undetected",
    "C71_interruption_detected_refuted"
   ],
   "note": "Proved for interruptions before the last dataset group; refuted for one before the nuisance dataset."
  },
  {
   "property": "C72",
   "status": "proved",
   "theorems": [
    "C72_sums",
    "C72_missing_addend_raises"
   ],
   "note": ""
  },
  {
   "property": "C73",
   "status": "partial",
   "theorems": [
    "C73_other_objects_unchanged",
    "C73_base_kept_refuted",
    "C73_marginalised"
   ],
   "note": "Methods change only their own object, but useBaseFishers shares the objects, so base matrices change (refuted)."
  },
  {
   "property": "C74",
   "status": "proved",
   "theorems": [
    "C74_select",
    "C74_missing_raises_unchanged"
   ],
   "note": ""
  },
  {
   "property": "C75",
   "status": "proved",
   "theorems": [
    "C75_accepts",
    "C75_convert",
    "C75_equality"
   ],
   "note": ""
  },
  {
   "property": "C76",
   "status": "proved",
   "theorems": [
    "C76_accepts",
    "C76_updates",
    "C76_conflict",
    "C76_file_names"
   ],
   "note": "File names for whole bin numbers and the same date."
  },
  {
   "property": "C77",
   "status": "partial",
   "theorems": [
    "C77_distinct",
    "C77_none",
    "C77_order_refuted",
    "C77_collision_refuted"
   ],
   "note": "Proved for complete valid options in the usual order; the identifier depends on the order of the options and different options may share it (refuted theorems)."
  },
  {
   "property": "C78",
   "status": "proved",
   "theorems": [
    "C78_growth",
    "C78_normalised",
    "C78_identity"
   ],
   "note": ""
  },
  {
   "property": "C79",
   "status": "partial",
   "theorems": [
    "C79_grid",
    "C79_again",
    "C79_kept",
    "C79_stale_refuted"
   ],
   "note": "First evaluation correct, repeated evaluation changes nothing; after a parameter change the arrays stay stale (C79_stale_refuted)."
  },
  {
   "property": "C80",
   "status": "proved",
   "theorems": [
    "C80_cut"
   ],
   "note": ""
  },
  {
   "property": "C81",
   "status": "proved",
   "theorems": [
    "C81_all_submitted",
    "C81_refused",
    "C81_no_scripts"
   ],
   "note": ""
  },
  {
   "property": "C82",
   "status": "partial",
   "theorems": [
    "C82_round_trip",
    "C82_only_run_names",
    "C82_impossible_date",
    "C82_two_digit_version_refuted"
   ],
   "note": "Proved for versions of one-digit numbers; 1.10.0 is not recognised (C82_two_digit_version_refuted)."
  },
  {
   "property": "C83",
   "status": "proved",
   "theorems": [
    "C83_entries",
    "C83_auto_succeeds",
    "C83_inverse",
    "C83_last_f_sky",
    "C83_collection",
    "C83_stage",
    "C83_covariance"
   ],
   "note": ""
  },
  {
   "property": "C84",
   "status": "partial",
   "theorems": [
    "C84_replay",
    "C84_densities_unused",
    "C84_missing_pair",
    "C84_no_file",
    "C84_loaded",
    "C84_wrong_shape",
    "C84_one_by_one",
    "C84_wrong_shape_refuted"
   ],
   "note": "an array with a side of 1 is broadcast over all bins instead of being refused (C84_wrong_shape_refuted, C84_one_by_one); everything else holds"
  },
  {
   "property": "C85",
   "status": "proved",
   "theorems": [
    "C85_matrix",
    "C85_symmetric",
    "C85_missing_pair",
    "C85_names",
    "C85_distinct_names",
    "C85_groups",
    "C85_single",
    "C85_built",
    "C85_invertible",
    "C85_stage",
    "C85_not_updated",
    "C85_stage_succeeds"
   ],
   "note": ""
  },
  {
   "property": "C86",
   "status": "proved",
   "theorems": [
    "C86_equal_iff",
    "C86_other_parameters",
    "C86_reflexive",
    "C86_symmetric",
    "C86_transitive",
    "C86_check",
    "C86_check_errors",
    "C86_consistent_accepted",
    "C86_kinds_not_compared"
   ],
   "note": ""
  },
  {
   "property": "C87",
   "status": "proved",
   "theorems": [
    "C87_values",
    "C87_unit_integral",
    "C87_outside",
    "C87_nonnegative",
    "C87_scale_free",
    "C87_bins_add_up",
    "C87_outliers",
    "C87_given",
    "C87_undershoot"
   ],
   "note": "Under the properties of scipy listed in DensSpec.ideal; C87_undershoot shows the proviso about the interpolated counts is needed."
  },
  {
   "property": "C88",
   "status": "proved",
   "theorems": [
    "C88_bins",
    "C88_given",
    "C88_given_without_numbers",
    "C88_shot_noise",
    "C88_total",
    "C88_total_refused"
   ],
   "note": ""
  },
  {
   "property": "C89",
   "status": "proved",
   "theorems": [
    "C89_entries",
    "C89_covered",
    "C89_probes"
   ],
   "note": ""
  },
  {
   "property": "C90",
   "status": "partial",
   "theorems": [
    "C90_not_set_up",
    "C90_set_up_keeps",
    "C90_set_up_iff",
    "C90_evaluate_keeps",
    "C90_evaluate_again",
    "C90_stage",
    "C90_set_up_after_reload",
    "C90_loaded_not_ready",
    "C90_reload_refuted"
   ],
   "note": "The last sentence is false: C90_reload_refuted; true after setUp is called again (C90_set_up_after_reload) and for a new object (C90_loaded_not_ready)."
  },
  {
   "property": "C91",
   "status": "proved",
   "theorems": [
    "C91_make",
    "C91_made",
    "C91_entry",
    "C91_file",
    "C91_merge",
    "C91_merged_values",
    "C91_merged_order",
    "C91_read_twice",
    "C91_selections"
   ],
   "note": ""
  },
  {
   "property": "C92",
   "status": "partial",
   "theorems": [
    "C92_power_spectra",
    "C92_spectra",
    "C92_foreign_directory",
    "C92_file",
    "C92_derivative_files",
    "C92_fisher_pairs",
    "C92_directories",
    "C92_central_name_refuted",
    "C92_two_digits_refuted"
   ],
   "note": "Proved for parameter names without the word central and steps of one digit; C92_central_name_refuted and C92_two_digits_refuted show both conditions are needed."
  },
  {
   "property": "C93",
   "status": "partial",
   "theorems": [
    "C93_read_back",
    "C93_own_file",
    "C93_same_name_refuted",
    "C93_params_name_refuted"
   ],
   "note": "Proved when the files have distinct names, none is params.json and none already lies in the directory of copies; the refuted theorems show the first two conditions are needed, C93_own_file the third (an error)."
  },
  {
   "property": "C94",
   "status": "partial",
   "theorems": [
    "C94_unknown_task",
    "C94_linked",
    "C94_prepared",
    "C94_missing_directory",
    "C94_retry_refuted",
    "C94_relative_source_refuted",
    "C94_linked_run_directory_refuted",
    "C94_power_spectra_refuted",
    "C94_power_spectra_ignored"
   ],
   "note": "Proved for run directories that are not behind a link and relative links (or absolute sources); the refuted theorems give the cases outside, and powerspectrum_dir, which prepare_workspace ignores. C94_prepared covers prepare_workspace in an existing run directory."
  },
  {
   "property": "C95",
   "status": "partial",
   "theorems": [
    "C95_densities",
    "C95_spectra",
    "C95_deltas",
    "C95_failed_computation",
    "C95_interrupted",
    "C95_interrupted_refuted",
    "C95_configuration_refuted",
    "C95_stuck_refuted",
    "C95_deltas_cut_refuted"
   ],
   "note": "Proved for runs that saved their results (values kept as in C69 and C96) and for failed computations. Refuted for interrupted runs: the next run silently goes on with the densities or blocks written so far, or fails for ever; results of another configuration are taken up without notice."
  },
  {
   "property": "C96",
   "status": "partial",
   "theorems": [
    "C96_round_trip",
    "C96_equal",
    "C96_no_kernel",
    "C96_no_kernel_refuted",
    "C96_weights_refuted",
    "C96_second_collection_refuted",
    "C96_unused_weight_refuted",
    "C96_equal_refuted"
   ],
   "note": "Proved for collections as the program builds them (every spectrum with a kernel, one weight function per probe) saved to a new file. Refuted as stated: spectra without kernels cannot be saved and leave a file that cannot be loaded; of two weight functions of a probe the first wins; a second collection in the file gets the weights of the first; weights that no spectrum uses are dropped; the comparison ignores spectra only the other collection has."
  },
  {
   "property": "C97",
   "status": "proved",
   "theorems": [
    "C97_beyond",
    "C97_behind",
    "C97_alignment",
    "C97_linear",
    "C97_nonnegative",
    "C97_methods"
   ],
   "note": "The quadrature is an argument; the adaptive method is any function of bin and redshift."
  },
  {
   "property": "C98",
   "status": "partial",
   "theorems": [
    "C98_round_trip",
    "C98_without_spectrum",
    "C98_invalid",
    "C98_no_parameters",
    "C98_once",
    "C98_load_into",
    "C98_arrays_not_compared",
    "C98_comparison_raises",
    "C98_checks",
    "C98_spectrum_refuted",
    "C98_no_grid_refuted",
    "C98_no_parameters_refuted",
    "C98_load_into_refuted",
    "C98_equality_refuted"
   ],
   "note": "Proved: everything is back after saving and loading (C98_round_trip), the exact condition for equality, the checks made on loading (C98_checks, C98_invalid), what loading into an object gives (C98_load_into), no second cosmology at one place (C98_once). False: a cosmology saved without spectrum, without parameters or with refused parameters cannot be loaded, one without grid leaves a file nothing can be saved to, loading into a cosmology keeps its old parameters, equality ignores the grids (refuted theorems)."
  },
  {
   "property": "C99",
   "status": "partial",
   "theorems": [
    "C99_file",
    "C99_unknown",
    "C99_logged",
    "C99_own_file",
    "C99_nuisance",
    "C99_inconsistent_refuted",
    "C99_unknown_parameter"
   ],
   "note": "Proved: which file is read, what is reported, the file of the run's own cosmology is read without a report, also for nuisance variations. False: a file with other values is reported but used (C99_inconsistent_refuted)."
  },
  {
   "property": "C100",
   "status": "proved",
   "theorems": [
    "C100_free_parameters",
    "C100_result_set",
    "C100_positive_definite"
   ],
   "note": "C100_result_set gives the content, C100_positive_definite that the set is created, C100_free_parameters the varying parameters and the KeyError. The writing of the analysis to its directory is not modelled here."
  },
  {
   "property": "C101",
   "status": "partial",
   "theorems": [
    "C101_regions",
    "C101_available",
    "C101_needs",
    "C101_consistent",
    "C101_range_level",
    "C101_mask",
    "C101_ellipse_below_level",
    "C101_plot_range",
    "C101_plot_range_shows"
   ],
   "note": "Proved over the real numbers: ranges, ellipses (covered set, shadows, order, growth), masks and what they need. False of the code, and proved so: an ellipse holds less than the probability of its level, at every level, because the one-dimensional factor sqrt(2) erfinv(CL) is used for two parameters (C101_ellipse_below_level); the plot range shows every 99 % range only if all matrices have the same error (C101_plot_range_shows)."
  },
  {
   "property": "C102",
   "status": "partial",
   "theorems": [
    "C102_own_directory",
    "C102_submission",
    "C102_order",
    "C102_batch",
    "C102_interactive",
    "C102_modes",
    "C102_job",
    "C102_test_batch_refuted",
    "C102_space_refuted",
    "C102_shared_refuted",
    "C102_command_line",
    "C102_usage",
    "C102_configs"
   ],
   "note": "Proved for values without spaces and quotes that do not begin with a dash: submission text, shell words, options read back, the one forecast of a job, order, modes, failures. False of the code, and proved so: --test_batch False is a test run, a working directory with a space gives jobs that cannot start, equal file names in the same second share a directory."
  },
  {
   "property": "C103",
   "status": "partial",
   "theorems": [
    "C103_untouched",
    "C103_final",
    "C103_tables",
    "C103_rerun",
    "C103_reload",
    "C103_complete",
    "C103_rerun_raises",
    "C103_glob"
   ],
   "note": "Proved for any disk: nothing outside is touched, contents of the files and tables, success for positive definite matrices and sums into a new directory. False of the code, and proved so: running it again raises FileExistsError (C103_rerun, C103_rerun_raises), and a result set cannot be loaded when a free cosmological parameter of the run is fixed in the cosmology, or for LCDM without w0 and wa (C103_reload gives the exact conditions)."
  },
  {
   "property": "C104",
   "status": "partial",
   "theorems": [
    "C104_entries",
    "C104_not_square",
    "C104_standard",
    "C104_spellings_refuted",
    "C104_name",
    "C104_unnamed",
    "C104_name_refuted",
    "C104_run",
    "C104_saved"
   ],
   "note": "File names whose probe is followed by letters of the name pattern raise KeyError (C104_name_refuted), and two spellings of one parameter collide (C104_spellings_refuted)."
  },
  {
   "property": "C105",
   "status": "partial",
   "theorems": [
    "C105_parse",
    "C105_central",
    "C105_unknown",
    "C105_injective",
    "C105_digits_refuted"
   ],
   "note": "A displacement written with another number of digits is taken as the fiducial case (C105_digits_refuted); everything else is proved."
  },
  {
   "property": "C106",
   "status": "partial",
   "theorems": [
    "C106_read",
    "C106_symmetric",
    "C106_mirrored",
    "C106_refused",
    "C106_no_separator_refuted"
   ],
   "note": "Bin numbers written without separator are misread (C106_no_separator_refuted); entries listed both ways in an auto correlation file are exchanged (C106_mirrored)."
  },
  {
   "property": "C107",
   "status": "partial",
   "theorems": [
    "C107_read",
    "C107_rising",
    "C107_incomplete",
    "C107_units",
    "C107_files",
    "C107_twice",
    "C107_variation",
    "C107_order_refuted"
   ],
   "note": "Tables with rising redshifts are accepted and read in the opposite order (C107_rising, C107_order_refuted); proved for falling redshifts."
  },
  {
   "property": "C108",
   "status": "partial",
   "theorems": [
    "C108_spectra",
    "C108_own_inputs",
    "C108_displaced",
    "C108_flags",
    "C108_constant",
    "C108_ten_bins",
    "C108_eleven_bins_refuted",
    "C108_piecewise",
    "C108_flagship",
    "C108_growth",
    "C108_vdn",
    "C108_lensing",
    "C108_edges",
    "C108_errors"
   ],
   "note": "With eleven or more bins a constant bias gives the third bin the parameter of number 10 (C108_eleven_bins_refuted); everything else holds for all inputs."
  },
  {
   "property": "C109",
   "status": "partial",
   "theorems": [
    "C109_flat",
    "C109_flat_groups",
    "C109_order",
    "C109_walk",
    "C109_walk_groups",
    "C109_missing",
    "C109_pipeline",
    "C109_mandatory_refuted",
    "C109_link_refuted"
   ],
   "note": "Both searches are proved in full (which directories, in which order, with which groups; runs of the pipeline are recognised). Refuted parts: with additional patterns the mandatory ones are not required, and links are judged by different names in the two searches."
  },
  {
   "property": "C110",
   "status": "proved",
   "theorems": [
    "C110_rows",
    "C110_columns",
    "C110_success",
    "C110_apart",
    "C110_kinds",
    "C110_failure"
   ],
   "note": ""
  },
  {
   "property": "C111",
   "status": "partial",
   "theorems": [
    "C111_frame",
    "C111_frame_success",
    "C111_frame_order_refuted",
    "C111_replaced",
    "C111_stale_refuted",
    "C111_missing",
    "C111_duplicates",
    "C111_succeeds",
    "C111_failed_again",
    "C111_select",
    "C111_select_text_refuted",
    "C111_select_names",
    "C111_tables",
    "C111_complete"
   ],
   "note": "Frame, replacement, selection by numbers and truth values, table of errors and loading are proved. Refuted parts: options in another order end under wrong names, relative errors become stale, selection by a text fails; after a failure the frame stays indexed."
  },
  {
   "property": "C112",
   "status": "partial",
   "theorems": [
    "C112_lookup",
    "C112_exchange",
    "C112_in",
    "C112_tuples",
    "C112_text",
    "C112_text_refuted",
    "C112_text_missing",
    "C112_set",
    "C112_update",
    "C112_set_exchanged_refuted",
    "C112_set_tuple_refuted",
    "C112_delete",
    "C112_bad",
    "C112_copy_refuted",
    "C112_tuple_dict",
    "C112_tuple_dict_text",
    "C112_spectra"
   ],
   "note": "look-ups, membership, tuples and deletions as stated; the text of a tuple is wrong for pairs stored in the other order, storing under an exchanged pair or a tuple makes a second entry, and copies are empty"
  },
  {
   "property": "C113",
   "status": "partial",
   "theorems": [
    "C113_round_trip",
    "C113_injective",
    "C113_read",
    "C113_order",
    "C113_other_separator",
    "C113_time",
    "C113_time_full_second_refuted",
    "C113_time_full_second",
    "C113_duration_text",
    "C113_metadata",
    "C113_duration_refuted",
    "C113_bool",
    "C113_bool_error"
   ],
   "note": "round trip, order, refusal and sums as stated; the milliseconds can be a full second, and the duration in the metadata is wrong for runs of a day or more"
  },
  {
   "property": "C114",
   "status": "partial",
   "theorems": [
    "C114_job",
    "C114_resubmitted_refuted",
    "C114_batch_refuted",
    "C114_jobs",
    "C114_no_jobs",
    "C114_order_refuted",
    "C114_counts",
    "C114_stage",
    "C114_again_refuted",
    "C114_again_counts",
    "C114_stages",
    "C114_run",
    "C114_nothing_refuted",
    "C114_not_completed_refuted",
    "C114_report",
    "C114_report_refuted",
    "C114_never_refuted"
   ],
   "note": "Holds for the status of a job, the counters and status of a stage, the status of a run and the contents of a report that is completed. Refuted: jobs of a batch run are not found, listing order matters with several error files, text order of identifiers, double evaluation, runs without stages, stages not completed, jobs without error file, and the condition of the submitter; a stage without jobs fails."
  },
  {
   "property": "C115",
   "status": "partial",
   "theorems": [
    "C115_agree",
    "C115_complete",
    "C115_unrelated",
    "C115_analytic",
    "C115_method",
    "C115_round_trip",
    "C115_not_evaluated",
    "C115_foreign_group",
    "C115_stage",
    "C115_read",
    "C115_other_probes_refuted",
    "C115_misaligned_refuted"
   ],
   "note": "Proved: both ways of computing derivatives agree, zero for other probes, methods, round trip of the file, reading by the Fisher stage. Refuted: a missing step is noticed only by the number of files, and a second run with other probes makes the Fisher stage fail."
  },
  {
   "property": "C116",
   "status": "partial",
   "theorems": [
    "C116_time",
    "C116_figure",
    "C116_name",
    "C116_later_name",
    "C116_row",
    "C116_table",
    "C116_later_refuted",
    "C116_missing_refuted",
    "C116_empty",
    "C116_figure_form",
    "C116_point",
    "C116_date_form",
    "C116_seconds"
   ],
   "note": "C116_row, C116_table, C116_time, C116_figure, C116_name and C116_empty hold for all texts for logs named in 2020 or 2021 and jobs of less than a day; false of the code otherwise: from 2022 on no table is ever written (C116_later_refuted, C116_later_name), one log without a figure leaves no table (C116_missing_refuted), durations lose whole days (C116_row)"
  },
  {
   "property": "C117",
   "status": "partial",
   "theorems": [
    "C117_saved",
    "C117_noise",
    "C117_entries",
    "C117_probes",
    "C117_several_refuted",
    "C117_missing_pair",
    "C117_no_file",
    "C117_empty_refuted"
   ],
   "note": "True of the single spectra and of the blocks of single probes, which are all that the Fisher matrices use (C117_noise, C117_entries, C117_probes, C117_saved). False of the matrices of several probes in the collection: they keep the saved noise (C117_several_refuted). A collection without an entry or with a single block cannot be read back (C117_empty_refuted)."
  },
  {
   "property": "C118",
   "status": "partial",
   "theorems": [
    "C118_tests",
    "C118_succeeds",
    "C118_same",
    "C118_symmetric",
    "C118_negative_refuted",
    "C118_fails",
    "C118_no_results_refuted",
    "C118_results",
    "C118_own_results_refuted",
    "C118_version",
    "C118_no_version_refuted",
    "C118_thresholds",
    "C118_version_letter",
    "C118_version_end",
    "C118_name"
   ],
   "note": "The tests are exact for entries with a positive sum; entries with a negative sum always pass, runs without results and the results written by the code cannot be compared (refuted)."
  },
  {
   "property": "C119",
   "status": "partial",
   "theorems": [
    "C119_jobs",
    "C119_directories",
    "C119_found",
    "C119_content",
    "C119_in_memory",
    "C119_few_refuted",
    "C119_many_refuted",
    "C119_scripts"
   ],
   "note": "Jobs, directories, files found, contents, agreement with the computation in memory and scripts are proved for at most nine displacements. False beyond: with ten or more a step of two digits is computed as another step; with fewer than seven the computation in memory fails where the jobs work."
  },
  {
   "property": "C120",
   "status": "partial",
   "theorems": [
    "C120_flags",
    "C120_word_refuted",
    "C120_ini",
    "C120_ini_false_refuted",
    "C120_ini_cores_refuted",
    "C120_ini_errors",
    "C120_checks",
    "C120_refused",
    "C120_number_as_path_refuted",
    "C120_run_id",
    "C120_no_run_id",
    "C120_zeros_refuted",
    "C120_cleanup",
    "C120_cleanup_not_executed_refuted",
    "C120_cleanup_steps_refuted"
   ],
   "note": "Flags on the command line, precedence of the ini file, errors, checks, paths, names and the removal of variations are proved for all inputs. False of the code, and refuted: other texts start a stage, values of the ini file are not converted, leading zeros of identifiers are lost, numeric paths are refused, directories are removed although nothing was executed."
  },
  {
   "property": "C121",
   "status": "partial",
   "theorems": [
    "C121_new",
    "C121_no_forecast",
    "C121_existing",
    "C121_rerun",
    "C121_grid_alone",
    "C121_grid_refuted",
    "C121_data_refuted",
    "C121_metadata_refuted"
   ],
   "note": "New runs, the stored inputs used by runs on existing directories, the grid of spectra computed alone and repeated runs are proved for all inputs. False of the code, and refuted: the input data of densities, the grid when power spectra are recomputed with another configuration, the metadata."
  },
  {
   "property": "C122",
   "status": "partial",
   "theorems": [
    "C122_products",
    "C122_sigma8",
    "C122_total",
    "C122_no_sigma8",
    "C122_same_symbol_refuted",
    "C122_known",
    "C122_eleven_bins_refuted",
    "C122_alignment_refuted"
   ],
   "note": "false with bins 1 and 10 together, whose biases have one symbol, and with the intrinsic alignment parameters, whose texts are no symbols; proved for all matrices with distinct symbols, among them all subsets of the cosmological parameters and the first ten biases"
  },
  {
   "property": "C123",
   "status": "partial",
   "theorems": [
    "C123_parameters",
    "C123_displacements",
    "C123_box",
    "C123_no_lensing_parameters_refuted",
    "C123_alignment_refuted",
    "C123_zero_derivative_refuted",
    "C123_loaded",
    "C123_void_refuted",
    "C123_box_refuted",
    "C123_file",
    "C123_file_stamp",
    "C123_file_inner_refuted"
   ],
   "note": "Rows, displacements, probes, multipoles, files and settings are proved for all windows; refuted: alignment parameters belong to the probe WL, void pages cannot be loaded, the box for external multipoles is ignored, inner .json extensions count."
  },
  {
   "property": "C124",
   "status": "partial",
   "theorems": [
    "C124_query",
    "C124_defaults",
    "C124_unknown_option_refuted",
    "C124_selected",
    "C124_columns",
    "C124_constant_result_refuted",
    "C124_query_columns",
    "C124_unknown_key",
    "C124_empty_query_refuted",
    "C124_difference",
    "C124_difference_unknown",
    "C124_percentage",
    "C124_fom",
    "C124_fom_total",
    "C124_fom_flat_refuted",
    "C124_hybrid",
    "C124_hybrid_missing",
    "C124_latex",
    "C124_decrease_refuted",
    "C124_no_bins_refuted"
   ],
   "note": "Selections, differences, figures of merit, four-bin rows and LaTeX rows are proved for all tables; refuted: unknown options, empty queries, constant result columns, single index level, signs of decreases, rows without bins."
  },
  {
   "property": "C125",
   "status": "partial",
   "theorems": [
    "C125_old_cosmology",
    "C125_growth_refuted",
    "C125_rewritten_refuted",
    "C125_110",
    "C125_newer",
    "C125_power_spectrum_refuted",
    "C125_letters_refuted",
    "C125_old_spectra",
    "C125_old_spectra_total",
    "C125_grid_refuted",
    "C125_new_spectra",
    "C125_derivatives",
    "C125_derivatives_total"
   ],
   "note": "Choice of the reader and contents are proved for all versions and files; refuted: growth factor, files written in the old layout, the option for the power spectrum, the grid of old spectra, other letters."
  },
  {
   "property": "C126",
   "status": "partial",
   "theorems": [
    "C126_name",
    "C126_matched",
    "C126_files",
    "C126_build",
    "C126_never_refuted",
    "C126_begun_refuted",
    "C126_read",
    "C126_derivatives",
    "C126_distinct",
    "C126_refused",
    "C126_spectrum",
    "C126_twice_refuted"
   ],
   "note": "The conversion of spectra always fails, which is proved (C126_never_refuted, C126_begun_refuted); two files of one variation are not noticed (C126_twice_refuted). The grouping of the files and the reading of derivatives are proved in full."
  },
  {
   "property": "C127",
   "status": "partial",
   "theorems": [
    "C127_passes",
    "C127_missing",
    "C127_other_h",
    "C127_removal_refuted",
    "C127_none"
   ],
   "note": "When it passes and the two assertions are proved for all collections; the removal of other parameters is refuted: it ends with a RuntimeError after the first (C127_removal_refuted)."
  },
  {
   "property": "C128",
   "status": "proved",
   "theorems": [
    "C128_inverse",
    "C128_units",
    "C128_counts",
    "C128_monotone"
   ],
   "note": "Over the real numbers; rounding is not modelled."
  },
  {
   "property": "C129",
   "status": "partial",
   "theorems": [
    "C129_read",
    "C129_readable",
    "C129_text_refuted",
    "C129_empty",
    "C129_made",
    "C129_not_made",
    "C129_again",
    "C129_optional_refuted",
    "C129_suffix_refuted",
    "C129_stale_refuted"
   ],
   "note": "Making and reading are proved for all contents and orders, and that all five files given are read again from a new directory (C129_again); refuted for optional files left out, other suffixes, directories used before and paths given as texts."
  }
 ]
}