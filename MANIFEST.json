{
 "claims": [
  {
   "property": "C01",
   "status": "proved",
   "theorems": [
    "C01_operators_preserve_value",
    "C01_negation_preserves_value",
    "C01_operators_defined",
    "C01_formula_value",
    "C01_formula_defined",
    "C01_operation_plus_number_refuted"
   ],
   "note": "Value preservation for every pair of trees, totality for numeric trees, and whole formulas; an operation plus a plain Python number raising is recorded as a refutation."
  },
  {
   "property": "C02",
   "status": "proved",
   "theorems": [
    "C02_simplify_preserves_value",
    "C02_simplify_no_new_identifiers"
   ],
   "note": "For every tree and assignment; also no new identifiers."
  },
  {
   "property": "C03",
   "status": "partial",
   "theorems": [
    "C03_floor_division_partial",
    "C03_floor_division_defined",
    "C03_floor_division_by_one_refuted",
    "C03_identifier_floor_one_refuted",
    "C03_power_partial",
    "C03_zero_power_refuted",
    "C03_power_of_operation_refuted",
    "C03_zero_divisor_reported",
    "C03_zero_divisor_of_operation_reported",
    "C03_zero_over_zero_refuted",
    "C03_round_of_integer_typed_quotient_refuted"
   ],
   "note": "Proved where the code agrees with Python; rounding instead of floor for divisors 1 and -1, 0**0, 0/0 and powers of operations are refuted."
  },
  {
   "property": "C04",
   "status": "partial",
   "theorems": [
    "C04_evaluate_is_substitution_partial",
    "C04_known_identifiers_disappear",
    "C04_member_name_refuted",
    "C04_second_evaluation_refuted"
   ],
   "note": "Proved for trees without struct members of a known name and without an Expr inside a Value; both exceptions refuted."
  },
  {
   "property": "C05",
   "status": "partial",
   "theorems": [
    "C05_independent_is_constant_partial",
    "C05_occurring_names_reported",
    "C05_membership_sound",
    "C05_hidden_dependence_refuted"
   ],
   "note": "Proved for trees without an Expr inside a Value; that exception refuted by a reachable example."
  },
  {
   "property": "C06",
   "status": "proved",
   "theorems": [
    "C06_promotion_is_a_join",
    "C06_order_and_brackets_do_not_matter",
    "C06_reported_type"
   ],
   "note": "Join laws, independence of order and brackets, and the type reported by operations."
  },
  {
   "property": "C07",
   "status": "partial",
   "theorems": [
    "C07_characters_read_back_partial",
    "C07_read_write_read_characters",
    "C07_c_reads_the_value_partial",
    "C07_instrument_reads_the_value_partial",
    "C07_read_write_read",
    "C07_quotient_by_product_refuted",
    "C07_after_evaluate_refuted",
    "C07_power_refuted",
    "C07_negative_power_refuted",
    "C07_floor_division_refuted",
    "C07_abs_refuted",
    "C07_sum_of_comparison_refuted",
    "C07_two_signs_refuted",
    "C07_two_signs_after_evaluate_refuted",
    "C07_member_named_like_parameter_refuted"
   ],
   "note": "Every tree whose unbracketed operands bind tight enough is read back with its value by C and by the instrument reader, and whatever was read from a file survives writing and reading, also as characters through the lexer; refuted: quotient by a product, powers, floor division, abs, comparison inside a sum, two signs, members named like a parameter."
  },
  {
   "property": "C08",
   "status": "partial",
   "theorems": [
    "C08_folding_agrees_partial",
    "C08_division_refuted",
    "C08_floor_division_refuted",
    "C08_round_of_constant",
    "C08_round_refuted"
   ],
   "note": "Every constant tree in which no step overflows and every division is exact; every inexact division, negative floor division and round at a half refuted."
  },
  {
   "property": "C09",
   "status": "partial",
   "theorems": [
    "C09_equality_is_an_equivalence_partial",
    "C09_equal_means_same_value_partial",
    "C09_expr_equality_symmetric",
    "C09_symmetry_refuted",
    "C09_same_value_refuted",
    "C09_equal_expressions_hash_alike_partial",
    "C09_equal_values_hash_alike",
    "C09_equal_sums_hash_differently_refuted",
    "C09_operations_have_no_hash_refuted"
   ],
   "note": "Equivalence and value proved between trees with consistent labelling; symmetry between Expr and bare operation and equality of identifier and string refuted; equal expressions without sums and products have equal hashes, equal sums may not, and operations have none."
  },
  {
   "property": "C10",
   "status": "proved",
   "theorems": [
    "C10_exactly_the_parameters_are_flagged",
    "C10_nothing_else_changes",
    "C10_value_kept",
    "C10_idempotent",
    "C10_flagged_iff_named",
    "C10_hidden_identifier_refuted"
   ],
   "note": "Exact flags, skeleton, value, idempotence; identifiers inside a Value holding an Expr are missed (refuted)."
  },
  {
   "property": "C11",
   "status": "proved",
   "theorems": [
    "C11_from_angles_orthogonal",
    "C11_distances_preserved",
    "C11_from_angles_matches_runtime"
   ],
   "note": "Degrees and radian; equality with the run time matrix included."
  },
  {
   "property": "C12",
   "status": "partial",
   "theorems": [
    "C12_single_axis_parts_turn_partial",
    "C12_single_axis_parts_rigid_partial",
    "C12_angles_add_partial",
    "C12_half_turn_not_rigid_refuted",
    "C12_radian_parts_refuted",
    "C12_symbolic_angle_refuted"
   ],
   "note": "All constant angles in degrees but 180; the code is wrong at 180 degrees, for radian parts and for symbolic angles (three refutations)."
  },
  {
   "property": "C13",
   "status": "partial",
   "theorems": [
    "C13_resolve_composes",
    "C13_concatenation_composes",
    "C13_inverse_undoes_partial",
    "C13_reduce_keeps_map_partial",
    "C13_inverse_undoes_refuted",
    "C13_orient_inverse_refuted"
   ],
   "note": "Composition and concatenation for every chain; inverse and reduce for chains without half turns; half turn and Orient.inverse refuted."
  },
  {
   "property": "C14",
   "status": "partial",
   "theorems": [
    "C14_placement_agrees_partial",
    "C14_backward_references_are_placed",
    "C14_absolute_rotation_refuted",
    "C14_half_turn_refuted",
    "C14_c_placement_rigid"
   ],
   "note": "Every instrument whose angles are not half turns and where ROTATED has a reference when AT has one; both exceptions refuted."
  },
  {
   "property": "C15",
   "status": "partial",
   "theorems": [
    "C15_particle_in_component_frame_partial",
    "C15_instrument_partial",
    "C15_first_component_skipped_refuted"
   ],
   "note": "Every instrument whose first component is not skipped or sits at the laboratory origin; the other case refuted."
  },
  {
   "property": "C16",
   "status": "proved",
   "theorems": [
    "C16_names_stay_unique",
    "C16_addition_effect",
    "C16_lookup_by_name",
    "C16_missing_name_raises"
   ],
   "note": "Uniqueness under every history of additions, exact effect of an addition, and lookup by name."
  },
  {
   "property": "C17",
   "status": "proved",
   "theorems": [
    "C17_parameters_stay_unique",
    "C17_first_definition_wins",
    "C17_repeat_is_an_error"
   ],
   "note": "Every history; a repeated name is kept or refused as requested."
  },
  {
   "property": "C18",
   "status": "proved",
   "theorems": [
    "C18_one_entry_last_writer",
    "C18_entry_count",
    "C18_instance_overrides_component",
    "C18_instrument_collects_all"
   ],
   "note": "Every history of metadata additions, on components, instances and the instrument."
  },
  {
   "property": "C19",
   "status": "partial",
   "theorems": [
    "C19_references_point_backwards",
    "C19_resolution_partial",
    "C19_copy_of_unknown_raises",
    "C19_included_components",
    "C19_unknown_reference_refuted",
    "C19_previous_zero_refuted",
    "C19_previous_too_far_refuted"
   ],
   "note": "Every instrument that is read without error has only backward references, and a reference resolves to the component meant by the text when that component exists; unknown names, PREVIOUS(0) and PREVIOUS(n) beyond the start are accepted (three refutations)."
  },
  {
   "property": "C20",
   "status": "partial",
   "theorems": [
    "C20_groups_match_components",
    "C20_leader_first_last",
    "C20_second_call_refuted"
   ],
   "note": "First call proved in full; a second call duplicates the members (refuted)."
  },
  {
   "property": "C21",
   "status": "partial",
   "theorems": [
    "C21_split_keeps_components",
    "C21_second_part_closed",
    "C21_kept_references",
    "C21_groups_stale_refuted",
    "C21_first_part_placement",
    "C21_second_part_placement_partial",
    "C21_quarter_turn_refuted"
   ],
   "note": "Components, closedness, references and placement; placement of the second part proved but for a quarter turn about y, which is refuted, as are stale group ids."
  },
  {
   "property": "C22",
   "status": "partial",
   "theorems": [
    "C22_mentioned_parameters_survive",
    "C22_only_removes",
    "C22_reported_count",
    "C22_uservars_refuted"
   ],
   "note": "Proved for the parts the code searches; a parameter used only in USERVARS is removed (refuted)."
  },
  {
   "property": "C23",
   "status": "partial",
   "theorems": [
    "C23_history_determines_value_partial",
    "C23_refusals",
    "C23_refused_overwrite_refuted",
    "C23_repeat_stored_refuted"
   ],
   "note": "Histories without a refused overwrite; the refused overwrite and the repeated parameter are refuted."
  },
  {
   "property": "C24",
   "status": "partial",
   "theorems": [
    "C24_make_instance_partial",
    "C24_group_and_removable_refuted"
   ],
   "note": "Arguments other than group and removable; those two are refuted (positional call)."
  },
  {
   "property": "C25",
   "status": "partial",
   "theorems": [
    "C25_expands",
    "C25_only_well_formed",
    "C25_terminates",
    "C25_error_kinds_partial",
    "C25_plain_text_unchanged",
    "C25_key_at_end_refuted",
    "C25_expansion_rescanned_refuted"
   ],
   "note": "Expansion, termination, error kinds and unchanged plain text; a key at the end of the text and re-scanning of expanded text refuted."
  },
  {
   "property": "C26",
   "status": "partial",
   "theorems": [
    "C26_instance_characters_partial",
    "C26_instance_round_trip_partial",
    "C26_trace_round_trip_partial",
    "C26_split_lost_refuted",
    "C26_removable_lost_refuted",
    "C26_absolute_rotation_lost_refuted",
    "C26_counted_jump_refuted",
    "C26_jump_name_lost_refuted",
    "C26_translated_jump_refuted"
   ],
   "note": "Every instance within the stated fragment and every TRACE section made of them; SPLIT, REMOVABLE, an absolute zero rotation, jump targets named like NEXT_x and translated jumps refuted. counted jumps cannot be read. C26_trace theorems are at token level and take tokens as kept apart; C26_instance_characters_partial is at character level, for instances whose words do not touch (the run-on after ROTATED is C58_rotated_runs_on_refuted)."
  },
  {
   "property": "C27",
   "status": "partial",
   "theorems": [
    "C27_range_lists_its_grid_partial",
    "C27_range_iteration_terminates",
    "C27_constructor_rejects",
    "C27_single_point_range",
    "C27_range_lists_its_grid_refuted",
    "C27_empty_range_length_refuted"
   ],
   "note": "As stated refuted (descending ranges whose step does not divide the span, and the announced length of an empty range); the grid description is proved for every range satisfying the stated side condition, termination and constructor checks in full."
  },
  {
   "property": "C28",
   "status": "partial",
   "theorems": [
    "C28_linear_scan_count_and_values",
    "C28_grid_scan_complete_partial",
    "C28_grid_scan_count_refuted",
    "C28_linear_scan_rejects_mismatch",
    "C28_one_element_list_refuted"
   ],
   "note": "Linear scans proved in full; grid scans proved when every item is sound; announced count refuted for one-element lists and for ranges of C27."
  },
  {
   "property": "C29",
   "status": "partial",
   "theorems": [
    "C29_one_run_per_point_partial",
    "C29_runs_ignore_point_values",
    "C29_runs_get_point_values_refuted"
   ],
   "note": "One run per point is proved; that the run receives the values of its point is refuted (runner.py:180)."
  },
  {
   "property": "C30",
   "status": "proved",
   "theorems": [
    "C30_command_line_parse",
    "C30_command_line_accepts",
    "C30_reading_unique",
    "C30_sort_args",
    "C30_negative_value_refuted"
   ],
   "note": "Parsing, acceptance, uniqueness of the reading and argument sorting; a negative value after a bare option is recorded as a refuted reading of sort_args."
  },
  {
   "property": "C31",
   "status": "partial",
   "theorems": [
    "C31_data_added",
    "C31_order_does_not_matter",
    "C31_grouping_does_not_matter",
    "C31_ncount_added",
    "C31_contradictions_reported_partial",
    "C31_compatible_files_combine",
    "C31_zero_dimensional_refuted",
    "C31_error_bars_refuted",
    "C31_contradiction_accepted_refuted",
    "C31_totals_in_header_refuted",
    "C31_order_decides_success_refuted",
    "C31_square_file_refuted",
    "C31_columns_read_partial"
   ],
   "note": "Sums of data and Ncount, order, grouping and compatibility proved for any number of files; zero-dimensional files, error bars, ignored header keys, header totals, success depending on order and square files refuted."
  },
  {
   "property": "C32",
   "status": "partial",
   "theorems": [
    "C32_monitors_are_the_union",
    "C32_sums_per_monitor_partial",
    "C32_total_conserved_partial",
    "C32_each_monitor_from_its_inputs_partial",
    "C32_signal_extremes",
    "C32_signal_mean",
    "C32_error_bars_refuted",
    "C32_error_depends_on_order_refuted",
    "C32_width_shrinks_refuted",
    "C32_first_file_duplicates_refuted",
    "C32_ncount_of_repeats_partial",
    "C32_ncount_other_directory_refuted",
    "C32_parameter_lost_refuted",
    "C32_order_does_not_matter_partial",
    "C32_compatible_files_combine",
    "C32_no_events_refuted"
   ],
   "note": "Union of monitors, per-monitor sums and totals, extremes and mean, order independence and success proved for any number of files whose first lists each monitor once; error bars, widths, duplicates in the first file, Ncount of runs in different directories, lost parameters and runs without events refuted."
  },
  {
   "property": "C33",
   "status": "proved",
   "theorems": [
    "C33_round_trip",
    "C33_what_is_read_is_well_formed",
    "C33_read_write_read",
    "C33_text_determines_description",
    "C33_empty_name_refuted",
    "C33_marker_in_value_refuted"
   ],
   "note": "For every description within the stated format, and for every text that can be read at all; empty names and marker texts inside values are recorded as refutations outside the format."
  },
  {
   "property": "C34",
   "status": "partial",
   "theorems": [
    "C34_registries_sorted",
    "C34_best_registry_answers",
    "C34_component_names_never_raise",
    "C34_lower_priority_changes_nothing",
    "C34_later_of_equal_priority_changes_nothing",
    "C34_search_ignores_priority_refuted",
    "C34_priority_after_construction_refuted",
    "C34_which_is_a_substring_test_refuted",
    "C34_which_partial"
   ],
   "note": "Order by priority, first match, best registry and stability under additions proved for the registries given at construction; SEARCH and append_registry ignore the priority and a restriction by name is a substring test (refuted)."
  },
  {
   "property": "C35",
   "status": "partial",
   "theorems": [
    "C35_listed_file_is_served",
    "C35_served_file_is_listed",
    "C35_other_component_served_refuted",
    "C35_known_but_fails_refuted",
    "C35_same_base_name_refuted",
    "C35_local_file_is_served_partial",
    "C35_local_directory_served_refuted",
    "C35_local_known_but_fails_refuted",
    "C35_memory_serves_the_last",
    "C35_memory_case_refuted",
    "C35_memory_has_no_path"
   ],
   "note": "A listed file is served by remote registries and by local ones under a stated side condition, registries in memory in full; refuted: another component served for a name that ends alike, known but failing, a directory served, same base name in two directories, case of the ending."
  },
  {
   "property": "C36",
   "status": "partial",
   "theorems": [
    "C36_same_definition_for_a_name",
    "C36_read_at_most_once",
    "C36_different_names_different_objects",
    "C36_failing_file_read_again_refuted",
    "C36_circular_copies_fail",
    "C36_two_names_one_file_refuted"
   ],
   "note": "Same object for a name, no second reading, distinct objects, circular copies; a failing file is read again at every request and two names may denote one file (refuted)."
  },
  {
   "property": "C37",
   "status": "partial",
   "theorems": [
    "C37_complete_listing_is_read_back",
    "C37_second_start_agrees",
    "C37_second_start_differs_refuted",
    "C37_interrupted_before_opening_partial",
    "C37_interrupted_write_refuted",
    "C37_files_silently_missing_refuted",
    "C37_start_fails_forever_refuted",
    "C37_bad_download_is_not_kept"
   ],
   "note": "Complete listings are read back and an interruption before the file is opened is harmless; every interruption during the write is refuted, for every listing and every point."
  },
  {
   "property": "C38",
   "status": "partial",
   "theorems": [
    "C38_each_library_once_in_order",
    "C38_acyclic_libraries_are_collected",
    "C38_circular_headers_never_end_refuted",
    "C38_acyclic_libraries_rejected_refuted",
    "C38_library_in_included_file_refuted",
    "C38_file_including_itself_never_ends_refuted",
    "C38_sources_once_partial",
    "C38_library_of_two_sources_twice_refuted",
    "C38_header_before_the_one_it_needs_refuted",
    "C38_own_header_never_ends_refuted",
    "C38_chain_of_three_is_ordered"
   ],
   "note": "Collection and ordering: exactly the needed libraries, each once, each behind those its header needs, and collection ends for every acyclic set of headers; refuted: acyclic headers rejected by the ordering, circular headers and self-including files never end, libraries inside included files, libraries that only sources ask for."
  },
  {
   "property": "C39",
   "status": "proved",
   "theorems": [
    "C39_components_in_order",
    "C39_never_twice",
    "C39_all_called"
   ],
   "note": "Instruments of components without GROUP, JUMP and SPLIT, for arbitrary component code, WHEN, coordinate changes: order, arguments, at most once, all called without absorption. C40, C41 and C43 extend it."
  },
  {
   "property": "C40",
   "status": "partial",
   "theorems": [
    "C40_groups_are_alternatives_partial",
    "C40_when_on_first_refuted",
    "C40_codeless_member_refuted",
    "C40_user_variables_leak_refuted"
   ],
   "note": "Groups of adjacent members with code whose first member has no WHEN; a WHEN on the first member, a member without code and user variables set by a failed member are refuted."
  },
  {
   "property": "C41",
   "status": "partial",
   "theorems": [
    "C41_groups_and_jumps_partial",
    "C41_jump_from_group_refuted",
    "C41_jump_from_last_member_refuted",
    "C41_jump_into_group_refuted",
    "C41_loop_follows_jumps",
    "C41_counters_start_at_zero",
    "C41_iterate_count",
    "C41_named_target",
    "C41_relative_target",
    "C41_unknown_target_raises",
    "C41_stale_target_refuted",
    "C41_previous_of_first_refuted",
    "C41_counter_name_clash_refuted"
   ],
   "note": "Loop and jump machine are equivalent for every instrument without SPLIT whose group members do not jump and whose jumps lead to no later member; jumps of group members and jumps past the first member are refuted; iteration counts, counter reset and target resolution; PREVIOUS of the first component, stale targets on a second translation and clashing counter names refuted."
  },
  {
   "property": "C42",
   "status": "partial",
   "theorems": [
    "C42_funnel_agrees_partial",
    "C42_funnel_never_leaves_a_group_refuted",
    "C42_group_exit_refuted",
    "C42_jump_ignored_refuted"
   ],
   "note": "Agreement for instruments of plain components; no particle leaves a GROUP in funnel mode (proved for every instrument) and JUMP is ignored, so the claim as stated is refuted."
  },
  {
   "property": "C43",
   "status": "partial",
   "theorems": [
    "C43_random_numbers_go_on",
    "C43_calls_with_splits",
    "C43_weight_between_neighbours",
    "C43_weight_everywhere",
    "C43_terminates_partial",
    "C43_weight_conserved",
    "C43_split_zero_refuted",
    "C43_jump_over_split_refuted"
   ],
   "note": "Termination for every instrument without JUMP and with SPLIT of at least one; with any number of SPLITs on components and groups the exact sequence of calls, random numbers that go on from call to call (every instrument), and weight conserved between neighbours; SPLIT 0 and a jump back over SPLIT refuted."
  },
  {
   "property": "C44",
   "status": "partial",
   "theorems": [
    "C44_no_component_macro_leaks",
    "C44_own_names_are_visible",
    "C44_nothing_else_changes_partial",
    "C44_run_num_leaks_refuted",
    "C44_parameter_named_like_coordinate_refuted",
    "C44_definitions_balanced_partial",
    "C44_save_definitions_refuted"
   ],
   "note": "For every instrument: no component macro reaches foreign code, every block sees its own names, and, if names do not clash with generated or library macros, nothing else changes; bodies of macros are balanced. Refuted: mcget_run_num is never undefined, a parameter named like a coordinate removes the macro of later components, every definition for the SAVE code of an instrument is unbalanced."
  },
  {
   "property": "C45",
   "status": "partial",
   "theorems": [
    "C45_literal_reads_as_text_partial",
    "C45_ascii_text_survives",
    "C45_latin_letters_refuted",
    "C45_control_before_digit_refuted",
    "C45_trigraph_refuted",
    "C45_surrogate_refuted",
    "C45_parameter_table_partial",
    "C45_quote_in_unit_refuted"
   ],
   "note": "Exact characterisation, for texts without trigraphs, of those that are read back; refuted: every character from 128 to 255, control characters before a hexadecimal digit, trigraphs, surrogates, quotes in units and defaults."
  },
  {
   "property": "C46",
   "status": "partial",
   "theorems": [
    "C46_options_survive_updates_partial",
    "C46_nexus_is_lost_refuted",
    "C46_target_of_a_compilation",
    "C46_command_starts_with_the_compiler",
    "C46_flags_exactly_when_requested",
    "C46_linker_words",
    "C46_windows_flags_partial",
    "C46_windows_words_refuted",
    "C46_run_command",
    "C46_mpi_with_acc_refuted",
    "C46_existing_binary_refuted"
   ],
   "note": "All options but nexus survive every history of updates, compilation from the command line gets what was asked for, flags are present exactly when requested, linker words and run command; refuted: nexus lost by an update, words and /DYNAMICBASE on Windows, MPI with OpenACC cannot be run, an existing binary is never run."
  },
  {
   "property": "C47",
   "status": "partial",
   "theorems": [
    "C47_object_round_trip",
    "C47_instrument_round_trip_partial",
    "C47_unsupported_class_refuted",
    "C47_registry_priority_refuted",
    "C47_radians_refuted",
    "C47_overridden_type_refuted",
    "C47_unstorable_refuted",
    "C47_metadata_equality_refuted",
    "C47_minimal_mode_refuted",
    "C47_same_name_components_refuted",
    "C47_foreign_reference_refuted",
    "C47_other_version_refused",
    "C47_other_class_refused"
   ],
   "note": "Every object of the stored classes and every well-formed instrument comes back: fields, order of instances, references by position, groups as a mapping, lists of any length; what another version wrote, or what claims another class, is refused; refuted: classes without a handler (InMemoryRegistry), registry priority, rotations in radians, minimal mode, operations with an overridden data type, integers beyond 64 bits and NUL, different components of one name, references outside the instrument, equality of metadata. Opening a file is not modelled."
  },
  {
   "property": "C48",
   "status": "partial",
   "theorems": [
    "C48_names_are_distinct_partial",
    "C48_effect_of_an_addition",
    "C48_parameter_by_name",
    "C48_output_repeats_setting_refuted",
    "C48_copy_keeps_and_adds_parameters",
    "C48_definitions_are_unambiguous",
    "C48_redefining_a_copied_parameter_is_refused",
    "C48_sections_partial",
    "C48_section_of_a_copy_is_appended_refuted",
    "C48_share_is_doubled_refuted"
   ],
   "note": "DEFINITION and SETTING names, lookup by name, copies keep and add parameters, copied sections; refuted: OUTPUT may repeat a name (depending on order), a section given in a copy is appended to the original, SHARE COPY doubles the shared code."
  },
  {
   "property": "C49",
   "status": "partial",
   "theorems": [
    "C49_members_have_distinct_names",
    "C49_members_are_the_wanted_ones",
    "C49_members_are_as_declared",
    "C49_numbers_of_instrument_variables",
    "C49_disagreement_in_text_is_reported_partial",
    "C49_repetition_is_accepted",
    "C49_array_is_declared_as_scalar_refuted",
    "C49_array_and_scalar_refuted",
    "C49_contradictory_initial_values_refuted",
    "C49_member_lines",
    "C49_builtin_member_refuted",
    "C49_types_of_one_name_refuted"
   ],
   "note": "Every instrument that passes has exactly the wanted members, each once and as declared, stable numbers, and disagreement in the written text is reported while repetition is accepted; refuted: arrays lose their size, array against scalar and contradictory initial values pass, names of built-in members pass, types of one name."
  },
  {
   "property": "C50",
   "status": "partial",
   "theorems": [
    "C50_call_agrees_with_file_partial",
    "C50_unknown_reference_is_refused",
    "C50_program_agrees_with_file_partial",
    "C50_absolute_rotation_refuted",
    "C50_foreign_instance_refuted",
    "C50_spellings_refuted",
    "C50_failed_call_leaves_component_refuted"
   ],
   "note": "Every accepted call whose rotation is not explicitly absolute beside a relative position, and every program of such calls, gives the instances of the corresponding file; refuted: an explicit absolute rotation is taken relative to the reference of AT, instances of another instrument are accepted, spellings of PREVIOUS and ABSOLUTE, a failing call leaves its component behind."
  },
  {
   "property": "C51",
   "status": "proved",
   "theorems": [
    "C51_index_of_component",
    "C51_index_identifies",
    "C51_address_of_component_parameters",
    "C51_address_of_user_variable"
   ],
   "note": "The generated functions, read as C text, for every list of distinct names."
  },
  {
   "property": "C52",
   "status": "partial",
   "theorems": [
    "C52_parameter_about_y",
    "C52_quarter_turn_and_parameter_refuted",
    "C52_two_parameters_refuted",
    "C52_expressions_have_values",
    "C52_matrix_of_parameters",
    "C52_recovered_angles_partial",
    "C52_recovered_angles_of_placement_partial",
    "C52_quarter_turn_refuted"
   ],
   "note": "Numbers: every rotation but those with a quarter turn about y; that case refuted. Angles that are parameters: the expressions of the matrix have the values of the rotation; a turn about y alone is found exactly; refuted: 90 degrees about x with a parameter about y is found as -90, and with parameters about x and y the angle about x is found in radian."
  },
  {
   "property": "C53",
   "status": "partial",
   "theorems": [
    "C53_same_reading_partial",
    "C53_modulo_refuted",
    "C53_or_and_refuted",
    "C53_not_refuted",
    "C53_comparisons_refuted",
    "C53_shifts_refuted",
    "C53_conditional_refuted",
    "C53_texts_are_trees",
    "C53_expression_has_the_value_of_the_text_partial",
    "C53_numeric_texts_are_accepted",
    "C53_names_are_marked",
    "C53_member_with_parameter_name_refuted",
    "C53_element_of_parameter_refuted",
    "C53_power_of_operation_refuted",
    "C53_call_without_arguments_refuted"
   ],
   "note": "Texts over + - * / >> < && with any brackets, calls, items and members; modulo, || with &&, !, mixed comparisons, mixed shifts and nested conditionals refuted. The visitors build an expression with the value of the tree, and succeed on numeric texts; a name standing for a value is marked as a parameter exactly if it is one; refuted: powers of operations raise, a call without arguments gets one, a member named like a parameter is looked for among the parameters, an element of a parameter is not."
  },
  {
   "property": "C54",
   "status": "partial",
   "theorems": [
    "C54_flags",
    "C54_components_around_the_file",
    "C54_same_file",
    "C54_reader_is_absolute",
    "C54_second_part_closed",
    "C54_succeeds",
    "C54_split_again_refuted",
    "C54_component_dropped_refuted",
    "C54_unused_parameter_left_refuted"
   ],
   "note": "Components of both parts, the shared file name, the absolute place of the reader, closed references, success; refuted: a part cannot be split again, the condition, EXTEND code, jumps, group and metadata of the named component are dropped, parameters only it used remain."
  },
  {
   "property": "C55",
   "status": "partial",
   "theorems": [
    "C55_parameters_are_stored_partial",
    "C55_text_or_null_for_a_number_refuted",
    "C55_computed_vector_refuted",
    "C55_parameter_in_list_refuted",
    "C55_long_text_refuted",
    "C55_conditional_text_refuted",
    "C55_definition_parameter_refuted",
    "C55_computed_default_refuted",
    "C55_declared_variables_are_initialised_partial",
    "C55_declared_call_refuted"
   ],
   "note": "Every member holds the value given or the default after the generated statements, for values of the kind the member is made for, and array initialisers without commas or braces in items; refuted: text given for a number, computed vectors, instrument parameters in initialiser lists, texts beyond 16384 characters, conditional texts, DEFINITION parameters, computed defaults, commas within initialiser items."
  },
  {
   "property": "C56",
   "status": "partial",
   "theorems": [
    "C56_type_of_last",
    "C56_types_as_asked_partial",
    "C56_own_type_refuted",
    "C56_known_types_unchanged_refuted",
    "C56_symbolic_values_partial",
    "C56_simple_assignments_are_evaluated",
    "C56_integer_variable_refuted",
    "C56_member_name_refuted",
    "C56_head_not_replaced_refuted",
    "C56_known_values_unchanged_refuted"
   ],
   "note": "For every block, known values and state: the expressions found have the values after execution, if the operators are those both readers order alike, and members, elements and integer conversion are not involved; simple numeric blocks are always evaluated; refuted: fractions stored in integer variables, member names replaced by values, variables before a member or an element not replaced, the known values of the caller overwritten. Data types, with the objects shared: exactly the type asked for the last variable whose value comes from the same place; as asked if there is no other such variable; refuted: a copied variable has the type of its copy, the types of the values of the caller are changed."
  },
  {
   "property": "C57",
   "status": "partial",
   "theorems": [
    "C57_integer_kept_iff_partial",
    "C57_octal_refuted",
    "C57_float_kept_partial",
    "C57_overflow_refuted",
    "C57_hexadecimal_arithmetic_refuted",
    "C57_strings_kept_partial",
    "C57_final_quote_refuted",
    "C57_escape_before_digit_refuted",
    "C57_prefix_refuted"
   ],
   "note": "Exact characterisation for integers, every finite floating point literal, adjacent string literals; refuted: octal literals, literals beyond the largest double, arithmetic with hexadecimal literals, a final escaped quote, an escape before a digit of the next literal, encoding prefixes."
  },
  {
   "property": "C58",
   "status": "partial",
   "theorems": [
    "C58_instrument_characters_partial",
    "C58_rotated_runs_on_refuted",
    "C58_comment_refuted",
    "C58_default_dropped_refuted",
    "C58_keyword_name_refuted",
    "C58_block_end_refuted"
   ],
   "note": "Every instrument within the stated conditions, from characters to characters. Not read: SHELL, SEARCH, COPY, includes. Refuted: an instance that writes ROTATED and then GROUP, EXTEND, JUMP or METADATA (the words run together, the file cannot be read), a source name that ends the comment, a block that contains its end mark, default values that are not constants, names that are keywords."
  },
  {
   "property": "C59",
   "status": "partial",
   "theorems": [
    "C59_members_partial",
    "C59_name_in_size_refuted",
    "C59_literal_refuted",
    "C59_omitted_refuted",
    "C59_trailing_comma_refuted",
    "C59_flat_refuted",
    "C59_octal_refuted",
    "C59_brackets_refuted",
    "C59_arguments_refuted",
    "C59_storage_refuted"
   ],
   "note": "Every list of declarations of names, pointers, arrays and pointers to functions within the stated conditions. Refuted: the name of the variable at the start of its first size, arrays initialised without braces (division by zero), an omitted size next to one that is not a number, lists that end in a comma, initialisers with fewer braces than dimensions, octal sizes, brackets around names and pointers to arrays, function arguments ending in a bracket, storage classes."
  },
  {
   "property": "C60",
   "status": "partial",
   "theorems": [
    "C60_table_partial",
    "C60_no_default_refuted",
    "C60_named_default_refuted",
    "C60_computed_default_refuted",
    "C60_quote_in_unit_refuted",
    "C60_prefix_refuted"
   ],
   "note": "Every list of parameters with constant default values and units that are plain text or one literal, read back with a reader of C string literals. Refuted: a missing default is the text None, a default that is a name is its characters, a computed default ends the translation, quotes inside units and literals with a prefix are no C."
  },
  {
   "property": "C61",
   "status": "partial",
   "theorems": [
    "C61_read_by_name_partial",
    "C61_write_by_name_partial",
    "C61_write_then_read",
    "C61_addresses",
    "C61_restore",
    "C61_read_by_number",
    "C61_initial_values_partial",
    "C61_start",
    "C61_other_type_refuted",
    "C61_array_overwrites_refuted",
    "C61_pointer_overwritten_refuted",
    "C61_function_pointer_refuted",
    "C61_not_initialised_refuted",
    "C61_jump_counters_partial",
    "C61_jump_names_refuted",
    "C61_jump_twice_refuted"
   ],
   "note": "Every list of user variables, layout and memory. Refuted: variables that are not double are read as double, arrays are written beyond their member, pointers are overwritten with the data, pointers to functions are copied in part, arrays and other types are left uninitialised, counters of different JUMPs share a name."
  },
  {
   "property": "C62",
   "status": "partial",
   "theorems": [
    "C62_functions_are_distinct",
    "C62_init",
    "C62_save",
    "C62_finally",
    "C62_display",
    "C62_freed_was_allocated_partial",
    "C62_default_vector_refuted",
    "C62_save_place_refuted",
    "C62_display_place_refuted"
   ],
   "note": "Exact sequence of events of init, save, finally and display for every instrument. Refuted: default vectors are never freed, the place reported during SAVE and DISPLAY is wrong."
  },
  {
   "property": "C63",
   "status": "partial",
   "theorems": [
    "C63_written_is_read",
    "C63_written_again",
    "C63_written_has_all_keys",
    "C63_combination_is_sound",
    "C63_combined_file",
    "C63_read_is_sound",
    "C63_square_file_refuted",
    "C63_fourth_table_refuted",
    "C63_no_bins_refuted",
    "C63_two_dimensional_names_refuted",
    "C63_hash_lost_refuted"
   ],
   "note": "Round trip of text for all files with clean values, also after combining. Refuted: files with as many bins as variables, more than three tables, no bins, two dimensional files of different names, values ending in #."
  },
  {
   "property": "C64",
   "status": "partial",
   "theorems": [
    "C64_items",
    "C64_boundaries",
    "C64_axes",
    "C64_unit",
    "C64_single_bin_refuted",
    "C64_label_without_unit_refuted",
    "C64_parameter_hides_limits_refuted",
    "C64_limits_as_edges_refuted"
   ],
   "note": "Items, axes, boundaries and units for all files. Refuted: one bin, label without unit, parameter named like the limits; boundaries are not those of limits that are outer edges."
  },
  {
   "property": "C65",
   "status": "partial",
   "theorems": [
    "C65_single_run",
    "C65_scan_runs",
    "C65_short_names_refuted",
    "C65_value_with_blank_refuted",
    "C65_directory_with_blank_refuted"
   ],
   "note": "Exact commands for single runs and scans with values without blanks. Refuted: short option names in scans, blanks in values and directories."
  },
  {
   "property": "C66",
   "status": "partial",
   "theorems": [
    "C66_command_line",
    "C66_no_parameters_refuted",
    "C66_directory_refuted",
    "C66_process_count_refuted",
    "C66_old_binary_refuted",
    "C66_executable_file_refuted",
    "C66_python_run_refuted",
    "C66_results",
    "C66_same_name_lost_refuted"
   ],
   "note": "Compile and run for every command line outside the findings. Refuted: no parameters, directory option, number of processes, existing binaries, executable files, mcstas_run, files of the same name."
  },
  {
   "property": "C67",
   "status": "partial",
   "theorems": [
    "C67_table",
    "C67_from_file",
    "C67_marked_value",
    "C67_name_with_blank_refuted",
    "C67_instances_alike_refuted"
   ],
   "note": "The table is read as the collected metadata for all texts that are literals on their own, in particular ordinary texts of files. Refuted: names with blanks give no C; metadata of a component type have the name of the type, once for each instance."
  },
  {
   "property": "C68",
   "status": "partial",
   "theorems": [
    "C68_names",
    "C68_type_of_the_program_refuted",
    "C68_instance_instrument_refuted",
    "C68_type_and_parameters_refuted",
    "C68_structures",
    "C68_control_members",
    "C68_split_copy_refuted"
   ],
   "note": "The exact condition for distinct names of types, variables and functions, a sufficient one for structures, an exact one for the members that control SPLIT and GROUP. Refuted in general: types particle, instrument or X_parameters, instances instrument, SPLIT on a and a_particle."
  },
  {
   "property": "C69",
   "status": "partial",
   "theorems": [
    "C69_text_in_place",
    "C69_removable",
    "C69_parts",
    "C69_copy_names_refuted",
    "C69_two_levels_refuted",
    "C69_included_dependency_refuted",
    "C69_removable_flags_refuted",
    "C69_myself_refuted"
   ],
   "note": "Proved whenever the nested reading succeeds, at every depth, for included files whose instances have names of their own. Refuted: names by COPY, references across two levels, DEPENDENCY of included files, MYSELF in expressions."
  },
  {
   "property": "C70",
   "status": "partial",
   "theorems": [
    "C70_ways",
    "C70_types",
    "C70_own_dependency_refuted",
    "C70_search_refuted"
   ],
   "note": "Proved: the two ways differ in exactly two points, and the flags of all types used are kept. Refuted: get_instrument drops the DEPENDENCY of the instrument, parse_mccode_instr drops the registries of SEARCH."
  },
  {
   "property": "C71",
   "status": "partial",
   "theorems": [
    "C71_keywords",
    "C71_meaning",
    "C71_backslash_refuted",
    "C71_text_between_refuted",
    "C71_literal",
    "C71_quotes_refuted",
    "C71_each_once",
    "C71_same_words",
    "C71_order_refuted"
   ],
   "note": "Proved for text between keywords that is not itself a name and configured values without backslash: all keywords are put in; each dependency once, the same words up to order. Refuted: backslash in values, a name between keywords, a final quote of a component flag, the order of the words."
  },
  {
   "property": "C72",
   "status": "partial",
   "theorems": [
    "C72_types",
    "C72_defaults",
    "C72_integer_array_refuted",
    "C72_computed_element_refuted",
    "C72_definition_name_refuted"
   ],
   "note": "Proved for numbers, texts, lists of numbers, NULL and missing defaults. Refuted: int * parameters, computed elements of lists, defaults that name a DEFINITION parameter."
  },
  {
   "property": "C73",
   "status": "partial",
   "theorems": [
    "C73_parameters",
    "C73_names_stay_different",
    "C73_repeated",
    "C73_every_argument",
    "C73_written_type",
    "C73_text_is_read",
    "C73_more_text_refuted",
    "C73_unit_first_refuted",
    "C73_whole_float_refuted",
    "C73_text_without_quotes_refuted",
    "C73_unit_not_read_refuted",
    "C73_user_variable",
    "C73_user_variables_refuted",
    "C73_user_type_refuted"
   ],
   "note": "Proved: what is added for each form of argument, names stay different, repeated names, written text with quoted units is read again, one variable is declared once. Refuted: further text dropped, unit before the value, whole floats, text without quotes, units without quotes in written files, several variables in one text, a variable of another type."
  },
  {
   "property": "C74",
   "status": "partial",
   "theorems": [
    "C74_copy",
    "C74_plain",
    "C74_chain",
    "C74_stated_jump_target",
    "C74_named_jump_target",
    "C74_made_name_is_new",
    "C74_copied_relative_jump_refuted",
    "C74_repeated_parameter_refuted",
    "C74_metadata_source_refuted",
    "C74_made_name_refuted"
   ],
   "note": "Proved: what a copy and a plain instance have, chains of copies, targets of stated jumps, targets of named jumps (copied or not), made names. Refuted: copied jumps to PREVIOUS, NEXT and MYSELF; repeated parameters count differently in a copy; the source of copied metadata; made names may collide with written ones."
  },
  {
   "property": "C75",
   "status": "partial",
   "theorems": [
    "C75_keys_are_replaced",
    "C75_other_text_is_kept",
    "C75_text_with_keys",
    "C75_configured_header",
    "C75_header_is_written",
    "C75_macro_keeps_order",
    "C75_macro_order_refuted",
    "C75_earlier_translation",
    "C75_embedded_file",
    "C75_version_in_the_header_refuted",
    "C75_own_header_refuted",
    "C75_version_of_the_text_refuted",
    "C75_earlier_translation_refuted",
    "C75_registry_text_is_one_line",
    "C75_unique_means_one"
   ],
   "note": "Proved: which text is replaced by what, what stays, when the header is written, embedded files, order of version numbers below 100/1000, when an earlier translation has no effect. Refuted: the version of the library never reaches the header (registry libc, flavor mcstas); own copy of the header; text and version of the same registry; independence of an earlier translation; order of all version numbers."
  },
  {
   "property": "C76",
   "status": "partial",
   "theorems": [
    "C76_documented_forms",
    "C76_accepted_place",
    "C76_at_most_one",
    "C76_again",
    "C76_later_first",
    "C76_search_directory",
    "C76_search_of_words",
    "C76_shell_last_line",
    "C76_shell_lines",
    "C76_shell_of_words",
    "C76_search_named_directory_refuted",
    "C76_search_github_refuted",
    "C76_search_again_refuted",
    "C76_again_github_refuted",
    "C76_name_like_directory_refuted",
    "C76_shell_directory_refuted"
   ],
   "note": "Proved: the four forms from Python, what an accepted text leaves, that a text is not added twice (forms one to three), the order of several statements, SEARCH of one directory, SEARCH of several words fails, lines of a shell command without a last line end, commands of several words fail. Refuted: SEARCH with a name, SEARCH of the fourth form, SEARCH twice, the fourth form twice, a name like a searched directory, a printed directory with its line end."
  },
  {
   "property": "C77",
   "status": "partial",
   "theorems": [
    "C77_set_in_session",
    "C77_save_and_start_again",
    "C77_get_prints_value",
    "C77_get_finds_value",
    "C77_get_below_text",
    "C77_set_is_kept_refuted",
    "C77_set_then_save_refuted",
    "C77_unset_refuted",
    "C77_list_selects_refuted",
    "C77_list_shows_all_refuted",
    "C77_get_full_refuted",
    "C77_save_keeps_refuted",
    "C77_list_top_keys",
    "C77_remove_exactly",
    "C77_remove_asks",
    "C77_remove_inside_refuted",
    "C77_remove_empty_name_refuted",
    "C77_cache_list"
   ],
   "note": "Proved: get, set within one program, save and start again for keys that are not both in the file and set above it, list of top keys, removal with plain names, the ten answers that mean yes, the list of caches. Refuted: set is there in the next command, set then save, unset removes, list selects by expression, list shows all settings in effect, get without key shows all, save keeps settings beside one from the environment, removal stays inside of the cache, removal with an empty name."
  },
  {
   "property": "C78",
   "status": "partial",
   "theorems": [
    "C78_same_parameters",
    "C78_included_parameters",
    "C78_parameters_are_declared",
    "C78_parameters_are_read",
    "C78_previous_refuted",
    "C78_all_parameters_refuted",
    "C78_int_default_refuted",
    "C78_myself_refuted"
   ],
   "note": "Proved: the same parameters where there is no included file and no PREVIOUS in an expression; with included files the own parameters are the first ones; what each declaration gives; which files can be read. Refuted: PREVIOUS in an expression of an instance, parameters of included files, integer defaults are integers, MYSELF in an expression."
  },
  {
   "property": "C79",
   "status": "partial",
   "theorems": [
    "C79_search_order",
    "C79_file_first",
    "C79_one_file_is_read_partial",
    "C79_text_and_name_refuted",
    "C79_directory_refuted",
    "C79_memory_instrument_refuted",
    "C79_memory_instrument_kept",
    "C79_default_output",
    "C79_distribution_added",
    "C79_library_beside_component",
    "C79_library_elsewhere_refuted"
   ],
   "note": "Proved: the order of the searches, existing files first, name and text of one file for local registries and for remote ones that list the name, the default output, the distribution behind what is given. Refuted: name and text of one file where only a longer name is listed, directories in front of a name, instruments in memory, libraries beside components after the functions of the loader."
  },
  {
   "property": "C80",
   "status": "partial",
   "theorems": [
    "C80_page_shows_text_partial",
    "C80_value_shown",
    "C80_block_refuted",
    "C80_metadata_quote_refuted"
   ],
   "note": "Proved for instruments without metadata in whose C code, names, places and JUMP conditions no less-than sign and ampersand stands; parameter values and WHEN expressions are arbitrary. Refuted: C code with a less-than sign before a letter, JUMP conditions and places (not escaped), metadata (one quote too many)."
  },
  {
   "property": "C81",
   "status": "partial",
   "theorems": [
    "C81_tags_found",
    "C81_latest",
    "C81_requested",
    "C81_always_a_version",
    "C81_tag_exists_refuted",
    "C81_one_version",
    "C81_kept_apart"
   ],
   "note": "Tags are found, chosen and refused as stated if all tags of the repository are names of versions (v and one to three numbers). Refuted otherwise: after a tag v3.6.0-rc1 the version used is v3.6.0, which does not exist, and v3.6.0-rc1 is refused. git and pooch are not modelled."
  },
  {
   "property": "C82",
   "status": "partial",
   "theorems": [
    "C82_stated",
    "C82_copy",
    "C82_guessed_remote",
    "C82_guessed_local",
    "C82_memory_category_refuted",
    "C82_category_name_refuted",
    "C82_instances_partial",
    "C82_instances_refuted"
   ],
   "note": "Proved for stated categories in quotation marks, for COPY, for remote files in a directory and for local files; the search gives all instances of the category, and no others if no other category contains the text. Refuted: files in memory have their file name as category; a category stated as a name cannot be read; the search also gives instances of categories that contain the text."
  },
  {
   "property": "C83",
   "status": "partial",
   "theorems": [
    "C83_tried_before",
    "C83_tried_once",
    "C83_what_was_done",
    "C83_default_place",
    "C83_nexus_not_tried_refuted",
    "C83_mpi_with_acc_not_tried_refuted",
    "C83_configured_later_refuted",
    "C83_used_untried_refuted",
    "C83_variable_in_name_refuted",
    "C83_existing_binary_refuted",
    "C83_name_with_dot_refuted"
   ],
   "note": "Proved for every history: a trial with the compiler of the target succeeded before, each compiler is tried at most once, what was run and which files exist for each outcome, and the default place. Refuted: the flags for NeXus, and those for MPI together with OpenACC, are in no trial; a compiler configured later is never tried; a compiler named by an environment variable is refused; an existing binary needs a compiler and is returned for any target; a name with a dot loses what follows."
  },
  {
   "property": "C84",
   "status": "partial",
   "theorems": [
    "C84_line_above_mark_partial",
    "C84_first_lines_refuted",
    "C84_mark_column"
   ],
   "note": "Proved from the fifth line on and for sources of fewer than five lines. Refuted: in the first four lines of any longer source neither the line nor any line before it is shown."
  },
  {
   "property": "C85",
   "status": "partial",
   "theorems": [
    "C85_number_is_meant",
    "C85_range_is_meant",
    "C85_step_is_one",
    "C85_colon_means_range",
    "C85_text_with_colon_refuted",
    "C85_text_with_other_characters_kept",
    "C85_other_text_kept",
    "C85_text_kept_refuted",
    "C85_handed_on_unchanged"
   ],
   "note": "Proved for all decimal numbers, ranges of them and every text without a colon that Python does not take for a number. Refuted: texts with a colon cannot be given at all, and a text that looks like a number (0071, 2024_11, Infinity) is changed even for a string parameter."
  },
  {
   "property": "C86",
   "status": "partial",
   "theorems": [
    "C86_each_type_once",
    "C86_again_the_same",
    "C86_made_by_name_refuted",
    "C86_made_beside_read_refuted",
    "C86_outcome_repeats_refuted"
   ],
   "note": "Proved for all instruments in which instances of the same type have the same object, which is so for files. Refuted: two instances made with the name of their component (Instr.make_instance, mcpl_split beside an MCPL_output) have two objects, and every translation of such an instrument fails for any component with code; tried again, it succeeds."
  },
  {
   "property": "C87",
   "status": "partial",
   "theorems": [
    "C87_embedded_text_is_the_text_read",
    "C87_ordinary_file_is_embedded",
    "C87_not_embedded",
    "C87_not_asked_files_unused",
    "C87_main_as_asked",
    "C87_loaded_instrument_refuted",
    "C87_changed_file_refuted",
    "C87_assembled_instrument_refuted",
    "C87_carriage_returns_refuted"
   ],
   "note": "Proved for instruments read by the commands from a file that does not change, up to the texts that do not survive in C strings (C45). Refuted: an instrument from load_mcstas_instr has no source, so the translation with embedding fails for every file; the file is read anew, so a changed text is embedded and an unreadable file silently gives the advice to use --source; a file named interactive is embedded into assembled instruments; the program named in the advice is None."
  },
  {
   "property": "C88",
   "status": "partial",
   "theorems": [
    "C88_right_handed_axis",
    "C88_below_120_degrees_partial",
    "C88_axis_in_plane",
    "C88_sense_unnoticed_refuted",
    "C88_axis_exists",
    "C88_single_axis",
    "C88_half_turn_refuted",
    "C88_specialization_keeps_map_partial",
    "C88_specialized_half_turn_refuted"
   ],
   "note": "Proved for all rotations if the vector is right-handed, and for either vector through less than 120 degrees or with an axis in a coordinate plane. Refuted: around the diagonal through 120 to below 180 degrees the opposite vector comes with the angle of the opposite rotation. The specialization is proved to keep the map except for half turns (refuted). Rounding of numbers is not modelled."
  },
  {
   "property": "C89",
   "status": "partial",
   "theorems": [
    "C89_equal_iff_same_place",
    "C89_equality_is_consistent",
    "C89_placeholder_refuted",
    "C89_list_not_compared_refuted",
    "C89_versions_differ",
    "C89_library_is_there",
    "C89_twice_is_once",
    "C89_two_versions_refuted",
    "C89_old_libraries_noticed",
    "C89_branch_refuted",
    "C89_ensured"
   ],
   "note": "Equality is proved to be sameness of place, consistent and without exceptions; the library is there, added only if missing, in order of priority, and no more on a second translation; warnings are counted exactly. Refuted: a registry that could not be loaded is not equal to itself; lists of files are not compared; an instrument with a library of another version gets both and its header cannot be configured; the library of a branch raises. pooch and versions with more than digits and dots are arbitrary functions."
  },
  {
   "property": "C90",
   "status": "partial",
   "theorems": [
    "C90_known_and_contain",
    "C90_known_but_not_read_refuted",
    "C90_unique_is_served_remote",
    "C90_unique_is_served_local",
    "C90_unique_in_memory_refuted",
    "C90_unique_in_one",
    "C90_unique_elsewhere_refuted",
    "C90_search_finds",
    "C90_found_is_served",
    "C90_local_search_refuted",
    "C90_local_found_not_served_refuted"
   ],
   "note": "Proved: known and contain agree with each other and with which registry is read; unique names of remote and local registries are served; search and match find what they say, and names found in remote registries and in memory are served. Refuted: a known file may not be readable; a registry in memory never says unique; a unique file may come from another registry; in local registries a search finds directories only (before Python 3.13) and names found cannot be asked for. Symbolic links are not modelled."
  },
  {
   "property": "C91",
   "status": "partial",
   "theorems": [
    "C91_copy_shows",
    "C91_copy_of_all",
    "C91_changing_the_copy",
    "C91_changing_the_original_partial",
    "C91_split_leaves_the_original",
    "C91_second_part_on_its_own",
    "C91_translating_another",
    "C91_parts_one_after_the_other_partial",
    "C91_renaming_the_original_refuted",
    "C91_far_back_refuted",
    "C91_jump_of_the_split_component_refuted",
    "C91_split_after_translating_refuted"
   ],
   "note": "Proved: a copy shows what was asked for; neither copying, splitting nor later changes to the copy are seen in other instruments; changes of the original that keep names are not seen in the copy, and none is seen in the second part of a split; parts can be translated one after the other if the component they share has no jump and no jump is shared by COPY. Refuted: renaming a component of the original changes what the copy refers to; a last far below zero copies all but one component; once the first part is translated, the jumps of the component at the split are wrong in the second, and so are all jumps if the instrument was translated before it is split. Parameters, blocks, metadata and groups are not objects here."
  },
  {
   "property": "C92",
   "status": "partial",
   "theorems": [
    "C92_file",
    "C92_member_refuted",
    "C92_included_refuted",
    "C92_assembled_partial",
    "C92_conditions_refuted",
    "C92_late_refuted",
    "C92_coordinate",
    "C92_coordinate_product_refuted"
   ],
   "note": "Proved: files, where positions and conditions name parameters of their own file or of files included before; values of parameters always; with an Assembler values of parameters whenever they are added, and positions if the parameters were added before. Refuted: SPLIT, WHEN and JUMP given to an Assembler are not marked at all; a position is not marked if its parameter is added later, or if it is given as the text of an operation; a parameter of the including file is not marked in positions and conditions of an included one; a member of a structure with the name of a parameter is written as the parameter. Operations are kept as written."
  }
 ]
}