{
 "claims": [
  {
   "property": "C01",
   "status": "proved",
   "theorems": [
    "C01_checkLength_overflow_safe",
    "C01_checkLength_model_is_machine"
   ],
   "note": ""
  },
  {
   "property": "C02",
   "status": "proved",
   "theorems": [
    "C02_copy_round_trip",
    "C02_copyTo_frame",
    "C02_copyTo_outcome",
    "C02_copyTo_spills_refuted",
    "C02_copyFrom_outcome",
    "C02_initialize_from_outcome",
    "C02_set_location"
   ],
   "note": "The unchecked source length (second sentence of the statement) is C02_copyTo_spills_refuted / C02_copyTo_outcome."
  },
  {
   "property": "C03",
   "status": "proved",
   "theorems": [
    "C03_shift_effect",
    "C03_shift_rejected",
    "C03_shift_compose",
    "C03_count_active"
   ],
   "note": ""
  },
  {
   "property": "C04",
   "status": "proved",
   "theorems": [
    "C04_product_is_row_value",
    "C04_active_set_two_sided",
    "C04_active_set_lower",
    "C04_active_set_upper",
    "C04_active_set_equality",
    "C04_meaning_unique",
    "C04_rejected"
   ],
   "note": ""
  },
  {
   "property": "C05",
   "status": "proved",
   "theorems": [
    "C05_product_is_row_value",
    "C05_violations_two_sided",
    "C05_violations_equality",
    "C05_violations_equality_zero",
    "C05_violations_lower",
    "C05_violations_upper",
    "C05_bound_differences"
   ],
   "note": ""
  },
  {
   "property": "C06",
   "status": "proved",
   "theorems": [
    "C06_layout",
    "C06_number_of_variables",
    "C06_partition",
    "C06_inside",
    "C06_disjoint",
    "C06_unknown",
    "C06_readding"
   ],
   "note": ""
  },
  {
   "property": "C07",
   "status": "proved",
   "theorems": [
    "C07_warm_start",
    "C07_short_old_solution_rejected",
    "C07_self_warm_start_is_zero"
   ],
   "note": ""
  },
  {
   "property": "C08",
   "status": "proved",
   "theorems": [
    "C08_partition",
    "C08_tasks_and_sizes",
    "C08_numbers",
    "C08_accepted_iff"
   ],
   "note": ""
  },
  {
   "property": "C09",
   "status": "proved",
   "theorems": [
    "C09_distribute",
    "C09_collect",
    "C09_default_guess",
    "C09_own_guess",
    "C09_round_trip"
   ],
   "note": ""
  },
  {
   "property": "C10",
   "status": "proved",
   "theorems": [
    "C10_equality_inequality_form",
    "C10_other_container_refused"
   ],
   "note": ""
  },
  {
   "property": "C11",
   "status": "proved",
   "theorems": [
    "C11_other_container_refused",
    "C11_bounds_general_form",
    "C11_all_constraints_form",
    "C11_gains_throw"
   ],
   "note": "Classes with gains (GIB, GIL, GIU, GILU) cannot be put in the bounds form; the code rejects them: C11_gains_throw."
  },
  {
   "property": "C12",
   "status": "proved",
   "theorems": [
    "C12_tightest_bounds",
    "C12_same_points"
   ],
   "note": ""
  },
  {
   "property": "C13",
   "status": "proved",
   "theorems": [
    "C13_objective",
    "C13_objective_lower_triangle",
    "C13_inequalities_rejected"
   ],
   "note": "ConstraintsIB is excluded: its getATAandATb calls a function which does not exist, so the class cannot be instantiated."
  },
  {
   "property": "C14",
   "status": "partial",
   "theorems": [
    "C14_two_levels_AB_AL",
    "C14_two_levels_AB",
    "C14_two_levels_ILU_ALU",
    "C14_accepted",
    "C14_one_level_keeps_constraints_partial",
    "C14_level_count",
    "C14_one_level_refuted"
   ],
   "note": "C14_one_level_refuted: with one level the constraints stored in a reused QP object stay in force. Proved for two levels and all three constraint containers, with the exact condition of acceptance for bounds on single variables (C14_accepted); one level keeps the constraints (C14_one_level_keeps_constraints_partial)."
  },
  {
   "property": "C15",
   "status": "proved",
   "theorems": [
    "C15_protocol",
    "C15_no_silent_failure",
    "C15_failure_throws",
    "C15_otherwise_returns",
    "C15_bridge_status"
   ],
   "note": ""
  },
  {
   "property": "C16",
   "status": "proved",
   "theorems": [
    "C16_direct",
    "C16_elimination",
    "C16_stationary_is_minimum",
    "C16_unique_minimum",
    "C16_hierarchy_direct",
    "C16_hierarchy_direct_returns",
    "C16_hierarchy_elimination",
    "C16_well_posed_direct",
    "C16_well_posed_elimination",
    "C16_elimination_refuses",
    "C16_inequality_refused"
   ],
   "note": ""
  },
  {
   "property": "C17",
   "status": "partial",
   "theorems": [
    "C17_selected_variables",
    "C17_zero_variables_partial",
    "C17_gain_ignored",
    "C17_stale_gain_refuted"
   ],
   "note": "C17_stale_gain_refuted: TaskZeroVariables ignores a new gain unless the variables change (C17_zero_variables_partial, C17_gain_ignored give the exact behaviour). Holds for TaskZeroSelectedVariables."
  },
  {
   "property": "C18",
   "status": "proved",
   "theorems": [
    "C18_round_trip",
    "C18_truncation",
    "C18_truncation_loses_refuted",
    "C18_nearest"
   ],
   "note": ""
  },
  {
   "property": "C19",
   "status": "proved",
   "theorems": [
    "C19_alternation",
    "C19_executions_follow_sequence",
    "C19_step_bookkeeping",
    "C19_durations_are_configured",
    "C19_accepted_parameters"
   ],
   "note": ""
  },
  {
   "property": "C20",
   "status": "partial",
   "theorems": [
    "C20_exact_number_of_steps",
    "C20_exact_number_of_steps_from_ss",
    "C20_terminal_is_absorbing",
    "C20_undefined_foot_refuted"
   ],
   "note": "Proved for every configuration with a defined first foot. C20_undefined_foot_refuted: with first_ss_type UNDEFINED the step counter is not zeroed and the machine throws."
  },
  {
   "property": "C21",
   "status": "proved",
   "theorems": [
    "C21_time_shifts_compose",
    "C21_slicing_is_irrelevant",
    "C21_shiftTime_deterministic"
   ],
   "note": ""
  },
  {
   "property": "C22",
   "status": "partial",
   "theorems": [
    "C22_preview_predicts",
    "C22_preview_succeeds",
    "C22_preview_zero_refuted",
    "C22_accepted_states_are_well_formed"
   ],
   "note": "Proved for positive durations; C22_preview_zero_refuted: previewStances(0) is undefined behaviour. A terminal double support shorter than the rest of the preview is not listed (second alternative of the theorem)."
  },
  {
   "property": "C23",
   "status": "proved",
   "theorems": [
    "C23_shiftTime_terminates",
    "C23_shiftTime_diverges",
    "C23_diverges_in_final_double_support"
   ],
   "note": ""
  },
  {
   "property": "C24",
   "status": "proved",
   "theorems": [
    "C24_end_conditions",
    "C24_monotone",
    "C24_inside",
    "C24_derivatives",
    "C24_sampling",
    "C24_scale"
   ],
   "note": ""
  },
  {
   "property": "C25",
   "status": "partial",
   "theorems": [
    "C25_boundary_velocities_refuted",
    "C25_attained",
    "C25_exact_iff"
   ],
   "note": "C25_boundary_velocities_refuted: the final position and velocity are missed unless both velocities are zero (C25_exact_iff); C25_attained gives what is attained."
  },
  {
   "property": "C26",
   "status": "partial",
   "theorems": [
    "C26_initialised",
    "C26_rejected",
    "C26_ends",
    "C26_clearance",
    "C26_horizontal",
    "C26_continuous",
    "C26_vertical_velocity_refuted",
    "C26_velocity_factor",
    "C26_final_position_refuted",
    "C26_with_velocities",
    "C26_discontinuous",
    "C26_states_initialised",
    "C26_with_states",
    "C26_states_at_rest",
    "C26_foot_state"
   ],
   "note": "Proved for zero boundary velocities, except that the reported vertical velocity is half of the derivative (C26_vertical_velocity_refuted, C26_velocity_factor). With boundary velocities the final position is missed (C26_final_position_refuted, C26_with_velocities) and the height may jump (C26_discontinuous)."
  },
  {
   "property": "C27",
   "status": "proved",
   "theorems": [
    "C27_same_dynamics",
    "C27_commanded_attained",
    "C27_defined"
   ],
   "note": ""
  },
  {
   "property": "C28",
   "status": "proved",
   "theorems": [
    "C28_subsample",
    "C28_full_subsample",
    "C28_subsample_and_continue",
    "C28_derivatives"
   ],
   "note": ""
  },
  {
   "property": "C29",
   "status": "proved",
   "theorems": [
    "C29_cop_interpolates",
    "C29_cop_reached",
    "C29_motion",
    "C29_start",
    "C29_height",
    "C29_subsample_and_continue",
    "C29_cop_output",
    "C29_cop_rate",
    "C29_capture_point_velocity"
   ],
   "note": ""
  },
  {
   "property": "C30",
   "status": "proved",
   "theorems": [
    "C30_through_6d",
    "C30_through_3d"
   ],
   "note": ""
  },
  {
   "property": "C31",
   "status": "proved",
   "theorems": [
    "C31_rotation",
    "C31_product",
    "C31_supported"
   ],
   "note": ""
  },
  {
   "property": "C32",
   "status": "proved",
   "theorems": [
    "C32_angular_velocity",
    "C32_others_rejected"
   ],
   "note": ""
  },
  {
   "property": "C33",
   "status": "proved",
   "theorems": [
    "C33_orthogonal",
    "C33_many_steps",
    "C33_additive",
    "C33_result",
    "C33_velocity",
    "C33_simple_scheme_velocity",
    "C33_simple_scheme_drift"
   ],
   "note": ""
  },
  {
   "property": "C34",
   "status": "proved",
   "theorems": [
    "C34_rotation_error",
    "C34_zero",
    "C34_antisymmetric",
    "C34_axis_rotation"
   ],
   "note": ""
  },
  {
   "property": "C35",
   "status": "proved",
   "theorems": [
    "C35_round_trip",
    "C35_other_foot",
    "C35_mirror",
    "C35_rejected",
    "C35_bounds_ordered",
    "C35_step_bounds",
    "C35_fixed_positions",
    "C35_cop_bounds"
   ],
   "note": ""
  },
  {
   "property": "C36",
   "status": "proved",
   "theorems": [
    "C36_invert",
    "C36_write_read_frame",
    "C36_history",
    "C36_reads",
    "C36_undefined_rejected"
   ],
   "note": ""
  },
  {
   "property": "C37",
   "status": "proved",
   "theorems": [
    "C37_block",
    "C37_dense",
    "C37_time_invariant",
    "C37_rejects"
   ],
   "note": ""
  },
  {
   "property": "C38",
   "status": "partial",
   "theorems": [
    "C38_block",
    "C38_time_invariant",
    "C38_groups_partial",
    "C38_groups_refuted"
   ],
   "note": "Proved for the block overload and the dense time-invariant overload. C38_groups_refuted: the overload with several groups of controls writes E_0 to the last diagonal block, where it is overwritten, so y(0) lacks E_0 u(0); C38_groups_partial gives its exact result (all other outputs are right)."
  },
  {
   "property": "C39",
   "status": "partial",
   "theorems": [
    "C39_diagonal_times_dense",
    "C39_dense_times_diagonal",
    "C39_lower_times_dense",
    "C39_lower1_times_dense",
    "C39_generic_times_dense",
    "C39_block_times_diagonal",
    "C39_diagonal_times_block",
    "C39_sizes_rejected",
    "C39_rectangular_refuted",
    "C39_wide_rejected"
   ],
   "note": "Proved for matrices with as many block rows as block columns (diagonal), and for the lower triangular and generic ones. C39_rectangular_refuted: a block diagonal matrix with more block rows than block columns leaves entries of the product uninitialised; with more block columns the product is rejected (C39_wide_rejected)."
  },
  {
   "property": "C40",
   "status": "partial",
   "theorems": [
    "C40_constructor",
    "C40_evaluate",
    "C40_evaluate_into_block",
    "C40_times_diagonal",
    "C40_times_vector",
    "C40_scalar_times_diagonal",
    "C40_scalar_times_vector",
    "C40_diagonal_times_scalar",
    "C40_diagonal_times_scalar_refuted",
    "C40_function"
   ],
   "note": "Proved for evaluation, products with vectors and with diagonal matrices from the right. C40_diagonal_times_scalar_refuted: diagonal matrix times Kronecker product checks the sizes of the product in the other order."
  },
  {
   "property": "C41",
   "status": "partial",
   "theorems": [
    "C41_row",
    "C41_row_rejected",
    "C41_row_behind",
    "C41_row_refuted",
    "C41_column",
    "C41_column_rejected",
    "C41_column_behind",
    "C41_column_refuted"
   ],
   "note": "C41_row_refuted: removeRow accepts the index one past the end and drops the last row; C41_column_refuted: removeColumn compares the index with the number of rows, so that existing columns are rejected and nonexistent ones accepted. The theorems give the behaviour for every index."
  },
  {
   "property": "C42",
   "status": "partial",
   "theorems": [
    "C42_vertical",
    "C42_vertical_same_width",
    "C42_vertical_refuted",
    "C42_horizontal",
    "C42_horizontal_three"
   ],
   "note": "C42_vertical_refuted: the second of two adjacent empty matrices is not skipped, so that its width matters. Proved when empty matrices are not adjacent or have the same width; horizontal concatenation without restriction."
  },
  {
   "property": "C43",
   "status": "proved",
   "theorems": [
    "C43_get",
    "C43_get_offset",
    "C43_add",
    "C43_add_offset",
    "C43_symmetric",
    "C43_whole"
   ],
   "note": ""
  },
  {
   "property": "C44",
   "status": "partial",
   "theorems": [
    "C44_selected",
    "C44_operator",
    "C44_first_behind_refuted",
    "C44_zero_step_refuted"
   ],
   "note": "Proved for first <= rows and step >= 1 (sizes below 2^53, where the arithmetic in doubles is shown to be exact). C44_first_behind_refuted, C44_zero_step_refuted: otherwise the unsigned difference wraps or the division by zero is converted to an integer."
  },
  {
   "property": "C45",
   "status": "proved",
   "theorems": [
    "C45_cross_matrix",
    "C45_squared"
   ],
   "note": ""
  },
  {
   "property": "C46",
   "status": "proved",
   "theorems": [
    "C46_velocity",
    "C46_defined",
    "C46_compose",
    "C46_inverse",
    "C46_selective",
    "C46_rejected",
    "C46_sizes"
   ],
   "note": ""
  },
  {
   "property": "C47",
   "status": "proved",
   "theorems": [
    "C47_no_undefined_behaviour",
    "C47_in_order",
    "C47_nothing_lost",
    "C47_to_active_output",
    "C47_mutual_exclusion",
    "C47_shutdown_can_finish",
    "C47_without_output",
    "C47_after_request"
   ],
   "note": "Sequentially consistent interleavings; the flag interrupted_ is a plain bool (a data race in C++), which is outside of the model. Messages inserted after the request may be lost (C47_after_request), and those of a logger which was never given an output (C47_without_output)."
  },
  {
   "property": "C48",
   "status": "partial",
   "theorems": [
    "C48_one_file",
    "C48_second_file_fails",
    "C48_second_file_refuted",
    "C48_no_output"
   ],
   "note": "C48_second_file_refuted: a second initialisation with a file throws and later messages are dropped; C48_second_file_fails: always. Proved for histories with at most one file."
  },
  {
   "property": "C49",
   "status": "proved",
   "theorems": [
    "C49_unambiguous",
    "C49_empty_ignored",
    "C49_separators_ambiguous"
   ],
   "note": ""
  },
  {
   "property": "C50",
   "status": "partial",
   "theorems": [
    "C50_msgpack_round_trip",
    "C50_yaml_stored",
    "C50_yaml_decimals",
    "C50_yaml_number_error",
    "C50_yaml_number_stable",
    "C50_yaml_number_refuted",
    "C50_missing_section",
    "C50_strict_missing_entry",
    "C50_nested_failure",
    "C50_relaxed_missing_entries",
    "C50_parent_finalize_refuted"
   ],
   "note": "Proved in full for msgpack (objects without matrix members) and, in YAML, for everything but doubles; YAML doubles are restored exactly iff 15 digits suffice (C50_yaml_decimals, error bound C50_yaml_number_error), refuted in general (C50_yaml_number_refuted); a class with a parent whose finalize() checks own entries can be rejected (C50_parent_finalize_refuted)."
  },
  {
   "property": "C51",
   "status": "partial",
   "theorems": [
    "C51_matrix_read_back",
    "C51_matrix_read_back_yaml",
    "C51_kept_iff",
    "C51_square_transposed",
    "C51_row_kept",
    "C51_matrix_refuted"
   ],
   "note": "Refuted: matrices are written by columns and read by rows. Exact characterisation: C51_matrix_read_back, C51_kept_iff; square matrices come back transposed; row matrices are kept."
  },
  {
   "property": "C52",
   "status": "proved",
   "theorems": [
    "C52_number_of_entries",
    "C52_stream_decodes",
    "C52_file_decodes",
    "C52_decoding_unique"
   ],
   "note": ""
  },
  {
   "property": "C53",
   "status": "proved",
   "theorems": [
    "C53_position",
    "C53_after_failure_refuted"
   ],
   "note": ""
  },
  {
   "property": "C54",
   "status": "proved",
   "theorems": [
    "C54_accepted_iff",
    "C54_zero_subsampling"
   ],
   "note": ""
  },
  {
   "property": "C55",
   "status": "proved",
   "theorems": [
    "C55_formed_horizon"
   ],
   "note": ""
  },
  {
   "property": "C56",
   "status": "partial",
   "theorems": [
    "C56_support_position",
    "C56_one_update",
    "C56_foot_history",
    "C56_accepted_iff",
    "C56_default_state",
    "C56_set_state",
    "C56_change_of_support_refuted",
    "C56_longer_tds_refuted"
   ],
   "note": "Support positions and the history of the feet are proved for all sequences of updates. Rejection of malformed sequences is refuted: the support may change without a landing (C56_change_of_support_refuted), and a transitional double support longer than one control step is rejected (C56_longer_tds_refuted); C56_accepted_iff is exact."
  },
  {
   "property": "C57",
   "status": "proved",
   "theorems": [
    "C57_time_line",
    "C57_time_line_default",
    "C57_rest",
    "C57_total",
    "C57_valid",
    "C57_endless",
    "C57_single",
    "C57_single_command",
    "C57_single_duration",
    "C57_update_and_shift"
   ],
   "note": ""
  },
  {
   "property": "C58",
   "status": "proved",
   "theorems": [
    "C58_formed",
    "C58_intervals",
    "C58_single_agrees",
    "C58_receding",
    "C58_negative_duration_refuted"
   ],
   "note": "For valid durations (unlimited or non-negative) and a positive horizon and sampling time. Outside of them: C58_negative_duration_refuted (a negative duration other than -1 is refused alone but practically endless in a queue)."
  },
  {
   "property": "C59",
   "status": "proved",
   "theorems": [
    "C59_sound",
    "C59_inside",
    "C59_outside",
    "C59_seconds_sound",
    "C59_seconds_inside",
    "C59_seconds_outside",
    "C59_walking"
   ],
   "note": ""
  },
  {
   "property": "C60",
   "status": "partial",
   "theorems": [
    "C60_state_partial",
    "C60_first_interval_partial",
    "C60_equal_commands_partial",
    "C60_later_interval_wrong",
    "C60_later_interval_refuted"
   ],
   "note": "Proved for instants in the first interval and whenever the commands of the interval equal the first ones; refuted for later intervals: the commands of the first interval are used in every interval (C60_later_interval_wrong: wrong whenever the commands differ)."
  },
  {
   "property": "C61",
   "status": "proved",
   "theorems": [
    "C61_pepper",
    "C61_pepper_first",
    "C61_pepper_other_length",
    "C61_walking",
    "C61_walking_first",
    "C61_walking_other_length"
   ],
   "note": "Solutions whose number of intervals differs are rejected by an assertion (C61_*_other_length); landing positions follow C61_walking."
  },
  {
   "property": "C62",
   "status": "partial",
   "theorems": [
    "C62_with_guessing",
    "C62_accepted_iff",
    "C62_stale_guess_refuted"
   ],
   "note": "C62_stale_guess_refuted: a guess kept from an earlier formation makes forming without guessing throw when the number of constraints changes; C62_with_guessing and C62_accepted_iff give the exact condition."
  },
  {
   "property": "C63",
   "status": "proved",
   "theorems": [
    "C63_infeasible"
   ],
   "note": ""
  },
  {
   "property": "C64",
   "status": "proved",
   "theorems": [
    "C64_repeated",
    "C64_list",
    "C64_applied"
   ],
   "note": ""
  },
  {
   "property": "C65",
   "status": "partial",
   "theorems": [
    "C65_formed_or_false",
    "C65_terminates",
    "C65_off_grid_refuted",
    "C65_end_of_walk_refuted",
    "C65_end_of_walk_always",
    "C65_after_end_always"
   ],
   "note": "Proved on the sampling grid (C65_formed_or_false) for all reachable states except a final double support that is not marked as last; termination in general (C65_terminates). Refuted off the grid (C65_off_grid_refuted), when the walk ends within the horizon (C65_end_of_walk_refuted, always: C65_end_of_walk_always) and after the end of the walk (C65_after_end_always): form throws."
  },
  {
   "property": "C66",
   "status": "proved",
   "theorems": [
    "C66_headings",
    "C66_first_heading",
    "C66_bounds"
   ],
   "note": ""
  },
  {
   "property": "C67",
   "status": "partial",
   "theorems": [
    "C67_rotations_partial",
    "C67_out_of_range_refuted"
   ],
   "note": "Proved when single supports and the rest of the current stance are multiples of the sampling time and transitional double supports last one sampling interval; refuted otherwise: a block outside of the rotation matrix is written (C67_out_of_range_refuted)."
  },
  {
   "property": "C68",
   "status": "partial",
   "theorems": [
    "C68_landing_partial",
    "C68_aligned_double_support",
    "C68_feet_rest",
    "C68_feet_defined",
    "C68_missed_landing_refuted"
   ],
   "note": "Proved when a control step ends exactly at the end of the single support; refuted when it jumps over it: the flag is_tds_started_ is lost and the swing foot stays where it was before the step (C68_missed_landing_refuted)."
  },
  {
   "property": "C69",
   "status": "proved",
   "theorems": [
    "C69_profiles",
    "C69_motion",
    "C69_cop",
    "C69_tasks",
    "C69_wrong_size"
   ],
   "note": ""
  },
  {
   "property": "C70",
   "status": "partial",
   "theorems": [
    "C70_parameters",
    "C70_positions",
    "C70_update",
    "C70_heights_refuted"
   ],
   "note": "C70_heights_refuted: the constructor with heights swaps them; the other constructors are correct."
  },
  {
   "property": "C71",
   "status": "partial",
   "theorems": [
    "C71_next_state_partial",
    "C71_masses",
    "C71_masses_refuted",
    "C71_cop"
   ],
   "note": "C71_masses_refuted: the masses of the model are replaced by the default ones; everything else is proved, the CoP for default masses."
  },
  {
   "property": "C72",
   "status": "proved",
   "theorems": [
    "C72_state_cop"
   ],
   "note": ""
  },
  {
   "property": "C73",
   "status": "proved",
   "theorems": [
    "C73_computed",
    "C73_footsteps",
    "C73_cop",
    "C73_motion",
    "C73_predicted_cop",
    "C73_cop_rate"
   ],
   "note": ""
  },
  {
   "property": "C74",
   "status": "proved",
   "theorems": [
    "C74_inside",
    "C74_outside",
    "C74_start",
    "C74_ends",
    "C74_next_state"
   ],
   "note": ""
  },
  {
   "property": "C75",
   "status": "proved",
   "theorems": [
    "C75_copy_to",
    "C75_copy_from",
    "C75_round_trip",
    "C75_zero",
    "C75_zero_segment",
    "C75_initialised_from",
    "C75_initialised",
    "C75_levels_initialised",
    "C75_levels_overrun",
    "C75_level_set",
    "C75_level_set_rejected"
   ],
   "note": ""
  },
  {
   "property": "C76",
   "status": "proved",
   "theorems": [
    "C76_base_acceleration",
    "C76_base_velocity",
    "C76_cop",
    "C76_body"
   ],
   "note": ""
  },
  {
   "property": "C77",
   "status": "partial",
   "theorems": [
    "C77_cop_centering",
    "C77_base_jerk",
    "C77_body_jerk",
    "C77_base_position",
    "C77_base_velocity",
    "C77_body_position_partial",
    "C77_body_position_aligned",
    "C77_body_position_refuted"
   ],
   "note": "C77_body_position_refuted: the body position objective compares the offset with twice the one under zero commands (wrong sign of the constant part), so that aligned motions do not fulfil it; C77_body_position_partial gives the exact residual. The other five objectives are proved."
  },
  {
   "property": "C78",
   "status": "partial",
   "theorems": [
    "C78_pepper_shifted",
    "C78_pepper_inactive",
    "C78_wrong_size",
    "C78_pepper_one_interval_refuted",
    "C78_walk_cop",
    "C78_walk_cop_first",
    "C78_walk_one_interval_refuted",
    "C78_footsteps",
    "C78_footsteps_refuted"
   ],
   "note": "C78_pepper_one_interval_refuted, C78_walk_one_interval_refuted: with a horizon of one interval the guess throws after the first solution. C78_footsteps_refuted: when more than one step leaves the horizon in a cycle, the guess has a wrong size and the task is refused. When as many steps leave as appear the statuses are not moved. Proved otherwise: two or more intervals, at most one step fewer."
  },
  {
   "property": "C79",
   "status": "proved",
   "theorems": [
    "C79_sound",
    "C79_corners",
    "C79_largest",
    "C79_nonempty"
   ],
   "note": ""
  },
  {
   "property": "C80",
   "status": "proved",
   "theorems": [
    "C80_com_velocity",
    "C80_cop_velocity",
    "C80_cop_position",
    "C80_terminal"
   ],
   "note": ""
  },
  {
   "property": "C81",
   "status": "proved",
   "theorems": [
    "C81_cop",
    "C81_footsteps",
    "C81_footprints",
    "C81_fixed_footsteps",
    "C81_fixed_within"
   ],
   "note": ""
  },
  {
   "property": "C82",
   "status": "partial",
   "theorems": [
    "C82_built",
    "C82_push",
    "C82_form_accepted",
    "C82_form_effect",
    "C82_guess",
    "C82_process",
    "C82_round_trip",
    "C82_stale_sizes_refuted",
    "C82_reset_sizes"
   ],
   "note": "Everything claimed is proved for formed hierarchies. After reset() the sizes of the old levels are kept until the next form(): an empty level gets an active set of the old size (C82_stale_sizes_refuted)."
  },
  {
   "property": "C83",
   "status": "proved",
   "theorems": [
    "C83_determine",
    "C83_determined_tasks",
    "C83_violations",
    "C83_zero_iff_satisfied"
   ],
   "note": ""
  },
  {
   "property": "C84",
   "status": "partial",
   "theorems": [
    "C84_initialize",
    "C84_reported",
    "C84_true",
    "C84_complete",
    "C84_guess",
    "C84_round_trip",
    "C84_one_level",
    "C84_reuse_refuted",
    "C84_one_level_guess_refuted"
   ],
   "note": "Everything claimed is proved. Refuted around it: a solver object used for a problem of two levels keeps its constraints when it is then used for a problem of one level, and its getActiveSet() never succeeds (C84_reuse_refuted); for a problem of one level with a new solver the guess for the bounds of all variables is empty (C84_one_level_guess_refuted). The comment in the code says that the guess of a variable is the guess of its last bound; it is the last one which is not inactive."
  },
  {
   "property": "C85",
   "status": "proved",
   "theorems": [
    "C85_quadprogpp",
    "C85_qpmad",
    "C85_qpoases",
    "C85_one_level",
    "C85_negative_factor"
   ],
   "note": ""
  },
  {
   "property": "C86",
   "status": "proved",
   "theorems": [
    "C86_update",
    "C86_poses",
    "C86_velocity",
    "C86_links",
    "C86_com_velocity",
    "C86_partial_com_velocity"
   ],
   "note": ""
  },
  {
   "property": "C87",
   "status": "partial",
   "theorems": [
    "C87_com",
    "C87_partial_com",
    "C87_groups",
    "C87_tags",
    "C87_unknown_name_refuted",
    "C87_fixed_mass_refuted"
   ],
   "note": "Masses, centres of mass, groups and constancy of tags are proved. Refuted: a name which does not exist is accepted and every use of its tag reads memory out of range (C87_unknown_name_refuted); the mass and the centre of mass of a link fixed to another are read out of range (C87_fixed_mass_refuted)."
  },
  {
   "property": "C88",
   "status": "proved",
   "theorems": [
    "C88_loaded",
    "C88_load_refused",
    "C88_bounds",
    "C88_check",
    "C88_history",
    "C88_default",
    "C88_fix",
    "C88_reference"
   ],
   "note": ""
  },
  {
   "property": "C89",
   "status": "proved",
   "theorems": [
    "C89_columns",
    "C89_back"
   ],
   "note": ""
  },
  {
   "property": "C90",
   "status": "partial",
   "theorems": [
    "C90_base_com",
    "C90_base_orientation",
    "C90_body_com",
    "C90_body_com_refused",
    "C90_tag_followed",
    "C90_tag_orientation",
    "C90_tag_pose",
    "C90_tag_pose_unset",
    "C90_state_error",
    "C90_other_tag_refuted",
    "C90_pose_3dof_refuted"
   ],
   "note": "All tasks are proved to drive the velocities of their quantities, for all robots, configurations and motions. Refuted: a task configured with another name after its first use goes on with the link of the old name (C90_other_tag_refuted); the pose with 3 degrees of freedom holds the other three at zero velocity (C90_pose_3dof_refuted, its exact residual is in C90_tag_pose)."
  },
  {
   "property": "C91",
   "status": "partial",
   "theorems": [
    "C91_angular_velocity",
    "C91_complete_velocity",
    "C91_desired_poses",
    "C91_complete_velocity_refuted",
    "C91_desired_poses_refuted"
   ],
   "note": "Angular velocities are proved. The task of the complete velocity adds P x (O w) to the linear velocity, P the position of the tag in the world (C91_complete_velocity gives the exact residual, C91_desired_poses the exact poses); the requested velocity is therefore refuted for tags which turn away from the origin (C91_complete_velocity_refuted, C91_desired_poses_refuted). For tags which do not turn both are as requested."
  },
  {
   "property": "C92",
   "status": "partial",
   "theorems": [
    "C92_unsaved",
    "C92_saved",
    "C92_saved_pose",
    "C92_command",
    "C92_wheels",
    "C92_correct",
    "C92_followed",
    "C92_yaw_refuted"
   ],
   "note": "Everything but the yaw is proved. The rotational velocity of the base is sin(turn)/interval instead of turn/interval, a half turn is not commanded at all (C92_yaw_refuted; the exact yaw is in C92_followed)."
  },
  {
   "property": "C93",
   "status": "partial",
   "theorems": [
    "C93_matrix_to_euler",
    "C93_converted",
    "C93_root_position",
    "C93_root_orientation",
    "C93_tag_poses",
    "C93_base_yaw",
    "C93_base_yaw_refuted",
    "C93_root_yaw_refuted"
   ],
   "note": "Rotations are preserved in all conversions (MatrixBase::eulerAngles of Eigen is an argument with its documented contract). Refuted: getBaseYaw() of an upright base turned by a negative angle is not this angle, up to full turns, because the first angle is in [0, pi] (C93_base_yaw_refuted); for angles in (0, pi) it is exact (C93_base_yaw). The yaw set for a root with six coordinates is not the yaw returned (C93_root_yaw_refuted), although the rotation is."
  },
  {
   "property": "C94",
   "status": "partial",
   "theorems": [
    "C94_built",
    "C94_written",
    "C94_round_trip",
    "C94_tables",
    "C94_names",
    "C94_msgpack",
    "C94_yaml",
    "C94_read",
    "C94_missing_section",
    "C94_undefined",
    "C94_unknown_name_refuted",
    "C94_same_description_refuted",
    "C94_renamed_refuted",
    "C94_refused_file_refuted",
    "C94_relaxed_missing_section_refuted",
    "C94_relaxed_missing_task_refuted",
    "C94_core_entries",
    "C94_walk_entries",
    "C94_pepper_mpc_entries",
    "C94_pepper_ik_entries"
   ],
   "note": "The round trip is proved for all hierarchies whose tasks are in the table of the module and have distinct descriptions, for msgpack and YAML, and so is the meaning of any file that is read. Refuted: an unknown class name dereferences a null pointer before it is checked (C94_unknown_name_refuted; undefined behaviour has no other cause: C94_undefined); two tasks with the same description are read with the parameters of the first (C94_same_description_refuted); a task renamed after pushTask() makes the file unreadable (C94_renamed_refuted); after a refused file (C94_refused_file_refuted) or a relaxed read without section (C94_relaxed_missing_section_refuted) pushTask() accesses a vector out of range; a relaxed read of a task without section sets its gain to zero (C94_relaxed_missing_task_refuted). Entries of all tasks with their values, new and missing: C94_core_entries, C94_walk_entries, C94_pepper_mpc_entries, C94_pepper_ik_entries."
  },
  {
   "property": "C95",
   "status": "partial",
   "theorems": [
    "C95_restored",
    "C95_yaml",
    "C95_reset",
    "C95_filled",
    "C95_kkt_refuted",
    "C95_kkt_read",
    "C95_solution_refuted",
    "C95_solution_read",
    "C95_obstacle_refuted",
    "C95_obstacle_read",
    "C95_robot_parameters_refuted",
    "C95_robot_parameters_read",
    "C95_solver_parameters_refuted",
    "C95_solver_parameters_kept",
    "C95_wbc_refuted",
    "C95_wbc_stale",
    "C95_solution_unchanged",
    "C95_walk_state_refuted",
    "C95_walk_state_height",
    "C95_walk_mpc_valid",
    "C95_walk_mpc_zero",
    "C95_walk_mpc_derived",
    "C95_pepper_mpc_derived",
    "C95_wbc_derived",
    "C95_robot_derived",
    "C95_feet_derived",
    "C95_coordinates_valid",
    "C95_constructed",
    "C95_constructed_states",
    "C95_same_defaults"
   ],
   "note": "Proved for 19 classes (restored completely), 16 classes (reset completely if the section is missing) and 14 classes (missing entries are those of the constructor). Refuted for the others, with what is read instead: the parameters of the KKT solver lose the method and the factor (C95_kkt_refuted, C95_kkt_read); a solution keeps the structure and the status of the object it is read into (C95_solution_refuted), an obstacle its constraints (C95_obstacle_refuted); the bounds of the body of Pepper come back transposed (C95_robot_parameters_refuted); parameters of the solvers keep the entries of their parent class instead of the defaults (C95_solver_parameters_refuted); the control interval in seconds of WBCParameters does not follow the one in milliseconds (C95_wbc_refuted); without com_state the height of the centre of mass is 0 instead of the 0.814 m of the constructor (C95_walk_state_refuted). C95_\u2026_derived and C95_\u2026_valid say, independently of the model, what the computed members are and which values are accepted; C95_constructed lists the objects made by the constructors."
  },
  {
   "property": "C96",
   "status": "partial",
   "theorems": [
    "C96_construct",
    "C96_constructed",
    "C96_consistent",
    "C96_restored",
    "C96_result",
    "C96_known",
    "C96_harmless",
    "C96_blocks",
    "C96_rows",
    "C96_columns",
    "C96_one_block",
    "C96_written",
    "C96_write_accepted",
    "C96_selected_matrix",
    "C96_selected_blocks",
    "C96_selected_dynamic",
    "C96_selection_refuted",
    "C96_selection_unchecked_refuted",
    "C96_selection_of_nothing_refuted",
    "C96_refused_set_refuted",
    "C96_refused_size_refuted",
    "C96_unknown_size_refuted"
   ],
   "note": "Proved for all histories without refused calls and known sizes (C96_consistent), and after refused calls as soon as sizes are changed successfully (C96_restored); access, writes and selections are proved on every consistent matrix. Refuted: a refused set() leaves the new matrix with the old numbers of blocks (C96_refused_set_refuted), a refused setBlockSize() the new size (C96_refused_size_refuted); without a size the numbers of blocks are read uninitialised (C96_unknown_size_refuted); selectRowInBlocks() passes the number of rows of a block as its number of columns, so it is correct only for static sizes (C96_selected_blocks, C96_selected_dynamic, C96_selection_refuted); the index of the row is not checked (C96_selection_unchecked_refuted, C96_selection_of_nothing_refuted)."
  },
  {
   "property": "C97",
   "status": "partial",
   "theorems": [
    "C97_accepted",
    "C97_not_formed",
    "C97_refused",
    "C97_memory",
    "C97_own_call",
    "C97_outcome",
    "C97_copy_refuted",
    "C97_short_guess_refuted",
    "C97_short_solution_refuted",
    "C97_other_size_refuted"
   ],
   "note": "Proved for all histories of calls whose arguments have the sizes of the hierarchy (C97_accepted, C97_refused, C97_memory, C97_own_call, C97_outcome); a hierarchy whose constraints were not formed is refused (C97_not_formed). Refuted: sizes are not compared, so a guess of the solution which is too short is read past its end (C97_short_guess_refuted), a solution vector which is too short is written past its end (C97_short_solution_refuted), an objective on fewer variables than the solution is read past its end (C97_other_size_refuted); the copy of a used solver deletes the object of the library again (C97_copy_refuted)."
  },
  {
   "property": "C98",
   "status": "partial",
   "theorems": [
    "C98_iterations",
    "C98_motion",
    "C98_heading",
    "C98_heights",
    "C98_bounds",
    "C98_subsampled_acceleration",
    "C98_subsampled_velocity",
    "C98_between",
    "C98_guarded",
    "C98_same_answer",
    "C98_between_refuted",
    "C98_stopped_refuted",
    "C98_settings_refuted"
   ],
   "note": "Proved for all runs of the loop (C98_iterations, C98_motion, C98_heading, C98_heights, C98_bounds, C98_subsampled_acceleration, C98_subsampled_velocity), for the time between the sampling instants with a velocity overshoot of at most T/4 times half of the range of accelerations (C98_between), and for all sequences of calls (C98_guarded, C98_same_answer). Refuted: the velocity can leave its bounds between sampling instants (C98_between_refuted); after an update that returned STOPPED a solution of an older problem is accepted and a state is returned (C98_stopped_refuted); setParameters() between the update and a query makes getModelState() read the state of the base as the state of the body (C98_settings_refuted)."
  },
  {
   "property": "C99",
   "status": "partial",
   "theorems": [
    "C99_iterations",
    "C99_schedule",
    "C99_motion",
    "C99_sampled",
    "C99_cop",
    "C99_feet",
    "C99_landing",
    "C99_plan",
    "C99_steps",
    "C99_horizons",
    "C99_end",
    "C99_realizable",
    "C99_guarded",
    "C99_same_answer",
    "C99_subsampling_refuted",
    "C99_stopped_refuted"
   ],
   "note": "Proved for all walks whose durations fit the sampling grid: C99_iterations, C99_schedule, C99_motion, C99_sampled, C99_cop, C99_feet, C99_landing, C99_plan, C99_steps, C99_horizons, C99_end; solutions within the bounds exist in every walk (C99_realizable); all sequences of calls (C99_guarded, C99_same_answer). Refuted: with a subsampling interval shorter than the sampling interval, which is accepted, the CoM state of the loop stays behind the state machine (C99_subsampling_refuted); after an update that returned STOPPED the solution of the preceding problem is accepted and the state of the CoM is returned (C99_stopped_refuted). Walks off the grid fail in update(), see C55."
  },
  {
   "property": "C100",
   "status": "partial",
   "theorems": [
    "C100_iterations",
    "C100_limits",
    "C100_reference",
    "C100_compatible",
    "C100_converges",
    "C100_stopped_base_com",
    "C100_stopped_base_orientation",
    "C100_stopped_body_com",
    "C100_interval",
    "C100_intervals",
    "C100_once",
    "C100_speed_refuted"
   ],
   "note": "Proved for all solutions, kinematics and numbers of iterations: C100_iterations, C100_interval, C100_limits, C100_reference, C100_compatible, C100_converges, the errors at the stop (C100_stopped_base_com, C100_stopped_base_orientation, C100_stopped_body_com), any number of intervals (C100_intervals), all sequences of calls (C100_once). Refuted: bounds on joints in all iterations do not ensure that there is a command, since speeds of joints are limited only by getRobotCommand(), which throws (C100_speed_refuted)."
  },
  {
   "property": "C101",
   "status": "partial",
   "theorems": [
    "C101_total",
    "C101_complete",
    "C101_solvable",
    "C101_refines",
    "C101_cop",
    "C101_feet",
    "C101_end",
    "C101_optimal",
    "C101_determined",
    "C101_memory",
    "C101_case",
    "C101_ignored_refuted",
    "C101_ignored_case"
   ],
   "note": "Proved for all libraries, parameters and numbers of iterations: C101_total, C101_complete, C101_solvable, C101_refines, C101_cop, C101_feet, C101_end, C101_optimal, C101_determined, C101_memory. Refuted without the hypothesis that the solver throws on failures: then a failure is not noticed by the program, which goes on with the content of the solution vector, and the CoP leaves the support (C101_ignored_refuted, C101_ignored_case)."
  },
  {
   "property": "C102",
   "status": "proved",
   "theorems": [
    "C102_velocity"
   ],
   "note": "C102_velocity: for every formed horizon and every interval the velocity and the walk state it comes from; the heading of the latter is in C66."
  },
  {
   "property": "C103",
   "status": "proved",
   "theorems": [
    "C103_nothing",
    "C103_solution",
    "C103_active",
    "C103_same",
    "C103_case"
   ],
   "note": "C103_nothing, C103_solution, C103_active, C103_same. The guesses are those which the library gets, in terms of its previous answer. For C103_same the library is assumed to find the minimum of problems which have one, and to give back working sets made of -1, 0, 1; the gains of the CoP tasks are not zero. That the program is never refused in any of the modes is C101_total."
  },
  {
   "property": "C104",
   "status": "proved",
   "theorems": [
    "C104_total",
    "C104_contradiction",
    "C104_memory",
    "C104_refines",
    "C104_optimal",
    "C104_plan_unique",
    "C104_feasible",
    "C104_bounds",
    "C104_gentle",
    "C104_movable",
    "C104_discs",
    "C104_rests",
    "C104_starts",
    "C104_continues",
    "C104_halts",
    "C104_stuck_refuted",
    "C104_determined",
    "C104_same",
    "C104_case",
    "C104_default_case"
   ],
   "note": "C104_total, C104_contradiction, C104_memory, C104_refines, C104_optimal, C104_plan_unique, C104_feasible, C104_bounds, C104_gentle, C104_discs, C104_rests, C104_starts, C104_continues, C104_halts, C104_determined, C104_same. The library is arbitrary in C104_total, C104_contradiction, C104_memory and C104_refines (if the active set is reported, the working sets are made of -1, 0, 1); it reports success only for feasible points in C104_bounds and C104_gentle, only for minima in C104_optimal, and also finds a minimum whenever there is a feasible point in C104_same. The minimum is unique if the gain of the jerk of the body is not zero, and that of the jerk of the base or of the reference. C104_stuck_refuted: that the state is within all bounds is not enough for the program to go on."
  },
  {
   "property": "C105",
   "status": "proved",
   "theorems": [
    "C105_nothing",
    "C105_solution",
    "C105_active",
    "C105_case"
   ],
   "note": "C105_nothing, C105_solution, C105_active. The library is arbitrary, but its working sets are made of -1, 0, 1 if they are processed. In C105_active the bounds on the velocity of the base are within the infinity of the library (1e20), otherwise the status of a bound beyond it is not reported. That the result of the program does not depend on the guesses is C104_same. A case with four calls of the library: C105_case."
  },
  {
   "property": "C106",
   "status": "proved",
   "theorems": [
    "C106_starts",
    "C106_step",
    "C106_refuses",
    "C106_interval",
    "C106_control",
    "C106_stopped",
    "C106_intervals",
    "C106_hierarchies",
    "C106_second_hierarchy_refused",
    "C106_limits",
    "C106_third_hierarchy",
    "C106_third_case",
    "C106_references",
    "C106_second_case",
    "C106_case_solvable",
    "C106_case_step",
    "C106_case_control"
   ],
   "note": "C106_starts, C106_step, C106_refuses, C106_interval, C106_control, C106_stopped, C106_intervals; hierarchies and references of the repository: C106_hierarchies, C106_second_hierarchy_refused, C106_limits, C106_references. The factorizations of Eigen are assumed to solve systems which they can solve (nonsingular, positive definite). Tasks are those of the shipped hierarchies which are equalities; JointsBounds is an inequality, which the KKT solver does not take. Motions of the robot are arbitrary differentiable motions with the given velocities. Cases: C106_case_solvable (a robot whose problems can be solved in all states and with all references, with all three methods), C106_case_step (its steps), C106_case_control (its head is turned in two iterations)."
  },
  {
   "property": "C107",
   "status": "proved",
   "theorems": [
    "C107_starts",
    "C107_iteration",
    "C107_asks",
    "C107_flags",
    "C107_limits",
    "C107_points",
    "C107_grid",
    "C107_index",
    "C107_case_turn",
    "C107_case_outside"
   ],
   "note": "C107_starts, C107_iteration, C107_asks, C107_flags, C107_limits, C107_points, C107_grid, C107_index. Nothing is assumed of the library in C107_flags and C107_points; in the other theorems the assumptions (honest, sound, capable answers) are on the answers to the problems which it was really given. The gains of the first level are not zero; JointsReference is not put into the first level (the solver does not take gains on single variables there, C14). The grid is in exact arithmetic. Cases: C107_case_turn (a robot turns its head in two iterations with right answers of the library), C107_case_outside (an arm fixed outside of its limits: the model does not move)."
  },
  {
   "property": "C108",
   "status": "partial",
   "theorems": [
    "C108_iterations",
    "C108_begins",
    "C108_optimal",
    "C108_fails",
    "C108_succeeds",
    "C108_planned",
    "C108_tracks",
    "C108_tracking",
    "C108_moves",
    "C108_heading",
    "C108_heading_refuted",
    "C108_case",
    "C108_case_robot"
   ],
   "note": "C108_iterations, C108_begins, C108_optimal, C108_fails, C108_succeeds, C108_planned, C108_tracks, C108_tracking, C108_moves, C108_heading. The code violates the last sentence: C108_heading_refuted (a base turned to the right by half a radian is planned for with another heading, because the yaw is taken from eulerAngles(), C93); C108_heading is the part which holds. C108_tracking: the system of each step is supposed to be solvable (C16); what the inverse kinematics does with systems which are not is not claimed. Only the planar root (the program of the test) and robots whose masses do not cancel. Nothing is assumed of the library in C108_iterations, C108_begins, C108_planned, C108_tracks, C108_moves. Case: C108_case (a robot which stands anywhere, turned to the left: one iteration, zeros are the optimal plan, the head turns), C108_case_robot."
  }
 ]
}