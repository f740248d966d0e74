{
 "claims": [
  {
   "property": "C01",
   "status": "proved",
   "theorems": [
    "C01_ring_buffer_is_queue"
   ],
   "note": ""
  },
  {
   "property": "C02",
   "status": "proved",
   "theorems": [
    "C02_ring_buffer_lossless",
    "C02_exact_fill_is_lossless_refuted",
    "C02_size_zero_never_terminates"
   ],
   "note": ""
  },
  {
   "property": "C03",
   "status": "proved",
   "theorems": [
    "C03_uart_directions_are_independent_queues"
   ],
   "note": ""
  },
  {
   "property": "C04",
   "status": "proved",
   "theorems": [
    "C04_slip_round_trip"
   ],
   "note": ""
  },
  {
   "property": "C05",
   "status": "proved",
   "theorems": [
    "C05_slip_frame_format",
    "C05_slip_frames_unique"
   ],
   "note": ""
  },
  {
   "property": "C06",
   "status": "proved",
   "theorems": [
    "C06_slip_decode_any_input",
    "C06_slip_decode_with_header_any_input",
    "C06_slip_decode_safe_refuted"
   ],
   "note": ""
  },
  {
   "property": "C07",
   "status": "proved",
   "theorems": [
    "C07_i2c_register_file"
   ],
   "note": ""
  },
  {
   "property": "C08",
   "status": "proved",
   "theorems": [
    "C08_obc_i2c_write_effect",
    "C08_obc_i2c_read_effect",
    "C08_obc_i2c_read_back_refuted",
    "C08_obc_i2c_unknown_port_refuted"
   ],
   "note": ""
  },
  {
   "property": "C09",
   "status": "proved",
   "theorems": [
    "C09_gpio_level_and_callbacks",
    "C09_obc_gpio_history"
   ],
   "note": ""
  },
  {
   "property": "C10",
   "status": "proved",
   "theorems": [
    "C10_set_voltage",
    "C10_off_draws_no_current",
    "C10_over_current_latches",
    "C10_consumption_non_negative",
    "C10_subtract_consumption",
    "C10_switch_state_defined",
    "C10_switch_state_initialised_refuted"
   ],
   "note": ""
  },
  {
   "property": "C11",
   "status": "proved",
   "theorems": [
    "C11_activation_count",
    "C11_activation_times",
    "C11_cadence_across_counter_wrap",
    "C11_cadence_across_counter_wrap_refuted"
   ],
   "note": ""
  },
  {
   "property": "C12",
   "status": "proved",
   "theorems": [
    "C12_clock_ticks_registered_components",
    "C12_counter_initialised_refuted"
   ],
   "note": ""
  },
  {
   "property": "C13",
   "status": "proved",
   "theorems": [
    "C13_flags_fire_every_k_steps",
    "C13_initial_flags",
    "C13_counters_bounded",
    "C13_double_rounding_refuted"
   ],
   "note": ""
  },
  {
   "property": "C14",
   "status": "proved",
   "theorems": [
    "C14_main_loop_runs_until_end",
    "C14_number_of_updates",
    "C14_elapsed_and_finish",
    "C14_double_rounding_refuted"
   ],
   "note": ""
  },
  {
   "property": "C15",
   "status": "proved",
   "theorems": [
    "C15_round_trip",
    "C15_posix_time",
    "C15_posix_time_from_2100_refuted",
    "C15_round_trip_from_epoch",
    "C15_rejected_dates",
    "C15_nonexistent_date_accepted_refuted"
   ],
   "note": ""
  },
  {
   "property": "C16",
   "status": "proved",
   "theorems": [
    "C16_comparisons",
    "C16_addition",
    "C16_half_plus_half_refuted",
    "C16_subtraction",
    "C16_subtraction_of_later_time_refuted",
    "C16_subtract_then_add"
   ],
   "note": ""
  },
  {
   "property": "C17",
   "status": "proved",
   "theorems": [
    "C17_week_and_elapsed",
    "C17_gps_epoch",
    "C17_round_trip",
    "C17_utc_is_18s_behind",
    "C17_before_gps_epoch_refuted"
   ],
   "note": ""
  },
  {
   "property": "C18",
   "status": "proved",
   "theorems": [
    "C18_long_overflow",
    "C18_never_overflows",
    "C18_minimal_standard",
    "C18_huge_seed_first_draw_refuted",
    "C18_outputs_in_unit_interval",
    "C18_full_period",
    "C18_bad_seeds"
   ],
   "note": ""
  },
  {
   "property": "C19",
   "status": "proved",
   "theorems": [
    "C19_no_shuffle_refuted",
    "C19_position_always_zero"
   ],
   "note": ""
  },
  {
   "property": "C20",
   "status": "proved",
   "theorems": [
    "C20_output_within_range",
    "C20_regimes",
    "C20_noise_bounded"
   ],
   "note": ""
  },
  {
   "property": "C21",
   "status": "proved",
   "theorems": [
    "C21_columns_aligned",
    "C21_whole_run",
    "C21_disabled_logger_silent",
    "C21_registration",
    "C21_flag_change_aligned_refuted",
    "C21_vector_header",
    "C21_matrix_header",
    "C21_matrix_index_unambiguous",
    "C21_matrix_names_distinct_refuted"
   ],
   "note": ""
  },
  {
   "property": "C22",
   "status": "proved",
   "theorems": [
    "C22_enabled_runs_total",
    "C22_disabled_runs_once",
    "C22_constructor",
    "C22_ini_number_of_cases",
    "C22_negative_executions_refuted",
    "C22_log_files_distinct",
    "C22_save_log"
   ],
   "note": ""
  },
  {
   "property": "C23",
   "status": "proved",
   "theorems": [
    "C23_registry_history",
    "C23_duplicate_throws",
    "C23_names_with_dots_refuted",
    "C23_ini_names",
    "C23_ini_names_dot_free",
    "C23_unchanged",
    "C23_quaternion_unchanged_refuted",
    "C23_randomize_all",
    "C23_randomize_all_no_throw",
    "C23_getters",
    "C23_object_list",
    "C23_object_duplicate_throws",
    "C23_name_order"
   ],
   "note": ""
  },
  {
   "property": "C24",
   "status": "proved",
   "theorems": [
    "C24_inverse_correct",
    "C24_throws_iff_singular",
    "C24_solve"
   ],
   "note": ""
  },
  {
   "property": "C25",
   "status": "proved",
   "theorems": [
    "C25_product_is_hamilton",
    "C25_product_associative",
    "C25_norms_multiply",
    "C25_conjugate_is_inverse",
    "C25_product_with_vector",
    "C25_frame_conversion_is_dcm",
    "C25_inverse_conversion_undoes",
    "C25_frame_conversion_preserves",
    "C25_product_composes",
    "C25_normalize"
   ],
   "note": ""
  },
  {
   "property": "C26",
   "status": "proved",
   "theorems": [
    "C26_dcm_is_rotation",
    "C26_from_dcm_of_rotation",
    "C26_round_trip",
    "C26_double_cover"
   ],
   "note": ""
  },
  {
   "property": "C27",
   "status": "proved",
   "theorems": [
    "C27_wrap_correct",
    "C27_wrap_terminates",
    "C27_top_included",
    "C27_double_wrap_never_ends_refuted"
   ],
   "note": ""
  },
  {
   "property": "C28",
   "status": "proved",
   "theorems": [
    "C28_interpolating_polynomial",
    "C28_exact_on_polynomials",
    "C28_returns_samples",
    "C28_bad_data_is_undefined"
   ],
   "note": ""
  },
  {
   "property": "C29",
   "status": "proved",
   "theorems": [
    "C29_nearest",
    "C29_window",
    "C29_accepts_iff_later",
    "C29_order_invariant"
   ],
   "note": ""
  },
  {
   "property": "C30",
   "status": "proved",
   "theorems": [
    "C30_order_conditions",
    "C30_consistent",
    "C30_step",
    "C30_time",
    "C30_exact_on_polynomial_solutions",
    "C30_linear_equations",
    "C30_two_implementations_agree"
   ],
   "note": ""
  },
  {
   "property": "C31",
   "status": "proved",
   "theorems": [
    "C31_satellite_numbering",
    "C31_satellite_numbers_distinct",
    "C31_number_not_range_checked",
    "C31_injective_on_numbers_refuted",
    "C31_other_inputs"
   ],
   "note": ""
  },
  {
   "property": "C32",
   "status": "proved",
   "theorems": [
    "C32_merge_and_parse",
    "C32_increment_is_next_day",
    "C32_gregorian_1901_2099",
    "C32_gregorian_2100_refuted",
    "C32_product_files_cover_every_day",
    "C32_file_names_distinct",
    "C32_file_name_format"
   ],
   "note": ""
  },
  {
   "property": "C33",
   "status": "proved",
   "theorems": [
    "C33_heater_hysteresis",
    "C33_heaters_follow_their_nodes",
    "C33_unknown_heater_is_ub"
   ],
   "note": ""
  },
  {
   "property": "C34",
   "status": "proved",
   "theorems": [
    "C34_interpolation",
    "C34_lookup_in_bounds",
    "C34_stuck_in_last_segment",
    "C34_periodic_repetition_refuted",
    "C34_single_point_is_ub"
   ],
   "note": ""
  },
  {
   "property": "C35",
   "status": "proved",
   "theorems": [
    "C35_obc_uart_channels"
   ],
   "note": ""
  },
  {
   "property": "C36",
   "status": "proved",
   "theorems": [
    "C36_receive_command_offset_zero",
    "C36_receive_command_in_bounds_refuted",
    "C36_receive_command_rejects_too_large",
    "C36_receive_command_size_check_refuted",
    "C36_send_telemetry",
    "C36_send_telemetry_in_bounds_refuted"
   ],
   "note": ""
  },
  {
   "property": "C37",
   "status": "proved",
   "theorems": [
    "C37_integer_argument",
    "C37_any_text",
    "C37_out_of_range_rejected_refuted",
    "C37_raw_writes_nothing"
   ],
   "note": ""
  },
  {
   "property": "C38",
   "status": "proved",
   "theorems": [
    "C38_lines_then_EOL",
    "C38_cleaning_unambiguous",
    "C38_EOL_means_end_refuted"
   ],
   "note": ""
  },
  {
   "property": "C39",
   "status": "proved",
   "theorems": [
    "C39_depth_of_discharge",
    "C39_dod_unbounded_refuted",
    "C39_uninitialised_current_refuted",
    "C39_charge_current_rule",
    "C39_charge_power_available",
    "C39_overload_charges_battery_refuted"
   ],
   "note": ""
  },
  {
   "property": "C40",
   "status": "proved",
   "theorems": [
    "C40_registry_refines_map",
    "C40_port_lifetime",
    "C40_get_unconnected",
    "C40_connect_port",
    "C40_connect_port_limit"
   ],
   "note": ""
  },
  {
   "property": "C41",
   "status": "proved",
   "theorems": [
    "C41_endian_copy_reverses",
    "C41_endian_copy_twice_is_identity",
    "C41_endian_copy_zero_length_refuted"
   ],
   "note": ""
  },
  {
   "property": "C42",
   "status": "proved",
   "theorems": [
    "C42_quantization",
    "C42_dead_band"
   ],
   "note": ""
  },
  {
   "property": "C43",
   "status": "proved",
   "theorems": [
    "C43_scenario_lookup",
    "C43_short_row_refuted",
    "C43_reinitialise_merges"
   ],
   "note": ""
  },
  {
   "property": "C44",
   "status": "proved",
   "theorems": [
    "C44_hils_ports",
    "C44_register_read_back",
    "C44_register_wrap_refuted",
    "C44_send",
    "C44_receive"
   ],
   "note": ""
  },
  {
   "property": "C45",
   "status": "proved",
   "theorems": [
    "C45_str_vector",
    "C45_absent_key",
    "C45_indexed_keys_distinct",
    "C45_plain_value",
    "C45_inline_comment",
    "C45_settings_macro",
    "C45_value_with_slashes_refuted",
    "C45_enable",
    "C45_vectors",
    "C45_split",
    "C45_split_of_joined",
    "C45_csv_with_header",
    "C45_csv_cells",
    "C45_csv",
    "C45_quaternion"
   ],
   "note": ""
  },
  {
   "property": "C46",
   "status": "proved",
   "theorems": [
    "C46_progress_cadence",
    "C46_progress_every_step"
   ],
   "note": ""
  },
  {
   "property": "C47",
   "status": "proved",
   "theorems": [
    "C47_normal_always_delivers",
    "C47_box_muller_pair",
    "C47_stuck_seed_hangs_refuted",
    "C47_reseed_keeps_old_value_refuted"
   ],
   "note": ""
  },
  {
   "property": "C48",
   "status": "proved",
   "theorems": [
    "C48_global_seeds_are_good",
    "C48_global_seed_multiple_refuted"
   ],
   "note": ""
  },
  {
   "property": "C49",
   "status": "proved",
   "theorems": [
    "C49_random_walk_bounded",
    "C49_random_walk_with_generator"
   ],
   "note": ""
  },
  {
   "property": "C50",
   "status": "proved",
   "theorems": [
    "C50_solar_panel_power"
   ],
   "note": ""
  },
  {
   "property": "C51",
   "status": "proved",
   "theorems": [
    "C51_step_energy",
    "C51_exchange_conserves_energy",
    "C51_propagate_energy",
    "C51_propagate_time",
    "C51_disabled_or_bad_step",
    "C51_isothermal_equilibrium",
    "C51_step_is_euler",
    "C51_fourth_order_refuted"
   ],
   "note": ""
  },
  {
   "property": "C52",
   "status": "proved",
   "theorems": [
    "C52_command_line",
    "C52_comment_lines",
    "C52_database",
    "C52_malformed_line_safe_refuted"
   ],
   "note": ""
  },
  {
   "property": "C53",
   "status": "proved",
   "theorems": [
    "C53_schedule",
    "C53_wait_calls_defined",
    "C53_disabled",
    "C53_wait_line",
    "C53_real_time_command",
    "C53_time_line_command",
    "C53_unknown_command_not_sent_refuted",
    "C53_blank_line_safe_refuted",
    "C53_long_arguments_safe_refuted",
    "C53_wait_unit"
   ],
   "note": ""
  },
  {
   "property": "C54",
   "status": "proved",
   "theorems": [
    "C54_axis_angle",
    "C54_axis_not_normalized",
    "C54_two_vectors",
    "C54_two_vectors_error",
    "C54_orthogonal_unit_vector"
   ],
   "note": ""
  },
  {
   "property": "C55",
   "status": "proved",
   "theorems": [
    "C55_elementary_rotations",
    "C55_elementary_rotations_add",
    "C55_from_euler",
    "C55_euler_round_trip",
    "C55_quaternion_round_trip",
    "C55_euler_range",
    "C55_gimbal_lock_refuted"
   ],
   "note": ""
  },
  {
   "property": "C56",
   "status": "proved",
   "theorems": [
    "C56_polar"
   ],
   "note": ""
  },
  {
   "property": "C57",
   "status": "proved",
   "theorems": [
    "C57_exact_on_trigonometric_polynomials",
    "C57_returns_samples"
   ],
   "note": ""
  },
  {
   "property": "C58",
   "status": "proved",
   "theorems": [
    "C58_push_results",
    "C58_orbit_polynomial_exact",
    "C58_not_ready_refuted"
   ],
   "note": ""
  },
  {
   "property": "C59",
   "status": "proved",
   "theorems": [
    "C59_dense_output",
    "C59_interpolation_ends",
    "C59_interpolation_after_control_refuted",
    "C59_rk4_does_not_interpolate",
    "C59_step_width",
    "C59_zero_error_refuted",
    "C59_controlled_error"
   ],
   "note": ""
  },
  {
   "property": "C60",
   "status": "proved",
   "theorems": [
    "C60_class_columns",
    "C60_any_log_aligned",
    "C60_ground_station_names_distinct_refuted"
   ],
   "note": ""
  },
  {
   "property": "C61",
   "status": "proved",
   "theorems": [
    "C61_cartesian_uniform",
    "C61_cartesian_normal",
    "C61_circular",
    "C61_spherical_uniform",
    "C61_spherical_normal",
    "C61_quaternion_normal",
    "C61_quaternion_uniform_unit",
    "C61_first_conversion_is_double_angle",
    "C61_quaternion_uniform_direction_refuted",
    "C61_quaternion_values",
    "C61_spherical_normal_azimuth"
   ],
   "note": ""
  },
  {
   "property": "C62",
   "status": "proved",
   "theorems": [
    "C62_kepler_equation_solvable",
    "C62_newton_residual",
    "C62_newton_small_eccentricity",
    "C62_newton_early_exit_refuted",
    "C62_first_order_residual"
   ],
   "note": ""
  },
  {
   "property": "C63",
   "status": "proved",
   "theorems": [
    "C63_two_body",
    "C63_anomaly_exists",
    "C63_invariants",
    "C63_position_accuracy",
    "C63_calc_orbit_terminates"
   ],
   "note": ""
  },
  {
   "property": "C64",
   "status": "proved",
   "theorems": [
    "C64_round_trip",
    "C64_node_wrong_side",
    "C64_node_quadrant_refuted"
   ],
   "note": ""
  },
  {
   "property": "C65",
   "status": "proved",
   "theorems": [
    "C65_stm_solves_hill",
    "C65_stm_only_solution",
    "C65_stm_composition",
    "C65_system_matrix",
    "C65_rk4_step_taylor"
   ],
   "note": ""
  },
  {
   "property": "C66",
   "status": "proved",
   "theorems": [
    "C66_lvlh_frame",
    "C66_relative_position",
    "C66_stm_mode",
    "C66_relative_velocity_refuted"
   ],
   "note": ""
  },
  {
   "property": "C67",
   "status": "proved",
   "theorems": [
    "C67_difference_equation",
    "C67_unperturbed_stays_on_orbit",
    "C67_rectification_advances_refuted"
   ],
   "note": ""
  },
  {
   "property": "C68",
   "status": "proved",
   "theorems": [
    "C68_propagation_steps",
    "C68_propagation_terminates",
    "C68_rk4_equation",
    "C68_acceleration_sum",
    "C68_velocity_in_body_frame"
   ],
   "note": ""
  },
  {
   "property": "C69",
   "status": "proved",
   "theorems": [
    "C69_unit_or_zero",
    "C69_unit_when_resolved",
    "C69_propagate_unit"
   ],
   "note": ""
  },
  {
   "property": "C70",
   "status": "proved",
   "theorems": [
    "C70_kinematics"
   ],
   "note": ""
  },
  {
   "property": "C71",
   "status": "proved",
   "theorems": [
    "C71_euler_equation",
    "C71_momentum",
    "C71_energy",
    "C71_reported_norm"
   ],
   "note": ""
  },
  {
   "property": "C72",
   "status": "proved",
   "theorems": [
    "C72_propagate",
    "C72_new",
    "C72_inputs",
    "C72_outcome",
    "C72_steady_spin"
   ],
   "note": ""
  },
  {
   "property": "C73",
   "status": "proved",
   "theorems": [
    "C73_coupled_equations",
    "C73_constructor",
    "C73_propagate",
    "C73_outcome",
    "C73_last_step_is_full",
    "C73_end_time_refuted"
   ],
   "note": ""
  },
  {
   "property": "C74",
   "status": "proved",
   "theorems": [
    "C74_pointing",
    "C74_new",
    "C74_accepted",
    "C74_zero_directions_accepted",
    "C74_inertial_sub_mode_reads_unassigned",
    "C74_idle",
    "C74_rate",
    "C74_torque",
    "C74_rate_sign_refuted"
   ],
   "note": ""
  },
  {
   "property": "C75",
   "status": "proved",
   "theorems": [
    "C75_totals_sum_held_values",
    "C75_refresh_or_hold",
    "C75_attitude_dependent",
    "C75_installed"
   ],
   "note": ""
  },
  {
   "property": "C76",
   "status": "proved",
   "theorems": [
    "C76_is_the_differential_torque",
    "C76_gradient_exists",
    "C76_torque_properties"
   ],
   "note": ""
  },
  {
   "property": "C77",
   "status": "proved",
   "theorems": [
    "C77_radiation_force",
    "C77_pushes_away",
    "C77_in_the_dark"
   ],
   "note": ""
  },
  {
   "property": "C78",
   "status": "proved",
   "theorems": [
    "C78_drag_force",
    "C78_speed_ratio",
    "C78_speed_ratio_units",
    "C78_error_function",
    "C78_drag_resists",
    "C78_no_wind",
    "C78_flow_speed"
   ],
   "note": ""
  },
  {
   "property": "C79",
   "status": "proved",
   "theorems": [
    "C79_third_bodies",
    "C79_third_body_settings",
    "C79_magnetic_torque",
    "C79_moment_bounded",
    "C79_own_parameters_refuted"
   ],
   "note": ""
  },
  {
   "property": "C80",
   "status": "proved",
   "theorems": [
    "C80_one_step",
    "C80_no_memory",
    "C80_unpropagated_step"
   ],
   "note": ""
  },
  {
   "property": "C81",
   "status": "proved",
   "theorems": [
    "C81_surfaces_up_to_first_error",
    "C81_normals",
    "C81_every_valid_surface_refuted",
    "C81_inertia_rows"
   ],
   "note": ""
  },
  {
   "property": "C82",
   "status": "proved",
   "theorems": [
    "C82_solar_load",
    "C82_view_factor_range",
    "C82_view_factor_low",
    "C82_view_factor_high",
    "C82_continuous_in_altitude_refuted",
    "C82_infrared_load",
    "C82_albedo_load",
    "C82_no_albedo_at_night_refuted",
    "C82_parameters"
   ],
   "note": ""
  },
  {
   "property": "C83",
   "status": "proved",
   "theorems": [
    "C83_one_source",
    "C83_exact_cover_is_nan",
    "C83_any_sources",
    "C83_never_brighter_refuted",
    "C83_sources",
    "C83_every_configured_source_refuted",
    "C83_pressure"
   ],
   "note": ""
  },
  {
   "property": "C84",
   "status": "proved",
   "theorems": [
    "C84_ephemeris",
    "C84_seen_from_spacecraft",
    "C84_new",
    "C84_new_zero",
    "C84_between",
    "C84_by_number",
    "C84_unselected_is_first",
    "C84_only_selected_bodies_refuted",
    "C84_unknown_name",
    "C84_logged_velocity",
    "C84_rate_of_seen_position",
    "C84_velocity_when_right",
    "C84_velocity_refuted"
   ],
   "note": ""
  },
  {
   "property": "C85",
   "status": "proved",
   "theorems": [
    "C85_flags",
    "C85_disabled",
    "C85_not_earth",
    "C85_albedo_infrared",
    "C85_field",
    "C85_sunlight_now",
    "C85_present_sunlight_refuted",
    "C85_own_noise_refuted"
   ],
   "note": ""
  },
  {
   "property": "C86",
   "status": "proved",
   "theorems": [
    "C86_simple_positive",
    "C86_simple_rows",
    "C86_published_harris_priester",
    "C86_published_exponential",
    "C86_published_350km_refuted",
    "C86_simple_falls_refuted",
    "C86_simple_density_at_every_altitude_refuted",
    "C86_harris_priester",
    "C86_harris_priester_falls",
    "C86_tables",
    "C86_harris_priester_outside",
    "C86_harris_priester_continues_refuted",
    "C86_same_place_same_density_refuted",
    "C86_stored_without_noise",
    "C86_settings"
   ],
   "note": ""
  },
  {
   "property": "C87",
   "status": "proved",
   "theorems": [
    "C87_momentum_conservation",
    "C87_reported_momentum",
    "C87_axis",
    "C87_command_saturation",
    "C87_dead_time",
    "C87_command_response",
    "C87_constant_command",
    "C87_speed_limit",
    "C87_limit_setting",
    "C87_beyond_the_limit",
    "C87_coasting_step",
    "C87_coasting_stops",
    "C87_unpowered_wheel_is_frozen",
    "C87_restart",
    "C87_documented_friction_law_refuted",
    "C87_rest_is_kept_without_stop_limit_refuted"
   ],
   "note": ""
  },
  {
   "property": "C88",
   "status": "proved",
   "theorems": [
    "C88_harmonics",
    "C88_radial_and_bounded",
    "C88_filtered",
    "C88_filter_stable",
    "C88_filter_unit_gain",
    "C88_resonance_gain",
    "C88_output_torque",
    "C88_wheels_share_the_last_jitter",
    "C88_single_wheel",
    "C88_own_jitter_per_wheel_refuted"
   ],
   "note": ""
  },
  {
   "property": "C89",
   "status": "proved",
   "theorems": [
    "C89_commanded_step",
    "C89_torque_geometry",
    "C89_ideal",
    "C89_power_off"
   ],
   "note": ""
  },
  {
   "property": "C90",
   "status": "proved",
   "theorems": [
    "C90_held_command_bias",
    "C90_held_command_scale",
    "C90_held_command_constant_refuted"
   ],
   "note": ""
  },
  {
   "property": "C91",
   "status": "proved",
   "theorems": [
    "C91_interference_does_not_accumulate",
    "C91_set_bias_under_interference",
    "C91_three_axis_sensors"
   ],
   "note": ""
  },
  {
   "property": "C92",
   "status": "proved",
   "theorems": [
    "C92_output",
    "C92_delay_kept_iff",
    "C92_undelayed_outputs",
    "C92_constant_delay_refuted",
    "C92_seconds"
   ],
   "note": ""
  },
  {
   "property": "C93",
   "status": "proved",
   "theorems": [
    "C93_noise"
   ],
   "note": ""
  },
  {
   "property": "C94",
   "status": "proved",
   "theorems": [
    "C94_error_flag",
    "C94_earth_clear",
    "C94_no_error_clear_of_earth_refuted"
   ],
   "note": ""
  },
  {
   "property": "C95",
   "status": "proved",
   "theorems": [
    "C95_illuminance",
    "C95_detection",
    "C95_output",
    "C95_accuracy",
    "C95_noisy_angles",
    "C95_detected_means_lit_refuted"
   ],
   "note": ""
  },
  {
   "property": "C96",
   "status": "proved",
   "theorems": [
    "C96_terminates",
    "C96_to_ecef",
    "C96_round_trip",
    "C96_accuracy",
    "C96_local_frame",
    "C96_update_frame",
    "C96_polar_altitude_refuted",
    "C96_polar_altitude"
   ],
   "note": ""
  },
  {
   "property": "C97",
   "status": "proved",
   "theorems": [
    "C97_simple_antenna",
    "C97_cone_antenna",
    "C97_clear_above",
    "C97_received_clear_refuted",
    "C97_channels"
   ],
   "note": ""
  },
  {
   "property": "C98",
   "status": "proved",
   "theorems": [
    "C98_measurement",
    "C98_held",
    "C98_gps_time",
    "C98_fallback"
   ],
   "note": ""
  },
  {
   "property": "C99",
   "status": "proved",
   "theorems": [
    "C99_thrust_history",
    "C99_thrust_bounds",
    "C99_torque_and_off",
    "C99_direction_error"
   ],
   "note": ""
  },
  {
   "property": "C100",
   "status": "proved",
   "theorems": [
    "C100_exact",
    "C100_frames",
    "C100_off",
    "C100_noise",
    "C100_magnitude_refuted"
   ],
   "note": ""
  },
  {
   "property": "C101",
   "status": "proved",
   "theorems": [
    "C101_orbit_observer",
    "C101_attitude_observer"
   ],
   "note": ""
  },
  {
   "property": "C102",
   "status": "proved",
   "theorems": [
    "C102_elevation",
    "C102_line_of_sight",
    "C102_flags",
    "C102_inertial_position"
   ],
   "note": ""
  },
  {
   "property": "C103",
   "status": "proved",
   "theorems": [
    "C103_gain",
    "C103_inclusive_grid",
    "C103_default_and_negative"
   ],
   "note": ""
  },
  {
   "property": "C104",
   "status": "proved",
   "theorems": [
    "C104_friis",
    "C104_bitrate",
    "C104_no_link",
    "C104_pointing",
    "C104_pointing_refuted"
   ],
   "note": ""
  },
  {
   "property": "C105",
   "status": "proved",
   "theorems": [
    "C105_update",
    "C105_update_throws",
    "C105_registration",
    "C105_consistency",
    "C105_rtn_velocity",
    "C105_attitude",
    "C105_attitude_refuted"
   ],
   "note": ""
  },
  {
   "property": "C106",
   "status": "proved",
   "theorems": [
    "C106_construction",
    "C106_forbidden",
    "C106_position",
    "C106_within_field_of_view_refuted",
    "C106_star_list",
    "C106_star_position",
    "C106_ground_position",
    "C106_ground_mark_refuted",
    "C106_ground_point"
   ],
   "note": ""
  },
  {
   "property": "C107",
   "status": "proved",
   "theorems": [
    "C107_catalogue",
    "C107_sorted",
    "C107_directions"
   ],
   "note": ""
  },
  {
   "property": "C108",
   "status": "proved",
   "theorems": [
    "C108_julian_date",
    "C108_julian_date_1970",
    "C108_utc_clock",
    "C108_round_trip",
    "C108_valid_date_refuted",
    "C108_logged_seconds"
   ],
   "note": ""
  },
  {
   "property": "C109",
   "status": "proved",
   "theorems": [
    "C109_decimal_year",
    "C109_decimal_year_integer_part_refuted",
    "C109_decimal_year_increasing_refuted",
    "C109_month_day",
    "C109_date",
    "C109_date_round_trip",
    "C109_weather_day",
    "C109_day_of_year",
    "C109_rows_kept",
    "C109_seconds_of_day_refuted",
    "C109_weather_same_day_refuted",
    "C109_weather_row",
    "C109_monthly_from",
    "C109_monthly_from_unknown"
   ],
   "note": ""
  },
  {
   "property": "C110",
   "status": "proved",
   "theorems": [
    "C110_sidereal_time",
    "C110_sidereal_rate",
    "C110_rotation_and_history",
    "C110_simple_mode",
    "C110_full_mode_order",
    "C110_iau_series",
    "C110_full_close_to_simple",
    "C110_mode_words"
   ],
   "note": ""
  },
  {
   "property": "C111",
   "status": "proved",
   "theorems": [
    "C111_moon_simple",
    "C111_fixed_axes",
    "C111_other_modes",
    "C111_moon_not_selected"
   ],
   "note": ""
  },
  {
   "property": "C112",
   "status": "proved",
   "theorems": [
    "C112_acceleration_is_gradient",
    "C112_potential_in_spherical_coordinates",
    "C112_low_degree",
    "C112_missing_coefficient"
   ],
   "note": ""
  },
  {
   "property": "C113",
   "status": "proved",
   "theorems": [
    "C113_partial_derivatives"
   ],
   "note": ""
  },
  {
   "property": "C114",
   "status": "proved",
   "theorems": [
    "C114_geopotential",
    "C114_without_file",
    "C114_degree_is_limited_refuted"
   ],
   "note": ""
  },
  {
   "property": "C115",
   "status": "proved",
   "theorems": [
    "C115_lunar_field",
    "C115_update_refuted",
    "C115_construction_failures"
   ],
   "note": ""
  },
  {
   "property": "C116",
   "status": "proved",
   "theorems": [
    "C116_field",
    "C116_history",
    "C116_angle_factor"
   ],
   "note": ""
  },
  {
   "property": "C117",
   "status": "proved",
   "theorems": [
    "C117_bad_file",
    "C117_degree_19",
    "C117_interval_refuted",
    "C117_axial_dipole_refuted"
   ],
   "note": ""
  },
  {
   "property": "C118",
   "status": "proved",
   "theorems": [
    "C118_width",
    "C118_width_grows",
    "C118_power",
    "C118_total_power",
    "C118_profile",
    "C118_setters",
    "C118_new"
   ],
   "note": ""
  },
  {
   "property": "C119",
   "status": "proved",
   "theorems": [
    "C119_construction",
    "C119_fewer_than_two_points",
    "C119_history",
    "C119_disabled",
    "C119_exact_on_polynomial_motion",
    "C119_returns_rows",
    "C119_returns_rows_trigonometric"
   ],
   "note": ""
  },
  {
   "property": "C120",
   "status": "proved",
   "theorems": [
    "C120_tracking",
    "C120_end_of_file_refuted",
    "C120_window_follows_refuted",
    "C120_late_start"
   ],
   "note": ""
  },
  {
   "property": "C121",
   "status": "proved",
   "theorems": [
    "C121_initialisation",
    "C121_history",
    "C121_tracking",
    "C121_returns_samples",
    "C121_exact"
   ],
   "note": ""
  },
  {
   "property": "C122",
   "status": "proved",
   "theorems": [
    "C122_missing_entry",
    "C122_nearest_epoch",
    "C122_file_of_the_day",
    "C122_centred_window_refuted",
    "C122_end_of_files_refuted"
   ],
   "note": ""
  },
  {
   "property": "C123",
   "status": "proved",
   "theorems": [
    "C123_position_line",
    "C123_velocity_line",
    "C123_blank_velocity_deviation_refuted",
    "C123_trimmed_line",
    "C123_reads_position_file"
   ],
   "note": ""
  },
  {
   "property": "C124",
   "status": "proved",
   "theorems": [
    "C124_no_file",
    "C124_cut_file_repeats_line_refuted",
    "C124_cut_header_hangs_refuted",
    "C124_single_epoch_refuted",
    "C124_velocity_file_refuted"
   ],
   "note": ""
  },
  {
   "property": "C125",
   "status": "proved",
   "theorems": [
    "C125_history",
    "C125_object_history",
    "C125_disabled"
   ],
   "note": ""
  },
  {
   "property": "C126",
   "status": "proved",
   "theorems": [
    "C126_codes",
    "C126_initial_code",
    "C126_position_always_given_refuted",
    "C126_object_without_position"
   ],
   "note": ""
  },
  {
   "property": "C127",
   "status": "proved",
   "theorems": [
    "C127_resonance",
    "C127_no_resonance",
    "C127_ends"
   ],
   "note": ""
  },
  {
   "property": "C128",
   "status": "proved",
   "theorems": [
    "C128_spacetrack_report_3",
    "C128_report_determined",
    "C128_constants"
   ],
   "note": ""
  },
  {
   "property": "C129",
   "status": "proved",
   "theorems": [
    "C129_kepler_accurate",
    "C129_newton"
   ],
   "note": ""
  },
  {
   "property": "C130",
   "status": "proved",
   "theorems": [
    "C130_initialises",
    "C130_drag_free",
    "C130_node_drift"
   ],
   "note": ""
  },
  {
   "property": "C131",
   "status": "proved",
   "theorems": [
    "C131_year",
    "C131_epoch",
    "C131_orbit_object",
    "C131_unknown_setting",
    "C131_construction"
   ],
   "note": ""
  },
  {
   "property": "C132",
   "status": "proved",
   "theorems": [
    "C132_kind",
    "C132_given_state",
    "C132_elements_state",
    "C132_kepler_from_state",
    "C132_relative",
    "C132_same_start_refuted",
    "C132_section_refuted"
   ],
   "note": ""
  },
  {
   "property": "C133",
   "status": "proved",
   "theorems": [
    "C133_control_words",
    "C133_other_words",
    "C133_kind",
    "C133_manual",
    "C133_controlled_start",
    "C133_controlled_start_idle",
    "C133_controlled_propagation",
    "C133_manual_total",
    "C133_unit_refuted"
   ],
   "note": ""
  },
  {
   "property": "C134",
   "status": "proved",
   "theorems": [
    "C134_histories",
    "C134_component_read_back",
    "C134_flight_software_reads",
    "C134_flight_software_writes",
    "C134_command",
    "C134_connect",
    "C134_destroy_refuted",
    "C134_own_ports_refuted",
    "C134_wrap_refuted",
    "C134_main_routine",
    "C134_gpio_lines"
   ],
   "note": ""
  },
  {
   "property": "C135",
   "status": "proved",
   "theorems": [
    "C135_store",
    "C135_unconnected_refuted",
    "C135_cycle",
    "C135_starved_refuted"
   ],
   "note": ""
  },
  {
   "property": "C136",
   "status": "proved",
   "theorems": [
    "C136_file",
    "C136_words",
    "C136_slope_refuted",
    "C136_slope_sd_refuted",
    "C136_unended_section",
    "C136_unended_data",
    "C136_short_row",
    "C136_unopened"
   ],
   "note": ""
  },
  {
   "property": "C137",
   "status": "proved",
   "theorems": [
    "C137_file",
    "C137_access",
    "C137_unopened",
    "C137_unended",
    "C137_unreadable",
    "C137_receiver_serial_refuted",
    "C137_comment_refuted"
   ],
   "note": ""
  },
  {
   "property": "C138",
   "status": "proved",
   "theorems": [
    "C138_number_of_points",
    "C138_closest_zenith",
    "C138_index_in_range_refuted",
    "C138_closest_azimuth",
    "C138_azimuth_of_files_refuted",
    "C138_zero_step"
   ],
   "note": ""
  },
  {
   "property": "C139",
   "status": "proved",
   "theorems": [
    "C139_isolation",
    "C139_own_sections",
    "C139_wheels_do_not_leak",
    "C139_power_port"
   ],
   "note": ""
  },
  {
   "property": "C140",
   "status": "proved",
   "theorems": [
    "C140_three_axis_sensors"
   ],
   "note": ""
  },
  {
   "property": "C141",
   "status": "proved",
   "theorems": [
    "C141_time_step",
    "C141_thruster_step",
    "C141_thruster_time_step_refuted"
   ],
   "note": ""
  },
  {
   "property": "C142",
   "status": "proved",
   "theorems": [
    "C142_wheel_axis",
    "C142_wheel_values"
   ],
   "note": ""
  },
  {
   "property": "C143",
   "status": "proved",
   "theorems": [
    "C143_star_sensor",
    "C143_sun_sensor",
    "C143_sun_full_field_of_view_refuted"
   ],
   "note": ""
  },
  {
   "property": "C144",
   "status": "proved",
   "theorems": [
    "C144_missing_scale_factor",
    "C144_ideal_magnetorquer",
    "C144_interference"
   ],
   "note": ""
  },
  {
   "property": "C145",
   "status": "proved",
   "theorems": [
    "C145_quaternion_keys",
    "C145_not_normalised",
    "C145_no_mounting_blind"
   ],
   "note": ""
  },
  {
   "property": "C146",
   "status": "proved",
   "theorems": [
    "C146_words",
    "C146_antenna",
    "C146_ideal_components"
   ],
   "note": ""
  },
  {
   "property": "C147",
   "status": "proved",
   "theorems": [
    "C147_battery",
    "C147_solar_panel",
    "C147_solar_panel_without_sun_refuted",
    "C147_telescope"
   ],
   "note": ""
  },
  {
   "property": "C148",
   "status": "proved",
   "theorems": [
    "C148_built_iff_described",
    "C148_disabled",
    "C148_failure",
    "C148_missing_file_is_ub",
    "C148_ids_ignored",
    "C148_loads_belong_to_the_named_node_refuted"
   ],
   "note": ""
  },
  {
   "property": "C149",
   "status": "proved",
   "theorems": [
    "C149_heat_input",
    "C149_symmetric_files_conserve_energy",
    "C149_internal_load",
    "C149_heater_of_node",
    "C149_unit_normal",
    "C149_accepted_model_is_safe_refuted",
    "C149_diffusive_unit_normal_refuted"
   ],
   "note": ""
  },
  {
   "property": "C150",
   "status": "proved",
   "theorems": [
    "C150_bodies",
    "C150_outcome",
    "C150_found_by_name",
    "C150_rotation_modes"
   ],
   "note": ""
  },
  {
   "property": "C151",
   "status": "proved",
   "theorems": [
    "C151_switched_off",
    "C151_albedo_infrared",
    "C151_shadow_sources",
    "C151_negative_sources",
    "C151_solar_activity"
   ],
   "note": ""
  },
  {
   "property": "C152",
   "status": "proved",
   "theorems": [
    "C152_totals",
    "C152_third_bodies",
    "C152_third_body_abort",
    "C152_center_is_no_third_body_refuted",
    "C152_earth_by_any_name_refuted",
    "C152_drag_temperatures"
   ],
   "note": ""
  },
  {
   "property": "C153",
   "status": "proved",
   "theorems": [
    "C153_date",
    "C153_wrong_separator",
    "C153_accepted",
    "C153_component_rate",
    "C153_run",
    "C153_accepted_simulation_ends_refuted",
    "C153_positive_integration_step_refuted"
   ],
   "note": ""
  },
  {
   "property": "C154",
   "status": "proved",
   "theorems": [
    "C154_numbers",
    "C154_orbit",
    "C154_letter_in_catalogue",
    "C154_rest_ignored",
    "C154_wrong_lines_rejected_refuted",
    "C154_mean_motion_columns_refuted"
   ],
   "note": ""
  },
  {
   "property": "C155",
   "status": "proved",
   "theorems": [
    "C155_routines_called",
    "C155_count",
    "C155_main_routine_times"
   ],
   "note": ""
  },
  {
   "property": "C156",
   "status": "proved",
   "theorems": [
    "C156_rows",
    "C156_attitude",
    "C156_orbit",
    "C156_environment",
    "C156_attitude_of_the_row_refuted"
   ],
   "note": ""
  },
  {
   "property": "C157",
   "status": "proved",
   "theorems": [
    "C157_registered",
    "C157_power",
    "C157_shared_power_refuted",
    "C157_forces_and_torques"
   ],
   "note": ""
  },
  {
   "property": "C158",
   "status": "proved",
   "theorems": [
    "C158_serial_device",
    "C158_one_command_at_a_time",
    "C158_every_command_refuted"
   ],
   "note": ""
  },
  {
   "property": "C159",
   "status": "proved",
   "theorems": [
    "C159_sender",
    "C159_responder"
   ],
   "note": ""
  },
  {
   "property": "C160",
   "status": "proved",
   "theorems": [
    "C160_frames",
    "C160_steady",
    "C160_first_frames_refuted",
    "C160_two_requests_refuted",
    "C160_controller"
   ],
   "note": ""
  },
  {
   "property": "C161",
   "status": "proved",
   "theorems": [
    "C161_inertia_change",
    "C161_example_structure",
    "C161_example_spin"
   ],
   "note": ""
  },
  {
   "property": "C162",
   "status": "proved",
   "theorems": [
    "C162_single_average",
    "C162_double_average",
    "C162_means_unique",
    "C162_secular",
    "C162_circular",
    "C162_rates_unique"
   ],
   "note": ""
  },
  {
   "property": "C163",
   "status": "proved",
   "theorems": [
    "C163_periodic"
   ],
   "note": ""
  },
  {
   "property": "C164",
   "status": "proved",
   "theorems": [
    "C164_class",
    "C164_half_day",
    "C164_one_day",
    "C164_resonant_terms",
    "C164_epoch"
   ],
   "note": ""
  },
  {
   "property": "C165",
   "status": "proved",
   "theorems": [
    "C165_total",
    "C165_ends",
    "C165_frame",
    "C165_initial_code"
   ],
   "note": ""
  },
  {
   "property": "C166",
   "status": "proved",
   "theorems": [
    "C166_new",
    "C166_propagate",
    "C166_disabled",
    "C166_terminates",
    "C166_nonpositive_step_hangs",
    "C166_any_axes",
    "C166_any_length_unit",
    "C166_stays_in_plane",
    "C166_exact_without_gravity",
    "C166_grid_calls"
   ],
   "note": ""
  },
  {
   "property": "C167",
   "status": "proved",
   "theorems": [
    "C167_power_port",
    "C167_battery",
    "C167_sun_sensor",
    "C167_magnetorquer",
    "C167_gnss_receiver",
    "C167_i2c_target",
    "C167_telescope",
    "C167_relative_information",
    "C167_environment"
   ],
   "note": ""
  },
  {
   "property": "C168",
   "status": "proved",
   "theorems": [
    "C168_centre_exact",
    "C168_damping",
    "C168_never_grows",
    "C168_accuracy",
    "C168_any_step_width_refuted"
   ],
   "note": ""
  },
  {
   "property": "C169",
   "status": "proved",
   "theorems": [
    "C169_steady_spin_accuracy",
    "C169_exact_is_the_motion"
   ],
   "note": ""
  },
  {
   "property": "C170",
   "status": "proved",
   "theorems": [
    "C170_spin_and_damping",
    "C170_accuracy",
    "C170_any_step_width_refuted"
   ],
   "note": ""
  },
  {
   "property": "C171",
   "status": "proved",
   "theorems": [
    "C171_temperature_bounds",
    "C171_no_load_no_extremes",
    "C171_ordered",
    "C171_step_factor",
    "C171_every_step_width_refuted"
   ],
   "note": ""
  },
  {
   "property": "C172",
   "status": "proved",
   "theorems": [
    "C172_integrators_converge",
    "C172_fixed_width",
    "C172_control_changes_the_width_only",
    "C172_ode_class_converges"
   ],
   "note": ""
  },
  {
   "property": "C173",
   "status": "proved",
   "theorems": [
    "C173_rk4_orbit_converges",
    "C173_kepler_orbit",
    "C173_below_a_microsecond"
   ],
   "note": ""
  },
  {
   "property": "C174",
   "status": "proved",
   "theorems": [
    "C174_rk4_attitude_converges",
    "C174_any_accuracy"
   ],
   "note": ""
  },
  {
   "property": "C175",
   "status": "proved",
   "theorems": [
    "C175_own_file",
    "C175_files_differ",
    "C175_log_kept_refuted",
    "C175_existing_files_kept",
    "C175_saved_files",
    "C175_all_settings_saved_refuted",
    "C175_switched_off",
    "C175_from_settings_file"
   ],
   "note": ""
  }
 ]
}