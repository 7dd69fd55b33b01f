{
 "claims": [
  {
   "property": "C01",
   "status": "proved",
   "theorems": [
    "C01_lmap_affine_bijection",
    "C01_lmap_unique",
    "C01_lmap_degenerate"
   ],
   "note": ""
  },
  {
   "property": "C02",
   "status": "proved",
   "theorems": [
    "C02_wrap_to_pi_canonical",
    "C02_wrap_to_pi_turns",
    "C02_wrap_to_pi_idempotent"
   ],
   "note": ""
  },
  {
   "property": "C03",
   "status": "proved",
   "theorems": [
    "C03_not_zero_safe"
   ],
   "note": ""
  },
  {
   "property": "C04",
   "status": "proved",
   "theorems": [
    "C04_intersect_symmetric",
    "C04_vehicle_collision_symmetric"
   ],
   "note": ""
  },
  {
   "property": "C05",
   "status": "proved",
   "theorems": [
    "C05_what_is_decided",
    "C05_intersect_sandwich",
    "C05_intersect_exact_aligned",
    "C05_intersect_sound_quarter",
    "C05_point_test_is_mirrored",
    "C05_overlap_missed",
    "C05_phantom_overlap"
   ],
   "note": ""
  },
  {
   "property": "C06",
   "status": "proved",
   "theorems": [
    "C06_vehicle_precheck_sound",
    "C06_object_precheck_sound",
    "C06_yield_precheck_hides"
   ],
   "note": ""
  },
  {
   "property": "C07",
   "status": "proved",
   "theorems": [
    "C07_straight_roundtrip_world",
    "C07_straight_roundtrip_lane",
    "C07_sine_roundtrip_world",
    "C07_sine_roundtrip_lane",
    "C07_straight_isometry",
    "C07_straight_ends"
   ],
   "note": ""
  },
  {
   "property": "C08",
   "status": "proved",
   "theorems": [
    "C08_circular_roundtrip_world",
    "C08_circular_roundtrip_lane",
    "C08_circular_wraps",
    "C08_long_arc_wraps"
   ],
   "note": ""
  },
  {
   "property": "C09",
   "status": "proved",
   "theorems": [
    "C09_straight_tangent",
    "C09_circular_tangent",
    "C09_sine_tangent",
    "C09_straight_normal",
    "C09_circular_normal"
   ],
   "note": ""
  },
  {
   "property": "C10",
   "status": "proved",
   "theorems": [
    "C10_on_lane",
    "C10_reachable",
    "C10_after_end",
    "C10_distance",
    "C10_distance_zero_on_curve",
    "C10_curve_at_distance_zero",
    "C10_distance_with_heading"
   ],
   "note": ""
  },
  {
   "property": "C11",
   "status": "proved",
   "theorems": [
    "C11_closest_first_minimiser",
    "C11_enumeration_is_all_lanes",
    "C11_closest_fails_iff_no_lane"
   ],
   "note": ""
  },
  {
   "property": "C12",
   "status": "proved",
   "theorems": [
    "C12_network_is_what_was_added",
    "C12_add_lane",
    "C12_get_lane_without_id",
    "C12_get_lane_with_id"
   ],
   "note": ""
  },
  {
   "property": "C13",
   "status": "proved",
   "theorems": [
    "C13_shortest_path"
   ],
   "note": ""
  },
  {
   "property": "C14",
   "status": "proved",
   "theorems": [
    "C14_bfs_enumerates_simple_paths",
    "C14_bfs_from_dead_end"
   ],
   "note": ""
  },
  {
   "property": "C15",
   "status": "proved",
   "theorems": [
    "C15_next_lane_exists",
    "C15_next_lane_follows_route",
    "C15_next_lane_without_route",
    "C15_next_lane_id"
   ],
   "note": ""
  },
  {
   "property": "C16",
   "status": "proved",
   "theorems": [
    "C16_side_lanes",
    "C16_all_side_lanes"
   ],
   "note": ""
  },
  {
   "property": "C17",
   "status": "proved",
   "theorems": [
    "C17_is_connected_road",
    "C17_monotone_in_depth"
   ],
   "note": ""
  },
  {
   "property": "C18",
   "status": "proved",
   "theorems": [
    "C18_neighbours",
    "C18_neighbours_default_lane"
   ],
   "note": ""
  },
  {
   "property": "C19",
   "status": "proved",
   "theorems": [
    "C19_close_vehicles"
   ],
   "note": ""
  },
  {
   "property": "C20",
   "status": "proved",
   "theorems": [
    "C20_along_route",
    "C20_joined_at_ends"
   ],
   "note": ""
  },
  {
   "property": "C21",
   "status": "proved",
   "theorems": [
    "C21_step_moves_speed_dt",
    "C21_step_increments",
    "C21_turn_bounded",
    "C21_straight",
    "C21_step_total"
   ],
   "note": ""
  },
  {
   "property": "C22",
   "status": "proved",
   "theorems": [
    "C22_crashed_only_brakes",
    "C22_crashed_travel_bounded"
   ],
   "note": ""
  },
  {
   "property": "C23",
   "status": "proved",
   "theorems": [
    "C23_speed_envelope",
    "C23_reverse_limit"
   ],
   "note": ""
  },
  {
   "property": "C24",
   "status": "proved",
   "theorems": [
    "C24_history_is_last_30",
    "C24_no_recording"
   ],
   "note": ""
  },
  {
   "property": "C25",
   "status": "proved",
   "theorems": [
    "C25_touching_pair_crashed",
    "C25_touching_obstacle_crashed",
    "C25_crash_has_cause",
    "C25_pair_speed",
    "C25_obstacle_hit_not_flagged",
    "C25_step_total"
   ],
   "note": ""
  },
  {
   "property": "C26",
   "status": "proved",
   "theorems": [
    "C26_steering_control_bounded",
    "C26_act_steering_bounded",
    "C26_steers_towards_lane"
   ],
   "note": ""
  },
  {
   "property": "C27",
   "status": "proved",
   "theorems": [
    "C27_speed_error_geometric",
    "C27_no_overshoot",
    "C27_converges"
   ],
   "note": ""
  },
  {
   "property": "C28",
   "status": "proved",
   "theorems": [
    "C28_stays_centred"
   ],
   "note": ""
  },
  {
   "property": "C29",
   "status": "proved",
   "theorems": [
    "C29_target_always_exists",
    "C29_actions_never_fail",
    "C29_lane_change",
    "C29_other_actions_keep_lane"
   ],
   "note": ""
  },
  {
   "property": "C30",
   "status": "proved",
   "theorems": [
    "C30_index_in_range",
    "C30_constructor",
    "C30_roundtrip",
    "C30_nearest_level",
    "C30_levels",
    "C30_faster_from_actual_speed",
    "C30_slower_from_actual_speed"
   ],
   "note": ""
  },
  {
   "property": "C31",
   "status": "proved",
   "theorems": [
    "C31_unavailable_lane_change",
    "C31_unavailable_lane_change_midway",
    "C31_unavailable_faster",
    "C31_unavailable_slower"
   ],
   "note": ""
  },
  {
   "property": "C32",
   "status": "proved",
   "theorems": [
    "C32_planned_route",
    "C32_destination_multilane_raises"
   ],
   "note": ""
  },
  {
   "property": "C33",
   "status": "proved",
   "theorems": [
    "C33_at_most_comfort",
    "C33_front_only_slows",
    "C33_free_road_sign",
    "C33_no_acceleration_inside_gap",
    "C33_monotone_in_gap",
    "C33_commands_bounded",
    "C33_crashed_does_nothing",
    "C33_objects_do_not_accelerate",
    "C33_standstill_equilibrium"
   ],
   "note": ""
  },
  {
   "property": "C34",
   "status": "proved",
   "theorems": [
    "C34_free_run_monotone_no_overshoot",
    "C34_free_run_converges",
    "C34_lone_vehicle_unobstructed"
   ],
   "note": ""
  },
  {
   "property": "C35",
   "status": "proved",
   "theorems": [
    "C35_mobil_without_planned_lane",
    "C35_mobil_with_planned_lane",
    "C35_mobil_answers"
   ],
   "note": ""
  },
  {
   "property": "C36",
   "status": "proved",
   "theorems": [
    "C36_policy_outcomes",
    "C36_abort_when_contested",
    "C36_quiet_until_delay"
   ],
   "note": ""
  },
  {
   "property": "C37",
   "status": "proved",
   "theorems": [
    "C37_lower_priority_yields",
    "C37_equal_priority",
    "C37_vehicle_behind_yields",
    "C37_order_irrelevant"
   ],
   "note": ""
  },
  {
   "property": "C38",
   "status": "proved",
   "theorems": [
    "C38_tick",
    "C38_released_unless_conflict",
    "C38_mdp_and_plain_untouched",
    "C38_never_moves_anyone",
    "C38_never_fails"
   ],
   "note": ""
  },
  {
   "property": "C39",
   "status": "proved",
   "theorems": [
    "C39_number_of_frames",
    "C39_step",
    "C39_late_step",
    "C39_episode_clock",
    "C39_after_the_end",
    "C39_too_fast_policy",
    "C39_manual_control",
    "C39_zero_policy_frequency"
   ],
   "note": ""
  },
  {
   "property": "C40",
   "status": "proved",
   "theorems": [
    "C40_highway",
    "C40_roundabout",
    "C40_merge",
    "C40_two_way",
    "C40_intersection",
    "C40_parking",
    "C40_lane_keeping_never_ends",
    "C40_steps_count",
    "C40_crash_absorbing",
    "C40_crash_ends_every_driving_environment",
    "C40_last_step_is_one_frame",
    "C40_time_limits",
    "C40_always_decided"
   ],
   "note": ""
  },
  {
   "property": "C41",
   "status": "proved",
   "theorems": [
    "C41_exact",
    "C41_discrete_only"
   ],
   "note": ""
  },
  {
   "property": "C42",
   "status": "proved",
   "theorems": [
    "C42_highway_value",
    "C42_highway_range",
    "C42_highway_crash_dominates",
    "C42_highway_best",
    "C42_highway_episode",
    "C42_roundabout_range",
    "C42_roundabout_episode",
    "C42_two_way_range",
    "C42_two_way_one_lane",
    "C42_agent_reward",
    "C42_intersection_range"
   ],
   "note": ""
  },
  {
   "property": "C43",
   "status": "proved",
   "theorems": [
    "C43_needs_an_axis",
    "C43_bijective",
    "C43_default_indices",
    "C43_idle_is_one",
    "C43_unknown_raises"
   ],
   "note": ""
  },
  {
   "property": "C44",
   "status": "proved",
   "theorems": [
    "C44_affine",
    "C44_ends",
    "C44_clip_in_range",
    "C44_onto",
    "C44_no_clip_inside",
    "C44_no_clip_unbounded",
    "C44_construction",
    "C44_reaches_vehicle"
   ],
   "note": ""
  },
  {
   "property": "C45",
   "status": "proved",
   "theorems": [
    "C45_own_vehicle",
    "C45_nobody_else",
    "C45_nobody_moves",
    "C45_lengths",
    "C45_tuple_required",
    "C45_single_agent",
    "C45_accepted"
   ],
   "note": ""
  },
  {
   "property": "C46",
   "status": "proved",
   "theorems": [
    "C46_table",
    "C46_ranges",
    "C46_total",
    "C46_shuffled",
    "C46_in_space",
    "C46_no_road",
    "C46_count_one_shows_all"
   ],
   "note": ""
  },
  {
   "property": "C47",
   "status": "proved",
   "theorems": [
    "C47_shape",
    "C47_step_must_be_given",
    "C47_in_space",
    "C47_cells",
    "C47_ranges",
    "C47_total",
    "C47_vehicle_outside_is_shown",
    "C47_wide_grid_loses_vehicle",
    "C47_absolute_refused"
   ],
   "note": ""
  },
  {
   "property": "C48",
   "status": "proved",
   "theorems": [
    "C48_dimensions",
    "C48_cells",
    "C48_values",
    "C48_never_raises",
    "C48_same_speed_invisible",
    "C48_highway",
    "C48_observer_on_wider_road_raises"
   ],
   "note": ""
  },
  {
   "property": "C49",
   "status": "proved",
   "theorems": [
    "C49_transition",
    "C49_longitudinal_actions_misread",
    "C49_tables",
    "C49_every_plan_reaches_the_horizon",
    "C49_built"
   ],
   "note": ""
  },
  {
   "property": "C50",
   "status": "proved",
   "theorems": [
    "C50_product_encloses",
    "C50_product_exact_iff",
    "C50_dot_encloses",
    "C50_matrix_product_encloses",
    "C50_scaling_exact",
    "C50_difference_exact",
    "C50_negative_part_exact",
    "C50_section_exact",
    "C50_straight_conversions_exact",
    "C50_circular_conversion_escapes",
    "C50_integrator_encloses",
    "C50_integrator_not_the_range",
    "C50_polytope"
   ],
   "note": ""
  },
  {
   "property": "C51",
   "status": "proved",
   "theorems": [
    "C51_naive_step_encloses",
    "C51_metzler_step_encloses",
    "C51_metzler_system_enclosed",
    "C51_rotated_system_enclosed",
    "C51_unrotated_system_enclosed",
    "C51_perturbation_not_rotated",
    "C51_initial_interval_inverted",
    "C51_nominal_state_ignores_centre",
    "C51_long_step_inverts",
    "C51_metzler_tolerance"
   ],
   "note": ""
  },
  {
   "property": "C52",
   "status": "proved",
   "theorems": [
    "C52_copy",
    "C52_no_viewer",
    "C52_cannot_copy",
    "C52_nothing_shared",
    "C52_changes_invisible",
    "C52_original_untouched"
   ],
   "note": ""
  },
  {
   "property": "C53",
   "status": "proved",
   "theorems": [
    "C53_spawn",
    "C53_clear",
    "C53_controlled_never_removed"
   ],
   "note": ""
  },
  {
   "property": "C54",
   "status": "proved",
   "theorems": [
    "C54_class_attributes",
    "C54_independent",
    "C54_settles",
    "C54_alone_unaffected",
    "C54_roundabout_first_episode",
    "C54_highway_after_roundabout",
    "C54_running_environment_changes",
    "C54_traffic_retuned",
    "C54_observation_changes"
   ],
   "note": ""
  },
  {
   "property": "C55",
   "status": "proved",
   "theorems": [
    "C55_linearisation_forward",
    "C55_input_matrix_wrong",
    "C55_linear_model_stable",
    "C55_low_speed",
    "C55_reversing",
    "C55_full_model",
    "C55_ordinate",
    "C55_linear_derivative"
   ],
   "note": ""
  },
  {
   "property": "C56",
   "status": "proved",
   "theorems": [
    "C56_last_images_oldest_first",
    "C56_full_stack",
    "C56_starts_empty",
    "C56_grey_levels"
   ],
   "note": ""
  },
  {
   "property": "C57",
   "status": "proved",
   "theorems": [
    "C57_object_alignment"
   ],
   "note": ""
  },
  {
   "property": "C58",
   "status": "proved",
   "theorems": [
    "C58_vehicle_made_on_lane"
   ],
   "note": ""
  },
  {
   "property": "C59",
   "status": "proved",
   "theorems": [
    "C59_destination_direction",
    "C59_destination"
   ],
   "note": ""
  },
  {
   "property": "C60",
   "status": "proved",
   "theorems": [
    "C60_create_from",
    "C60_zero_target_lost"
   ],
   "note": ""
  },
  {
   "property": "C61",
   "status": "proved",
   "theorems": [
    "C61_routes_at_intersection",
    "C61_choice_is_valid"
   ],
   "note": ""
  },
  {
   "property": "C62",
   "status": "proved",
   "theorems": [
    "C62_constant_speed_no_route",
    "C62_constant_speed_straight",
    "C62_trajectory_length"
   ],
   "note": ""
  },
  {
   "property": "C63",
   "status": "proved",
   "theorems": [
    "C63_zero_target_accelerates",
    "C63_zero_target_oscillates",
    "C63_reverses_when_too_close"
   ],
   "note": ""
  },
  {
   "property": "C64",
   "status": "proved",
   "theorems": [
    "C64_linear_free_run",
    "C64_linear_mobil_raises"
   ],
   "note": ""
  },
  {
   "property": "C65",
   "status": "proved",
   "theorems": [
    "C65_randomized_in_range",
    "C65_character_lost"
   ],
   "note": ""
  },
  {
   "property": "C66",
   "status": "proved",
   "theorems": [
    "C66_maximum_speed_never_returns",
    "C66_maximum_speed_free"
   ],
   "note": ""
  },
  {
   "property": "C67",
   "status": "proved",
   "theorems": [
    "C67_frame_total",
    "C67_any_number_of_frames",
    "C67_runnable_for_ever",
    "C67_population_constant"
   ],
   "note": ""
  },
  {
   "property": "C68",
   "status": "proved",
   "theorems": [
    "C68_conflict_exact",
    "C68_symmetric",
    "C68_uncontrolled_fails",
    "C68_following_conflict",
    "C68_precheck_misses_overlap"
   ],
   "note": ""
  },
  {
   "property": "C69",
   "status": "proved",
   "theorems": [
    "C69_cadence",
    "C69_counts_frames",
    "C69_default_period",
    "C69_slow_simulation_fails"
   ],
   "note": ""
  },
  {
   "property": "C70",
   "status": "proved",
   "theorems": [
    "C70_never_fails",
    "C70_never_stuck",
    "C70_stays_regulated"
   ],
   "note": ""
  },
  {
   "property": "C71",
   "status": "proved",
   "theorems": [
    "C71_step_never_fails",
    "C71_episodes_of_any_length",
    "C71_population"
   ],
   "note": ""
  },
  {
   "property": "C72",
   "status": "proved",
   "theorems": [
    "C72_merge_value",
    "C72_merge_range",
    "C72_merge_unbounded",
    "C72_merge_unknown_action",
    "C72_merge_zero_target"
   ],
   "note": ""
  },
  {
   "property": "C73",
   "status": "proved",
   "theorems": [
    "C73_parking_value",
    "C73_parking_sign",
    "C73_parking_success",
    "C73_parking_total",
    "C73_lane_keeping",
    "C73_lane_keeping_before_reset"
   ],
   "note": ""
  },
  {
   "property": "C74",
   "status": "proved",
   "theorems": [
    "C74_observation",
    "C74_bounds",
    "C74_single_speed_shape",
    "C74_before_reset"
   ],
   "note": ""
  },
  {
   "property": "C75",
   "status": "proved",
   "theorems": [
    "C75_ego_position_saturates",
    "C75_ranges_fixed_by_first_observation"
   ],
   "note": ""
  },
  {
   "property": "C76",
   "status": "proved",
   "theorems": [
    "C76_one_observation_per_agent",
    "C76_total"
   ],
   "note": ""
  },
  {
   "property": "C77",
   "status": "proved",
   "theorems": [
    "C77_goal_observation",
    "C77_parking_reward_is_of_observation",
    "C77_heading_feature_fails"
   ],
   "note": ""
  },
  {
   "property": "C78",
   "status": "proved",
   "theorems": [
    "C78_distant_vehicles_unobserved"
   ],
   "note": ""
  },
  {
   "property": "C79",
   "status": "proved",
   "theorems": [
    "C79_displacement",
    "C79_turn_bounded",
    "C79_forward_step",
    "C79_step_total",
    "C79_speed_limit"
   ],
   "note": ""
  },
  {
   "property": "C80",
   "status": "proved",
   "theorems": [
    "C80_straight_for_ever",
    "C80_low_speed_damping"
   ],
   "note": ""
  },
  {
   "property": "C81",
   "status": "proved",
   "theorems": [
    "C81_stable",
    "C81_unstable"
   ],
   "note": ""
  },
  {
   "property": "C82",
   "status": "proved",
   "theorems": [
    "C82_reset_total",
    "C82_no_step_fails",
    "C82_intersection_needs_meta_actions",
    "C82_summon_has_fifteen_spots"
   ],
   "note": ""
  },
  {
   "property": "C83",
   "status": "proved",
   "theorems": [
    "C83_copy_alike",
    "C83_same_step",
    "C83_same_episode",
    "C83_same_rewards",
    "C83_same_ends",
    "C83_same_observations"
   ],
   "note": ""
  },
  {
   "property": "C84",
   "status": "proved",
   "theorems": [
    "C84_simplify",
    "C84_simplify_loses_agents",
    "C84_change_vehicles",
    "C84_change_vehicles_total",
    "C84_change_vehicles_loses_agents",
    "C84_change_vehicles_needs_aims",
    "C84_no_preference",
    "C84_preference_needs_routes",
    "C84_preference",
    "C84_routes_by_index",
    "C84_routes_by_name_fail",
    "C84_set_field",
    "C84_set_speed_reaches_ego",
    "C84_called_methods_must_return",
    "C84_call_plan_route",
    "C84_randomize"
   ],
   "note": ""
  },
  {
   "property": "C85",
   "status": "proved",
   "theorems": [
    "C85_lined_up",
    "C85_created_in_order",
    "C85_nobody_in_contact",
    "C85_default_room",
    "C85_dense_traffic_overlaps"
   ],
   "note": ""
  },
  {
   "property": "C86",
   "status": "proved",
   "theorems": [
    "C86_intersection_continuous",
    "C86_intersection_u_turns",
    "C86_ring_continuous",
    "C86_access_continuous",
    "C86_ring_not_reached",
    "C86_merge_continuous",
    "C86_ramp_continues_straight",
    "C86_lane_keeping",
    "C86_no_jump_along_unbroken_routes"
   ],
   "note": ""
  },
  {
   "property": "C87",
   "status": "proved",
   "theorems": [
    "C87_estimate_minimises",
    "C87_radius_defined",
    "C87_true_parameter_in_ellipsoid",
    "C87_never_rejected",
    "C87_within_the_box",
    "C87_contract_met_1",
    "C87_contract_met_2",
    "C87_inconsistent_rejected",
    "C87_polytope_excludes_true_parameter"
   ],
   "note": ""
  },
  {
   "property": "C88",
   "status": "proved",
   "theorems": [
    "C88_observer_encloses",
    "C88_along_a_prediction",
    "C88_default_moves_corners",
    "C88_default_first_step",
    "C88_default_prediction_escapes",
    "C88_default_prediction_empties",
    "C88_heading_after_a_turn_escapes",
    "C88_crashed_interval"
   ],
   "note": ""
  },
  {
   "property": "C89",
   "status": "proved",
   "theorems": [
    "C89_projection_is_nearest",
    "C89_parallel_traffic_exact",
    "C89_close_centres_crash",
    "C89_crossing_traffic_missed",
    "C89_other_classes"
   ],
   "note": ""
  },
  {
   "property": "C90",
   "status": "proved",
   "theorems": [
    "C90_never_rear_ends",
    "C90_never_hits_obstacle"
   ],
   "note": ""
  },
  {
   "property": "C91",
   "status": "proved",
   "theorems": [
    "C91_exact",
    "C91_front_only_slows",
    "C91_equilibrium_gap",
    "C91_aggressive_pushes"
   ],
   "note": ""
  },
  {
   "property": "C92",
   "status": "proved",
   "theorems": [
    "C92_no_route_no_hypothesis",
    "C92_candidates_considered",
    "C92_survivors",
    "C92_followed_hypothesis_survives",
    "C92_end_of_route_fails",
    "C92_drives_like_linear",
    "C92_assumed_model",
    "C92_true_route_rejected_after_a_turn"
   ],
   "note": ""
  },
  {
   "property": "C93",
   "status": "proved",
   "theorems": [
    "C93_prediction_encloses",
    "C93_upper_bounds_ignored",
    "C93_upper_states_lost",
    "C93_vehicle_itself_escapes",
    "C93_heading_relative",
    "C93_braking_not_predicted",
    "C93_interval_not_read_again",
    "C93_lane_change_turns_wrong_way",
    "C93_no_data",
    "C93_crashed_certain"
   ],
   "note": ""
  },
  {
   "property": "C94",
   "status": "proved",
   "theorems": [
    "C94_reset",
    "C94_other_vehicle_class",
    "C94_step_before_reset",
    "C94_any_actions",
    "C94_never_ends",
    "C94_reward",
    "C94_observation_late",
    "C94_reference",
    "C94_trajectory_accumulates",
    "C94_closed_one_frame",
    "C94_coasting"
   ],
   "note": ""
  },
  {
   "property": "C95",
   "status": "proved",
   "theorems": [
    "C95_reset",
    "C95_step_total",
    "C95_outcomes",
    "C95_crash_stays",
    "C95_two_way",
    "C95_needs_meta_actions",
    "C95_store"
   ],
   "note": ""
  },
  {
   "property": "C96",
   "status": "proved",
   "theorems": [
    "C96_agents"
   ],
   "note": ""
  },
  {
   "property": "C97",
   "status": "proved",
   "theorems": [
    "C97_goal_env",
    "C97_recompute"
   ],
   "note": ""
  },
  {
   "property": "C98",
   "status": "proved",
   "theorems": [
    "C98_two_way",
    "C98_oncoming_lane",
    "C98_merge",
    "C98_parking",
    "C98_summon",
    "C98_roundabout",
    "C98_intersection",
    "C98_summon_clear",
    "C98_summon_may_overlap"
   ],
   "note": ""
  },
  {
   "property": "C99",
   "status": "proved",
   "theorems": [
    "C99_drift_measures",
    "C99_converges",
    "C99_limit",
    "C99_lane_change",
    "C99_lane_change_time",
    "C99_idm_frame",
    "C99_cone"
   ],
   "note": ""
  },
  {
   "property": "C100",
   "status": "proved",
   "theorems": [
    "C100_meta",
    "C100_meta_others",
    "C100_multi",
    "C100_pedals",
    "C100_released_at_reset",
    "C100_controls",
    "C100_listens",
    "C100_same_without_manual_control",
    "C100_manual"
   ],
   "note": ""
  },
  {
   "property": "C101",
   "status": "proved",
   "theorems": [
    "C101_pixel",
    "C101_follows",
    "C101_visible",
    "C101_vehicles_drawn",
    "C101_vehicles_vanish",
    "C101_keys"
   ],
   "note": ""
  },
  {
   "property": "C102",
   "status": "proved",
   "theorems": [
    "C102_pieces",
    "C102_visible",
    "C102_arcs",
    "C102_road"
   ],
   "note": ""
  },
  {
   "property": "C103",
   "status": "proved",
   "theorems": [
    "C103_centred",
    "C103_turned",
    "C103_vehicle",
    "C103_objects",
    "C103_scene_total",
    "C103_slow_trajectories_fail",
    "C103_scene",
    "C103_trail"
   ],
   "note": ""
  },
  {
   "property": "C104",
   "status": "proved",
   "theorems": [
    "C104_transparent",
    "C104_offscreen",
    "C104_images_current",
    "C104_centred",
    "C104_render_step",
    "C104_stale",
    "C104_reset_stale",
    "C104_reopened_black",
    "C104_quit",
    "C104_quit_during_step",
    "C104_view_after_closing"
   ],
   "note": ""
  },
  {
   "property": "C105",
   "status": "proved",
   "theorems": [
    "C105_rewards",
    "C105_tables",
    "C105_grids"
   ],
   "note": ""
  },
  {
   "property": "C106",
   "status": "proved",
   "theorems": [
    "C106_last_given_wins",
    "C106_other_options_ignored",
    "C106_flags",
    "C106_display_defaults",
    "C106_nested_replaced",
    "C106_unknown_arguments_ignored"
   ],
   "note": ""
  },
  {
   "property": "C107",
   "status": "proved",
   "theorems": [
    "C107_types_of_the_last_reset",
    "C107_reset_is_make",
    "C107_clock_is_live",
    "C107_duration_is_live",
    "C107_action_repeat"
   ],
   "note": ""
  },
  {
   "property": "C108",
   "status": "proved",
   "theorems": [
    "C108_playable",
    "C108_default_settings",
    "C108_defaults_fit",
    "C108_defaults_play"
   ],
   "note": ""
  },
  {
   "property": "C109",
   "status": "proved",
   "theorems": [
    "C109_rejected",
    "C109_other_vehicles",
    "C109_seen_at_reset"
   ],
   "note": ""
  },
  {
   "property": "C110",
   "status": "proved",
   "theorems": [
    "C110_routes",
    "C110_turning_back_routes",
    "C110_reset",
    "C110_episode",
    "C110_process",
    "C110_turning_back",
    "C110_defaults",
    "C110_agents_not_reproducible",
    "C110_random_destination"
   ],
   "note": ""
  },
  {
   "property": "C111",
   "status": "proved",
   "theorems": [
    "C111_lane",
    "C111_closest",
    "C111_collision",
    "C111_act",
    "C111_step",
    "C111_regulated",
    "C111_env_step",
    "C111_episode",
    "C111_end",
    "C111_rewards",
    "C111_available",
    "C111_ttc",
    "C111_kinematics",
    "C111_kinematics_error",
    "C111_occupancy",
    "C111_whole_turns",
    "C111_straight_road",
    "C111_creation",
    "C111_parking",
    "C111_not_other_angles",
    "C111_creation_timer",
    "C111_merge_end",
    "C111_own_row"
   ],
   "note": ""
  },
  {
   "property": "C112",
   "status": "proved",
   "theorems": [
    "C112_exact",
    "C112_equilibrium",
    "C112_no_equilibrium_at_target",
    "C112_monotone_closing",
    "C112_runaway_leader",
    "C112_never_above_target"
   ],
   "note": ""
  },
  {
   "property": "C113",
   "status": "proved",
   "theorems": [
    "C113_others_do_not_matter",
    "C113_predecessors_do_not_matter",
    "C113_groups_independent"
   ],
   "note": ""
  },
  {
   "property": "C114",
   "status": "proved",
   "theorems": [
    "C114_networks",
    "C114_traffic",
    "C114_step",
    "C114_episode",
    "C114_merge",
    "C114_fork",
    "C114_forks"
   ],
   "note": ""
  },
  {
   "property": "C115",
   "status": "proved",
   "theorems": [
    "C115_film",
    "C115_comes_true",
    "C115_fails_discrete",
    "C115_fails_continuous",
    "C115_stale",
    "C115_actions_ignored",
    "C115_idle",
    "C115_shown_if_idle",
    "C115_intersection",
    "C115_intersection_mismatch",
    "C115_states",
    "C115_too_coarse",
    "C115_picture",
    "C115_boxes",
    "C115_panels",
    "C115_image"
   ],
   "note": ""
  },
  {
   "property": "C116",
   "status": "proved",
   "theorems": [
    "C116_built",
    "C116_required",
    "C116_exactly_when",
    "C116_defaults",
    "C116_highway_pays",
    "C116_roundabout_pays",
    "C116_merge_pays",
    "C116_states_stand"
   ],
   "note": ""
  },
  {
   "property": "C117",
   "status": "proved",
   "theorems": [
    "C117_seeded",
    "C117_reproducible",
    "C117_unseeded",
    "C117_seed_without_reset",
    "C117_copy"
   ],
   "note": ""
  }
 ]
}