{
 "claims": [
  {
   "property": "C01",
   "status": "proved",
   "theorems": [
    "C01_environment_is_a_finite_map"
   ],
   "note": "every arithmetic (P layer); histories include arbitrary mutations of the obstacle objects and writes through operator[]"
  },
  {
   "property": "C02",
   "status": "proved",
   "theorems": [
    "C02_failed_calls_change_nothing"
   ],
   "note": "P layer"
  },
  {
   "property": "C03",
   "status": "proved",
   "theorems": [
    "C03_plain_update",
    "C03_mode_of_aggregation"
   ],
   "note": "P layer"
  },
  {
   "property": "C04",
   "status": "proved",
   "theorems": [
    "C04_assignment",
    "C04_published_list_is_a_snapshot",
    "C04_no_update_no_modulation"
   ],
   "note": "P layer; the second theorem is the consequence for modulate_velocity"
  },
  {
   "property": "C05",
   "status": "proved",
   "theorems": [
    "C05_aggregates_are_connected_components",
    "C05_everything_touches",
    "C05_nothing_touches"
   ],
   "note": "every arithmetic (P layer); obstacles of any type"
  },
  {
   "property": "C06",
   "status": "proved",
   "theorems": [
    "C06_published_aggregates_are_well_formed"
   ],
   "note": "P layer; the claim on primitives' reference positions assumes that distinct registered obstacles share no object (otherwise the last aggregate built wins)"
  },
  {
   "property": "C07",
   "status": "proved",
   "theorems": [
    "C07_update_changes_only_grouped_references"
   ],
   "note": "P layer, both modes"
  },
  {
   "property": "C08",
   "status": "proved",
   "theorems": [
    "C08_update_is_total"
   ],
   "note": "P layer, both modes; guard: registered pointers valid, aggregates not cyclic"
  },
  {
   "property": "C09",
   "status": "proved",
   "theorems": [
    "C09_separated_obstacles_keep_no_trace_refuted",
    "C09_separated_obstacles_keep_the_old_reference"
   ],
   "note": "false of the code: refuted on a concrete history; the second theorem says for all histories what happens instead"
  },
  {
   "property": "C10",
   "status": "proved",
   "theorems": [
    "C10_lookup_reaches_published_aggregates"
   ],
   "note": "P layer"
  },
  {
   "property": "C11",
   "status": "proved",
   "theorems": [
    "C11_aggregate_names_are_distinct_without_underscores",
    "C11_aggregate_names_are_distinct_refuted"
   ],
   "note": "false of the code: refuted on a concrete history; proved for names without underscores"
  },
  {
   "property": "C12",
   "status": "proved",
   "theorems": [
    "C12_envelope_follows_the_agent"
   ],
   "note": "real arithmetic; every history of the modifying calls"
  },
  {
   "property": "C13",
   "status": "proved",
   "theorems": [
    "C13_up_to_date_after_construction_refuted",
    "C13_up_to_date_after_set_safety_margin_refuted"
   ],
   "note": "false of the code: refuted after construction and after set_safety_margin; C12 is the part that holds"
  },
  {
   "property": "C14",
   "status": "proved",
   "theorems": [
    "C14_every_use_of_a_copy_is_undefined",
    "C14_copies_are_usable_refuted",
    "C14_transform_composes"
   ],
   "note": "P layer for the universal part (copying an agent leaves it with no envelope and its next envelope-touching call is undefined; poses compose under transform). The English claim that copies work is false of the code: refuted on a concrete history"
  },
  {
   "property": "C15",
   "status": "proved",
   "theorems": [
    "C15_exist_path_by_sides",
    "C15_order_does_not_matter",
    "C15_defined_for_ellipsoids",
    "C15_which_obstacles_are_closed",
    "C15_path_among_ellipsoids"
   ],
   "note": "P layer: exact characterisation of exist_path, order-independence, and the ellipsoid case"
  },
  {
   "property": "C16",
   "status": "proved",
   "theorems": [
    "C16_in_obstacle_is_sound"
   ],
   "note": "real arithmetic"
  },
  {
   "property": "C17",
   "status": "proved",
   "theorems": [
    "C17_poses_hold_unit_orientations",
    "C17_constructor_always_normalises_refuted"
   ],
   "note": "real arithmetic; the unguarded claim for every constructor is refuted"
  },
  {
   "property": "C18",
   "status": "proved",
   "theorems": [
    "C18_poses_are_a_group_of_rigid_motions"
   ],
   "note": "real arithmetic; unit quaternions"
  },
  {
   "property": "C19",
   "status": "proved",
   "theorems": [
    "C19_opposite_quaternions_same_pose",
    "C19_same_stored_quaternion_refuted"
   ],
   "note": "real arithmetic; refuted for quaternions of opposite sign"
  },
  {
   "property": "C20",
   "status": "proved",
   "theorems": [
    "C20_linspace_length_and_ends",
    "C20_linspace_equally_spaced"
   ],
   "note": "MathTools; error branches covered"
  },
  {
   "property": "C21",
   "status": "proved",
   "theorems": [
    "C21_gridspace_is_row_major"
   ],
   "note": "MathTools; error branches covered"
  },
  {
   "property": "C22",
   "status": "proved",
   "theorems": [
    "C22_cartesian_polar_cartesian",
    "C22_polar_ranges",
    "C22_polar_cartesian_polar"
   ],
   "note": "MathTools; error branches covered"
  },
  {
   "property": "C23",
   "status": "proved",
   "theorems": [
    "C23_find_closest_points_brackets",
    "C23_returned_indexes_are_columns"
   ],
   "note": "MathTools; error branches covered"
  },
  {
   "property": "C24",
   "status": "proved",
   "theorems": [
    "C24_sort_keeps_columns",
    "C24_sort_sorts",
    "C24_any_sorting_routine"
   ],
   "note": "MathTools; error branches covered"
  },
  {
   "property": "C25",
   "status": "proved",
   "theorems": [
    "C25_rand_float_in_bounds",
    "C25_sign"
   ],
   "note": "MathTools; error branches covered"
  },
  {
   "property": "C26",
   "status": "proved",
   "theorems": [
    "C26_distance_is_one_on_the_surface"
   ],
   "note": "real arithmetic, curvature factor 1"
  },
  {
   "property": "C27",
   "status": "proved",
   "theorems": [
    "C27_larger_margin_is_closer",
    "C27_monotone_for_all_positive_lengths_refuted"
   ],
   "note": "real arithmetic; refuted across the 1e-4 length threshold"
  },
  {
   "property": "C28",
   "status": "proved",
   "theorems": [
    "C28_geometry_is_frame_independent"
   ],
   "note": "real arithmetic; any curvature factor"
  },
  {
   "property": "C29",
   "status": "proved",
   "theorems": [
    "C29_normal_supports_the_level_set",
    "C29_normal_for_curvature_two_refuted"
   ],
   "note": "real arithmetic, curvature factor 1; refuted for curvature factor 2"
  },
  {
   "property": "C30",
   "status": "proved",
   "theorems": [
    "C30_inside_agrees_with_distance_in_the_plane",
    "C30_inside_agrees_with_distance_in_space_refuted"
   ],
   "note": "real arithmetic; refuted off the plane"
  },
  {
   "property": "C31",
   "status": "proved",
   "theorems": [
    "C31_samples_are_on_the_boundary"
   ],
   "note": "real arithmetic; both signs of the quaternion are covered by yaw_q"
  },
  {
   "property": "C32",
   "status": "proved",
   "theorems": [
    "C32_reported_intersections_are_real",
    "C32_every_overlap_is_reported_refuted",
    "C32_aggregates_never_meet_ellipsoids",
    "C32_intersection_is_symmetric_refuted",
    "C32_meeting_an_aggregate_is_meeting_a_primitive"
   ],
   "note": "real arithmetic; completeness and symmetry are refuted"
  },
  {
   "property": "C33",
   "status": "proved",
   "theorems": [
    "C33_line_meets_ellipse_exactly",
    "C33_parallel_lines_are_never_reported",
    "C33_every_line_is_handled_refuted"
   ],
   "note": "real arithmetic for the exact part; the excluded parallel lines are treated in arithmetic with infinities and NaN, where they are never reported"
  },
  {
   "property": "C34",
   "status": "proved",
   "theorems": [
    "C34_reference_moves_to_the_chord_midpoint",
    "C34_only_ellipsoids_are_shifted"
   ],
   "note": "real arithmetic"
  },
  {
   "property": "C35",
   "status": "proved",
   "theorems": [
    "C35_repulsion_of_an_aggregate",
    "C35_repulsion_inside_an_aggregated_ball",
    "C35_repulsion_drives_out_of_aggregates_refuted",
    "C35_repulsion_is_local_and_points_away",
    "C35_repulsions_are_added_to_the_velocity"
   ],
   "note": "real arithmetic"
  },
  {
   "property": "C36",
   "status": "proved",
   "theorems": [
    "C36_area_of_spheres",
    "C36_area_is_surface_area_refuted"
   ],
   "note": "false of the code: the first theorem gives what is computed (4 pi r), the second refutes the property"
  },
  {
   "property": "C37",
   "status": "proved",
   "theorems": [
    "C37_radii_are_at_least_18_19_of_the_minimum",
    "C37_radii_between_the_old_ones_and_the_minimum",
    "C37_minimum_radius_refuted",
    "C37_built_around_the_mean",
    "C37_computed_around_the_point"
   ],
   "note": "exact arithmetic; the bound by the minimum radius itself is refuted"
  },
  {
   "property": "C38",
   "status": "proved",
   "theorems": [
    "C38_queries_defined_exactly",
    "C38_queries_always_defined_refuted"
   ],
   "note": "exact arithmetic, resolution below 30000 (default 500 and 5000); definedness for every point is refuted"
  },
  {
   "property": "C39",
   "status": "proved",
   "theorems": [
    "C39_aggregate_contains_primitives"
   ],
   "note": "P layer: aggregates of any depth"
  },
  {
   "property": "C40",
   "status": "proved",
   "theorems": [
    "C40_distance_agrees_with_point_is_inside",
    "C40_distance_and_point_is_inside_defined_together",
    "C40_outside_an_aggregate_the_distance_is_at_least_1",
    "C40_is_closed_exact"
   ],
   "note": "exact arithmetic"
  },
  {
   "property": "C41",
   "status": "proved",
   "theorems": [
    "C41_second_update_changes_the_hulls",
    "C41_update_hull_is_idempotent_refuted",
    "C41_history_is_forgotten"
   ],
   "note": "idempotence is false of the code for every new aggregate; the contraction by 1/19 is proved"
  },
  {
   "property": "C42",
   "status": "proved",
   "theorems": [
    "C42_weights_form_a_convex_combination"
   ],
   "note": "real arithmetic"
  },
  {
   "property": "C43",
   "status": "proved",
   "theorems": [
    "C43_eigenvalues_damp_and_amplify"
   ],
   "note": "real arithmetic"
  },
  {
   "property": "C44",
   "status": "proved",
   "theorems": [
    "C44_reference_and_tangents_are_eigenvectors",
    "C44_ellipsoid_matrix_is_defined"
   ],
   "note": "real arithmetic; first theorem for every kind of obstacle, second shows the hypotheses hold for every ellipsoid whose reference point is further inside than the agent"
  },
  {
   "property": "C45",
   "status": "proved",
   "theorems": [
    "C45_no_obstacle_no_modulation",
    "C45_one_obstacle_in_sight"
   ],
   "note": "P layer"
  },
  {
   "property": "C46",
   "status": "proved",
   "theorems": [
    "C46_result_has_no_NaN",
    "C46_early_return_NaN_refuted"
   ],
   "note": "P layer for the guarded path; the early-return path is refuted"
  },
  {
   "property": "C47",
   "status": "proved",
   "theorems": [
    "C47_only_references_change"
   ],
   "note": "P layer, all modes"
  },
  {
   "property": "C48",
   "status": "proved",
   "theorems": [
    "C48_one_obstacle_gives_the_modulated_velocity"
   ],
   "note": "real arithmetic; scenes whose reference point is not seen along a tangent"
  },
  {
   "property": "C49",
   "status": "proved",
   "theorems": [
    "C49_impenetrability_in_the_plane",
    "C49_exact_in_the_band_refuted"
   ],
   "note": "real arithmetic; any number of obstacles, any motion; exactness inside the 1e-4 band is refuted"
  },
  {
   "property": "C50",
   "status": "proved",
   "theorems": [
    "C50_never_enters_a_static_obstacle",
    "C50_inside_the_band_refuted"
   ],
   "note": "global modulation, one static planar ellipsoid with its reference in the centre; the band condition is necessary (refuted without it)"
  },
  {
   "property": "C51",
   "status": "proved",
   "theorems": [
    "C51_impenetrability_in_space_refuted"
   ],
   "note": "false of the code: refuted by a static ellipsoid with half-lengths 1, 1, 2"
  },
  {
   "property": "C52",
   "status": "proved",
   "theorems": [
    "C52_impenetrability_of_two_critical_obstacles_refuted",
    "C52_common_directions_are_kept",
    "C52_touched_obstacles_are_not_entered"
   ],
   "note": "the unconditional statement is false of the code: refuted by two overlapping unit balls; proved for motionless obstacles whose modulated velocities agree (C52_common_directions_are_kept, C52_touched_obstacles_are_not_entered)"
  },
  {
   "property": "C53",
   "status": "proved",
   "theorems": [
    "C53_obstacle_order_does_not_matter"
   ],
   "note": "exact arithmetic; without planar_modulation"
  },
  {
   "property": "C54",
   "status": "proved",
   "theorems": [
    "C54_horizontal_frame_does_not_matter",
    "C54_moving_obstacles_in_space_refuted"
   ],
   "note": "for obstacles at rest or moving in the agent's plane, global modulation; refuted for moving obstacles in space"
  },
  {
   "property": "C55",
   "status": "proved",
   "theorems": [
    "C55_moving_with_the_obstacles_is_left_alone",
    "C55_zero_relative_velocity_is_left_alone"
   ],
   "note": "real arithmetic, without repulsion"
  },
  {
   "property": "C56",
   "status": "proved",
   "theorems": [
    "C56_speed_is_the_weighted_modulated_speed"
   ],
   "note": "real arithmetic, without repulsion"
  },
  {
   "property": "C57",
   "status": "proved",
   "theorems": [
    "C57_far_obstacles_do_not_matter"
   ],
   "note": "reference point inside, distance value at least 4"
  },
  {
   "property": "C58",
   "status": "proved",
   "theorems": [
    "C58_renamed_obstacles_are_removed_by_the_old_name",
    "C58_renamed_obstacles_keep_their_registration"
   ],
   "note": "P layer"
  },
  {
   "property": "C59",
   "status": "proved",
   "theorems": [
    "C59_outside_hull_reaches_the_primitives",
    "C59_outside_hull_contains_the_primitives_refuted"
   ],
   "note": "primitives that are ellipsoids turned about the vertical, at the height of the reference, with no sampled ray parallel to their y axis (there the code divides by zero); exact containment refuted"
  },
  {
   "property": "C60",
   "status": "proved",
   "theorems": [
    "C60_modulation_returns_for_ellipsoids",
    "C60_uninitialised_reference_is_read",
    "C60_modulation_returns_for_aggregates_refuted"
   ],
   "note": "P layer for ellipsoids; FALSE of the code for aggregates straight behind the hull (finding), and for ellipsoids created by name only"
  },
  {
   "property": "C61",
   "status": "proved",
   "theorems": [
    "C61_when_the_agent_is_stopped",
    "C61_no_spurious_stop"
   ],
   "note": "exact arithmetic, planar scenes without repulsion"
  },
  {
   "property": "C62",
   "status": "proved",
   "theorems": [
    "C62_speed_around_round_obstacles",
    "C62_speed_is_bounded_refuted"
   ],
   "note": "exact arithmetic, planar scenes; boundedness for elongated ellipsoids is FALSE of the code (finding)"
  },
  {
   "property": "C63",
   "status": "proved",
   "theorems": [
    "C63_one_static_ellipsoid_in_space",
    "C63_horizontal_motion_does_not_enter_a_ball",
    "C63_every_other_approach_enters_the_ball",
    "C63_impenetrability_of_balls_in_space_refuted"
   ],
   "note": "exact arithmetic, one static ellipsoid, deflection angles outside (0,1e-4); impenetrability of balls for non-horizontal motion is FALSE of the code (finding)"
  },
  {
   "property": "C64",
   "status": "proved",
   "theorems": [
    "C64_vertical_motion_is_never_deflected"
   ],
   "note": "exact arithmetic, all kinds of obstacles; a limitation of the code (finding)"
  },
  {
   "property": "C65",
   "status": "proved",
   "theorems": [
    "C65_planar_modulation_slows_down_without_deflection"
   ],
   "note": "exact arithmetic; a limitation of the code (finding)"
  },
  {
   "property": "C66",
   "status": "proved",
   "theorems": [
    "C66_outline_from_above",
    "C66_outline_is_closed_and_on_the_boundary",
    "C66_both_outlines_coincide",
    "C66_margin_is_never_drawn",
    "C66_dashed_line_shows_the_margin_refuted"
   ],
   "note": "exact arithmetic for the geometry, P layer for the structure; the margin is never drawn: FALSE of the code (finding)"
  },
  {
   "property": "C67",
   "status": "proved",
   "theorems": [
    "C67_outline_from_the_side",
    "C67_unrotated_ellipsoids_degenerate",
    "C67_side_view_shows_the_extent_refuted"
   ],
   "note": "false of the code (finding); the drawn section is characterised exactly"
  },
  {
   "property": "C68",
   "status": "proved",
   "theorems": [
    "C68_obstacles_alone",
    "C68_obstacles_in_two_panels",
    "C68_obstacles_in_turn",
    "C68_drawing_returns",
    "C68_windows",
    "C68_top_view"
   ],
   "note": "P layer; matplotlib itself is not modelled"
  },
  {
   "property": "C69",
   "status": "proved",
   "theorems": [
    "C69_both_panels_of_a_configuration",
    "C69_both_panels_of_the_guard",
    "C69_guard_side_view",
    "C69_agent_in_the_side_view_refuted",
    "C69_aggregates_are_always_shown_from_above",
    "C69_hulls_are_drawn_completely",
    "C69_aggregates_in_the_side_view_refuted"
   ],
   "note": "P layer; FALSE of the code for the agent of plot_configuration and for aggregates (finding)"
  },
  {
   "property": "C70",
   "status": "proved",
   "theorems": [
    "C70_constructing_an_aggregate",
    "C70_position_is_a_number_refuted"
   ],
   "note": "P layer; FALSE of the code for an empty list (finding)"
  },
  {
   "property": "C71",
   "status": "proved",
   "theorems": [
    "C71_adding_primitives",
    "C71_order_of_additions"
   ],
   "note": "P layer; the hulls themselves depend on the history (C41)"
  },
  {
   "property": "C72",
   "status": "proved",
   "theorems": [
    "C72_the_target_is_reached",
    "C72_from_every_start_refuted"
   ],
   "note": "exact arithmetic; one static disc with the reference point at its centre, modulation in the plane of the disc; convergence from every start is FALSE of the code (finding)"
  },
  {
   "property": "C73",
   "status": "proved",
   "theorems": [
    "C73_where_the_target_is_missed"
   ],
   "note": "exact arithmetic; the exceptional starts of C72 (finding)"
  },
  {
   "property": "C74",
   "status": "proved",
   "theorems": [
    "C74_velocity_around_one_static_obstacle",
    "C74_velocity_around_one_aggregate",
    "C74_aggregates_are_not_entered_refuted"
   ],
   "note": "exact arithmetic; one static obstacle in the plane of the agent; that aggregates are not entered is refuted for every step length"
  },
  {
   "property": "C75",
   "status": "proved",
   "theorems": [
    "C75_agent_margin_is_ignored_by_aggregates",
    "C75_the_margin_counts_for_a_ball",
    "C75_larger_agents_keep_away_refuted"
   ],
   "note": "the intended property is false of the code: the theorem says that the margin is ignored (every arithmetic)"
  },
  {
   "property": "C76",
   "status": "proved",
   "theorems": [
    "C76_motion_of_grouped_obstacles_is_ignored",
    "C76_at_rest_among_obstacles_at_rest",
    "C76_grouped_obstacles_push_the_agent_refuted",
    "C76_a_single_ball_pushes_the_agent"
   ],
   "note": "the intended property is false of the code: the theorems say that the motion is ignored (every arithmetic), one concrete refutation in exact arithmetic; without planar modulation"
  },
  {
   "property": "C77",
   "status": "proved",
   "theorems": [
    "C77_without_update_the_loop_is_straight",
    "C77_without_update_the_wall_is_ignored",
    "C77_the_speed_limit",
    "C77_the_blended_loop_without_update",
    "C77_the_guard_without_update"
   ],
   "note": "exact arithmetic; scenes are arbitrary histories without update()"
  },
  {
   "property": "C78",
   "status": "proved",
   "theorems": [
    "C78_the_moving_obstacle_is_avoided_refuted",
    "C78_the_moving_obstacle_program",
    "C78_the_single_configuration_is_undefined",
    "C78_the_guard_is_carried",
    "C78_the_wall_stops_the_agent",
    "C78_the_wall_lets_the_agent_pass"
   ],
   "note": "the intended property is false of the code (finding); trajectories for every number of rounds in exact arithmetic, the uninitialised read and the carried guard in every arithmetic"
  },
  {
   "property": "C79",
   "status": "proved",
   "theorems": [
    "C79_the_test_of_modulation_passes_refuted",
    "C79_the_test_of_modulation_after_update",
    "C79_shipped_tests_hold",
    "C79_shipped_tests_with_rotations_hold",
    "C79_shipped_test_of_relative_velocities_holds",
    "C79_shipped_test_of_aggregation_holds",
    "C79_shipped_test_of_registration_holds",
    "C79_the_test_of_lists_reads_initialised_memory_refuted"
   ],
   "note": "every TEST in tests/ has its counterpart; mostly closed statements (tests of the model, given as evidence of fidelity), some generalised over rotations, positions and sizes; the test that fails and the test that reads uninitialised memory are findings"
  },
  {
   "property": "C80",
   "status": "proved",
   "theorems": [
    "C80_weights_in_double_precision",
    "C80_contact_weights_in_double_precision",
    "C80_weights_sum_exactly_to_one_refuted",
    "C80_weights_are_numbers_far_away_refuted"
   ],
   "note": "IEEE binary64 (Flocq), operations rounded one by one in the order of the model, pow a parameter"
  },
  {
   "property": "C81",
   "status": "proved",
   "theorems": [
    "C81_eigenvalues_in_contact",
    "C81_eigenvalues_in_double_precision"
   ],
   "note": "IEEE binary64; reactivity 1 (the only value used) for the second theorem"
  },
  {
   "property": "C82",
   "status": "proved",
   "theorems": [
    "C82_constructed_orientations_in_double_precision",
    "C82_set_orientations_in_double_precision",
    "C82_drift_of_products_in_double_precision",
    "C82_constructed_orientations_are_exactly_unit_refuted"
   ],
   "note": "IEEE binary64; orientations only, positions of products are not bounded here"
  },
  {
   "property": "C83",
   "status": "proved",
   "theorems": [
    "C83_linspace_in_double_precision",
    "C83_linspace_is_always_sorted_refuted",
    "C83_rand_float_in_double_precision",
    "C83_rand_float_stays_between_its_bounds_refuted"
   ],
   "note": "IEEE binary64; the same claim in exact arithmetic is C20 and C25"
  },
  {
   "property": "C84",
   "status": "proved",
   "theorems": [
    "C84_never_enters_any_obstacle",
    "C84_sinks_in_slowly"
   ],
   "note": "real arithmetic; step length bounded by the gap, the number and the shapes of the obstacles; obstacles at rest, planar motion, no repulsion"
  },
  {
   "property": "C85",
   "status": "proved",
   "theorems": [
    "C85_agents_are_values_without_assignment",
    "C85_assigned_agents_share_their_envelope",
    "C85_agents_are_values_refuted"
   ],
   "note": "P layer: refinement of independent values for all programs without assignment between variables; refuted with assignment"
  },
  {
   "property": "C86",
   "status": "proved",
   "theorems": [
    "C86_seven_numbers_in_the_defined_order",
    "C86_seven_numbers_in_the_declared_order",
    "C86_no_rotation_in_the_declared_order_refuted"
   ],
   "note": "exact characterisation over the reals; the declared argument order is refuted"
  },
  {
   "property": "C87",
   "status": "proved",
   "theorems": [
    "C87_constructed",
    "C87_last_write_wins",
    "C87_every_kind",
    "C87_states_constructed",
    "C87_copied",
    "C87_moving_moves_the_reference_refuted",
    "C87_moved_obstacles_repel_refuted"
   ],
   "note": "P layer; two expectations about moved obstacles are refuted over the reals"
  },
  {
   "property": "C88",
   "status": "proved",
   "theorems": [
    "C88_equal_texts_show_equal_objects",
    "C88_the_text_determines_an_ellipsoid",
    "C88_when_printing_is_defined",
    "C88_every_obstacle_can_be_printed_refuted",
    "C88_equal_texts_show_equal_agents",
    "C88_messages_identify_the_failure",
    "C88_the_lines_of_an_ellipsoid",
    "C88_the_turn_of_an_ellipsoid",
    "C88_the_lines_of_an_agent",
    "C88_the_turn_of_an_agent"
   ],
   "note": "P layer; how a number is written is a parameter; the text is a prefix code. One expectation is refuted"
  },
  {
   "property": "C89",
   "status": "proved",
   "theorems": [
    "C89_constructed",
    "C89_constructed_without_a_state",
    "C89_calls_write_what_they_name",
    "C89_copied"
   ],
   "note": "P layer"
  },
  {
   "property": "C90",
   "status": "proved",
   "theorems": [
    "C90_the_arc_cosine_outside_its_domain_is_irrelevant",
    "C90_in_double_precision"
   ],
   "note": "P layer and binary64 (Flocq)"
  },
  {
   "property": "C91",
   "status": "proved",
   "theorems": [
    "C91_the_random_configurations",
    "C91_any_number_of_simulations",
    "C91_the_pictures_show_the_scene_refuted",
    "C91_the_agent_avoids_the_obstacles_refuted",
    "C91_the_seed_determines_the_scene_refuted",
    "C91_the_blended_programs_are_undefined"
   ],
   "note": "R layer (P for the undefined programs); several expectations are refuted"
  },
  {
   "property": "C92",
   "status": "proved",
   "theorems": [
    "C92_testKIT",
    "C92_testWall",
    "C92_testMovingObstacle",
    "C92_testGuardAvoidance",
    "C92_testGuardAvoidance_without_noise",
    "C92_the_picture_files",
    "C92_no_picture_is_replaced",
    "C92_the_scenes",
    "C92_the_pictures_show_the_scene_refuted",
    "C92_testKIT_keeps_the_margin_refuted",
    "C92_testWall_avoids_the_walls_refuted",
    "C92_the_platform_keeps_the_margin_refuted"
   ],
   "note": "R layer; several expectations are refuted"
  },
  {
   "property": "C93",
   "status": "proved",
   "theorems": [
    "C93_every_obstacle_is_drawn",
    "C93_names_are_written",
    "C93_testOptimization"
   ],
   "note": "P layer"
  },
  {
   "property": "C94",
   "status": "proved",
   "theorems": [
    "C94_units_of_time",
    "C94_setting_the_velocity",
    "C94_units_of_time_with_repulsion_refuted"
   ],
   "note": "R layer, non-planar variant; refuted with repulsion"
  },
  {
   "property": "C95",
   "status": "proved",
   "theorems": [
    "C95_units_of_length",
    "C95_normal_and_distance",
    "C95_curvature_refuted",
    "C95_small_lengths_refuted"
   ],
   "note": "R layer, global, non-planar, without repulsion; refuted for mixed curvature factors and lengths of 1e-4 or less"
  },
  {
   "property": "C96",
   "status": "proved",
   "theorems": [
    "C96_mirrored_scenes",
    "C96_symmetric_scenes",
    "C96_other_curvature_refuted"
   ],
   "note": "R layer, global, non-planar variant; refuted for curvature factors that are not whole numbers"
  },
  {
   "property": "C97",
   "status": "proved",
   "theorems": [
    "C97_lines_do_not_interfere",
    "C97_lines_for_ellipsoids",
    "C97_lines_in_planar_scenes",
    "C97_quiet_scenes",
    "C97_other_kinds_are_out_of_sight",
    "C97_hulls_never_push",
    "C97_lines_of_the_abstract_class",
    "C97_nothing_to_shift"
   ],
   "note": "P layer for erasure, the possible lines and unknown kinds; R layer for the exact lines in planar scenes. What is printed before an exception or undefined behaviour is not recorded."
  },
  {
   "property": "C98",
   "status": "proved",
   "theorems": [
    "C98_NaN_line_means_zero",
    "C98_NaN_velocity_is_reported",
    "C98_NaN_spreads",
    "C98_never_with_exact_reals"
   ],
   "note": "P layer, instantiated for extended reals and binary64"
  },
  {
   "property": "C99",
   "status": "proved",
   "theorems": [
    "C99_repulsion_line_iff_velocity_changed",
    "C99_agent_in_obstacle_refuted",
    "C99_every_agent_in_obstacle_refuted"
   ],
   "note": "R layer; the wording of the line is refuted in both directions"
  },
  {
   "property": "C100",
   "status": "proved",
   "theorems": [
    "C100_no_line_no_problem",
    "C100_line_iff_nearly_tangent"
   ],
   "note": "R layer, non-planar variant (reference points are not shifted), all kinds of obstacles"
  },
  {
   "property": "C101",
   "status": "proved",
   "theorems": [
    "C101_never_enters_in_continuous_time",
    "C101_sinks_in_at_most_slowly"
   ],
   "note": "real arithmetic and continuous time; without the restriction on the deflection angle at contact, the bound of C101_sinks_in_at_most_slowly; steps of finite length are C50"
  },
  {
   "property": "C102",
   "status": "proved",
   "theorems": [
    "C102_one_obstacle_no_jump",
    "C102_no_jump_while_one_is_critical",
    "C102_two_critical_obstacles_refuted",
    "C102_repulsion_refuted"
   ],
   "note": "real arithmetic; the two restrictions (at most one critical obstacle, no repulsion) are necessary: see the refuted companions"
  },
  {
   "property": "C103",
   "status": "proved",
   "theorems": [
    "C103_update_keeps_what_is_registered",
    "C103_aggregates_do_not_accumulate",
    "C103_update_releases_the_rest",
    "C103_published_obstacles_stay_alive",
    "C103_no_cycles_from_update",
    "C103_no_cycles_from_add_primitive",
    "C103_self_containment_never_returns",
    "C103_removal_releases_refuted"
   ],
   "note": "every number type; lifetime is modelled as reachability through shared pointers held by the environment"
  },
  {
   "property": "C104",
   "status": "proved",
   "theorems": [
    "C104_carried_out",
    "C104_carried_out_later",
    "C104_as_drawn",
    "C104_failed_plots_pass",
    "C104_failures_are_reported_refuted",
    "C104_names_are_shown_in_full_refuted"
   ],
   "note": "every number type; what Python does with a call is a parameter (any function of the earlier calls and of the error indicator); refuted parts: failed plots are not reported, names are cut at a NUL"
  },
  {
   "property": "C105",
   "status": "proved",
   "theorems": [
    "C105_nothing_kept",
    "C105_nothing_kept_from_the_start",
    "C105_failed_calls_keep_their_arguments",
    "C105_exceptions_leak",
    "C105_nothing_is_kept_after_an_exception_refuted"
   ],
   "note": "every number type; counts the references held by the C++ side; refuted for drawings that end with an exception, with the exact condition"
  },
  {
   "property": "C106",
   "status": "proved",
   "theorems": [
    "C106_no_crash",
    "C106_without_matplotlib",
    "C106_incomplete_matplotlib",
    "C106_other_names_crash",
    "C106_every_name_can_be_drawn_refuted",
    "C106_without_numpy",
    "C106_missing_modules_are_reported_refuted",
    "C106_first_calls_crash",
    "C106_any_call_may_come_first_refuted",
    "C106_after_update"
   ],
   "note": "every number type; numpy importable and showable names are necessary: see the refuted companions"
  },
  {
   "property": "C107",
   "status": "proved",
   "theorems": [
    "C107_the_examples_do_not_crash",
    "C107_the_examples_write_their_pictures"
   ],
   "note": "every number type; numpy importable; what Python answers is arbitrary in the first theorem"
  },
  {
   "property": "C108",
   "status": "proved",
   "theorems": [
    "C108_same_groups",
    "C108_same_outcome",
    "C108_same_update",
    "C108_same_hull",
    "C108_at_different_heights_refuted",
    "C108_the_model_is_one_of_them"
   ],
   "note": "groups for every number type; outlines in exact arithmetic on level ground; refuted at different heights"
  },
  {
   "property": "C109",
   "status": "proved",
   "theorems": [
    "C109_frames_in_double_precision",
    "C109_the_pose_meant",
    "C109_distance_in_double_precision",
    "C109_distance_to_agent_in_double_precision",
    "C109_inside_in_double_precision",
    "C109_boundary_points_are_inside_refuted"
   ],
   "note": "IEEE binary64, curvature 1; pow(x, 2) accurate to one unit in the last place; the same in exact arithmetic is C26 and C30"
  },
  {
   "property": "C110",
   "status": "proved",
   "theorems": [
    "C110_normal_in_double_precision"
   ],
   "note": "IEEE binary64, curvature 1, half-lengths within a factor of 32; pow(x, 1) accurate to one unit in the last place; the normal in exact arithmetic is in C29"
  },
  {
   "property": "C111",
   "status": "proved",
   "theorems": [
    "C111_modulated_velocity_is_finite_in_double_precision",
    "C111_with_repulsion_or_in_the_surroundings"
   ],
   "note": "IEEE binary64; hypotheses on the mathematical library are stated in SpecFloat.v, SpecDist.v and SpecRound.v; in exact arithmetic nothing is NaN (C97)"
  },
  {
   "property": "C112",
   "status": "proved",
   "theorems": [
    "C112_speed_limit_in_double_precision",
    "C112_speed_limit_refuted",
    "C112_positions_in_double_precision",
    "C112_rounds_are_steps",
    "C112_round_in_double_precision"
   ],
   "note": "IEEE binary64; the refuted theorem shows that the bound on the velocity is needed: finite velocities beyond about 10^154 are cut down to zero"
  },
  {
   "property": "C113",
   "status": "proved",
   "theorems": [
    "C113_wall_run_in_double_precision",
    "C113_wall_run_within_reach"
   ],
   "note": "IEEE binary64; hypotheses on the mathematical library as in C111; the obstacles must be usual (SpecRound.v) where the agent comes along, or within its reach (SpecTravel.v)"
  },
  {
   "property": "C114",
   "status": "proved",
   "theorems": [
    "C114_moving_obstacle_in_double_precision",
    "C114_moving_obstacle_approaches",
    "C114_program_in_double_precision"
   ],
   "note": "IEEE binary64; hypotheses on the mathematical library as in C111; the obstacles must be usual (SpecRound.v) in the states the run goes through"
  },
  {
   "property": "C115",
   "status": "proved",
   "theorems": [
    "C115_free_loop_in_double_precision"
   ],
   "note": "IEEE binary64; no hypothesis on the mathematical library; empty obstacle list"
  },
  {
   "property": "C116",
   "status": "proved",
   "theorems": [
    "C116_guard_round_in_double_precision"
   ],
   "note": "IEEE binary64; hypotheses on the mathematical library as in C111; one round from any state; the guard has no listed obstacle, as in the program (its environment is never updated)"
  }
 ]
}