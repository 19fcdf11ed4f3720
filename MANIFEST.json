{
 "claims": [
  {
   "property": "C01",
   "status": "proved",
   "theorems": [
    "C01_dp_shortest_path_optimal"
   ],
   "note": ""
  },
  {
   "property": "C02",
   "status": "proved",
   "theorems": [
    "C02_dp_path_realises_length"
   ],
   "note": ""
  },
  {
   "property": "C03",
   "status": "proved",
   "theorems": [
    "C03_dp_first_index_tie_break",
    "C03_dp_first_index_tie_break_exact",
    "C03_dp_lexicographic_with_infinite_costs_refuted"
   ],
   "note": "The refuted companion shows why plain optimality is not enough with infinite costs."
  },
  {
   "property": "C04",
   "status": "proved",
   "theorems": [
    "C04_dp_value_function_is_cost_to_go"
   ],
   "note": ""
  },
  {
   "property": "C05",
   "status": "proved",
   "theorems": [
    "C05_dp_rejects_degenerate_input"
   ],
   "note": ""
  },
  {
   "property": "C06",
   "status": "proved",
   "theorems": [
    "C06_pygraph_shortest_path_optimal",
    "C06_pygraph_shortest_path_optimal_arccos"
   ],
   "note": "Any cost arithmetic, any cost function that returns a value on samples of consecutive columns; also instantiated with the code's arccos cost over the reals."
  },
  {
   "property": "C07",
   "status": "proved",
   "theorems": [
    "C07_pygraph_path_and_cost_agree"
   ],
   "note": "Index sequence existential; the walk cost is accumulated in the order of the code."
  },
  {
   "property": "C08",
   "status": "proved",
   "theorems": [
    "C08_pygraph_fails_iff_no_finite_path",
    "C08_pygraph_fails_with_empty_column"
   ],
   "note": "Includes totality for non-empty lists and the empty-column case."
  },
  {
   "property": "C09",
   "status": "proved",
   "theorems": [
    "C09_pygraph_step_limit_respected_and_optimal"
   ],
   "note": ""
  },
  {
   "property": "C10",
   "status": "proved",
   "theorems": [
    "C10_pygraph_partial_path_reaches_furthest_column"
   ],
   "note": ""
  },
  {
   "property": "C11",
   "status": "proved",
   "theorems": [
    "C11_pygraph_search_terminates",
    "C11_pygraph_search_never_out_of_fuel"
   ],
   "note": "Loop bound = number of samples; second theorem covers cost functions that raise."
  },
  {
   "property": "C12",
   "status": "proved",
   "theorems": [
    "C12_pygraph_graph_reuse"
   ],
   "note": "History of arbitrary runs (also failing ones), get_path and reset calls."
  },
  {
   "property": "C13",
   "status": "partial",
   "theorems": [
    "C13_pygraph_segments_returns_refuted",
    "C13_pygraph_segments_two_columns_raise",
    "C13_pygraph_segments_termination_decided_partial"
   ],
   "note": "REFUTED: witness where the loop never ends; one and two columns always raise IndexError. Proved instead: the loop ends within (columns - 2) rounds or never."
  },
  {
   "property": "C14",
   "status": "proved",
   "theorems": [
    "C14_pygraph_segments_single_path",
    "C14_pygraph_segments_two_paths"
   ],
   "note": "Also the two-segment case."
  },
  {
   "property": "C15",
   "status": "proved",
   "theorems": [
    "C15_cpp_bfs_optimal",
    "C15_cpp_bfs_returns_iff_finite_path"
   ],
   "note": "run_bfs is optimal for every arithmetic of Cost.v; companion: it returns iff some path has finite cost, otherwise null dereference."
  },
  {
   "property": "C16",
   "status": "proved",
   "theorems": [
    "C16_cpp_get_path_valid_bfs",
    "C16_cpp_get_path_valid_dijkstra",
    "C16_cpp_stl_heap_keeps_elements",
    "C16_cpp_get_path_other_length",
    "C16_cpp_get_path_before_search"
   ],
   "note": "run_bfs for all inputs; run_dijkstra for every queue obeying the permutation laws when path costs are finite and no column is empty; the libstdc++ heap is proved to obey the laws."
  },
  {
   "property": "C17",
   "status": "proved",
   "theorems": [
    "C17_cpp_cost_of_path_bfs",
    "C17_cpp_cost_of_path_dijkstra"
   ],
   "note": "Both searches; Dijkstra under the hypotheses of C16."
  },
  {
   "property": "C18",
   "status": "partial",
   "theorems": [
    "C18_cpp_dijkstra_optimal_refuted",
    "C18_two_columns_partial",
    "C18_two_columns_real_partial",
    "C18_three_columns_refuted",
    "C18_two_columns_negative_refuted"
   ],
   "note": "Proved for two columns with finite non-negative costs (generic and for real numbers with non-negative weights), with the libstdc++ heap as it is. REFUTED for three and four columns with exact integers and unit weights, and for two columns with a negative weight."
  },
  {
   "property": "C19",
   "status": "proved",
   "theorems": [
    "C19_cpp_dijkstra_optimal_with_min_queue",
    "C19_cpp_dijkstra_optimal_real"
   ],
   "note": "Queue popping a current minimum and non-negative costs; also instantiated to exact reals with non-negative weights."
  },
  {
   "property": "C20",
   "status": "proved",
   "theorems": [
    "C20_cpp_bfs_terminates",
    "C20_cpp_dijkstra_terminates"
   ],
   "note": "Fuel equal to the number of rows is enough from the loaded graph, for any queue obeying the permutation laws."
  },
  {
   "property": "C21",
   "status": "proved",
   "theorems": [
    "C21_cpp_bfs_idempotent"
   ],
   "note": "The object is unchanged by a second run_bfs."
  },
  {
   "property": "C22",
   "status": "proved",
   "theorems": [
    "C22_cpp_reset_forgets_history"
   ],
   "note": "Histories of run_bfs, run_dijkstra, reset and get_path."
  },
  {
   "property": "C23",
   "status": "partial",
   "theorems": [
    "C23_cpp_init_twice_refuted",
    "C23_cpp_init_twice_always_crashes"
   ],
   "note": "REFUTED: after a second init every run_bfs dereferences a null pointer."
  },
  {
   "property": "C24",
   "status": "proved",
   "theorems": [
    "C24_cpp_weights_selected",
    "C24_cpp_weights_enter_the_cost"
   ],
   "note": "Selection of the weights and their use in the path cost."
  },
  {
   "property": "C25",
   "status": "proved",
   "theorems": [
    "C25_shortest_path_bfs",
    "C25_shortest_path_dijkstra",
    "C25_shortest_path_rows"
   ],
   "note": "Both methods, both dtypes; rows theorem holds for arbitrary Q."
  },
  {
   "property": "C26",
   "status": "partial",
   "theorems": [
    "C26_empty_entry_refuted",
    "C26_empty_entry_partial",
    "C26_empty_first_entry_raises",
    "C26_empty_among_float64_raises",
    "C26_failure_means_empty_entry"
   ],
   "note": "REFUTED when the first entry is empty or another entry is empty and the first is float64: AttributeError. Proved when the first entry is a float32 array."
  },
  {
   "property": "C27",
   "status": "proved",
   "theorems": [
    "C27_unknown_method"
   ],
   "note": ""
  },
  {
   "property": "C28",
   "status": "proved",
   "theorems": [
    "C28_no_redundancy_exact",
    "C28_no_redundancy_returns"
   ],
   "note": "For every robot and every collision checker with history independent answers."
  },
  {
   "property": "C29",
   "status": "partial",
   "theorems": [
    "C29_simple_all_samples_refuted",
    "C29_simple_last_sample_only",
    "C29_simple_one_sample_partial",
    "C29_simple_no_samples"
   ],
   "note": "REFUTED: q_sol is reset for every sample, only the last sample survives (proved for every robot). Proved when there is one sample per point."
  },
  {
   "property": "C30",
   "status": "partial",
   "theorems": [
    "C30_incremental_stops_refuted",
    "C30_incremental_never_ends",
    "C30_incremental_stops_partial"
   ],
   "note": "REFUTED: counter counts solutions, not tries; never ends when no sample has a collision-free solution. Proved to end when every sample has one."
  },
  {
   "property": "C31",
   "status": "proved",
   "theorems": [
    "C31_incremental_enough"
   ],
   "note": ""
  },
  {
   "property": "C32",
   "status": "proved",
   "theorems": [
    "C32_iterative_success",
    "C32_iterative_failure",
    "C32_iterative_zero_iterations_raises"
   ],
   "note": ""
  },
  {
   "property": "C33",
   "status": "partial",
   "theorems": [
    "C33_point_types_refuted",
    "C33_other_point_types_raise",
    "C33_free_orientation_points_partial"
   ],
   "note": "REFUTED: undefined name TolPositionPoint, NameError for every class but FreeOrientationPt."
  },
  {
   "property": "C34",
   "status": "proved",
   "theorems": [
    "C34_new_bounds",
    "C34_refinement_halves",
    "C34_new_bounds_exact",
    "C34_red2_keeps_interval"
   ],
   "note": "On real numbers."
  },
  {
   "property": "C35",
   "status": "proved",
   "theorems": [
    "C35_set_initial_path"
   ],
   "note": ""
  },
  {
   "property": "C36",
   "status": "partial",
   "theorems": [
    "C36_solve_without_scene_refuted",
    "C36_solve_with_scene_partial",
    "C36_solve_unknown_method"
   ],
   "note": "REFUTED: attribute scene is never set without scene, AttributeError for all four methods. Dispatch with scene proved."
  },
  {
   "property": "C37",
   "status": "proved",
   "theorems": [
    "C37_collision_history",
    "C37_self_collision_history"
   ],
   "note": "Holds after any sequence of fk/fk_all_links/collision/link calls, including failing ones."
  },
  {
   "property": "C38",
   "status": "proved",
   "theorems": [
    "C38_collision_iff",
    "C38_self_collision_iff",
    "C38_default_pairs",
    "C38_tool_without_links"
   ],
   "note": "Excluded case (tool on a robot with no links) is characterised separately."
  },
  {
   "property": "C39",
   "status": "proved",
   "theorems": [
    "C39_priority_permutation",
    "C39_priority_order"
   ],
   "note": ""
  },
  {
   "property": "C40",
   "status": "proved",
   "theorems": [
    "C40_fk_history",
    "C40_fk_all_links_history"
   ],
   "note": ""
  },
  {
   "property": "C41",
   "status": "proved",
   "theorems": [
    "C41_fk_rigid",
    "C41_fk_returns",
    "C41_fk_raises"
   ],
   "note": ""
  },
  {
   "property": "C42",
   "status": "proved",
   "theorems": [
    "C42_dh_convention"
   ],
   "note": ""
  },
  {
   "property": "C43",
   "status": "proved",
   "theorems": [
    "C43_frames"
   ],
   "note": ""
  },
  {
   "property": "C44",
   "status": "partial",
   "theorems": [
    "C44_casadi_refuted",
    "C44_casadi_revolute_partial"
   ],
   "note": "REFUTED as stated: the symbolic version ignores the joint type, so a prismatic joint turns instead of sliding (C44_casadi_refuted). Holds for robots with revolute joints only (C44_casadi_revolute_partial)."
  },
  {
   "property": "C45",
   "status": "proved",
   "theorems": [
    "C45_puma",
    "C45_planar",
    "C45_spherical",
    "C45_wrist",
    "C45_anthropomorphic",
    "C45_arm2",
    "C45_kuka",
    "C45_kuka_on_rail",
    "C45_base_tool"
   ],
   "note": "Closed forms of all eight bundled robots, plus base/tool factorisation."
  },
  {
   "property": "C46",
   "status": "proved",
   "theorems": [
    "C46_anthropomorphic_exact",
    "C46_anthropomorphic_returns",
    "C46_base_ignored"
   ],
   "note": "Exact position for identity base without tool when the elbow cosine is at most 1-1e-6; the base is shown to be ignored."
  },
  {
   "property": "C47",
   "status": "proved",
   "theorems": [
    "C47_anthropomorphic_error"
   ],
   "note": "Squared error at most 2 |a2 a3| 1e-6 for every returned solution."
  },
  {
   "property": "C48",
   "status": "proved",
   "theorems": [
    "C48_anthropomorphic_unreachable",
    "C48_anthropomorphic_complete"
   ],
   "note": "Failure means unreachable; completeness away from the axis and the stretched elbow."
  },
  {
   "property": "C49",
   "status": "proved",
   "theorems": [
    "C49_arm2_correct",
    "C49_arm2_snapped"
   ],
   "note": "Exact for identity base without tool unless the elbow is stretched or folded, error bound otherwise."
  },
  {
   "property": "C50",
   "status": "proved",
   "theorems": [
    "C50_arm2_unreachable",
    "C50_arm2_returns",
    "C50_arm2_complete"
   ],
   "note": "Failure means unreachable, never raises, completeness away from the axis and the stretched elbow."
  },
  {
   "property": "C51",
   "status": "proved",
   "theorems": [
    "C51_wrist_correct",
    "C51_wrist_complete"
   ],
   "note": "Both returned solutions reproduce the orientation when the approach axis is not vertical; completeness as well."
  },
  {
   "property": "C52",
   "status": "partial",
   "theorems": [
    "C52_wrist_singular_refuted"
   ],
   "note": "REFUTED: at a vertical approach axis ik returns success with wrong orientations; C51 is the guarded version."
  },
  {
   "property": "C53",
   "status": "proved",
   "theorems": [
    "C53_kuka_correct"
   ],
   "note": "Exact for every rigid base and tool off the wrist and elbow singularities, with an error bound at the elbow singularity."
  },
  {
   "property": "C54",
   "status": "proved",
   "theorems": [
    "C54_rail_correct"
   ],
   "note": "Exact for the default dimensions, off the singularities."
  },
  {
   "property": "C55",
   "status": "partial",
   "theorems": [
    "C55_rail_dimensions_refuted",
    "C55_rail_default_partial"
   ],
   "note": "REFUTED for other constructor dimensions: the helper Kuka always has the default ones; proved that the dimensions are ignored."
  },
  {
   "property": "C56",
   "status": "partial",
   "theorems": [
    "C56_kuka_limits_refuted",
    "C56_kuka_limits_partial"
   ],
   "note": "REFUTED for joint 3, which can exceed pi; the other joints are within limits."
  },
  {
   "property": "C57",
   "status": "partial",
   "theorems": [
    "C57_wrist_aliased_refuted",
    "C57_kuka_own_partial"
   ],
   "note": "REFUTED for SphericalWrist, which returns its internal array; proved for Kuka."
  },
  {
   "property": "C58",
   "status": "proved",
   "theorems": [
    "C58_rotations",
    "C58_rotations_add",
    "C58_rotation_axes",
    "C58_poses"
   ],
   "note": "exact real arithmetic"
  },
  {
   "property": "C59",
   "status": "proved",
   "theorems": [
    "C59_tf_inverse"
   ],
   "note": "exact real arithmetic, rigid T"
  },
  {
   "property": "C60",
   "status": "proved",
   "theorems": [
    "C60_grid_order",
    "C60_grid_complete",
    "C60_grid_length",
    "C60_grid_rows"
   ],
   "note": "non-empty input list; scalars are one-element lists"
  },
  {
   "property": "C61",
   "status": "proved",
   "theorems": [
    "C61_vdc_value",
    "C61_vdc_returns",
    "C61_vdc_range",
    "C61_vdc_distinct",
    "C61_vdc_negative_diverges",
    "C61_vdc_base1_diverges"
   ],
   "note": "base >= 2, n >= 0, exact rational values as reals; the loop diverges for n < 0 and for base 1 (proved too)"
  },
  {
   "property": "C62",
   "status": "proved",
   "theorems": [
    "C62_vdc_stratified"
   ],
   "note": "all bases >= 2, all k, all blocks"
  },
  {
   "property": "C63",
   "status": "proved",
   "theorems": [
    "C63_is_prime",
    "C63_next_prime",
    "C63_next_prime_terminates",
    "C63_prime_stream",
    "C63_prime_stream_terminates"
   ],
   "note": "int(num**0.5) taken as the exact integer root"
  },
  {
   "property": "C64",
   "status": "proved",
   "theorems": [
    "C64_halton_chunks",
    "C64_halton_continues",
    "C64_halton_rows",
    "C64_halton_bases",
    "C64_halton_init_terminates"
   ],
   "note": "all dims and request sequences"
  },
  {
   "property": "C65",
   "status": "proved",
   "theorems": [
    "C65_so3_random",
    "C65_so3_halton",
    "C65_so3_unknown_method"
   ],
   "note": "pyquaternion taken as exact; also: unknown rep gives None"
  },
  {
   "property": "C66",
   "status": "partial",
   "theorems": [
    "C66_nominal_refuted",
    "C66_nominal_partial",
    "C66_fields",
    "C66_outside_raises"
   ],
   "note": "REFUTED for inverted bounds without nominal value; proved when a nominal value is given or the bounds are ordered."
  },
  {
   "property": "C67",
   "status": "proved",
   "theorems": [
    "C67_discretise",
    "C67_discretise_returns",
    "C67_discretise_negative"
   ],
   "note": "Number, spacing, end points and range of the samples."
  },
  {
   "property": "C68",
   "status": "proved",
   "theorems": [
    "C68_euler_grid",
    "C68_euler_within",
    "C68_euler_constructed"
   ],
   "note": "Exact set and number of samples, rigid and within tolerance."
  },
  {
   "property": "C69",
   "status": "proved",
   "theorems": [
    "C69_position_grid",
    "C69_position_within"
   ],
   "note": "Exact set and number of samples, orientation kept, within tolerance."
  },
  {
   "property": "C70",
   "status": "proved",
   "theorems": [
    "C70_axis_samples",
    "C70_angle_within",
    "C70_axis_returns",
    "C70_zero_axis_raises",
    "C70_rodrigues"
   ],
   "note": "Rotation about the axis by evenly spaced angles, for axes exactly one long or off by more than 1e-12 (pyquaternion does not normalise in between)."
  },
  {
   "property": "C71",
   "status": "proved",
   "theorems": [
    "C71_free_transform",
    "C71_random",
    "C71_halton",
    "C71_free_rpy",
    "C71_free_unknown"
   ],
   "note": "Position kept and rigid for both sampling methods; unknown rep raises."
  },
  {
   "property": "C72",
   "status": "proved",
   "theorems": [
    "C72_polyhedron_local",
    "C72_polyhedron_is_box",
    "C72_polyhedrons_of_collection"
   ],
   "note": ""
  },
  {
   "property": "C73",
   "status": "proved",
   "theorems": [
    "C73_vertices",
    "C73_vertices_inside",
    "C73_edges",
    "C73_edge_length"
   ],
   "note": "sizes non-negative for the inclusion of vertices"
  },
  {
   "property": "C74",
   "status": "proved",
   "theorems": [
    "C74_collision_pairs"
   ],
   "note": "fcl box test is a parameter"
  },
  {
   "property": "C75",
   "status": "proved",
   "theorems": [
    "C75_collision_points",
    "C75_collision_symmetric",
    "C75_collision_frame"
   ],
   "note": "assumes an exact fcl box test on rigid transforms (hypothesis exact_prim, shown satisfiable)"
  },
  {
   "property": "C76",
   "status": "proved",
   "theorems": [
    "C76_separation",
    "C76_disjoint"
   ],
   "note": "Duality certificate: distance at least eps, no common point."
  },
  {
   "property": "C77",
   "status": "proved",
   "theorems": [
    "C77_pose_clear",
    "C77_no_collision"
   ],
   "note": "For robots with one box per link, as the code assumes."
  },
  {
   "property": "C78",
   "status": "proved",
   "theorems": [
    "C78_no_scene",
    "C78_path_followed",
    "C78_links_clear"
   ],
   "note": "For robots with revolute joints and one box per link; ipopt and casadi are external and a solution is any values meeting the constraints exactly."
  },
  {
   "property": "C79",
   "status": "proved",
   "theorems": [
    "C79_line",
    "C79_line_errors"
   ],
   "note": "points and end points; errors for bad counts and lengths"
  },
  {
   "property": "C80",
   "status": "proved",
   "theorems": [
    "C80_circle"
   ],
   "note": "circle points, closed, evenly spaced; zero axis (nan in numpy) excluded"
  },
  {
   "property": "C81",
   "status": "proved",
   "theorems": [
    "C81_position",
    "C81_position_returns",
    "C81_euler",
    "C81_euler_returns"
   ],
   "note": "position and euler tolerances"
  },
  {
   "property": "C82",
   "status": "partial",
   "theorems": [
    "C82_unit_refuted",
    "C82_unit_exactly_partial"
   ],
   "note": "refuted for values above 10 (degrees); holds exactly for -10..10"
  },
  {
   "property": "C83",
   "status": "proved",
   "theorems": [
    "C83_parse_path",
    "C83_parse_path_returns",
    "C83_unknown_type",
    "C83_unknown_tolerance"
   ],
   "note": "soundness for every dictionary, completeness for complete fields, unknown types raise"
  },
  {
   "property": "C84",
   "status": "proved",
   "theorems": [
    "C84_obstacles",
    "C84_entries",
    "C84_not_a_box"
   ],
   "note": "iff characterisation of the parsed boxes; other types raise"
  },
  {
   "property": "C85",
   "status": "proved",
   "theorems": [
    "C85_round_trip"
   ],
   "note": "text of numbers modelled, XML as a tree"
  },
  {
   "property": "C86",
   "status": "partial",
   "theorems": [
    "C86_rotated_refuted",
    "C86_flattened_partial",
    "C86_exactly_unrotated"
   ],
   "note": "REFUTED: rotations are not exported; proved: exactly the unrotated scenes are kept, positions always"
  },
  {
   "property": "C87",
   "status": "proved",
   "theorems": [
    "C87_completed_writes",
    "C87_operations",
    "C87_between_open_and_write"
   ],
   "note": "completed writes describe the first k boxes; the window between open and write loses the file"
  },
  {
   "property": "C88",
   "status": "proved",
   "theorems": [
    "C88_kuka_unreachable",
    "C88_kuka_complete",
    "C88_kuka_returns"
   ],
   "note": "Completeness and unreachability for Kuka."
  },
  {
   "property": "C89",
   "status": "proved",
   "theorems": [
    "C89_kuka_history",
    "C89_rail_history"
   ],
   "note": "History independence of ik for Kuka and KukaOnRail."
  },
  {
   "property": "C90",
   "status": "proved",
   "theorems": [
    "C90_rail_unreachable",
    "C90_rail_complete"
   ],
   "note": "Completeness and unreachability for KukaOnRail with default dimensions."
  },
  {
   "property": "C91",
   "status": "proved",
   "theorems": [
    "C91_nominal_transform",
    "C91_point_to_frame"
   ],
   "note": "Nominal transform and point_to_frame."
  },
  {
   "property": "C92",
   "status": "proved",
   "theorems": [
    "C92_orientation_samples"
   ],
   "note": "The quaternions of random_near are arbitrary inputs."
  },
  {
   "property": "C93",
   "status": "partial",
   "theorems": [
    "C93_two_boxes_refuted"
   ],
   "note": "REFUTED: boxes beyond the first of a link are not constrained; C77 is the guarded version."
  },
  {
   "property": "C94",
   "status": "proved",
   "theorems": [
    "C94_objective_nonneg",
    "C94_objective_zero",
    "C94_objective_constant"
   ],
   "note": "Non-negative, zero exactly for constant paths."
  },
  {
   "property": "C95",
   "status": "proved",
   "theorems": [
    "C95_free",
    "C95_position",
    "C95_euler"
   ],
   "note": "composition of parse_path with the sample grids"
  },
  {
   "property": "C96",
   "status": "partial",
   "theorems": [
    "C96_nominal_sampled_refuted",
    "C96_nominal_never_sampled"
   ],
   "note": "refuted: ten samples of a band never contain its middle"
  },
  {
   "property": "C97",
   "status": "proved",
   "theorems": [
    "C97_task",
    "C97_import_paths"
   ],
   "note": ""
  },
  {
   "property": "C98",
   "status": "proved",
   "theorems": [
    "C98_matrix_quaternion",
    "C98_rpy_quaternion"
   ],
   "note": ""
  },
  {
   "property": "C99",
   "status": "partial",
   "theorems": [
    "C99_export_overwrites_refuted",
    "C99_empty_writes_nothing",
    "C99_export_overwrites_partial"
   ],
   "note": "REFUTED for the empty scene, which writes nothing; proved for non-empty scenes (up to rotation, C86)"
  },
  {
   "property": "C100",
   "status": "partial",
   "theorems": [
    "C100_import_refuted",
    "C100_chain_and_offset_lost",
    "C100_star_partial",
    "C100_star_returns",
    "C100_refused"
   ],
   "note": "REFUTED for chains and collision origins; proved for star-shaped documents"
  },
  {
   "property": "C101",
   "status": "partial",
   "theorems": [
    "C101_kuka_dimensions",
    "C101_rail_dimensions_partial",
    "C101_wrist_boxes",
    "C101_wrist_refuted",
    "C101_spherical_refuted",
    "C101_spherical_partial",
    "C101_kuka_boxes",
    "C101_rail_boxes_partial",
    "C101_anthropomorphic_boxes",
    "C101_arm2_refuted",
    "C101_planar_refuted"
   ],
   "note": "Proved for the Kuka (lengths up to the default d4 and d6, a1 <= 0.24, a2 <= 0.7), the Kuka on a rail from its second link on (the rail itself has no box), the anthropomorphic arm with any non-negative lengths and the wrist with |d3| <= 0.1. Refuted for the wrist with a longer d3 (default 1), SphericalArm with an extended slide, Arm2 (boxes centred on the joint instead of the link) and PlanarArm (a negative side, read here as an empty box)."
  },
  {
   "property": "C102",
   "status": "partial",
   "theorems": [
    "C102_kuka_skeleton",
    "C102_rail_skeleton",
    "C102_anthropomorphic_skeleton",
    "C102_tool_free",
    "C102_planar_refuted"
   ],
   "note": "Proved for the robots covered in C101, with an exact box test and rigid scene, and for the tool of any robot. Refuted for PlanarArm with positive lengths: no obstacle is ever reported."
  },
  {
   "property": "C103",
   "status": "proved",
   "theorems": [
    "C103_rigid",
    "C103_tip_position",
    "C103_tip_axis",
    "C103_tip_outside"
   ],
   "note": "Numbers read as exact decimals, angles exact."
  },
  {
   "property": "C104",
   "status": "proved",
   "theorems": [
    "C104_seam_axis1",
    "C104_seam_axis2",
    "C104_seam_axis3",
    "C104_weld_line",
    "C104_clearance1",
    "C104_clearance2",
    "C104_clearance3",
    "C104_into_corner1",
    "C104_into_corner2",
    "C104_into_corner3",
    "C104_aim1",
    "C104_aim2",
    "C104_aim3"
   ],
   "note": "The number of points is universally quantified; the code uses 10, 6 and 6."
  },
  {
   "property": "C105",
   "status": "partial",
   "theorems": [
    "C105_distinct_partial",
    "C105_full_turn_refuted",
    "C105_weld_line_refuted"
   ],
   "note": "Refuted for a band of a full turn, hence for every weld line. Proved when rx and rz bands are narrower than a full turn and ry stays strictly between -pi/2 and pi/2. Exact reals: rounded samples may differ."
  },
  {
   "property": "C106",
   "status": "proved",
   "theorems": [
    "C106_path_pos_tol",
    "C106_path_pos_tol_clear",
    "C106_path_ori_free",
    "C106_path_ori_free_clear"
   ],
   "note": "The number of points is universally quantified; the code uses 20 and 15. The plotting at import is not modelled."
  },
  {
   "property": "C107",
   "status": "partial",
   "theorems": [
    "C107_heap_pops_minimum",
    "C107_lowered_distance_refuted"
   ],
   "note": "Proved while the distances of queued nodes stay the same. REFUTED when a queued distance is lowered in place, which run_dijkstra does; this is the cause of the refutation of C18."
  },
  {
   "property": "C108",
   "status": "proved",
   "theorems": [
    "C108_kuka_columns",
    "C108_kuka_kept"
   ],
   "note": ""
  },
  {
   "property": "C109",
   "status": "partial",
   "theorems": [
    "C109_kept_iff_clear",
    "C109_kuka_plan_partial",
    "C109_singular_refuted"
   ],
   "note": "Proved away from wrist and elbow singularities. Refuted at the wrist singularity: the only planned configuration is off by half a turn although the pose is reachable."
  },
  {
   "property": "C110",
   "status": "proved",
   "theorems": [
    "C110_kuka_plan_found",
    "C110_kuka_plan_dijkstra"
   ],
   "note": "Optimality for \"bfs\"; \"dijkstra\" only finds a path (C18)."
  },
  {
   "property": "C111",
   "status": "partial",
   "theorems": [
    "C111_rail_columns",
    "C111_rail_plan_partial"
   ],
   "note": "Proved for default dimensions away from singularities; the singular case is wrong as in C109. Only the last sample of a point is used, so reachable points can be missed (C29)."
  },
  {
   "property": "C112",
   "status": "partial",
   "theorems": [
    "C112_point_classes_refuted",
    "C112_free_point_refuted",
    "C112_euler_partial"
   ],
   "note": "TolEulerPt works. TolPositionPt and AxisAnglePt have no discretise, FreeOrientationPt yields rows that ik rejects."
  },
  {
   "property": "C113",
   "status": "proved",
   "theorems": [
    "C113_link_points",
    "C113_tool_points",
    "C113_directions"
   ],
   "note": ""
  },
  {
   "property": "C114",
   "status": "proved",
   "theorems": [
    "C114_kuka_plan_rounded"
   ],
   "note": "Stated away from the wrist singularity (see C109)."
  },
  {
   "property": "C115",
   "status": "proved",
   "theorems": [
    "C115_boxes_apart",
    "C115_pose",
    "C115_problem"
   ],
   "note": "Both directions: soundness of the multipliers and their existence, for one pair of boxes, one pose and the whole problem. Numerical tolerance of the solver is not modelled."
  },
  {
   "property": "C116",
   "status": "partial",
   "theorems": [
    "C116_links_partial",
    "C116_tool_refuted"
   ],
   "note": "Refuted in general: the tool (like the base and the robot against itself) is not constrained; a feasible motion with the tool inside the wall. Proved: only base, tool or self collisions can remain."
  },
  {
   "property": "C117",
   "status": "proved",
   "theorems": [
    "C117_kuka_oracle"
   ],
   "note": "the geometry with the real trigonometric functions; numpy rounding is not modelled"
  },
  {
   "property": "C118",
   "status": "partial",
   "theorems": [
    "C118_puma_joints_refuted",
    "C118_puma_wrist_partial",
    "C118_puma_collision_refuted",
    "C118_puma_proper",
    "C118_puma_cylinder"
   ],
   "note": "refuted: the first two joints turn about one axis, the last three axes meet only for a4 = 0 (default 0.0203), and every collision check raises TypeError because Collection is given a Shape instead of a list"
  },
  {
   "property": "C119",
   "status": "partial",
   "theorems": [
    "C119_plot_partial",
    "C119_same_boxes",
    "C119_drawn",
    "C119_base_refuted"
   ],
   "note": "proved for robots without base geometry or with tf_base = eye(4); refuted for a base elsewhere, which is drawn without tf_base (C119_drawn says what is drawn in general); lines are segments in space, matplotlib is not modelled"
  },
  {
   "property": "C120",
   "status": "proved",
   "theorems": [
    "C120_animation"
   ],
   "note": "base geometry is not animated by the code, so the comparison is with the robot without base; matplotlib is not modelled"
  },
  {
   "property": "C121",
   "status": "partial",
   "theorems": [
    "C121_stale_refuted",
    "C121_kuka_partial",
    "C121_rail_partial"
   ],
   "note": "refuted: loading a path or scene, or a failing plan, keeps the old solution; proved instead for all runs with Kuka and KukaOnRail: it is the result of the last planning that returned, valid for scene and path of that moment, up to the wrist and elbow singularities of C109"
  },
  {
   "property": "C122",
   "status": "partial",
   "theorems": [
    "C122_unloaded_refuted",
    "C122_no_scene_refuted",
    "C122_position_refuted",
    "C122_position_file_refuted",
    "C122_unreachable_refuted",
    "C122_works_partial"
   ],
   "note": "refuted for states without scene, for paths with position tolerances and for points without solution; proved to return for the Kuka from a fresh editor when the points are drawable and reachable away from singularities"
  },
  {
   "property": "C123",
   "status": "proved",
   "theorems": [
    "C123_layout",
    "C123_cells",
    "C123_none"
   ],
   "note": ""
  },
  {
   "property": "C124",
   "status": "partial",
   "theorems": [
    "C124_random_refuted",
    "C124_near_refuted",
    "C124_imported_partial"
   ],
   "note": "Refuted: samplers.py never imports Quaternion, so random_quaternion raises NameError for every draw and random_quaternion_near either raises or returns None. The formulas themselves give unit quaternions (C124_imported_partial)."
  },
  {
   "property": "C125",
   "status": "proved",
   "theorems": [
    "C125_half_angle",
    "C125_metric"
   ],
   "note": "Exact real arithmetic; for unit quaternions, which sample_SO3 produces (C65)."
  },
  {
   "property": "C126",
   "status": "proved",
   "theorems": [
    "C126_optimal",
    "C126_poses",
    "C126_complete",
    "C126_still"
   ],
   "note": "Exact arithmetic and an exact box test; the class of the exception raised when a point has no free sample is not followed."
  },
  {
   "property": "C127",
   "status": "partial",
   "theorems": [
    "C127_angles_refuted",
    "C127_sums_partial",
    "C127_poses",
    "C127_table_fk",
    "C127_table_top"
   ],
   "note": "Refuted: the loop overwrites Ti, so the frame is turned by the sum of the angles so far, and only the last sample of each point is used. C127_sums_partial says exactly which columns are computed."
  },
  {
   "property": "C128",
   "status": "proved",
   "theorems": [
    "C128_reported",
    "C128_returned",
    "C128_no_scene",
    "C128_least"
   ],
   "note": "The solver (casadi, ipopt) is a parameter; its soundness and optimality are hypotheses. Robots with one box per link (C93 is the refutation without)."
  },
  {
   "property": "C129",
   "status": "partial",
   "theorems": [
    "C129_rpy_refuted",
    "C129_origin",
    "C129_inverse_partial",
    "C129_single_partial"
   ],
   "note": "Refuted: URDF uses fixed axes, TolEulerPt moving axes. C129_inverse_partial relates the two; they agree for a single non-zero angle."
  },
  {
   "property": "C130",
   "status": "proved",
   "theorems": [
    "C130_fk",
    "C130_double",
    "C130_arms",
    "C130_kuka",
    "C130_rounded",
    "C130_state"
   ],
   "note": "Floats are reals with a rounding function (no overflow or NaN); sin and cos within one rounding unit and any order of the sums in np.dot are hypotheses, met by binary64 with correctly rounded sin and cos (C130_double)."
  },
  {
   "property": "C131",
   "status": "proved",
   "theorems": [
    "C131_overflow64",
    "C131_overflow32",
    "C131_precision64",
    "C131_precision32",
    "C131_bfs_near_optimal",
    "C131_bfs_practical",
    "C131_dijkstra_cost"
   ],
   "note": "Floats are reals with a rounding function and overflow to infinity; std::pow(x, 2.0) is taken to be correctly rounded; NaN is excluded by the bound on the data. Dijkstra: cost only, since its path need not be optimal (C18)."
  },
  {
   "property": "C132",
   "status": "partial",
   "theorems": [
    "C132_l1_refuted",
    "C132_squares_partial"
   ],
   "note": "Refuted: graph.cpp adds squared differences (cost_function_2), the l1 version cost_function is never called. Proved: the squares are minimised, so the l1 length is at most sqrt(n(N-1)) times the least."
  },
  {
   "property": "C133",
   "status": "partial",
   "theorems": [
    "C133_between_refuted",
    "C133_rounded_refuted",
    "C133_between_partial",
    "C133_rounded_partial"
   ],
   "note": "The code checks only the points of the plan. Refuted for the motion in between and for the rounding to float32; proved when the clearance exceeds the motion bound."
  },
  {
   "property": "C134",
   "status": "proved",
   "theorems": [
    "C134_boxes",
    "C134_mount",
    "C134_tip",
    "C134_kuka_link5",
    "C134_rail_link5",
    "C134_kuka_link6",
    "C134_self_collision",
    "C134_workpiece",
    "C134_plates"
   ],
   "note": "The torch overlaps link 6 by 5 mm in every configuration; the code leaves that pair out."
  },
  {
   "property": "C135",
   "status": "proved",
   "theorems": [
    "C135_path",
    "C135_scene",
    "C135_clearance",
    "C135_aim",
    "C135_no_sample_aims",
    "C135_into_corner",
    "C135_flat_hits",
    "C135_down_free"
   ],
   "note": "Path, clearance, aim, rejected flat samples and a free steep sample of the kingpin example, for every number of points; that none of the samples aims at the seam is part of the statement."
  },
  {
   "property": "C136",
   "status": "partial",
   "theorems": [
    "C136_names",
    "C136_scene",
    "C136_paths",
    "C136_path_partial",
    "C136_path_refuted",
    "C136_frames",
    "C136_messages",
    "C136_all_messages",
    "C136_no_paths",
    "C136_missing"
   ],
   "note": "Refuted that the planned path is always the first path shown (an empty paths file); proved when no file holds an empty list, and everything else in full."
  },
  {
   "property": "C137",
   "status": "proved",
   "theorems": [
    "C137_images",
    "C137_onto",
    "C137_every_rotation",
    "C137_once",
    "C137_volume",
    "C137_halton_near",
    "C137_halton_dense"
   ],
   "note": "Uniformity is stated as constant volume factor of a one-to-one map onto the unit quaternions, not with measure theory."
  },
  {
   "property": "C138",
   "status": "proved",
   "theorems": [
    "C138_boxes",
    "C138_near"
   ],
   "note": ""
  },
  {
   "property": "C139",
   "status": "proved",
   "theorems": [
    "C139_check",
    "C139_double",
    "C139_kuka"
   ],
   "note": "Every robot, scene and arithmetic of C130; double precision for arms of at most seven joints and ten metres; the box sizes themselves are taken as given doubles; the box test of fcl is a parameter with a tolerance."
  },
  {
   "property": "C140",
   "status": "proved",
   "theorems": [
    "C140_frame_short",
    "C140_frame_long",
    "C140_tolerance_short",
    "C140_tolerance_long",
    "C140_no_path",
    "C140_no_obstacles",
    "C140_no_paths",
    "C140_no_object",
    "C140_scalar_list",
    "C140_circle_negative",
    "C140_line_negative",
    "C140_cost_shapes",
    "C140_start_outside",
    "C140_target_outside",
    "C140_path_data",
    "C140_extract_short",
    "C140_pack",
    "C140_shape_multi",
    "C140_fk_short",
    "C140_fk_unknown",
    "C140_plot_stops",
    "C140_read3",
    "C140_cyclic",
    "C140_no_nominal"
   ],
   "note": ""
  },
  {
   "property": "C141",
   "status": "partial",
   "theorems": [
    "C141_cover",
    "C141_dense",
    "C141_same",
    "C141_random_refuted"
   ],
   "note": "Proved for the three point classes with a grid, to half a step and in the limit of many samples. Refuted for FreeOrientationPt, whose random draws may all coincide."
  },
  {
   "property": "C142",
   "status": "partial",
   "theorems": [
    "C142_bfs",
    "C142_dijkstra",
    "C142_few_samples_refuted"
   ],
   "note": "Proved for every large enough number of samples, bfs and dijkstra, exact box test, real arithmetic in sampling and inverse kinematics. Refuted for the number of samples a point was built with: a wide tolerance with two samples makes get_shortest_path raise although the arm can serve the point."
  },
  {
   "property": "C143",
   "status": "proved",
   "theorems": [
    "C143_near_optimal",
    "C143_cost"
   ],
   "note": "Costs in real numbers, joint values rounded by any map near the identity; the motion must lie inside the ranges of angles Kuka.ik reports."
  },
  {
   "property": "C144",
   "status": "proved",
   "theorems": [
    "C144_ik_continuous"
   ],
   "note": "Solutions are compared up to whole turns; a link table with a2*d4 = 0 is excluded."
  },
  {
   "property": "C145",
   "status": "proved",
   "theorems": [
    "C145_margin",
    "C145_open",
    "C145_check_open"
   ],
   "note": "The box test is exact; the distance is found by compactness and carries no number."
  },
  {
   "property": "C146",
   "status": "proved",
   "theorems": [
    "C146_kuka_extents",
    "C146_rail_extents",
    "C146_anthropomorphic_extents",
    "C146_workpiece_extent",
    "C146_scene1_extent",
    "C146_scene2_extent",
    "C146_planar_corners"
   ],
   "note": "The geometry of Puma and the torch (rotated boxes) is not covered here."
  },
  {
   "property": "C147",
   "status": "proved",
   "theorems": [
    "C147_axis_position",
    "C147_tolerance_flags",
    "C147_mixed_types",
    "C147_resample",
    "C147_cost2_short",
    "C147_empty_graph",
    "C147_ik_raises",
    "C147_ik_simple_raises",
    "C147_kuka_short",
    "C147_rail_short",
    "C147_load_only",
    "C147_load_refused",
    "C147_circle_axis",
    "C147_box_size",
    "C147_value_only",
    "C147_value_none",
    "C147_value_mismatch",
    "C147_three_sizes",
    "C147_helper_short",
    "C147_passage_blocked",
    "C147_table_raises",
    "C147_plot_path",
    "C147_animate_short",
    "C147_puma_short",
    "C147_turns_short",
    "C147_rail_unknown",
    "C147_import_bare",
    "C147_ragged",
    "C147_broadcast",
    "C147_grid_short",
    "C147_object_xyz",
    "C147_no_columns",
    "C147_no_points",
    "C147_no_graph",
    "C147_free_table"
   ],
   "note": "Out-of-bounds reads of graph.cpp count as the error value OutOfBounds."
  },
  {
   "property": "C148",
   "status": "partial",
   "theorems": [
    "C148_full_turn_refuted"
   ],
   "note": "Refuted: Kuka.ik reports each angle in one turn only, so a path that turns the tool once around costs at least a fixed d although motions cheaper than any e exist. What holds is C143: motions inside the reported ranges are matched up to e."
  },
  {
   "property": "C149",
   "status": "proved",
   "theorems": [
    "C149_iterative_sound",
    "C149_positions_kept",
    "C149_positions_drift",
    "C149_one_iteration",
    "C149_prefix"
   ],
   "note": "Robot state threaded through all loops; random_near is an arbitrary function without zero quaternions. The positions are exact or drift as stated when the rows stay away from stretched elbow and wrist."
  },
  {
   "property": "C150",
   "status": "partial",
   "theorems": [
    "C150_cost_grows_refuted",
    "C150_success_lost_refuted",
    "C150_published_refuted",
    "C150_kept_partial",
    "C150_costs_descend_partial"
   ],
   "note": "Refuted twice, with generators that respect the distance: the cost can grow from 0, and success can turn into failure for every larger number of iterations. With the published pyquaternion a second iteration raises AttributeError. If the draws contain the orientation they start from, the queue pops a minimum, rows are kept exactly and are away from a stretched elbow and wrist, one more iteration succeeds and does not cost more, and the recorded costs never grow. Missing: random draws that miss the orientation (false then), binary32 rows, stretched rows. Further positive parts are in C149 (prefix, one iteration)."
  },
  {
   "property": "C151",
   "status": "partial",
   "theorems": [
    "C151_incremental_sound",
    "C151_columns",
    "C151_draws",
    "C151_first_only",
    "C151_ends_partial",
    "C151_never_ends",
    "C151_reachable_refuted"
   ],
   "note": "Soundness and the stopping rule are proved; ending is refuted: get_samples(1) of a toleranced point always returns the whole grid and only its first frame is used, so the loop never ends when that one is out of reach although others are reachable. It ends when every first frame has a clear solution."
  },
  {
   "property": "C152",
   "status": "proved",
   "theorems": [
    "C152_ik",
    "C152_double",
    "C152_roundtrip",
    "C152_rounded"
   ],
   "note": "Floats are real numbers with a rounding after each operation; overflow, NaN and signed zeros are left out. Halving fpi and changing a sign are exact. Nothing is said of the direction of the flange when |sin q5| is below 54000 (kp + 120) u, of the accuracy of a single angle, or that every exact solution has a row."
  },
  {
   "property": "C153",
   "status": "proved",
   "theorems": [
    "C153_samples",
    "C153_plan",
    "C153_columns",
    "C153_found"
   ],
   "note": "Floats are real numbers with a rounding after each operation; overflow, NaN and signed zeros are left out. np.linspace follows numpy's formula; integers below 2**53 are exact. The costs and the search are exact here; C145 treats float32 costs. Nothing is said of the direction of the flange when |sin q5| is below 1.5e-8. The success statement here needs all that inverse kinematics may return for the sample to be clear; C154 needs one configuration only, away from the singularities."
  },
  {
   "property": "C154",
   "status": "proved",
   "theorems": [
    "C154_rows",
    "C154_angles",
    "C154_columns",
    "C154_found"
   ],
   "note": "Same arithmetic as in C152 and C153, unit roundoff at most 2e-16. The constants are those of the proof, not sharp. Solutions closer than 0.01 to a singularity are not covered; C152 says what is returned there. The example has the robot's own links not compared, as in examples/path_in_box.py."
  },
  {
   "property": "C155",
   "status": "proved",
   "theorems": [
    "C155_value",
    "C155_range",
    "C155_cosine",
    "C155_symmetric",
    "C155_sign",
    "C155_zero",
    "C155_triangle",
    "C155_search",
    "C155_other_lengths_refuted"
   ],
   "note": "real arithmetic; unit vectors, since for other lengths the cost of staying put is not 0 (C155_other_lengths_refuted)"
  },
  {
   "property": "C156",
   "status": "proved",
   "theorems": [
    "C156_scenes",
    "C156_obstacle",
    "C156_same",
    "C156_moved",
    "C156_line",
    "C156_passage",
    "C156_x_tol",
    "C156_circle",
    "C156_box",
    "C156_industrial",
    "C156_torch",
    "C156_not_joined",
    "C156_pitch_units",
    "C156_other_tilt"
   ],
   "note": "all files of examples/; the property includes the three mistakes found in them; JSON and XML text are not modelled, the values are"
  },
  {
   "property": "C157",
   "status": "proved",
   "theorems": [
    "C157_industrial",
    "C157_obstacle",
    "C157_industrial_plan",
    "C157_obstacle_plan",
    "C157_in_box",
    "C157_editor"
   ],
   "note": "the part about configurations is for frames reached exactly; what the planner can still return (rows at singular elbow or wrist) is stated by the two plan theorems"
  },
  {
   "property": "C158",
   "status": "proved",
   "theorems": [
    "C158_upright",
    "C158_none",
    "C158_still",
    "C158_robot"
   ],
   "note": "the scene and points of the file, any unit quaternions as samples"
  },
  {
   "property": "C159",
   "status": "proved",
   "theorems": [
    "C159_rows",
    "C159_up",
    "C159_rows_hit",
    "C159_guess",
    "C159_feasible",
    "C159_built",
    "C159_run",
    "C159_returned"
   ],
   "note": "The plots are not modelled; the solver is a parameter; arithmetic over the reals."
  },
  {
   "property": "C160",
   "status": "proved",
   "theorems": [
    "C160_quat_graph",
    "C160_tool_first_raises",
    "C160_tool_first",
    "C160_tool_first_found",
    "C160_refine_never",
    "C160_refine_raises",
    "C160_ends",
    "C160_succeeds",
    "C160_line_ends",
    "C160_line_sound",
    "C160_weld",
    "C160_refine_lost",
    "C160_refine_ends",
    "C160_floor"
   ],
   "note": "The five scripts are modelled up to printing, plotting and saving. The draws of np.random are arbitrary. That weld_circle.py ever returns a path is not proved. For it the height of the torch axis in the middle row is proved only where sin q5 and cos q3 are not 0."
  },
  {
   "property": "C161",
   "status": "proved",
   "theorems": [
    "C161_axes",
    "C161_tripod",
    "C161_default",
    "C161_moves"
   ],
   "note": ""
  },
  {
   "property": "C162",
   "status": "proved",
   "theorems": [
    "C162_drawn",
    "C162_last",
    "C162_links",
    "C162_again",
    "C162_short",
    "C162_no_links"
   ],
   "note": ""
  },
  {
   "property": "C163",
   "status": "proved",
   "theorems": [
    "C163_task",
    "C163_points",
    "C163_short",
    "C163_euler",
    "C163_multiple_paths"
   ],
   "note": ""
  },
  {
   "property": "C164",
   "status": "partial",
   "theorems": [
    "C164_last_refuted",
    "C164_optimal_partial",
    "C164_returns",
    "C164_goal"
   ],
   "note": "Refuted for the last point, whose distance from the goal is not charged; partial: optimal for the cost without it."
  },
  {
   "property": "C165",
   "status": "proved",
   "theorems": [
    "C165_export",
    "C165_passage",
    "C165_text"
   ],
   "note": "Stated for unrotated boxes; that rotation is lost by the export is C86."
  },
  {
   "property": "C166",
   "status": "proved",
   "theorems": [
    "C166_picture"
   ],
   "note": ""
  },
  {
   "property": "C167",
   "status": "proved",
   "theorems": [
    "C167_answers",
    "C167_answers_printed",
    "C167_plan",
    "C167_print_graph",
    "C167_second_init_frees",
    "C167_answers_all_refuted"
   ],
   "note": "Equality with the address-level program holds for every call sequence without print_graph, and with it when init is not called between a search and a reset; C167_answers_all_refuted shows that this restriction is needed"
  },
  {
   "property": "C168",
   "status": "proved",
   "theorems": [
    "C168_anthropomorphic",
    "C168_arm2",
    "C168_wrist",
    "C168_kuka",
    "C168_rail",
    "C168_self_collision",
    "C168_collision",
    "C168_vertices",
    "C168_polyhedron",
    "C168_boxes",
    "C168_task",
    "C168_discretise",
    "C168_samplers",
    "C168_free_samples",
    "C168_dp",
    "C168_graph",
    "C168_pygraph",
    "C168_planning_task"
   ],
   "note": "The wrist and rotation parts need sin q5 <> 0 (the tests draw random angles); the tests that only draw or check array shapes of util are C163 and types of the model; test_pygraph.py is commented out in the repository and uses the l1 cost."
  },
  {
   "property": "C169",
   "status": "proved",
   "theorems": [
    "C169_pygraph_avoids_nan",
    "C169_cpp_bfs_avoids_nan",
    "C169_cpp_dijkstra_reads_nan_as_infinite",
    "C169_dp_returns_nan",
    "C169_dp_without_nan"
   ],
   "note": "get_shortest_path, run_bfs, run_dijkstra and shortest_path with costs that may be NaN. Distances stay numbers since only a true comparison assigns one."
  },
  {
   "property": "C170",
   "status": "proved",
   "theorems": [
    "C170_bfs_is_visits",
    "C170_dijkstra_is_visits",
    "C170_unvisited",
    "C170_sort_function",
    "C170_set_graph_data",
    "C170_index_fits",
    "C170_index_overflows",
    "C170_cost_function_metric",
    "C170_cost_function_2_triangle_refuted",
    "C170_l1_outside"
   ],
   "note": "The triangle inequality of cost_function_2 is refuted, as stated. cost_function is taken in exact arithmetic; int overflow is an exception."
  },
  {
   "property": "C171",
   "status": "proved",
   "theorems": [
    "C171_ranges",
    "C171_drag",
    "C171_tie",
    "C171_line_follows",
    "C171_before_moving",
    "C171_reset",
    "C171_color"
   ],
   "note": "Exact reals; the behaviour of matplotlib's Slider and RadioButtons is assumed as in GuiTemplate.v."
  },
  {
   "property": "C172",
   "status": "proved",
   "theorems": [
    "C172_ik",
    "C172_branches",
    "C172_folded",
    "C172_roundtrip"
   ],
   "note": "For the default lengths a2 = a3 = 1 and a base at the origin without tool. The theorem C172_folded shows where the code misses."
  },
  {
   "property": "C173",
   "status": "proved",
   "theorems": [
    "C173_ik",
    "C173_far",
    "C173_roundtrip"
   ],
   "note": "Default dimensions; no claim about other lengths, overflow, NaN or signed zeros."
  }
 ]
}
