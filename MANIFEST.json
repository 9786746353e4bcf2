{
 "claims": [
  {
   "property": "C01",
   "status": "proved",
   "theorems": [
    "C01_lt_is_lexicographic",
    "C01_gt_is_flipped_lt",
    "C01_eq_is_equality",
    "C01_le_spec",
    "C01_ge_spec",
    "C01_irreflexive",
    "C01_transitive",
    "C01_trichotomy",
    "C01_infinite_key_is_above"
   ],
   "note": ""
  },
  {
   "property": "C02",
   "status": "proved",
   "theorems": [
    "C02_CHeap_refines_map",
    "C02_CIntHeap_refines_map"
   ],
   "note": ""
  },
  {
   "property": "C03",
   "status": "proved",
   "theorems": [
    "C03_CHeap_backpointers",
    "C03_CIntHeap_backpointers"
   ],
   "note": ""
  },
  {
   "property": "C04",
   "status": "proved",
   "theorems": [
    "C04_CHeap_memory_safe",
    "C04_CIntHeap_memory_safe",
    "C04_CIntHeap_zero_size_refuted"
   ],
   "note": "holds for every initial size >= 1; CIntHeap(0) is refuted (C04_CIntHeap_zero_size_refuted)"
  },
  {
   "property": "C05",
   "status": "proved",
   "theorems": [
    "C05_CHeap_rekey_makeheap_drain",
    "C05_CIntHeap_rekey_makeheap_drain"
   ],
   "note": ""
  },
  {
   "property": "C06",
   "status": "proved",
   "theorems": [
    "C06_list_refines_sequence",
    "C06_enumeration"
   ],
   "note": ""
  },
  {
   "property": "C07",
   "status": "proved",
   "theorems": [
    "C07_fifo_refines_bounded_queue",
    "C07_zero_size_refuted"
   ],
   "note": "for every size n >= 1; size 0 refuted (C07_zero_size_refuted)"
  },
  {
   "property": "C08",
   "status": "proved",
   "theorems": [
    "C08_history",
    "C08_after_reset",
    "C08_overflow_reuse_refuted",
    "C08_makeempty_refuted",
    "C08_first_priority_refuted"
   ],
   "note": "proved for histories that do not insert into the overflow bucket after a removal from it; without that it is refuted (C08_overflow_reuse_refuted); also refuted: makeemptybucketV empties the queue, first_priority is honoured"
  },
  {
   "property": "C09",
   "status": "proved",
   "theorems": [
    "C09_history",
    "C09_few_insertions",
    "C09_order",
    "C09_after_full_refuted",
    "C09_min_key_refuted"
   ],
   "note": "for histories in which no insertion meets a full bucket (C09_few_insertions: at most bucketsize insertions suffices); refuted beyond: use after the full exception, exactness of getminkey"
  },
  {
   "property": "C10",
   "status": "proved",
   "theorems": [
    "C10_from_point_exact",
    "C10_out_of_bounds_rejected",
    "C10_from_points_exact",
    "C10_from_obs_exact"
   ],
   "note": "exact when the queue size exceeds sx*sy; for the default size see C11"
  },
  {
   "property": "C11",
   "status": "proved",
   "theorems": [
    "C11_any_queue_size_sound",
    "C11_default_queue_loses_cells_from_obs_refuted",
    "C11_default_queue_loses_cells_from_point_refuted"
   ],
   "note": "the naive claim that the default queue never overflows is refuted by two witnesses"
  },
  {
   "property": "C12",
   "status": "proved",
   "theorems": [
    "C12_from_point_exact",
    "C12_from_points_exact",
    "C12_from_obs_exact"
   ],
   "note": "exact when the queue size exceeds sx*sy*sz"
  },
  {
   "property": "C13",
   "status": "proved",
   "theorems": [
    "C13_line_connects_and_stays_close",
    "C13_line_symmetric"
   ],
   "note": ""
  },
  {
   "property": "C14",
   "status": "proved",
   "theorems": [
    "C14_normalizedisctheta_is_residue",
    "C14_normalizedisctheta_canonical"
   ],
   "note": ""
  },
  {
   "property": "C15",
   "status": "proved",
   "theorems": [
    "C15_exact",
    "C15_float",
    "C15_float_exact_refuted"
   ],
   "note": "exact distances in float arithmetic are refuted (C15_float_exact_refuted); proved exact for exact arithmetic and with the rounding bound for floats"
  },
  {
   "property": "C16",
   "status": "proved",
   "theorems": [
    "C16_path_exists_decides_reachability",
    "C16_path_exists_iff"
   ],
   "note": ""
  },
  {
   "property": "C17",
   "status": "proved",
   "theorems": [
    "C17_preds_are_a_set",
    "C17_GetIndofOutcome_first_match",
    "C17_GetAction_first_match",
    "C17_most_likely_outcome_is_maximal"
   ],
   "note": ""
  },
  {
   "property": "C18",
   "status": "proved",
   "theorems": [
    "C18_constructor",
    "C18_total",
    "C18_all_cells",
    "C18_start_is_goal_refuted",
    "C18_downsample_zero_refuted",
    "C18_margin_refuted"
   ],
   "note": "three counterexamples proved: start=goal computes nothing, downsample 0 divides by zero, query in the remainder margin is out of bounds"
  },
  {
   "property": "C19",
   "status": "proved",
   "theorems": [
    "C19_dijkstra",
    "C19_astar",
    "C19_goal_exact",
    "C19_fractional_cell_refuted"
   ],
   "note": "OPTPATHFOUND proved for cell sizes of a whole number of mm; for fractional sizes refuted (C19_fractional_cell_refuted)"
  },
  {
   "property": "C20",
   "status": "proved",
   "theorems": [
    "C20_returned_path_valid",
    "C20_zero_cost_throws_refuted",
    "C20_no_time_refuted"
   ],
   "note": "zero edge costs and a replan without any time are refuted (C20_zero_cost_throws_refuted, C20_no_time_refuted); eps values are exact rationals"
  },
  {
   "property": "C21",
   "status": "proved",
   "theorems": [
    "C21_bound",
    "C21_real_bound",
    "C21_exact_eps_refuted"
   ],
   "note": "exact eps*C bound refuted (C21_exact_eps_refuted); proved: bound with per-edge rounding, exact for integer eps, optimal for eps<=1"
  },
  {
   "property": "C22",
   "status": "proved",
   "theorems": [
    "C22_failure_means_no_cheap_path",
    "C22_expensive_solution_refuted",
    "C22_failure_from_scratch"
   ],
   "note": "literal 'no solution exists' refuted for expensive solutions (C22_expensive_solution_refuted); termination is C23_replan_total"
  },
  {
   "property": "C23",
   "status": "proved",
   "theorems": [
    "C23_replan_total",
    "C23_log_faithful",
    "C23_once_per_iteration"
   ],
   "note": ""
  },
  {
   "property": "C24",
   "status": "proved",
   "theorems": [
    "C24_total",
    "C24_valid_bound",
    "C24_last_slot_refuted"
   ],
   "note": "unconditional claim refuted (C24_last_slot_refuted: loop i < currentsize skips the last heap slot)"
  },
  {
   "property": "C25",
   "status": "proved",
   "theorems": [
    "C25_history_total",
    "C25_no_stale_data",
    "C25_many_calls_refuted"
   ],
   "note": "for fewer than 65536 iterations; unbounded claim refuted by running 65537 calls (C25_many_calls_refuted)"
  },
  {
   "property": "C26",
   "status": "proved",
   "theorems": [
    "C26_coordinate_id_stable",
    "C26_ids_injective",
    "C26_ids_permanent",
    "C26_initialisation",
    "C26_initialisation_succeeds",
    "C26_second_initialisation_throws"
   ],
   "note": "also: a second InitializeEnv always throws (C26_second_initialisation_throws)"
  },
  {
   "property": "C27",
   "status": "proved",
   "theorems": [
    "C27_succs_preds_agree",
    "C27_obstacle_source_refuted"
   ],
   "note": "the source must be traversable and not the goal; without that it is refuted (C27_obstacle_source_refuted)"
  },
  {
   "property": "C28",
   "status": "proved",
   "theorems": [
    "C28_succs_exact",
    "C28_preds_exact",
    "C28_actions_are_succs",
    "C28_goal_outside_map_refuted"
   ],
   "note": "for in-map states; a goal outside the map is accepted by InitializeEnv and then read out of range (C28_goal_outside_map_refuted)"
  },
  {
   "property": "C29",
   "status": "proved",
   "theorems": [
    "C29_heuristic_bounds",
    "C29_heuristic_consistent_within_one",
    "C29_admissibility_refuted"
   ],
   "note": "the stronger claim (exact consistency/admissibility) is false and refuted (C29_admissibility_refuted); square root modelled by its exact integer truncation Z.sqrt, not the double computation"
  },
  {
   "property": "C30",
   "status": "proved",
   "theorems": [
    "C30_notification_complete"
   ],
   "note": ""
  },
  {
   "property": "C31",
   "status": "proved",
   "theorems": [
    "C31_normalizeAngle_range_and_direction",
    "C31_min_angle_diff_is_least"
   ],
   "note": ""
  },
  {
   "property": "C32",
   "status": "proved",
   "theorems": [
    "C32_contTheta2Disc_bin",
    "C32_theta_roundtrip",
    "C32_range_refuted"
   ],
   "note": "round trip, bin membership and range [0,N] proved; the range claim [0,N) is false for exactly one border angle per N and refuted (C32_range_refuted)"
  },
  {
   "property": "C33",
   "status": "proved",
   "theorems": [
    "C33_cell_roundtrip",
    "C33_cell_contains_point",
    "C33_negative_border_refuted"
   ],
   "note": "round trip proved; half-open containment holds except at negative cell borders, where it is refuted (C33_negative_border_refuted)"
  },
  {
   "property": "C34",
   "status": "proved",
   "theorems": [
    "C34_triangle_inside",
    "C34_triangle_outside",
    "C34_triangulation",
    "C34_start_vertex_irrelevant",
    "C34_orientation_irrelevant",
    "C34_outside_bounding_box"
   ],
   "note": ""
  },
  {
   "property": "C35",
   "status": "proved",
   "theorems": [
    "C35_SetStart_exact",
    "C35_SetGoal_exact",
    "C35_UpdateCost_exact"
   ],
   "note": ""
  },
  {
   "property": "C36",
   "status": "proved",
   "theorems": [
    "C36_replan_monotone"
   ],
   "note": ""
  },
  {
   "property": "C37",
   "status": "proved",
   "theorems": [
    "C37_total",
    "C37_bijection",
    "C37_persistent",
    "C37_out_of_range_refuted"
   ],
   "note": "bijection for calls with poses inside the map; out-of-range coordinates refuted (C37_out_of_range_refuted)"
  },
  {
   "property": "C38",
   "status": "proved",
   "theorems": [
    "C38_succs",
    "C38_preds",
    "C38_converse",
    "C38_goal_refuted"
   ],
   "note": "exact for every state but the goal; the asymmetry at the goal is refuted (C38_goal_refuted)"
  },
  {
   "property": "C39",
   "status": "proved",
   "theorems": [
    "C39_promise",
    "C39_overflow_refuted",
    "C39_displacement_refuted"
   ],
   "note": "for primitives with cost <= 8388607 and displacements in [-128,127]; outside refuted (C39_overflow_refuted, C39_displacement_refuted)"
  },
  {
   "property": "C40",
   "status": "proved",
   "theorems": [
    "C40_complete",
    "C40_sound",
    "C40_off_centre_refuted"
   ],
   "note": "complete if centre cells are among swept/first/last cells; otherwise refuted (C40_off_centre_refuted)"
  },
  {
   "property": "C41",
   "status": "proved",
   "theorems": [
    "C41_lazy_succs",
    "C41_lazy_preds",
    "C41_true_cost",
    "C41_two_actions_refuted"
   ],
   "note": "GetTrueCost exact if one primitive leads to the child; with two refuted (C41_two_actions_refuted)"
  },
  {
   "property": "C42",
   "status": "proved",
   "theorems": [
    "C42_actions"
   ],
   "note": "full statement"
  },
  {
   "property": "C43",
   "status": "proved",
   "theorems": [
    "C43_fresh",
    "C43_once"
   ],
   "note": "full statement"
  },
  {
   "property": "C44",
   "status": "proved",
   "theorems": [
    "C44_tables",
    "C44_nonuniform_refuted",
    "C44_unknown_angle_refuted",
    "C44_many_angles_refuted"
   ],
   "note": "for usable primitive sets (prims_ok); three unusable ones refuted"
  },
  {
   "property": "C45",
   "status": "proved",
   "theorems": [
    "C45_roadmap",
    "C45_duplicate_refuted",
    "C45_self_edge_refuted",
    "C45_stale_goal_refuted",
    "C45_action_ids_refuted"
   ],
   "note": "full statement; four stronger claims refuted"
  },
  {
   "property": "C46",
   "status": "proved",
   "theorems": [
    "C46_optimal"
   ],
   "note": "uses C20-C23 and C22_failure_from_scratch; at most 5000000 calls (CList limit), heuristic below 2^31/5"
  },
  {
   "property": "C47",
   "status": "proved",
   "theorems": [
    "C47_path_valid",
    "C47_false_success_refuted"
   ],
   "note": "reworded: the false success with an infinite heuristic is refuted"
  },
  {
   "property": "C48",
   "status": "proved",
   "theorems": [
    "C48_bound"
   ],
   "note": "full statement; the additive term for non-integer eps comes from rounding priorities to int"
  },
  {
   "property": "C49",
   "status": "proved",
   "theorems": [
    "C49_total",
    "C49_complete"
   ],
   "note": "full statement"
  },
  {
   "property": "C50",
   "status": "proved",
   "theorems": [
    "C50_expansions",
    "C50_exact_limit_refuted",
    "C50_limit_ignored_refuted"
   ],
   "note": "reworded: the exact limit is refuted"
  },
  {
   "property": "C51",
   "status": "proved",
   "theorems": [
    "C51_returned_path_valid"
   ],
   "note": "full statement; repairable is defined in AdSpec"
  },
  {
   "property": "C52",
   "status": "proved",
   "theorems": [
    "C52_bound",
    "C52_real_bound",
    "C52_new_heuristic_refuted"
   ],
   "note": "reworded: the bound with a changed heuristic and no known announced state is refuted"
  },
  {
   "property": "C53",
   "status": "proved",
   "theorems": [
    "C53_replan_total",
    "C53_costs_changed_total",
    "C53_moved_goal_throws_refuted"
   ],
   "note": "reworded: a moved goal in an environment with absorbing goals is refuted (exception)"
  },
  {
   "property": "C54",
   "status": "proved",
   "theorems": [
    "C54_log_faithful",
    "C54_at_most_twice"
   ],
   "note": "full statement; tight (C54_tight)"
  },
  {
   "property": "C55",
   "status": "proved",
   "theorems": [
    "C55_failure_means_no_cheap_path",
    "C55_new_edge_refuted"
   ],
   "note": "reworded: new edges into unknown states are refuted"
  },
  {
   "property": "C56",
   "status": "proved",
   "theorems": [
    "C56_switch",
    "C56_total",
    "C56_small_map",
    "C56_dear_cell_refuted",
    "C56_tiny_cell_refuted",
    "C56_full_bucket_refuted"
   ],
   "note": "refuted without the side conditions: threshold 255 with a cell of cost 254 throws, zero lengths divide by zero, a bucket can be full on a map of more than 1000 blocks"
  },
  {
   "property": "C57",
   "status": "proved",
   "theorems": [
    "C57_all_cells",
    "C57_same_as_heap"
   ],
   "note": ""
  },
  {
   "property": "C58",
   "status": "proved",
   "theorems": [
    "C58_dijkstra",
    "C58_astar",
    "C58_goal_exact_refuted"
   ],
   "note": "exactness of the goal under OPTPATHFOUND (true for the heap, C19) is refuted"
  },
  {
   "property": "C59",
   "status": "proved",
   "theorems": [
    "C59_lazy_replan_total",
    "C59_lazy_no_start_or_goal",
    "C59_lazy_free_total",
    "C59_lazy_setters"
   ],
   "note": "full statement; at most 65534 searches (the replan number is 16 bits), fewer than 65000 eps steps, N below the CHeap limit"
  },
  {
   "property": "C60",
   "status": "proved",
   "theorems": [
    "C60_lazy_path",
    "C60_lazy_path_real",
    "C60_lazy_real_after_timeout_refuted",
    "C60_lazy_backward_start_to_goal_refuted"
   ],
   "note": "reworded: after a timeout the last step may not exist (refuted), and a backward search runs from goal to start (refuted: start to goal)"
  },
  {
   "property": "C61",
   "status": "proved",
   "theorems": [
    "C61_lazy_failure"
   ],
   "note": "full statement"
  },
  {
   "property": "C62",
   "status": "proved",
   "theorems": [
    "C62_lazy_bound",
    "C62_lazy_anytime_bound",
    "C62_lazy_reported_bound_refuted"
   ],
   "note": "reworded: the reported factor after improvement iterations with estimates is refuted (stale keys in the lazy list's priority_queue)"
  },
  {
   "property": "C63",
   "status": "proved",
   "theorems": [
    "C63_total",
    "C63_valid",
    "C63_obstacle",
    "C63_map_cost",
    "C63_init",
    "C63_set",
    "C63_update"
   ],
   "note": "full statement, for calls with existing level indices and cells of the map"
  },
  {
   "property": "C64",
   "status": "proved",
   "theorems": [
    "C64_succs",
    "C64_goal",
    "C64_preds",
    "C64_lazy_succs",
    "C64_lazy_preds",
    "C64_true_cost"
   ],
   "note": "full statement; costs below INFINITECOST as in C39"
  },
  {
   "property": "C65",
   "status": "proved",
   "theorems": [
    "C65_promise",
    "C65_no_levels",
    "C65_fewer_levels",
    "C65_other_footprint_refuted",
    "C65_many_primitives_refuted"
   ],
   "note": "full statement; refuted: a motion that every level accepts with its own footprint is always an edge (the base footprint's swept cells are tested against all levels), and safety with more than 256 primitives per angle (the action index is one byte)"
  },
  {
   "property": "C66",
   "status": "proved",
   "theorems": [
    "C66_configuration",
    "C66_changed"
   ],
   "note": "the cells that get_2d_footprint_cells gives for the footprints at the pose are an input"
  },
  {
   "property": "C67",
   "status": "proved",
   "theorems": [
    "C67_ana_replan_total",
    "C67_ana_setters",
    "C67_ana_no_time_refuted"
   ],
   "note": "fewer than 65536 calls of replan per object (16-bit callnumber); refuted without time at the beginning (exception)"
  },
  {
   "property": "C68",
   "status": "proved",
   "theorems": [
    "C68_ana_path_valid",
    "C68_ana_no_time_refuted"
   ],
   "note": "fewer than 65536 calls of replan per object; refuted without time at the beginning: after costs_changed a backward search returns the path of the previous search"
  },
  {
   "property": "C69",
   "status": "proved",
   "theorems": [
    "C69_ana_optimal",
    "C69_ana_new_goal_refuted"
   ],
   "note": "the state to be found (the goal forward, the start backward) changes only with a restart from scratch: refuted otherwise (pruned states are not put back)"
  },
  {
   "property": "C70",
   "status": "proved",
   "theorems": [
    "C70_ana_bound"
   ],
   "note": "full statement; eps is the exact quotient (the C++ double rounds it)"
  },
  {
   "property": "C71",
   "status": "proved",
   "theorems": [
    "C71_ana_replan_improves"
   ],
   "note": "full statement"
  },
  {
   "property": "C72",
   "status": "proved",
   "theorems": [
    "C72_policy_value_accuracy",
    "C72_policy_value_lower_bound",
    "C72_partial_policy",
    "C72_merges_and_cycles"
   ],
   "note": ""
  },
  {
   "property": "C73",
   "status": "proved",
   "theorems": [
    "C73_evaluation_ends_iff_proper",
    "C73_evaluation_always_ends_refuted"
   ],
   "note": "Reworded: 'EvaluatePolicy always returns' is false (C73_evaluation_always_ends_refuted: a full policy with a closed loop that avoids the goal); the exact condition is proved."
  },
  {
   "property": "C74",
   "status": "proved",
   "theorems": [
    "C74_value_is_a_lower_bound"
   ],
   "note": "Arithmetic is exact rational (the code uses float/double). The bound is for calls that return; see C76."
  },
  {
   "property": "C75",
   "status": "proved",
   "theorems": [
    "C75_converged_policy_is_near_optimal",
    "C75_after_another_planner_refuted",
    "C75_later_calls_refuted"
   ],
   "note": "Reworded to the first call of a planner: later calls can stop 'converged' with a bad policy, because replan resets the iteration counter to 0 and takes the marks of earlier calls for its own (C75_later_calls_refuted: cost 1002 instead of 101), and a planner used after another one's converged run does no iteration at all, because the static g_belldelta is not reset (C75_after_another_planner_refuted). replan never fills its solution vector and always returns 1: the policy is the one it evaluates and prints."
  },
  {
   "property": "C76",
   "status": "proved",
   "theorems": [
    "C76_iterations_end",
    "C76_first_call_converges",
    "C76_returns_in_time_refuted"
   ],
   "note": "'replan returns within its time limit' is false: after a call ended by the clock the greedy policy may loop, and EvaluatePolicy then never ends (C76_returns_in_time_refuted)."
  },
  {
   "property": "C77",
   "status": "proved",
   "theorems": [
    "C77_init_square",
    "C77_init_nonsquare",
    "C77_any_map_refuted"
   ],
   "note": "Reworded to square maps: 'InitializeEnv succeeds on every complete map' is false (C77_any_map_refuted, C77_init_nonsquare), because the loop over the rows runs to EnvWidth_c. Floats are exact rationals; reading the configuration file is not modelled."
  },
  {
   "property": "C78",
   "status": "proved",
   "theorems": [
    "C78_getpreds",
    "C78_numofdirs_refuted",
    "C78_tall_map_refuted"
   ],
   "note": "numofdirs is a member no function of the class ever writes; the theorem is for an object in whose memory it is 8 (C78_numofdirs_refuted: with 0, e.g. zeroed memory, there are no moves at all). On a map higher than wide GetPreds of the rows at or below 'width' reads unwritten memory (C78_tall_map_refuted)."
  },
  {
   "property": "C79",
   "status": "proved",
   "theorems": [
    "C79_ids",
    "C79_ids_distinct",
    "C79_tall_ids_refuted"
   ],
   "note": "'IDs are unique on every map InitializeEnv accepts' is false for maps higher than 1024 (C79_tall_ids_refuted). UpdateCost does not check its coordinates: histories are restricted to updates inside the map."
  },
  {
   "property": "C80",
   "status": "proved",
   "theorems": [
    "C80_outcomes",
    "C80_known_cell_refuted"
   ],
   "note": "The comments claim that a cell whose state is known is entered by a deterministic action; that is false (C80_known_cell_refuted): line 567 clears the flag it should set, so the vector of deterministic actions is always empty. 1 - ProbObs is not rounded in the model."
  },
  {
   "property": "C81",
   "status": "proved",
   "theorems": [
    "C81_symmetric"
   ],
   "note": ""
  },
  {
   "property": "C82",
   "status": "proved",
   "theorems": [
    "C82_robarm_distances",
    "C82_robarm_wide_map_refuted",
    "C82_robarm_high_map_refuted"
   ],
   "note": "Only for square maps. On a map wider than high Create2DStateSpace writes past its rows (C82_robarm_wide_map_refuted: for all such maps); on one higher than wide the search reads uninitialised coordinates (C82_robarm_high_map_refuted)."
  },
  {
   "property": "C83",
   "status": "proved",
   "theorems": [
    "C83_robarm_collision_check",
    "C83_robarm_cell"
   ],
   "note": "The positions of the joints (cos/sin of the angles) are an arbitrary function of the configuration in the model."
  },
  {
   "property": "C84",
   "status": "proved",
   "theorems": [
    "C84_robarm_init",
    "C84_robarm_states",
    "C84_robarm_ids_stable",
    "C84_robarm_second_init_refuted"
   ],
   "note": "'An environment can be initialised again' is false: the second InitializeEnv on the same object always throws, the index table is not cleared (C84_robarm_second_init_refuted)."
  },
  {
   "property": "C85",
   "status": "proved",
   "theorems": [
    "C85_robarm_successors",
    "C85_robarm_edge_cost",
    "C85_robarm_false_goal_refuted"
   ],
   "note": "The code stores the goal in its hash table under the all-zero configuration, so that configuration, if it is valid, not the start and not at the goal, is reported as the goal (C85_robarm_false_goal_refuted). Joint positions are an arbitrary function; small_steps says one joint step moves the end effector by at most one cell. On edges into the goal GetEdgeCost looks at the all-zero configuration: 1000000000 if it collides, although GetSuccs reported 1 (follows from C85_robarm_edge_cost)."
  },
  {
   "property": "C86",
   "status": "proved",
   "theorems": [
    "C86_robarm_heuristic_consistent",
    "C86_robarm_heuristic_refuted"
   ],
   "note": "Without the assumption about the all-zero configuration the heuristic is inconsistent (C86_robarm_heuristic_refuted). Same small_steps hypothesis as C85."
  },
  {
   "property": "C87",
   "status": "proved",
   "theorems": [
    "C87_robarm_random_state",
    "C87_robarm_random_succs"
   ],
   "note": "The random draws are a list of configurations, assumed in range for the joints. GetRandomState: at least one draw is collision free, else the code loops for ever."
  }
 ]
}