{
 "C04": {
  "status": "proved",
  "note": "holds for every initial size >= 1; CIntHeap(0) is refuted (C04_CIntHeap_zero_size_refuted)"
 },
 "C32": {
  "status": "proved",
  "note": "round trip, bin membership and range [0,N] proved; the range claim [0,N) is false for exactly one border angle per N and refuted (C32_range_refuted)"
 },
 "C33": {
  "status": "proved",
  "note": "round trip proved; half-open containment holds except at negative cell borders, where it is refuted (C33_negative_border_refuted)"
 },
 "C07": {
  "status": "proved",
  "note": "for every size n >= 1; size 0 refuted (C07_zero_size_refuted)"
 },
 "C10": {
  "status": "proved",
  "note": "exact when the queue size exceeds sx*sy; for the default size see C11"
 },
 "C11": {
  "status": "proved",
  "note": "the naive claim that the default queue never overflows is refuted by two witnesses"
 },
 "C12": {
  "status": "proved",
  "note": "exact when the queue size exceeds sx*sy*sz"
 },
 "C26": {
  "status": "proved",
  "note": "also: a second InitializeEnv always throws (C26_second_initialisation_throws)"
 },
 "C27": {
  "status": "proved",
  "note": "the source must be traversable and not the goal; without that it is refuted (C27_obstacle_source_refuted)"
 },
 "C28": {
  "status": "proved",
  "note": "for in-map states; a goal outside the map is accepted by InitializeEnv and then read out of range (C28_goal_outside_map_refuted)"
 },
 "C29": {
  "status": "proved",
  "note": "the stronger claim (exact consistency/admissibility) is false and refuted (C29_admissibility_refuted); square root modelled by its exact integer truncation Z.sqrt, not the double computation"
 },
 "C30": {
  "status": "proved",
  "note": ""
 },
 "C20": {
  "status": "proved",
  "note": "zero edge costs and a replan without any time are refuted (C20_zero_cost_throws_refuted, C20_no_time_refuted); eps values are exact rationals"
 },
 "C21": {
  "status": "proved",
  "note": "exact eps*C bound refuted (C21_exact_eps_refuted); proved: bound with per-edge rounding, exact for integer eps, optimal for eps<=1"
 },
 "C22": {
  "status": "proved",
  "note": "literal 'no solution exists' refuted for expensive solutions (C22_expensive_solution_refuted); termination is C23_replan_total"
 },
 "C23": {
  "status": "proved",
  "note": ""
 },
 "C24": {
  "status": "proved",
  "note": "unconditional claim refuted (C24_last_slot_refuted: loop i < currentsize skips the last heap slot)"
 },
 "C25": {
  "status": "proved",
  "note": "for fewer than 65536 iterations; unbounded claim refuted by running 65537 calls (C25_many_calls_refuted)"
 },
 "C36": {
  "status": "proved",
  "note": ""
 },
 "C08": {
  "status": "proved",
  "note": "proved for histories that do not insert into the overflow bucket after a removal from it; without that it is refuted (C08_overflow_reuse_refuted); also refuted: makeemptybucketV empties the queue, first_priority is honoured"
 },
 "C09": {
  "status": "proved",
  "note": "for histories in which no insertion meets a full bucket (C09_few_insertions: at most bucketsize insertions suffices); refuted beyond: use after the full exception, exactness of getminkey"
 },
 "C15": {
  "status": "proved",
  "note": "exact distances in float arithmetic are refuted (C15_float_exact_refuted); proved exact for exact arithmetic and with the rounding bound for floats"
 },
 "C18": {
  "status": "proved",
  "note": "three counterexamples proved: start=goal computes nothing, downsample 0 divides by zero, query in the remainder margin is out of bounds"
 },
 "C19": {
  "status": "proved",
  "note": "OPTPATHFOUND proved for cell sizes of a whole number of mm; for fractional sizes refuted (C19_fractional_cell_refuted)"
 },
 "C37": {
  "status": "proved",
  "note": "bijection for calls with poses inside the map; out-of-range coordinates refuted (C37_out_of_range_refuted)"
 },
 "C38": {
  "status": "proved",
  "note": "exact for every state but the goal; the asymmetry at the goal is refuted (C38_goal_refuted)"
 },
 "C39": {
  "status": "proved",
  "note": "for primitives with cost <= 8388607 and displacements in [-128,127]; outside refuted (C39_overflow_refuted, C39_displacement_refuted)"
 },
 "C40": {
  "status": "proved",
  "note": "complete if centre cells are among swept/first/last cells; otherwise refuted (C40_off_centre_refuted)"
 },
 "C41": {
  "status": "proved",
  "note": "GetTrueCost exact if one primitive leads to the child; with two refuted (C41_two_actions_refuted)"
 },
 "C42": {
  "status": "proved",
  "note": "full statement"
 },
 "C43": {
  "status": "proved",
  "note": "full statement"
 },
 "C44": {
  "status": "proved",
  "note": "for usable primitive sets (prims_ok); three unusable ones refuted"
 },
 "C45": {
  "status": "proved",
  "note": "full statement; four stronger claims refuted"
 },
 "C46": {
  "status": "proved",
  "note": "uses C20-C23 and C22_failure_from_scratch; at most 5000000 calls (CList limit), heuristic below 2^31/5"
 },
 "C47": {
  "status": "proved",
  "note": "reworded: the false success with an infinite heuristic is refuted"
 },
 "C48": {
  "status": "proved",
  "note": "full statement; the additive term for non-integer eps comes from rounding priorities to int"
 },
 "C49": {
  "status": "proved",
  "note": "full statement"
 },
 "C50": {
  "status": "proved",
  "note": "reworded: the exact limit is refuted"
 },
 "C51": {
  "status": "proved",
  "note": "full statement; repairable is defined in AdSpec"
 },
 "C52": {
  "status": "proved",
  "note": "reworded: the bound with a changed heuristic and no known announced state is refuted"
 },
 "C53": {
  "status": "proved",
  "note": "reworded: a moved goal in an environment with absorbing goals is refuted (exception)"
 },
 "C54": {
  "status": "proved",
  "note": "full statement; tight (C54_tight)"
 },
 "C55": {
  "status": "proved",
  "note": "reworded: new edges into unknown states are refuted"
 },
 "C56": {
  "status": "proved",
  "note": "refuted without the side conditions: threshold 255 with a cell of cost 254 throws, zero lengths divide by zero, a bucket can be full on a map of more than 1000 blocks"
 },
 "C57": {
  "status": "proved",
  "note": ""
 },
 "C58": {
  "status": "proved",
  "note": "exactness of the goal under OPTPATHFOUND (true for the heap, C19) is refuted"
 },
 "C59": {
  "status": "proved",
  "note": "full statement; at most 65534 searches (the replan number is 16 bits), fewer than 65000 eps steps, N below the CHeap limit"
 },
 "C60": {
  "status": "proved",
  "note": "reworded: after a timeout the last step may not exist (refuted), and a backward search runs from goal to start (refuted: start to goal)"
 },
 "C61": {
  "status": "proved",
  "note": "full statement"
 },
 "C62": {
  "status": "proved",
  "note": "reworded: the reported factor after improvement iterations with estimates is refuted (stale keys in the lazy list's priority_queue)"
 },
 "C63": {
  "status": "proved",
  "note": "full statement, for calls with existing level indices and cells of the map"
 },
 "C64": {
  "status": "proved",
  "note": "full statement; costs below INFINITECOST as in C39"
 },
 "C65": {
  "status": "proved",
  "note": "full statement; refuted: a motion that every level accepts with its own footprint is always an edge (the base footprint's swept cells are tested against all levels), and safety with more than 256 primitives per angle (the action index is one byte)"
 },
 "C66": {
  "status": "proved",
  "note": "the cells that get_2d_footprint_cells gives for the footprints at the pose are an input"
 },
 "C67": {
  "status": "proved",
  "note": "fewer than 65536 calls of replan per object (16-bit callnumber); refuted without time at the beginning (exception)"
 },
 "C68": {
  "status": "proved",
  "note": "fewer than 65536 calls of replan per object; refuted without time at the beginning: after costs_changed a backward search returns the path of the previous search"
 },
 "C69": {
  "status": "proved",
  "note": "the state to be found (the goal forward, the start backward) changes only with a restart from scratch: refuted otherwise (pruned states are not put back)"
 },
 "C70": {
  "status": "proved",
  "note": "full statement; eps is the exact quotient (the C++ double rounds it)"
 },
 "C71": {
  "status": "proved",
  "note": "full statement"
 },
 "C73": {
  "status": "proved",
  "note": "Reworded: 'EvaluatePolicy always returns' is false (C73_evaluation_always_ends_refuted: a full policy with a closed loop that avoids the goal); the exact condition is proved."
 },
 "C74": {
  "status": "proved",
  "note": "Arithmetic is exact rational (the code uses float/double). The bound is for calls that return; see C76."
 },
 "C75": {
  "status": "proved",
  "note": "Reworded to the first call of a planner: later calls can stop 'converged' with a bad policy, because replan resets the iteration counter to 0 and takes the marks of earlier calls for its own (C75_later_calls_refuted: cost 1002 instead of 101), and a planner used after another one's converged run does no iteration at all, because the static g_belldelta is not reset (C75_after_another_planner_refuted). replan never fills its solution vector and always returns 1: the policy is the one it evaluates and prints."
 },
 "C76": {
  "status": "proved",
  "note": "'replan returns within its time limit' is false: after a call ended by the clock the greedy policy may loop, and EvaluatePolicy then never ends (C76_returns_in_time_refuted)."
 },
 "C77": {
  "status": "proved",
  "note": "Reworded to square maps: 'InitializeEnv succeeds on every complete map' is false (C77_any_map_refuted, C77_init_nonsquare), because the loop over the rows runs to EnvWidth_c. Floats are exact rationals; reading the configuration file is not modelled."
 },
 "C78": {
  "status": "proved",
  "note": "numofdirs is a member no function of the class ever writes; the theorem is for an object in whose memory it is 8 (C78_numofdirs_refuted: with 0, e.g. zeroed memory, there are no moves at all). On a map higher than wide GetPreds of the rows at or below 'width' reads unwritten memory (C78_tall_map_refuted)."
 },
 "C79": {
  "status": "proved",
  "note": "'IDs are unique on every map InitializeEnv accepts' is false for maps higher than 1024 (C79_tall_ids_refuted). UpdateCost does not check its coordinates: histories are restricted to updates inside the map."
 },
 "C80": {
  "status": "proved",
  "note": "The comments claim that a cell whose state is known is entered by a deterministic action; that is false (C80_known_cell_refuted): line 567 clears the flag it should set, so the vector of deterministic actions is always empty. 1 - ProbObs is not rounded in the model."
 },
 "C82": {
  "status": "proved",
  "note": "Only for square maps. On a map wider than high Create2DStateSpace writes past its rows (C82_robarm_wide_map_refuted: for all such maps); on one higher than wide the search reads uninitialised coordinates (C82_robarm_high_map_refuted)."
 },
 "C83": {
  "status": "proved",
  "note": "The positions of the joints (cos/sin of the angles) are an arbitrary function of the configuration in the model."
 },
 "C84": {
  "status": "proved",
  "note": "'An environment can be initialised again' is false: the second InitializeEnv on the same object always throws, the index table is not cleared (C84_robarm_second_init_refuted)."
 },
 "C85": {
  "status": "proved",
  "note": "The code stores the goal in its hash table under the all-zero configuration, so that configuration, if it is valid, not the start and not at the goal, is reported as the goal (C85_robarm_false_goal_refuted). Joint positions are an arbitrary function; small_steps says one joint step moves the end effector by at most one cell. On edges into the goal GetEdgeCost looks at the all-zero configuration: 1000000000 if it collides, although GetSuccs reported 1 (follows from C85_robarm_edge_cost)."
 },
 "C86": {
  "status": "proved",
  "note": "Without the assumption about the all-zero configuration the heuristic is inconsistent (C86_robarm_heuristic_refuted). Same small_steps hypothesis as C85."
 },
 "C87": {
  "status": "proved",
  "note": "The random draws are a list of configurations, assumed in range for the joints. GetRandomState: at least one draw is collision free, else the code loops for ever."
 }
}