{"id": "C01", "title": "Search keys form a strict total order, consistently across all six comparison operators", "statement": "For CKey values, < is irreflexive, transitive and total up to ==; a>b iff b<a; <= and >= are the negations of > and <; == is component equality; the infinite key is not smaller than any key whose first component is at most INFINITECOST-1.", "quantifier": "all pairs/triples of two-component long keys", "why_tests_cant": "A heap is only correct for a genuine strict weak order; a test samples a few pairs, transitivity and operator agreement quantify over all of them.", "anchors": ["src/include/sbpl/utils/key.h: CKey::operator<,>,<=,>=,==,!=,SetKeytoInfinity"]}
{"id": "C02", "title": "Priority queue: the returned minimum is a minimum of everything inserted and not yet removed", "statement": "After any sequence of successful insertheap / updateheap / deleteheap / deleteminheap / makeemptyheap calls on a CHeap or CIntHeap, the content is exactly the map state->last key given, getminkeyheap is the least key of that map, and getminheap/deleteminheap return a state that has that key; nothing else is lost, duplicated or re-keyed.", "quantifier": "every operation history, every number of elements, every key assignment, every tie", "why_tests_cant": "Percolation bugs need particular shapes and sizes of heap; no finite set of histories covers them.", "anchors": ["src/utils/heap.cpp: CHeap::*, CIntHeap::*"]}
{"id": "C03", "title": "Heap membership back-pointers stay exact", "statement": "After every operation history, a state's heapindex is non-zero iff the state is in the queue, and then it is the slot that holds it (so getkeyheap returns the key last given to it); no two states share a slot.", "quantifier": "every operation history", "why_tests_cant": "heapindex is updated in five places through aliased pointers; staleness shows only for some histories.", "anchors": ["src/utils/heap.cpp: percolatedown, percolateup, deleteheap, deleteminheap, insertheap"]}
{"id": "C04", "title": "Heap operations never touch memory outside the allocated array and reject misuse by exception", "statement": "Starting from an empty heap, no history reads an unwritten or out-of-range slot or writes past the allocation (growth happens first); inserting a state already inside, deleting/updating one that is not inside, or taking the minimum of an empty heap throws and changes nothing, and a full heap throws.", "quantifier": "every operation history including erroneous calls", "why_tests_cant": "Memory errors are silent in tests; the claim is about all histories and sizes including the growth boundary.", "anchors": ["src/utils/heap.cpp: growheap, sizecheck, heaperror"]}
{"id": "C05", "title": "Rebuilding the heap after bulk key changes restores the queue order", "statement": "If the keys of stored elements are overwritten arbitrarily (as the planners do when eps changes) and makeheap is called, the content (state->new key) is unchanged, back-pointers are exact and the minimum is again returned first. The same holds after any sequence of insert_unsafe/updateheap_unsafe/deleteheap_unsafe on a non-empty heap followed by makeheap.", "quantifier": "all heap contents and all re-keyings", "why_tests_cant": "Bottom-up heap construction must be right for every size and arrangement.", "anchors": ["src/utils/heap.cpp: makeheap, insert_unsafe, deleteheap_unsafe, updateheap_unsafe", "src/planners/araplanner.cpp: Reevaluatefvals"]}
{"id": "C06", "title": "Intrusive doubly linked list behaves as a duplicate-free sequence", "statement": "For every history of insert / remove / makeemptylist, getfirst / getlast / getnext enumerate exactly the states inserted and not removed, most recent first, `in` answers membership, currentsize is the length, and a removed state can be inserted again; inserting a member or removing from an empty list throws.", "quantifier": "all operation histories", "why_tests_cant": "Link surgery has four cases whose interaction depends on the history.", "anchors": ["src/include/sbpl/utils/list.h: CList"]}
{"id": "C07", "title": "Bounded FIFO is first-in first-out for every history", "statement": "sbpl_fifo of capacity n returns values in insertion order; insert fails exactly when n-1 elements are stored and then changes nothing, remove fails exactly when empty, for any interleaving and wrap-around.", "quantifier": "all interleavings of insert/remove/clear, all n >= 2", "why_tests_cant": "Wrap-around boundary cases depend on the history.", "anchors": ["src/include/sbpl/utils/sbpl_fifo.h"]}
{"id": "C08", "title": "Bucket priority queue returns the minimum priority element", "statement": "For every history of CBucket insert, remove, popminelement, getminelement, getminpriority, empty and reset calls in which a state is inserted only when absent, with a priority in 0..INFINITECOST, and nothing is inserted into the shared overflow bucket after something was taken out of it: no call throws, the popped element has the least priority among those stored, getminpriority is that priority and empty says whether nothing is stored. Outside these conditions (reuse of the overflow bucket, a first priority below 0, makeemptybucketV without reset) the queue gives wrong answers.", "quantifier": "all operation histories and priorities, including those in the shared overflow bucket", "why_tests_cant": "Overflow-bucket bookkeeping (assorted priority vector) goes wrong only for particular histories.", "anchors": ["src/include/sbpl/utils/list.h: CBucket"]}
{"id": "C09", "title": "Sliding-bucket queue pops in non-decreasing priority order and loses nothing", "statement": "For every history of CSlidingBucket calls in which no insertion meets a full bucket: no call has undefined behaviour; an insertion throws (changing nothing) exactly when its priority is outside [last popped priority, that + numofbuckets); the elements popped are exactly the accepted ones, each once, in non-decreasing priority and first-in first-out among equal priorities; empty() is true exactly when all accepted ones have been popped. (After a 'bucket is full' exception the next insertion writes out of bounds, and getminkey can be a stale lower value: both shown.)", "quantifier": "all histories of insert/popminelement/getminelement/empty/getminkey/reset, all numbers of buckets and bucket sizes, fixed or growing buckets", "why_tests_cant": "Index wrap-around and the lazily recomputed minimum depend on the whole history.", "anchors": ["src/include/sbpl/utils/list.h: CSlidingBucket"]}
{"id": "C10", "title": "2D breadth-first distances are exact shortest 8-connected distances", "statement": "After compute_distance_from_point(s) succeeds on a fifo large enough, get_distance(c) is the length of the shortest 8-connected path from a source to c through cells below the obstacle threshold and -1 iff there is none; no access leaves the grid.", "quantifier": "all grids, thresholds, sources", "why_tests_cant": "Correctness of shortest distances for all obstacle layouts.", "anchors": ["src/include/sbpl/utils/sbpl_bfs_2d.h"]}
{"id": "C11", "title": "BFS with any queue size (default included) is safe and sound; the default size does lose cells", "statement": "With any queue capacity >= 1, in particular the default one, compute_distance_from_point / _from_obs terminate, stay inside the arrays, and every non-negative distance is the length of a real obstacle-free walk. It is NOT true that the default capacity (2*sx+2*sy) never overflows: there are maps on which reachable cells are reported unreachable (refuted for compute_distance_from_obs and for a single source).", "quantifier": "all grids and source sets", "why_tests_cant": "Requires a bound on the frontier over all mazes.", "anchors": ["src/include/sbpl/utils/sbpl_bfs_2d.h: constructor, compute_distance_from_obs", "src/include/sbpl/utils/sbpl_fifo.h: insert"]}
{"id": "C12", "title": "3D breadth-first distances are exact shortest 26-connected distances", "statement": "As for 2D, for sbpl_bfs_3d on three-dimensional grids.", "quantifier": "all 3D grids, thresholds, sources", "why_tests_cant": "Shortest distances for all layouts.", "anchors": ["src/include/sbpl/utils/sbpl_bfs_3d.h"]}
{"id": "C13", "title": "Bresenham line iteration connects its end points", "statement": "get_bresenham_parameters followed by repeated get_next_point yields a sequence of cells that starts at p1, ends at p2, moves to an 8-neighbour at each step, has max(|dx|,|dy|)+1 cells, and stays within half a cell of the ideal segment.", "quantifier": "all integer end points whose coordinate arithmetic does not overflow", "why_tests_cant": "Eight octants, ties and degenerate segments for all slopes.", "anchors": ["src/utils/utils.cpp: get_bresenham_parameters, get_current_point, get_next_point"]}
{"id": "C14", "title": "Discrete angle normalisation is canonical", "statement": "NORMALIZEDISCTHETA(t,n) is in [0,n), congruent to t mod n, idempotent, for every positive n and any t, negative included.", "quantifier": "all t and n>0", "why_tests_cant": "Quantifies over all integers; C++ % truncates.", "anchors": ["src/include/sbpl/utils/utils.h: NORMALIZEDISCTHETA"]}
{"id": "C15", "title": "Distance transform gives the quasi-Euclidean obstacle distances, up to float rounding", "statement": "computeDistancestoNonfreeAreas terminates, reads no cell before writing it, and returns for every cell the minimum over obstacle (resp. non-free) cells, all off-map cells included, of the chamfer distance (straight step 1, diagonal step 1.414): exactly if additions are exact, and with IEEE single precision additions within one part in 2^24 per addition, at most 2 min(width,height) additions, being 0 exactly at the obstacle (resp. non-free) cells.", "quantifier": "all maps (any size in exact arithmetic; smaller side below 2^22 cells for floats), all cell costs and thresholds, all previous contents of the arrays", "why_tests_cant": "Two-pass propagation must be right for all obstacle layouts.", "anchors": ["src/utils/utils.cpp: computeDistancestoNonfreeAreas"]}
{"id": "C16", "title": "Markov-chain reachability is answered correctly", "statement": "PathExists(chain,s,t) returns true iff t is reachable from s by following the policy's outcomes, terminates for every chain (cycles included), and throws iff a visited state has several actions or names a missing successor.", "quantifier": "all finite chains", "why_tests_cant": "Graph reachability over all graphs.", "anchors": ["src/utils/utils.cpp: PathExists"]}
{"id": "C17", "title": "MDP predecessor lists behave as sets and index look-ups are exact", "statement": "AddPred/RemovePred/ContainsPred histories keep a duplicate-free list equal to the set of added-and-not-removed ids; GetAction, GetIndofOutcome return the first match or NULL/-1; GetIndofMostLikelyOutcome returns an index of maximal probability.", "quantifier": "all histories and outcome lists", "why_tests_cant": "Unbounded histories.", "anchors": ["src/utils/mdp.cpp"]}
{"id": "C18", "title": "2D grid search computes exact least costs (Dijkstra mode)", "statement": "SBPL2DGridSearch (heap) never fails: for every map, threshold, start, goal and history of earlier searches, search returns, and returns true exactly if the (downsampled) cells of start and goal exist; with condition ALLCELLS, when start and goal fall in different cells, getlowerboundoncostfromstart_inmm then gives for each cell the least cost of a 16-connected path from the start under the documented edge cost ((greatest cost crossed + 1) * length in mm), INFINITECOST if there is none below it. The move lengths are 1000/1414/2236 times the cell size up to rounding. (Not so if start and goal are the same cell: then every cell reports 0; and the constructor divides by zero for downsample 0, and querying a map cell in the remainder margin reads out of bounds.)", "quantifier": "all maps, starts, thresholds, cell sizes", "why_tests_cant": "Optimality over all paths on all maps.", "anchors": ["src/utils/2Dgridsearch.cpp: search_withheap", "src/include/sbpl/utils/2Dgridsearch.h: getlowerboundoncostfromstart_inmm"]}
{"id": "C19", "title": "2D grid search values are lower bounds under every termination condition", "statement": "After a successful search with any of the five termination conditions, getlowerboundoncostfromstart_inmm(x,y) never exceeds the cost of any path from the start to the cell (below the reported bound); values below the reported bound are exact; and the goal's value, below 2^24, is its exact least cost. For OPTPATHFOUND this holds when the cell size is a whole number of millimetres (and side * cell below 2^24 mm); for a fractional size the value, even of the goal, may exceed the least cost (refuted).", "quantifier": "all maps, termination conditions, cells", "why_tests_cant": "The value is used as an admissible heuristic; admissibility quantifies over all paths.", "anchors": ["src/include/sbpl/utils/2Dgridsearch.h: getlowerboundoncostfromstart_inmm", "src/utils/2Dgridsearch.cpp: search_withheap"]}
{"id": "C20", "title": "ARA* returns a real path whose cost does not exceed the reported cost", "statement": "When replan returns 1 (and at least one clock question was answered 'time left', and neither 16-bit counter has overflowed) the returned state ids form a path of the environment graph from the start to the goal state, and the sum of the edge costs is at most the reported cost, which is below INFINITECOST.", "quantifier": "all finite graphs with positive costs, all heuristics, eps schedules, clock behaviours, and histories of set_start/set_goal/costs_changed/replan", "why_tests_cant": "Back-pointers are written by all iterations and reused across calls.", "anchors": ["src/planners/araplanner.cpp: Search, ImprovePath, UpdateSuccs, UpdatePreds, ReconstructPath, GetSearchPath"]}
{"id": "C21", "title": "ARA* honours its advertised suboptimality bound", "statement": "Given a consistent heuristic, the reported cost is at most the cost of any start-goal path when every edge cost is multiplied by get_solution_eps and rounded up; hence at most eps*C plus one per edge, at most n*C when eps is an integer n, and optimal when eps <= 1. (The exact bound eps*C is refuted: heuristics are truncated to int.)", "quantifier": "all graphs, consistent heuristics, eps schedules, interruption points", "why_tests_cant": "Optimality bounds compare with all paths on all graphs.", "anchors": ["src/planners/araplanner.cpp: ImprovePath, BuildNewOPENList, Reevaluatefvals, Search"]}
{"id": "C22", "title": "ARA* reports failure only when no solution exists", "statement": "If replan is never out of time and returns 0, then every start-goal path costs at least INFINITECOST once each edge is inflated by the largest eps in use. (The stronger claim that there is no solution is refuted for expensive solutions.)", "quantifier": "all finite graphs, histories", "why_tests_cant": "Completeness quantifies over all graphs.", "anchors": ["src/planners/araplanner.cpp: ImprovePath, Search"]}
{"id": "C23", "title": "ARA* expands each state at most once per iteration and never throws internally", "statement": "replan returns normally (no exception, no undefined behaviour) and terminates on every reachable planner, for every clock; each call of ImprovePath expands no state twice, never the goal, and hence at most as many states as exist.", "quantifier": "all graphs and histories", "why_tests_cant": "Depends on membership flags across iterations and calls.", "anchors": ["src/planners/araplanner.cpp: ImprovePath, UpdateSuccs, UpdatePreds"]}
{"id": "C24", "title": "compute_suboptimality returns a valid bound", "statement": "After replan, compute_suboptimality returns normally; a value b below the solution eps satisfies cost <= b*C for every start-goal path cost C, provided the state in the last slot of OPEN (which the code does not look at) is not the only one with the least g+h. (Without the proviso it is refuted.)", "quantifier": "all search states reachable between replans", "why_tests_cant": "Compares with optimum over all graphs.", "anchors": ["src/planners/araplanner.cpp: compute_suboptimality"]}
{"id": "C25", "title": "Replanning works for any number of calls", "statement": "Every history of set_start/set_goal/costs_changed/force_planning_from_scratch/replan with fewer than 65536 search iterations runs normally, and a search from scratch starts with no data of earlier searches. (With 65536 or more calls it is refuted: stale costs are reported.)", "quantifier": "all call counts", "why_tests_cant": "The call counter is a 16-bit integer; a test would need 65536 calls.", "anchors": ["src/include/sbpl/planners/araplanner.h: callnumber, callnumberaccessed", "src/planners/araplanner.cpp: ReInitializeSearchStateSpace"]}
{"id": "C26", "title": "2D navigation: coordinates and state ids are in bijection, forever", "statement": "InitializeEnv succeeds for every in-map start and sets up map, start and goal as given. From then on, for every history of calls (GetStateFromCoord, SetStart, SetGoal, GetSuccs, GetPreds, SetAllActionsandAllOutcomes, UpdateCost, Get*ofChangedEdges), equal coordinates always get the same id, different coordinates different ids, GetCoordFromState inverts GetStateFromCoord, and ids once given never change. A second InitializeEnv on the same object always throws.", "quantifier": "all call histories and coordinates, whatever the hash collisions", "why_tests_cant": "Collisions and table growth depend on history.", "anchors": ["src/discrete_space_information/environment_nav2D.cpp: GetHashEntry, CreateNewHashEntry, GetStateFromCoord"]}
{"id": "C27", "title": "2D navigation: successors and predecessors describe the same graph", "statement": "For in-map states a (not the goal, on a traversable cell) and b: b is listed by GetSuccs(a) with cost c iff a is listed by GetPreds(b) with cost c. (From an obstacle cell near the border the forward view has edges that the backward view lacks.)", "quantifier": "all maps, cells, 8- and 16-connected", "why_tests_cant": "Backward and forward planning agree only if this holds for every cell pair.", "anchors": ["src/discrete_space_information/environment_nav2D.cpp: GetSuccs, GetPreds"]}
{"id": "C28", "title": "2D navigation: GetSuccs/GetPreds never read outside the map and never generate obstacle moves", "statement": "For every in-map state GetSuccs and GetPreds return normally, with no map read out of range although bounds tests are skipped in the interior; GetSuccs lists exactly, once each, the moves into in-map cells whose touched cells are all below the obstacle threshold, with cost (max touched cell cost + 1) * move length, and none for the goal; SetAllActionsandAllOutcomes agrees with it. (InitializeEnv accepts a goal outside the map, and then GetPreds(goal) reads out of range.)", "quantifier": "all maps and cells", "why_tests_cant": "Memory safety for all map sizes.", "anchors": ["src/discrete_space_information/environment_nav2D.cpp: GetSuccs, GetPreds, IsValidCell"]}
{"id": "C29", "title": "2D navigation: the heuristic is symmetric, zero on the diagonal and consistent up to one unit of rounding", "statement": "GetFromToHeuristic(s,s)=0, it is symmetric and non-negative, h(s) <= c(s,t) + h(t) + 1 for every edge, and h <= 5001/5000 of the cost of every path. (Exact consistency and admissibility fail: five diagonal moves cost 7070 but the heuristic says 7071.)", "quantifier": "all edges on all maps", "why_tests_cant": "Admissibility over all paths; rounding effects appear only at some distances.", "anchors": ["src/discrete_space_information/environment_nav2D.cpp: EuclideanDistance, GetFromToHeuristic, Computedxy"]}
{"id": "C30", "title": "2D navigation: change notification is complete", "statement": "After UpdateCost on some cells, every state whose outgoing (incoming) edge set changed is listed by GetPredsofChangedEdges (GetSuccsofChangedEdges).", "quantifier": "all maps, all change sets", "why_tests_cant": "A missed edge silently corrupts incremental replanning.", "anchors": ["src/discrete_space_information/environment_nav2D.cpp: GetPredsofChangedEdges, GetSuccsofChangedEdges, UpdateCost"]}
{"id": "C31", "title": "Angle normalisation and angular difference", "statement": "normalizeAngle(a) is in [0,2pi], differs from a by a whole number of turns (and is 2pi only for a=2pi); computeMinUnsignedAngleDiff(a,b) is in [0,pi] and is the least absolute difference of a and b over all whole turns.", "quantifier": "every pair of angles", "why_tests_cant": "ranges over all real angles including exact multiples of 2pi and large magnitudes", "anchors": ["src/utils/utils.cpp normalizeAngle, computeMinUnsignedAngleDiff"]}
{"id": "C32", "title": "Continuous/discrete heading conversion", "statement": "ContTheta2Disc(f,N) is the index in [0,N) of the bin (centred on multiples of 2pi/N) containing f, and ContTheta2Disc(DiscTheta2Cont(n,N),N)=n for n in [0,N).", "quantifier": "every angle and number of headings", "why_tests_cant": "the only failing input is one exact border angle per N", "anchors": ["src/utils/utils.cpp ContTheta2Disc, DiscTheta2Cont"]}
{"id": "C33", "title": "Continuous/discrete coordinate conversion", "statement": "CONTXY2DISC(DISCXY2CONT(d,c),c)=d for every cell index, and CONTXY2DISC(x,c) is the cell whose half-open interval contains x.", "quantifier": "every coordinate (negative included) and positive cell size", "why_tests_cant": "all reals; the failing inputs are the negative cell borders", "anchors": ["src/include/sbpl/utils/utils.h CONTXY2DISC, DISCXY2CONT"]}
{"id": "C34", "title": "Point-in-footprint test is the even-odd rule", "statement": "IsInsideFootprint answers true for points strictly inside and false strictly outside a triangle, is the xor over any triangulation fan for general polygons, does not depend on start vertex or orientation, and is false outside the bounding box.", "quantifier": "every point and polygon", "why_tests_cant": "all polygons with any number of vertices, degenerate positions included", "anchors": ["src/utils/utils.cpp IsInsideFootprint"]}
{"id": "C35", "title": "2D navigation: SetStart, SetGoal and UpdateCost do exactly what they say", "statement": "SetStart/SetGoal return -1 and change nothing for a coordinate outside the map; inside they return the id of that cell, make it the start/goal and change neither the other endpoint, nor any cell cost, nor any id. UpdateCost(x,y,c) changes the cost of cell (x,y) to c and nothing else (it has no bounds check: coordinates outside the map are an out-of-bounds write).", "quantifier": "every reachable environment and coordinate", "why_tests_cant": "frame conditions over the whole map, for every history", "anchors": ["src/discrete_space_information/environment_nav2D.cpp: SetStart, SetGoal, UpdateCost"]}
{"id": "C36", "title": "ARA* never gets worse", "statement": "A second replan with no changes in between, whatever its time limit and eps parameters, returns a cost not larger than the first and still finds a solution if the first did.", "quantifier": "all graphs, heuristics, histories, clock behaviours, pairs of parameter sets", "why_tests_cant": "Anytime monotonicity quantifies over interruption points and graphs.", "anchors": ["src/planners/araplanner.cpp: Search, ImprovePath, replan"]}
{"id": "C37", "title": "Lattice state ids are a lasting bijection with poses", "statement": "In the (x, y, theta) lattice environment, over any history of GetStateFromCoord, GetSuccs, GetPreds, GetLazySuccs, GetLazyPreds, UpdateCost, SetMap, SetStart, SetGoal, EnsureHeuristicsUpdated and GetPredsofChangedEdges with poses inside the map and ids the environment gave out, no call throws or does anything undefined; every id stands for one pose inside the map, no two ids for the same pose, and a pose keeps its id forever. (With coordinates outside the map GetStateFromCoord silently takes over the table place of another pose: refuted.)", "quantifier": "all maps, usable primitive sets, start and goal poses, lookup-table and hash-table mode, and all call histories", "why_tests_cant": "the property is about every history and every hash collision, not about a run", "anchors": ["src/discrete_space_information/environment_navxythetalat.cpp: GetHashEntry_lookup, GetHashEntry_hash, CreateNewHashEntry_lookup, CreateNewHashEntry_hash, GetStateFromCoord, GetCoordFromState, InitializeEnvironment"]}
{"id": "C38", "title": "GetSuccs and GetPreds are exactly the edges of the lattice and converse of each other", "statement": "For every generated state other than the goal, GetSuccs returns exactly one successor, with its cost and action, for each motion primitive of its angle that can be executed in the current map, and GetPreds exactly one predecessor for each primitive that leads to it; so b is a successor of a at cost c iff a is a predecessor of b at cost c. (The goal has no successors but GetPreds gives it as a predecessor: refuted for the goal.)", "quantifier": "all histories, maps, primitive sets and states", "why_tests_cant": "every state, map and footprint would have to be tried", "anchors": ["src/discrete_space_information/environment_navxythetalat.cpp: GetSuccs, GetPreds, GetActionCost"]}
{"id": "C39", "title": "A lattice successor is collision free and costs what the map says", "statement": "Every successor returned by GetSuccs starts and ends in free cells, its centre cells are in the map and below the inscribed threshold, its cost is the primitive's times one plus the greatest cell cost met, and if the map is inflated for the footprint then all cells swept by the footprint are free. (For primitive costs over 8388607 the cost can wrap around to a negative number, and a displacement over 127 cells wraps around: refuted.)", "quantifier": "all maps, thresholds, footprints, primitives and states", "why_tests_cant": "collision freedom must hold for all maps and positions", "anchors": ["src/discrete_space_information/environment_navxythetalat.cpp: GetActionCost, IsValidCell, GetSuccs"]}
{"id": "C40", "title": "GetPredsofChangedEdges misses no state whose edges changed", "statement": "After the costs of some cells changed, GetPredsofChangedEdges for those cells reports, once each, every generated state one of whose outgoing edges appeared, disappeared or changed its cost, provided each primitive's centre cells are among its swept, first or last cells; and it reports only states with a primitive touching a changed cell. (Without the proviso, for a footprint off the robot's centre, it misses states: refuted.)", "quantifier": "all maps before and after, all sets of changed cells, all histories", "why_tests_cant": "a missed state only shows as a wrong replanned path for particular maps", "anchors": ["src/discrete_space_information/environment_navxythetalat.cpp: GetPredsofChangedEdges, ComputeReplanningDataforAction, ComputeReplanningData"]}
{"id": "C41", "title": "Lazy successors and predecessors miss no edge and never overestimate", "statement": "GetLazySuccs and GetLazyPreds list every edge that GetSuccs and GetPreds list, at a cost that is at most the true cost; GetTrueCost returns only costs of edges, throws exactly if no primitive leads to the child, and returns the edge's cost (or -1) if only one primitive does. (With two primitives to the same child it may return -1 or a higher cost although GetSuccs has a cheaper edge: refuted.)", "quantifier": "all histories, states, maps, primitive sets", "why_tests_cant": "optimism of the lazy costs must hold for every state and map", "anchors": ["src/discrete_space_information/environment_navxythetalat.cpp: GetLazySuccs, GetLazyPreds, GetTrueCost"]}
{"id": "C42", "title": "GetActionsFromStateIDPath recovers a cheapest action for every step", "statement": "For a path of state ids GetActionsFromStateIDPath succeeds exactly if every two consecutive ids are joined by an edge and no inner state is the goal, and then returns for every step an action that gives that edge at the least cost; otherwise it throws.", "quantifier": "all histories and all paths of generated ids", "why_tests_cant": "paths are unbounded", "anchors": ["src/discrete_space_information/environment_navxythetalat.cpp: GetActionsFromStateIDPath"]}
{"id": "C43", "title": "The lattice heuristic is never computed from a stale map, start or goal", "statement": "Whatever sequence of UpdateCost, SetMap, SetStart, SetGoal and searches came before, after EnsureHeuristicsUpdated the last 2D search from the goal (or from the start) was run on the current map between the current goal and start cells, and it is not run again if nothing changed.", "quantifier": "all call histories", "why_tests_cant": "the flags must be right on every history", "anchors": ["src/discrete_space_information/environment_navxythetalat.cpp: EnsureHeuristicsUpdated, UpdateCost, SetMap, SetStart, SetGoal"]}
{"id": "C44", "title": "Motion primitives become exact action tables", "statement": "For every primitive set with the same number of primitives per angle, at most 128 angles and displacements that fit a char, the table of actions holds each primitive at its place, the table of predecessor actions each action exactly once under its end angle, and the replanning table exactly the relative states a cell can affect. (Non-uniform sets are written out of bounds before the check, an unknown start angle leaves an action unset, and more than 128 angles index before the table: refuted.)", "quantifier": "all primitive sets, map sizes and thresholds", "why_tests_cant": "all primitive files", "anchors": ["src/discrete_space_information/environment_navxythetalat.cpp: PrecomputeActionswithCompleteMotionPrimitive, ComputeReplanningData"]}
{"id": "C45", "title": "The adjacency-list roadmap is the undirected graph its calls describe", "statement": "After any history of addPoint (of new points), setCost (between different points), removeLastPoints, setStartState and setGoalState, ids are positions in the order of addition, hasPoint holds for exactly the points added and not removed, and GetSuccs of a state lists each neighbour once with the cost most recently set (in either direction) since both points exist; the goal has no successors; the heuristic calls return heuristicDistanceTo of the right points; GetPreds always throws. (Removing a duplicate of a point makes the first one unfindable, removing a point with an edge to itself is undefined, the id of a removed goal is inherited by the next point, and all actions have id 0: refuted.)", "quantifier": "all histories of calls, all coordinate types", "why_tests_cant": "unbounded histories of additions, cost changes and removals", "anchors": ["src/include/sbpl/discrete_space_information/environment_precomputed_adjacency_list.h: addPoint, removeLastPoints, setCost, GetSuccs, SetAllActionsandAllOutcomes"]}
{"id": "C46", "title": "findOptimalPath returns an optimal path", "statement": "On every roadmap built by a history of calls, with positive costs and a consistent heuristic, findOptimalPath with enough time returns a sequence of points from start to goal along edges whose total cost equals the reported cost and is the least possible, or no points and INFINITECOST if no path is cheaper than INFINITECOST.", "quantifier": "all roadmaps, all consistent heuristics", "why_tests_cant": "optimality over all graphs and all paths", "anchors": ["src/include/sbpl/discrete_space_information/environment_precomputed_adjacency_list.h: findOptimalPath", "src/planners/araplanner.cpp: replan"]}
{"id": "C47", "title": "MHAPlanner returns real paths", "statement": "After any history of set_start, set_goal, parameter changes and searches on a changing environment, when MHAPlanner::replan reports success and no priority can reach INFINITECOST (or the path begins at the start), the path it returns leads from the set start to the set goal along edges of the environment and costs at most the reported cost. If a heuristic value is INFINITECOST, replan can report success with the path [goal] and cost 0 although no path exists.", "quantifier": "all environments, heuristics, histories of calls, parameters and clock behaviours", "why_tests_cant": "ranges over all graphs, all heuristics and all histories", "anchors": ["src/planners/mhaplanner.cpp: MHAPlanner::replan, expand, extract_path", "src/include/sbpl/planners/mhaplanner.h"]}
{"id": "C48", "title": "MHAPlanner honours get_solution_eps", "statement": "With a consistent anchor heuristic, the reported cost is at most eps_mha times the cost of every path from start to goal with its edge costs inflated by eps and rounded up; with integer eps it is at most get_solution_eps() (= eps * eps_mha) times the cost of every path. The additional heuristics are arbitrary.", "quantifier": "all environments, all additional heuristics, all consistent anchors, all paths", "why_tests_cant": "a bound against every path of every graph, whatever the additional heuristics are", "anchors": ["src/planners/mhaplanner.cpp: MHAPlanner::replan, compute_key, get_minf", "src/planners/mhaplanner.cpp: get_solution_eps"]}
{"id": "C49", "title": "MHAPlanner ends and is complete", "statement": "With start and goal set, replan returns normally on every well-formed environment (no failed assert, no heap overflow, no endless loop). If neither the clock nor the expansion limit applies, the parameters are accepted and no priority can reach INFINITECOST, then 'no solution' means that there is no path from start to goal.", "quantifier": "all environments, heuristics, histories of calls and parameters", "why_tests_cant": "termination and completeness over all graphs", "anchors": ["src/planners/mhaplanner.cpp: MHAPlanner::replan, expand, time_limit_reached, check_params"]}
{"id": "C50", "title": "MHAPlanner bounds its expansions", "statement": "A search expands each state at most twice (get_n_expands() <= 2 * number of states). With set_max_expansions(N), N > 0, and return_first_solution off, get_n_expands() <= N - 1 + max(1, number of additional heuristics); the limit N itself can be exceeded, and it is ignored when return_first_solution is on.", "quantifier": "all environments, heuristics, histories of calls, limits and clock behaviours", "why_tests_cant": "a bound over all executions of the search", "anchors": ["src/planners/mhaplanner.cpp: MHAPlanner::replan, expand, time_limit_reached, get_n_expands"]}
{"id": "C51", "title": "AD* returns valid paths, also after repairs", "statement": "If ADPlanner::replan succeeds, the environment has a path from the start to the goal, edge by edge as its successor (forward) or predecessor (backward) lists currently say, whose cost is at most the reported cost, which is below INFINITECOST; the returned vector is that path, or empty if the path has more than 100000 steps. This holds after any history of set_start, set_goal, cost changes announced by costs_changed, replans interrupted at any point, parameter changes and restarts, as long as the cost changes are repairable: the changed edges lead to announced states, and an edge appears only where the search can see it.", "quantifier": "all environments with consistent heuristics, both search directions, all histories of calls and clock behaviours without 16-bit counter overflow", "why_tests_cant": "needs an invariant over all histories of incremental repairs", "anchors": ["src/planners/adplanner.cpp: ADPlanner::replan, Search, ComputePath, GetSearchPath, ReconstructPath, costs_changed, Update_SearchSuccs_of_ChangedEdges", "src/include/sbpl/planners/adplanner.h"]}
{"id": "C52", "title": "AD* keeps its suboptimality bound through repairs", "statement": "If replan succeeds, the reported cost is at most the cost of every path from start to goal in the current graph when each edge cost is inflated by get_solution_eps() and rounded up; so cost <= eps * C + (number of edges), and cost <= eps * C if eps is whole. If edge costs and heuristic change together and no announced state is known to the search, the old eps is kept and the bound is lost.", "quantifier": "all graphs, consistent heuristics, histories, eps schedules and clock behaviours", "why_tests_cant": "the bound compares with all paths of all graphs, after any sequence of repairs", "anchors": ["src/planners/adplanner.cpp: ADPlanner::Search, ComputePath, UpdateSetMembership, Recomputegval, Update_SearchSuccs_of_ChangedEdges, get_solution_eps", "src/include/sbpl/planners/adplanner.h"]}
{"id": "C53", "title": "AD* never throws or hangs", "statement": "With start and goal set, replan returns normally (no exception, no undefined behaviour, no endless loop), and so does costs_changed with any list of valid states and any new well-formed environment, as long as the 16-bit iteration and call counters do not overflow. If the environment gives the goal no successors, the goal has to stay or the search to start from scratch: else replan can throw 'g-values are non-decreasing'.", "quantifier": "all environments, histories, clocks that stay expired once expired", "why_tests_cant": "termination and absence of exceptions for every history", "anchors": ["src/planners/adplanner.cpp: ADPlanner::replan, Search, ComputePath, costs_changed", "src/include/sbpl/planners/adplanner.h"]}
{"id": "C54", "title": "AD* expands a state at most twice per iteration", "statement": "Whenever ComputePath runs, it expands each state at most twice, a state not expanded before in this search at most once, and at most twice as many states as there are in total.", "quantifier": "all histories, graphs, eps values", "why_tests_cant": "a bound over all executions", "anchors": ["src/planners/adplanner.cpp: ADPlanner::ComputePath, UpdateSetMembership", "src/include/sbpl/planners/adplanner.h"]}
{"id": "C55", "title": "AD* is complete, also after repairs", "statement": "If replan reports 'no solution' and the time did not run out, then every path from start to goal in the current graph costs at least INFINITECOST when its edge costs are inflated by the largest eps in use. An edge that appears and leads to a state the search has never seen is ignored although the state is announced, so for such changes 'no solution' is wrong unless planning starts from scratch.", "quantifier": "all graphs, histories of repairable changes", "why_tests_cant": "a negative answer quantifies over all paths", "anchors": ["src/planners/adplanner.cpp: ADPlanner::Search, ComputePath, Update_SearchSuccs_of_ChangedEdges", "src/include/sbpl/planners/adplanner.h"]}
{"id": "C56", "title": "Sliding-bucket grid search: total, and its exceptions", "statement": "After setOPENdatastructure(SLIDINGBUCKETS) on an object whose longest move is at least 1 mm, every search on every byte map in which no passable cell costs 254 ends without undefined behaviour, returns true exactly when the blocks of start and goal exist, and leaves the object usable for further searches on other maps. The only exception is 'bucket is full', and only when there are more blocks than max(1000, width + height). (A passable cell of cost 254 makes it throw 'invalid priority'; cells so small that all moves are 0 mm long make it divide by zero.)", "quantifier": "all maps, sizes, thresholds, start/goal pairs, termination conditions, initial bucket sizes and sequences of searches", "why_tests_cant": "the capacity of a ring bucket and the priority window must suffice for every map", "anchors": ["src/utils/2Dgridsearch.cpp: setOPENdatastructure, search_withslidingbuckets", "src/include/sbpl/utils/list.h: CSlidingBucket"]}
{"id": "C57", "title": "Sliding-bucket grid search with ALLCELLS is exact and agrees with the heap", "statement": "After a successful search with sliding buckets and the condition ALLCELLS, with start and goal in different blocks and straight moves of at least 1 mm, the value of every block is the least cost of a path to it (INFINITECOST if there is none below that); so it equals the value the heap version computes on the same map.", "quantifier": "all maps, sizes, start/goal pairs and earlier searches on the same object", "why_tests_cant": "least cost is a minimum over all paths of every map", "anchors": ["src/utils/2Dgridsearch.cpp: search_withslidingbuckets", "src/include/sbpl/utils/2Dgridsearch.h: getlowerboundoncostfromstart_inmm"]}
{"id": "C58", "title": "Sliding-bucket grid search returns lower bounds under every termination condition", "statement": "After any successful search with sliding buckets, the value returned for a block is at most the cost of every path to it (below INFINITECOST, for OPTPATHFOUND after adding the estimate), and it is the exact least cost whenever it is below the reported largest computed value (for OPTPATHFOUND: plus estimate). The value of the goal itself need not be exact: the reported bound may come from an outdated copy of a cell in the list.", "quantifier": "all maps, cell sizes, termination conditions, blocks and histories", "why_tests_cant": "a lower bound must hold against all paths of every map", "anchors": ["src/utils/2Dgridsearch.cpp: search_withslidingbuckets", "src/include/sbpl/utils/2Dgridsearch.h: getlowerboundoncostfromstart_inmm"]}
{"id": "C59", "title": "LazyARA* replan always comes to an end", "statement": "Every call LazyARAPlanner::replan(solution, params, cost) with start and goal set ends, throws no SBPL_Exception and performs no undefined operation, whatever happened to the object before (up to 65534 searches), in both search directions and whatever the clock says; if it returns false the solution is empty with cost 0. Afterwards start and goal have to be set again: without them replan returns false and does not write its out-parameters. force_planning_from_scratch_and_free_memory never fails and keeps start and goal.", "quantifier": "all finite environments with estimated and true edge costs (they may change between calls), parameters, clocks and histories of calls", "why_tests_cant": "termination and absence of exceptions for all graphs, clocks and histories", "anchors": ["src/planners/lazyARA.cpp: replan, Search, ImprovePath, EvaluateState, ExpandState, insertLazyList, getNextLazyElement, putStateInHeap, prepareNextSearchIteration, initializeSearch, freeMemory", "src/include/sbpl/planners/lazyARA.h"]}
{"id": "C60", "title": "LazyARA* returns paths that exist", "statement": "A path returned by LazyARAPlanner::replan leads from start to goal (for a backward search: from goal to start) along listed edges, each of which is listed with its true cost or was confirmed by GetTrueCost; the reported cost is the sum of the least listed costs of its steps (estimates included, so it is at most the true cost). If the time runs out, the one step at the goal may be an edge that was never evaluated.", "quantifier": "all environments, parameters, clocks, histories", "why_tests_cant": "every returned path of every search of every environment", "anchors": ["src/planners/lazyARA.cpp: GetSearchPath, EvaluateState, ImprovePath"]}
{"id": "C61", "title": "LazyARA* reports failure only if there is no path", "statement": "If LazyARAPlanner::replan returns false without having been stopped by the clock, every path of true edges between start and goal has an inflated cost of at least INFINITECOST.", "quantifier": "all environments with consistent heuristics and estimates that are lower bounds; all histories", "why_tests_cant": "absence of a path is a statement about all paths", "anchors": ["src/planners/lazyARA.cpp: ImprovePath, Search, insertLazyList, getNextLazyElement"]}
{"id": "C62", "title": "LazyARA* suboptimality bound", "statement": "The true cost of a returned path is at most initial_eps times that of any other path (each edge cost rounded up) if the clock did not stop the search, and a first-solution search reports that factor. If the environment gives true costs only, the path is within the factor get_solution_eps reports, after every number of improvement iterations and whatever the clock says. With estimates the factor reported after improvement iterations can be wrong.", "quantifier": "all environments with consistent heuristics and estimates that are lower bounds; all parameters, clocks, histories", "why_tests_cant": "a bound against all paths, for all graphs and orders of expansion", "anchors": ["src/planners/lazyARA.cpp: Search, ImprovePath, prepareNextSearchIteration, insertLazyList", "src/include/sbpl/planners/lazyARA.h: get_solution_eps, LazyListElement"]}
{"id": "C63", "title": "Multi-level lattice: cells and maps", "statement": "In EnvironmentNAVXYTHETAMLEVLAT, IsValidCell(x, y) is true exactly for cells of the map that are below the obstacle threshold at the base level and every additional level, IsValidCell(x, y, lev) for cells of the map that are free at that level; inside the map IsObstacle is the opposite and GetMapCost the greatest cost of all levels. InitializeAdditionalLevels installs exactly the requested levels with zero maps; Set2DMapforAddLev and UpdateCostinAddLev change only the map (the cell) of the given level, and Set2DMapforAddLev before initialization returns false and changes nothing. No such call, nor any supported call of the base class, fails on any history, and state ids keep their poses.", "quantifier": "all motion primitive sets (at most 256 per angle), maps, levels, footprints, histories of allowed calls", "why_tests_cant": "ranges over all call histories and all maps", "anchors": ["src/discrete_space_information/environment_navxythetamlevlat.cpp: IsValidCell, IsObstacle, GetMapCost, InitializeAdditionalLevels, Set2DMapforAddLev, UpdateCostinAddLev"]}
{"id": "C64", "title": "Multi-level lattice: successors and predecessors", "statement": "GetSuccs, GetPreds, GetLazySuccs, GetLazyPreds and GetTrueCost of a multi-level lattice describe one and the same graph: there is an edge for a primitive exactly if the motion is executable at the base level, safe at every additional level for that level's footprint and thresholds, and the cells the base footprint sweeps (when they are tested) are free at all levels; its cost is the primitive's cost times one plus the greatest cost of the cells that count. Lazy lists miss no edge and never overestimate.", "quantifier": "all motion primitive sets (at most 256 per angle), maps, levels, footprints, histories, states", "why_tests_cant": "an equivalence of two neighbour functions over every map and history", "anchors": ["src/discrete_space_information/environment_navxythetamlevlat.cpp: GetActionCost, GetActionCostacrossAddLevels", "src/discrete_space_information/environment_navxythetalat.cpp: GetSuccs, GetPreds, GetLazySuccs, GetLazyPreds, GetTrueCost, GetActionCost"]}
{"id": "C65", "title": "Multi-level lattice: safety and monotonicity", "statement": "A successor returned by a multi-level lattice is a motion that is an edge of the base-level lattice at no higher cost (so base-level heuristics stay admissible) and safe at every additional level; its cost covers the cost of the centre cells at every level. Levels only ever remove edges or raise costs; without levels the graph is that of EnvironmentNAVXYTHETALAT.", "quantifier": "all motion primitive sets (at most 256 per angle), maps, levels, footprints, histories, states", "why_tests_cant": "a safety claim about every edge of every map", "anchors": ["src/discrete_space_information/environment_navxythetamlevlat.cpp: GetActionCost, GetActionCostacrossAddLevels"]}
{"id": "C66", "title": "Multi-level lattice: configurations and unsupported calls", "statement": "IsValidConfiguration is true exactly if all cells of each level's footprint at the pose are in the map and free in that level's map. GetPredsofChangedEdges and GetSuccsofChangedEdges always throw and change nothing.", "quantifier": "all maps, levels, footprints, poses, histories", "why_tests_cant": "ranges over all maps and footprints", "anchors": ["src/discrete_space_information/environment_navxythetamlevlat.cpp: IsValidConfiguration", "src/include/sbpl/discrete_space_information/environment_navxythetamlevlat.h: GetPredsofChangedEdges, GetSuccsofChangedEdges"]}
{"id": "C67", "title": "ANA*: a search ends", "statement": "If start and goal are set and some time is left when the search begins, anaPlanner::replan ends after finitely many steps, for any clock that does not go backwards, without throwing and without undefined behaviour; set_start and set_goal accept every state of the environment. (Without time at the beginning, a search after costs_changed may throw.)", "quantifier": "all graphs with positive edge costs, heuristics, search directions, histories of calls, clocks", "why_tests_cant": "termination and absence of undefined behaviour over every graph and history", "anchors": ["src/planners/ANAplanner.cpp: Search, ImprovePath, ReInitializeSearchStateSpace"]}
{"id": "C68", "title": "ANA*: returned paths are real", "statement": "If such a call of anaPlanner::replan returns true, the path starts at the start, ends at the goal, follows edges the environment lists, and costs at most the reported cost, which is below INFINITECOST; if it returns false the path is empty and the cost INFINITECOST.", "quantifier": "all graphs, heuristics (admissible or not), search directions, histories of calls, clocks", "why_tests_cant": "validity of every path after every history and timeout", "anchors": ["src/planners/ANAplanner.cpp: GetSearchPath, ReconstructPath, UpdateSuccs, UpdatePreds"]}
{"id": "C69", "title": "ANA*: optimal when time suffices", "statement": "With an admissible heuristic (not necessarily consistent) and time that never runs out, anaPlanner::replan returns a path of least cost whenever there is a path cheaper than INFINITECOST, unless asked to stop at the first solution; and if it returns false, also when it is asked for the first solution, there is no such path.", "quantifier": "all graphs, admissible heuristics, histories of calls (with a restart from scratch whenever the state to be found changes)", "why_tests_cant": "optimality over every graph and history", "anchors": ["src/planners/ANAplanner.cpp: Search, ImprovePath, get_e_value"]}
{"id": "C70", "title": "ANA*: the reported eps is a bound", "statement": "Whenever anaPlanner::replan stops, get_solution_eps is at least 1 and the reported cost is at most get_solution_eps times the cost of any path, if the heuristic is admissible.", "quantifier": "all graphs, admissible heuristics, clocks, histories of calls", "why_tests_cant": "a bound against all paths, at every point where the time can run out", "anchors": ["src/planners/ANAplanner.cpp: Search (the loop that computes epsprime), get_solution_eps"]}
{"id": "C71", "title": "ANA*: replanning improves", "statement": "A further call of anaPlanner::replan with nothing changed goes on with the search: it finds a path again if there was one, and the reported cost never increases.", "quantifier": "all graphs, heuristics, clocks, histories of calls", "why_tests_cant": "monotonicity over every pair of interruption points", "anchors": ["src/planners/ANAplanner.cpp: replan, Search"]}
{"id": "C72", "title": "EvaluatePolicy: the reported policy value is accurate", "statement": "For a well-formed policy (distinct states, at most one action per state, positive outcome probabilities that sum to 1, outcomes inside the policy) that has an action in every non-goal state, EvaluatePolicy never throws; if it returns, bFullPolicy is true and PolValue is at most the expected cost of following the policy from the start, which (for step costs of at least 1) is at most PolValue/0.9. For a policy with unexplored states it returns after one sweep with bFullPolicy false and the value 1000000 or a lower bound. nMerges and bCycles are exact for a full policy.", "quantifier": "all policies (any size, graph, rational probabilities, costs), start and goal ids", "why_tests_cant": "a bound on a limit of expectations over all stochastic policies; float comparisons on a handful of policies do not bound the error of the stopping rule", "anchors": ["src/utils/utils.cpp: EvaluatePolicy"]}
{"id": "C73", "title": "EvaluatePolicy: when it ends", "statement": "For a full policy with step costs of at least 1, EvaluatePolicy returns if and only if the goal can be reached from every state of the policy; if it cannot, the call never returns.", "quantifier": "all well-formed full policies, start and goal ids", "why_tests_cant": "termination of an iteration with no bound, in both directions", "anchors": ["src/utils/utils.cpp: EvaluatePolicy (the loop on delta > mindelta)"]}
{"id": "C74", "title": "Value iteration: the value of the start is a lower bound", "statement": "For an environment whose actions are probability distributions with nonnegative costs and an admissible heuristic, after any history of replan calls (any start states, any interruption by the clock) VIPlanner::replan that returns has v(start) >= 0 and at most the expected cost of every strategy from the start, history-dependent ones included.", "quantifier": "all environments (any size), admissible heuristics, starts, clocks, histories of calls, strategies", "why_tests_cant": "a bound against all strategies of a stochastic process at every interruption point", "anchors": ["src/planners/viplanner.cpp: replan, perform_iteration_forward, backup"]}
{"id": "C75", "title": "Value iteration: a converged policy is near-optimal", "statement": "If the first replan call of a VIPlanner (with g_belldelta above 0.01, as at program start) is not ended by the clock, then the policy it evaluates is made of actions of the environment, has an action in every non-goal state, can reach the goal from each of its states, and its expected cost is at most v(start)/0.99, hence at most 1/0.99 of that of any strategy (admissible heuristic, step costs of at least 1).", "quantifier": "all environments with step costs of at least 1, admissible heuristics, clocks", "why_tests_cant": "optimality against all strategies, for every stochastic graph and stopping point", "anchors": ["src/planners/viplanner.cpp: replan, perform_iteration_forward, backup, PrintPolicy"]}
{"id": "C76", "title": "Value iteration: iterations end, and converge", "statement": "With finitely many states reachable from the start, every iteration of VIPlanner::replan ends after at most one backup per reachable state plus one, after any history. If moreover step costs are at least 1, the heuristic is admissible and consistent and the goal can be reached from every reachable state, then there is a number of iterations after which the first call converges, and the call returns.", "quantifier": "all environments with a finite reachable set, histories, clocks", "why_tests_cant": "termination and convergence without a bound on sizes or iterations", "anchors": ["src/planners/viplanner.cpp: replan, perform_iteration_forward, PrintPolicy", "src/utils/utils.cpp: EvaluatePolicy"]}
{"id": "C77", "title": "Uncertain grid: InitializeEnv", "statement": "On a complete square map, EnvironmentNAV2DUU::InitializeEnv succeeds; SizeofCreatedEnv is the number of cells, SizeofH the number of uncertain cells (probability of being blocked between 0.00001 and 0.99999), and every uncertain cell gets its own hidden variable: the variables are numbered 0..SizeofH-1, each used once, and the other cells have -1. On a map wider than high it reads outside its arrays; on one higher than wide it throws exactly when a cell at or below row 'width' is uncertain, and otherwise leaves those rows without variables.", "quantifier": "all map sizes, cost and probability arrays, thresholds", "why_tests_cant": "the numbering is a bijection for every map; tests see single maps", "anchors": ["src/discrete_space_information/environment_nav2Duu.cpp: InitializeEnv, SetConfiguration, InitializeEnvConfig, SizeofH, SizeofCreatedEnv"]}
{"id": "C78", "title": "Uncertain grid: the predecessors of a cell", "statement": "On a square map of at most 1024 x 1024 with its eight directions in use (numofdirs = 8), after any history of SetStart, SetGoal and UpdateCost inside the map and for any beliefs about the hidden variables, GetPreds of a cell reports exactly one action per possible move into it: the neighbour, the cell and for a diagonal the two cells between are below the threshold, the cells between are free or believed free, and the cost is (largest cost touched + 1) times 1000 or 1414. A cell at or above the threshold, or now known to be blocked, has none, and neither has an ID outside the map.", "quantifier": "all square maps, histories, cells, belief vectors", "why_tests_cant": "all combinations of neighbour costs, uncertainties and beliefs; a missing or extra action shows only for rare ones", "anchors": ["src/discrete_space_information/environment_nav2Duu.cpp: GetPreds, Computedxy, UpdateCost, IsWithinMapCell"]}
{"id": "C79", "title": "Uncertain grid: state IDs, start and goal", "statement": "After any history of calls, InitializeMDPCfg gives the IDs 1024*x+y of the last start and goal inside the map (first of cell (0,0)); SetStart and SetGoal return the cell's ID, or -1 with nothing changed for a cell outside the map; on maps at most 1024 high two cells never share an ID.", "quantifier": "all maps InitializeEnv accepts, all histories, all coordinates", "why_tests_cant": "uniqueness over all cells and correctness over all histories", "anchors": ["src/discrete_space_information/environment_nav2Duu.cpp: SetStart, SetGoal, InitializeMDPCfg, InitializeEnvironment", "src/include/sbpl/discrete_space_information/environment_nav2Duu.h: ENVNAV2DUU_XYTOSTATEID"]}
{"id": "C80", "title": "Uncertain grid: outcomes of an action", "statement": "GetPreds reports only stochastic actions, whatever the map and the beliefs; each has the two outcomes 'arrive at cost c' and 'stay in the neighbour at cost 2c', with probabilities 1-p and p, p between 0 and 0.99999, and comes with one hidden variable known to be blocked.", "quantifier": "all square maps with non-negative probabilities, histories, cells, belief vectors", "why_tests_cant": "probabilities of every action for every map and belief", "anchors": ["src/discrete_space_information/environment_nav2Duu.cpp: GetPreds"]}
{"id": "C81", "title": "Uncertain grid: moves cost the same in both directions", "statement": "If GetPreds of a cell reports a move from another cell at cost c, and that other cell is not itself blocked, then GetPreds of the other cell reports the opposite move (number 7-k) at the same cost c.", "quantifier": "all square maps, histories, pairs of cells, belief vectors", "why_tests_cant": "symmetry over all pairs of cells of all maps", "anchors": ["src/discrete_space_information/environment_nav2Duu.cpp: GetPreds, Computedxy"]}
{"id": "C82", "title": "Robot arm: 2D distance tables", "statement": "On every square map the tables that the environment computes at initialisation hold, for every pair of cells, exactly the length of the shortest 8-connected obstacle-free walk between them, and 1000000000 if there is none; the search never fails. (On maps that are not square initialisation runs into undefined behaviour.)", "quantifier": "all square maps of fewer than 10^9 cells, all obstacle placements, all pairs of cells", "why_tests_cant": "a breadth-first search over an arbitrary map; exactness is a statement about all walks", "anchors": ["src/discrete_space_information/environment_robarm.cpp: ComputeHeuristicValues, Create2DStateSpace, Search2DwithQueue, InitializeState2D"]}
{"id": "C83", "title": "Robot arm: collision check", "statement": "The collision check terminates for every configuration and accepts exactly those all of whose links have both ends inside the environment and every cell of the grid line between the ends on the map and free; an accepted configuration has its end effector on a free cell of the map. The cell of a continuous point is always on the map, and is the cell containing the point if the point is inside.", "quantifier": "all configurations, arm geometries and square maps", "why_tests_cant": "quantifies over all configurations and maps", "anchors": ["src/discrete_space_information/environment_robarm.cpp: IsValidCoord, IsValidLineSegment, ContXY2Cell"]}
{"id": "C84", "title": "Robot arm: state table", "statement": "Initialising a new environment succeeds exactly when the start configuration is collision free and the goal cell lies on the map; the start gets id 0 and the goal id 1. Afterwards, whatever calls are made, ids are 0..n-1, two different ids other than the goal's stand for different configurations, each stands for a collision-free configuration stored together with its end-effector cell, and the meaning of an id never changes.", "quantifier": "all arms, maps, histories of GetSuccs, GetRandomState and GetRandomSuccsatDistance calls", "why_tests_cant": "an invariant of a growing hash table over all histories", "anchors": ["src/discrete_space_information/environment_robarm.cpp: InitializeEnvironment, CreateNewHashEntry, GetHashEntry, GetRandomState, GetSuccs, GetRandomSuccsatDistance"]}
{"id": "C85", "title": "Robot arm: successors", "statement": "For an existing state GetSuccs never fails. The goal has no successors; any other state has, in order of joint and direction, exactly the collision-free configurations that one step of one joint leads to, each at cost 1, reported as the goal if the end effector is in the goal cell and as the state standing for the configuration otherwise. GetEdgeCost between any two states other than the goal is 1.", "quantifier": "all arms whose end effector moves by at most one cell when one joint turns by one step, all maps, histories and states; that an ordinary configuration is not reported as the goal needs the all-zero configuration to collide, to be the start, or to be at the goal", "why_tests_cant": "exactness of the successor set for every state of every arm", "anchors": ["src/discrete_space_information/environment_robarm.cpp: GetSuccs, InitializeEnvConfig, GetEdgeCost"]}
{"id": "C86", "title": "Robot arm: goal heuristic", "statement": "The goal heuristic of a state is the 2D obstacle-free distance of its end effector to the goal cell; it is nonnegative, 0 at the goal, and consistent: along every reported edge it drops by at most the cost of the edge.", "quantifier": "all arms whose end effector moves by at most one cell when one joint turns by one step and whose all-zero configuration collides, is the start, or is at the goal; all maps, histories, states and edges", "why_tests_cant": "consistency is a property of all edges of all maps", "anchors": ["src/discrete_space_information/environment_robarm.cpp: GetGoalHeuristic, GetFromToHeuristic, GetSuccs"]}
{"id": "C87", "title": "Robot arm: random states", "statement": "GetRandomState returns the state of the first drawn configuration that is collision free. GetRandomSuccsatDistance never fails for an existing state and reports, in order, exactly the drawn configurations that are collision free and whose end effector is within 30 cells of the state's, then the goal if it is within 30 cells; with each comes as lower bound the 2D distance between the two end-effector cells. The goal gets none.", "quantifier": "all sequences of random draws of configurations, all arms, maps, histories and states", "why_tests_cant": "quantifies over all random draws", "anchors": ["src/discrete_space_information/environment_robarm.cpp: GetRandomState, GetRandomSuccsatDistance, GetFromToHeuristic"]}
