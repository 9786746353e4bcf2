# Formal model of sbpl/sbpl in Rocq (Coq 8.16.1)

## Conventions
* Every model file is `theories/<Area>Model.v` (definitions only, each citing /repo file:lines).
  Specifications that do not mention the model's helpers are in `<Area>Spec.v`; proofs in `<Area>Proofs*.v`;
  the property theorems (statement, proof from the lemmas, `Print Assumptions`, non-vacuity examples) in `<Area>Props*.v`.
  A theorem named `Cnn_...` belongs to property Cnn; a name ending in `_refuted` proves that a stronger claim one
  might expect of the code is false of the model (a witness run, evaluated by the kernel).
* Outcomes: `Ok`, `Exn` (an SBPL_Exception, with the state at the throw where it matters), `UB` (C++ undefined
  behaviour: out-of-range or unwritten array cell, NULL dereference, division by zero, ...), `OOF` (model fuel
  exhausted; excluded by theorem statements or proved impossible). A theorem whose conclusion is `= Ok _` therefore
  says: no exception, no undefined behaviour, terminates.
* C++ `int` is modelled by `Z` unless the property is about wrap-around; where the code
  relies on a narrow type (`short unsigned callnumber`, `unsigned g`, 8-bit displacements) the wrap is explicit.
* Pointers to search states are modelled by natural numbers (identity of the object).
* The clock is an oracle: any boolean sequence ("time left?") is a possible clock behaviour.
* Doubles are exact rationals, except where a property is about rounding (C15: any rounded addition).

## Plan per property: what is modelled, how it is proved
| id | model | proof |
|---|---|---|
| C01 | KeyModel: CKey as a pair of Z, the six operators of key.h | algebra (lia) on pairs |
| C02-C05 | HeapModel: CHeap and CIntHeap as array map + heapindex map + allocated size, every method incl. growheap, with UB for cells outside the allocation | percolation as swaps on a virtual array; heap-order and back-pointer invariants; refinement to a finite map, by induction over call histories |
| C06 | ListModel: CList at pointer level (nodes with prev/next addresses, listelem back pointers) | representation invariant, refinement to a duplicate-free list over all histories |
| C07 | FifoModel: the circular buffer of sbpl_fifo.h | refinement to a bounded queue over all histories |
| C08 | BucketModel: CBucket (list.h) with the assorted bucket | refinement to a multiset under the discipline stated in the property; refutations for the histories outside it |
| C09 | SlidingModel: CSlidingBucket | circular-window invariant over all histories; refutations beyond |
| C10-C12 | BfsModel: sbpl_bfs_2d, sbpl_bfs_3d on FifoModel, any queue size | level-order invariant, exact distance in both directions; overflow witness for the default queue size |
| C13 | BresModel: get_bresenham_parameters / get_current_point / get_next_point | closed form of the error term by induction on the steps |
| C14,C31,C32 | AngleModel: normalizeDiscAngle, normalizeAngle, ContTheta2Disc, DiscTheta2Cont over exact rationals (pi a parameter in a stated interval where it matters) | Z.rem / Qfloor lemmas |
| C15 | DistModel: computeDistancestoNonfreeAreas, once over exact arithmetic and once over any rounded addition | two-pass chamfer argument; error bound by induction on path length |
| C16,C17 | MdpModel: PathExists, CMDP, CMDPACTION, AddPred | worklist invariant; list induction |
| C18,C19 | GridModel: SBPL2DGridSearch::search_withheap on HeapModel, every termination condition | Dijkstra invariants (settled exact, open tentative) over the run |
| C56-C58 | GridSlidingModel: setOPENdatastructure(SLIDINGBUCKETS) and search_withslidingbuckets on SlidingModel | Dijkstra invariants with duplicate entries in the list, slot counting per bucket, measure 16 x unexpanded cells + list length |
| C20-C25,C36 | AraModel: the whole ARAPlanner object on HeapModel and ListModel; u32/u16 arithmetic explicit; eps rational; clock an arbitrary oracle | object invariant over all call histories (`reach`), ARA* invariants in ImprovePath, termination measure; refutations by evaluating runs in the kernel |
| C26-C30,C35 | NavModel: EnvironmentNAV2D (hash table with arbitrary hash function, GetSuccs/GetPreds, heuristic, UpdateCost, notification) | history induction, finite case analysis over the move table |
| C33 | AngleModel: CONTXY2DISC / DISCXY2CONT | Qtrunc lemmas |
| C34 | FootprintModel part of AngleModel: IsInsideFootprint | induction over polygon edges |
| C37-C44 | LatModel: EnvironmentNAVXYTHETALATTICE and EnvironmentNAVXYTHETALAT (state tables, GetSuccs/GetPreds/GetLazy*/GetTrueCost, action cost and collision checks, GetPredsofChangedEdges, path to actions, heuristic refresh flags, motion primitive tables) | state-table invariant over all histories; per-call exactness against an independent edge relation |
| C45,C46 | AdjModel: the adjacency-list environment and its findOptimalPath on AraModel | refinement to an undirected weighted graph; the ARA* theorems instantiated |
| C47-C50 | MhaModel: class MHAPlanner (set_start, set_goal, replan, limits) on the heap model, environment and heuristics abstract | invariant of the searches (back pointers, closed sets, anchor queue, ghost values at expansion), frontier argument for the bound, counting of closed flags for termination |
| C51-C55 | AdModel: class ADPlanner on the heap and list models (UpdateSetMembership, Recomputegval, ComputePath, Search, costs_changed, ...), environment abstract | invariant on the search's view of all states (g from best predecessor, v passed on, safe chains, keys); two-phase expansion measure; repair lemma for announced cost changes |
| C59-C62 | LazyModel: class LazyARAPlanner on the heap model, including libstdc++'s priority_queue operations on the lazy lists; environment and clock abstract | invariant of v/g values, parents and lazy lists (every value is justified by a listed edge), measure for evaluations and expansions, frontier argument for the bound with estimates |
| C63-C66 | MlevModel: class EnvironmentNAVXYTHETAMLEVLAT (additional levels in z) on top of LatModel, with the inherited functions as they run with the overridden IsValidCell and GetActionCost | invariant of the levels, specification of the cost loops by per-level maxima, graph theorems as for C37-C41 over call histories |
| C67-C71 | AnaModel: class anaPlanner on the heap of HeapModel and the environment of AraModel; the clock is an oracle, e values are rationals | search invariant with the pruning bound G over arbitrary interruption points and call histories; frontier lemma for admissible heuristics; a strictly decreasing measure for termination |
| C72,C73 | EvalModel: EvaluatePolicy (utils.cpp) over exact rationals | monotone sweeps below the n-step expected cost; residual bound at the stop; a potential (sum of values) for termination; colouring argument for the cycle flag |
| C74-C76 | ViModel: the value-iteration planner (viplanner.cpp) over exact rationals, environment and clock abstract, g_belldelta part of the state | values are lower bounds (invariant over all histories, by induction on strategies); residual of the last iteration; the work lists end by counting unmarked states; potential (sum of values and of explored states) for convergence |
| C77-C81 | UuModel: EnvironmentNAV2DUU (environment_nav2Duu.cpp), the two matrices and the variable numbers as finite maps of written cells, numofdirs an arbitrary value | nested loops as one loop over cells, invariant; GetPreds case by case against the relation Move |
| C82-C87 | RarmModel: the robot-arm environment (environment_robarm.cpp); joint positions an abstract function of the configuration, random numbers a list of draws, heap arrays with undefined reads and writes out of bounds as outcomes | breadth-first search invariant (distance levels); line check via C13; invariant of the state table over all histories; consistency from the triangle inequality of walks |

Properties whose first wording turned out to be false of the code were reworded to what the code does guarantee; the
first wording is kept as a `_refuted` theorem: C08, C09, C11, C15, C18-C25, C27-C29, C32, C33, C37-C41, C44, C45, C47, C50, C52, C53, C55, C56, C58,
C60, C62, C65, C67, C68, C69, C73, C75, C76, C77, C78, C79, C80, C82, C84, C85, C86
(the notes in MANIFEST.json say which).

## Trusted base
* Coq 8.16.1's kernel (including its `vm_compute` machine, used to evaluate witness runs).
* The reading of the C++ source: no extraction or execution links the model to /repo; each definition cites the lines it models
  and names its simplifications.
* `Print Assumptions` is printed after every property theorem during the build; each prints "Closed under the global
  context": no axiom, of the standard library or otherwise, is used by any theorem. (The seven constants of
  `Coq.ssr.ssrunder` that a scan of loaded libraries lists are sealed-module fields of the standard library pulled in by std++;
  no theorem depends on them.)
* Libraries: Coq's standard library and std++ (finite maps, lists, lia-style tactics). No axioms, functors, module types,
  plugins or unset kernel checks.

## What is modelled and what is not
| /repo/src | status |
|---|---|
| utils/key.h, utils/heap.cpp, utils/list.h, sbpl_fifo.h, sbpl_bfs_2d/3d | modelled in full (printing dropped) |
| utils/mdp.cpp, utils/utils.cpp | CMDP*, PathExists, Bresenham, angles, coordinates, footprint test, distance transform, EvaluatePolicy modelled (its Pcgoal output without a theorem); get_2d_motion_cells, writing of files not |
| utils/2Dgridsearch.cpp | searches with the heap and with sliding buckets modelled (all termination conditions); search_exp and search_withbuckets (unused) not |
| planners/araplanner.cpp | modelled in full except statistics, printing, DEBUG code |
| discrete_space_information/environment_nav2D.cpp | modelled except file parsing, printing, GetRandom*States |
| environment_navxythetalat.cpp | state tables, actions, successor/predecessor/lazy queries, costs, changes, primitives, heuristic refresh modelled; config file parsing, printing, floating-point motion primitive generation not |
| environment_adjacency_list | modelled |
| planners/adplanner.cpp | modelled except statistics, printing, DEBUG code and the bOptimalSolution branch (never taken by replan) |
| planners/mhaplanner.cpp | modelled except printing and timing statistics |
| planners/lazyARA.cpp | modelled except statistics, printing and timing; GetTrueCost etc. are functions of an abstract environment |
| environment_navxythetamlevlat.cpp | modelled except the config file and printing |
| planners/ANAplanner.cpp | modelled except statistics, printing and DEBUG code |
| planners/viplanner.cpp | modelled except perform_iteration_backward (never called), statistics, printing |
| environment_robarm.cpp | modelled except ReadConfiguration, the cos/sin geometry of the arm, printing and timing |
| environment_nav2Duu.cpp | modelled except the config file and printing |
| other planners (RSTAR, PPCP) and environments (XXX) | not modelled unless a row above names them |

File parsing, printing, timing values, memory exhaustion and floating-point rounding are not modelled unless said so.

## Seeded bugs
`tools/seed.py` applies each edit of a spec to a scratch copy, rebuilds what depends on it and records in `seeded/LOG.jsonl` which theorems
stopped proving. Edits after which everything still proves were reviewed one by one: either the edit does not change the behaviour (the entry says so)
or the theorem was tightened (the entry names it).
