# Formal model of vrpy (Kuifje02/vrpy) in Rocq

Everything lives in `rocq/theories`. `properties.jsonl` lists the properties, `MANIFEST.json`
maps each to theorems, `seeded/LOG.jsonl` records the mutation tests.

## 1. Layout

| directory | content |
|---|---|
| `Base/`  | `Prelude` (results with Python exceptions as values, list and rational lemmas), `Graph` (networkx `DiGraph` as two insertion-ordered association lists, with the operations the code uses) |
| `Spec/`  | what the English properties mean: routes, loads, durations, time windows, precedence, covers, savings procedure, linear programs, plans. `Routes`, `Network`, `LinProg`, `Feasible`, `Heuristics`, `Savings`, `Results` do not mention `Model/` at all; the others use its data types (arguments, columns, rows) and, for statements about the history of a run (`Run`, `Pool`), the pricing calls that were made |
| `Model/` | the code, function by function; every definition cites file and lines |
| `Proofs/`| lemmas |
| `Props/` | property theorems only, each closed with `exact lemma`, followed by `Print Assumptions`, with an `Example` that meets its hypotheses |

## 2. Modelling decisions

* Numbers. Attributes (cost, time, demand, ...) are exact rationals `Q`; Python ints that must be ints
  (capacities, stops, ids) are `Z` or `nat`. Floating point rounding is not modelled.
* Nodes. `Source`, `Sink` or `Cust id`. networkx allows any hashable; ids are enough up to renaming.
* Graphs. A `DiGraph` is a list of nodes with attributes and a list of arcs with attributes, in
  insertion order. `G.edges()` order is derived as networkx does it (by node, then by insertion).
* Python exceptions are values of `res`; the first exception raised is the one returned.
* Loops are structural recursion; the only unbounded loops (`_Greedy._run_forward`, greedy pricing,
  column generation) use fuel with an `OutOfFuel` error value which is excluded by a theorem.
* External components are arguments, never axioms: LP/MIP solver (any assignment satisfying the
  constraints when the status is Optimal), random choices (index streams), clock (stream of readings),
  cspy (any path it returns), hash order of Python sets (any permutation).
* Aliasing: two arcs of the user graph are assumed not to share one `cost` list object.

## 3. Plan per property (written before the proofs)

| property | model | proof idea |
|---|---|---|
| C01 | `Model/Checks.v: check_vrp` on raw graphs with optional attributes | case analysis and induction over the node list; reachability by closure proved equal to existence of a walk |
| C02 | `check_arguments`, `_format`, `_define_vehicle_types` over Python values | iff with a declarative spec, per-exception theorems |
| C03 | `check_feasibility` with Bellman-Ford style shortest path | shortest path is a lower bound for every walk; route through v contains walks to and from v |
| C04, C05 | `check_initial_routes`, `check_preassignments`, ... | iff by induction |
| C06, C07, C08 | `_set_zero_attributes`, `_update_dummy_attributes`, `_readjust_sink_time_windows`, `_add_fixed_costs` | pointwise characterisation of the new graph |
| C09, C10 | `_prune_graph` | arcs of feasible routes satisfy the kept predicate; C10 needs the triangle inequality, without it refuted |
| C11 | `_knapsack` as written (table with row `-1` aliasing) | DP invariant: cell = max cardinality of sub-multisets |
| C12, C13 | `_lock` | frame lemmas; C13 refuted by an instance |
| C14-C17 | `_ClarkeWright` with a heap of route objects | invariant over `_process_edge` |
| C18, C19 | `_Greedy` | decreasing unprocessed list, invariant over `_update` |
| C20-C22 | `_RoundTrip`, `_get_initial_solution`, `_convert_initial_routes_to_digraphs` | induction; cost/type mismatch refuted for mixed fleets |
| C23, C24 | `subproblem.py` | telescoping sums; filters |
| C25, C26 | `_SubProblemGreedy` with an oracle for random choices | invariant; C26 refuted |
| C27-C33 | pricing MIP as explicit constraints | flow decomposition, big-M constraints along the path |
| C34-C36 | cspy resource functions and limits | fold over the path; C35, C36 refuted in general |
| C37 | route naming in all pricing algorithms; the variables of the master problem | counter invariant; the names of the columns are those of the master variables |
| C38-C42, C44 | master problem as explicit rows and columns | read the rows off the formulation |
| C43 | master problem + reduced costs | weak duality |
| C45-C48 | `_column_generation`, `_find_columns` with pricing oracle and clock | induction over iterations |
| C49 | `_HyperHeuristic` | invariants |
| C50, C51 | `_DivingHeuristic` | invariant; C51 refuted |
| C52-C56 | post processing | induction over the route; earliest schedule is a least fixed point |
| C57 | `_Schedule` formulation | read rows off the formulation |
| C58 | `solve` pre-processing as a state transformer | refuted (fixed cost is added twice) plus conditional theorem |
| C59, C60 | composition of all of the above | composition |
| C61 | `pre_solve` as a whole | composition of C09-C11: every route feasible for the user is still there afterwards |
| C62 | `_ClarkeWright.run` | induction over merges: every merge with a non-negative saving lowers the value |
| C63 | `_Greedy._get_next_node` | the run is a derivation of the declarative nearest-neighbour rule (`Spec/Heuristics.v`) |
| C64 | `_get_savings` | the order handed to `_process_edge` is sorted by saving, a permutation, and stable |
| C65 | `remove_edges_3` | the only failure is the division by zero when all weights are equal |
| C66 | `_SubProblemLP._formulate` | every lookup of the formulation succeeds on pricing graphs with both depots and all deliveries |
| C67 | `_SubProblemGreedy.solve` | the accumulated weight is the reduced cost unless the path was cut at `num_stops` |
| C68 | `_MasterSolvePulp._solve(relax=False)` | integer solutions of the program correspond to selections |
| C69, C70 | `_MasterSolvePulp` | rows and columns of the program computed in closed form; every exception characterised |
| C71 | `_find_columns` with `_SubProblemLP` | C43 plus completeness of the pricing MIP |
| C72 | `_get_next_pricing_strategy` | invariant that no dict lookup and no division fails |
| C73 | `solve` for plain problems | conjunction of the checks, each an equivalence |
| C74 | `_pre_solve` | closed form of the graph, its copy and the limits after preprocessing |
| C75, C76 | `_ClarkeWright.run` | simulation by the declarative procedure of `Spec/Savings.v`; no merge is possible in the end |
| C77 | `_initialize` | closed form of the list of initial columns for given routes, plain problems and pickups |
| C78 | `_SubProblemCSPY.solve` | the call as a relation between the answers of the algorithm, the pool before and after |
| C79 | `_find_columns` with `_SubProblemCSPY` | as C71, with completeness of the labelling; refuted for mixed fleets |
| C80 | `solve` with `cspy=True` | pool invariant of C60 with the columns of C78 |
| C81 | the choice of the strategy over a run | invariant: the counter is the length of the run of equal latest values |
| C82 | `create`, `solve` with `cspy=False`, time windows | times that pass exclude circles; pool invariant "every column is a route that respects all limits", for the first columns by assumption, for priced ones from C28-C31; then the selection theorems |
| C83 | the same with pickups and deliveries | the same invariant; ranks exclude circles, so nothing is assumed about them |
| C84 | the same with distribution and collection | the same invariant |
| C85 | the same with mixed fleets and dropped customers | the same invariant, per vehicle type |
| C86 | `create`, `solve` with `cspy=True` (default), time windows | the invariant of C82; priced columns from C31 and C78; the window resource gives a timetable if the depot is open at 0 or needs no service |
| C87 | the same with distribution and collection | the same invariant |
| C88 | the same with mixed fleets and dropped customers | the same invariant, per vehicle type |
| C89 | `solve` with `cspy=True`: both loops of column generation | the labelling subproblem only adds a column whose list of arcs is new, and there are finitely many lists; every other loop is shown to need no more steps than it is given |
| C90 | `solve` with `cspy=False` and without diving: the loop of column generation | a column equal to enough known ones does not change the optimum of the relaxed master problem, there are finitely many different columns, and after 1000 equal optima the loop is left; refuted for negative costs by an induction over the iterations |
| C91 | `_get_next_pricing_strategy`, `_update_hyper_heuristic` and the attributes of `_HyperHeuristic`, with the marks on the columns | invariant along a run: the counters kept are functions of the list of noted applications (`Spec/History.v`), so the points are the scores of that list; the choice is an argmax of the points |
| C92 | the whole call `solve()` with `initial_routes`, in every variant | as C82-C88: every column of the pool is a route that keeps the limits (the given ones by assumption, the others by the pricing contracts), and the final selection covers every customer once |
| C93 | the same call, and the final integer program over the grown pool | the initial columns stay in the pool (only their marks change), so a plan made of them is a feasible point of the final program; its cost there is its cost in the user's figures when all vehicles are alike. Mixed fleet: refuted |
| C94 | a whole call of solve() on a plain problem, by any pricing, with drop penalty, fleet bound and use_all_vehicles | the core of C82-C88 and C92 (`any_core`, which takes what is known about the first routes as a hypothesis), with the theorems about Clarke & Wright (C14-C16) and the greedy heuristic (C18, C19) for the first routes; times as in C60 |
| C95 | two calls on the same object: solve() and solve(heuristic_only=True) | the routes of the second call are among the first columns of the first (the tenth run has alpha 1, and alpha matters as a number only); then as C93 |
| C96 | two calls: solve() with complete preassigned routes, and solve() on the graph without their customers, with the same oracles | each stage of the preparation commutes with taking nodes out of the graph; after locking, the prepared graphs are equal, so the searches are; the closing time the code computes for Sink uses all customers, so the second graph gets it explicitly |
| C97 | the first call of C96 on a plain problem | C96 and C94; figures of the remaining graph are those of the user |
| C98 | locking and reporting | from the model of post-processing, for every option; heuristic_only: refuted |
| C99 | the same | other routes: C97; preassigned ones: refuted |
| C100 | solve() with `periodic` | invariants of the pool as in C82, with round trips to start from and covering rows with frequencies; enough visits: refuted |
| C101 | the same, with the schedule | C57 on the routes of C100; existence: refuted |
| C102 | the same, started from given routes | every choice of columns with its missing visits is a solution of the last program, whose optimum is compared with the choice that stands for the given routes |
| C103 | sequences of calls in one process, linked by the list of columns that diving may not fix (a mutable default argument) | without diving every function of column generation commutes with replacing that list, and a call without diving leaves it as it is; with diving: refuted |
| C104 | the arguments of the object before and after solve() | `num_vehicles` is formatted and kept, or emptied for a periodic problem; second call: refuted |
| C105 | solve(dive=True) for every variant and both pricing methods | all columns of the pool are drivable (as for C82-C88, C94) and none is in circles, since diving forces elementary routes; a selection rounded up from a relaxed solution covers everybody; exactly once and fleet: refuted |
| C106 | solve() on accepted plain problems | every step is total on what the step before leaves: preparation, initial routes, the master problem (feasible since the initial routes serve all, bounded), pricing, post-processing; with termination from C89/C90; refuted for BestPaths and Hyper |
| C107 | the calls of C96 with a period | C96 reduces the call to one on the rest of the graph, C100 says who is visited there; the preassigned routes add their own visits; refuted for frequencies above the number of preassigned visits |
| C108 | solve() on a new object when nobody is left after locking | the prepared graph has two nodes, so column generation stops at once and the conclusion is skipped; the reports come from the locked routes alone; refuted for objects used before and for drop penalties |
| C109 | solve() with initial routes given, plain problems | the start of C106 is replaced by the columns made from the given routes; the plan among them is a valid selection of the first master problem, so no master problem on the way is infeasible; the value by C93; refuted for routes that overlap |
| C110 | time_limit and max_iter in solve() | two configurations that differ in the limits only: the pricing problems and the tests of the limits are the same in every state, hence the whole search, by induction over the loop; the number of iterations by the count of C47 |
| C111 | the time limit handed to the pricing solvers | two outsides that differ in the searches only; refuted for the labelling algorithm when the time is up |

## 4. Trusted base

* Coq 8.16.1: kernel and the `vm_compute` reduction (used for the concrete witnesses of `Example`s and
  `_refuted` theorems), and the extraction-free build by `coq_makefile`.
* Axioms: none. Every property theorem is followed by `Print Assumptions`, and each prints
  `Closed under the global context`. (`vcheck` lists seven constants of `Coq.ssr.ssrunder`; they are the
  opaque module fields of the standard library file loaded with `ssreflect`, no theorem depends on them.)
* The model itself: that `theories/Model` says what the Python code does. Every definition cites the
  lines it models, so this can be checked side by side.
* The vocabulary of `theories/Spec`: that it says what the English properties say.
* Contracts of the external components. They are hypotheses of the theorems that need them, never axioms:

| component | contract in the theorems | where |
|---|---|---|
| LP/MIP solver (cbc, cplex, gurobi through pulp) | `sound_answer`: an answer with status Optimal satisfies rows, bounds and integrality; `right_answer`: it is also best; `exact_answer`: it is also best and Optimal is reported when a solution exists | `Spec/LinProg.v` |
| duals of the solver (`.pi`) | arbitrary numbers, except for C43/C71: the dual values of an optimal basis (sign and complementary value) | `Spec/Duality.v` |
| cspy `BiDirectional` | `sound_labelling`: the path it returns is a Source-Sink walk of the pricing graph whose resources stay within the limits handed over; nothing is assumed about optimality, except in C79: `exact_labelling` | `Spec/Timing.v`, `Spec/Labelling.v` |
| `networkx.shortest_path`, `shortest_simple_paths` | `finds_paths`: some path is returned when one exists; for a simple path it is that path (proved, not assumed) | `Model/Post.v`, `Model/Pricing.v` |
| `random.choice`, `RandomState.choice` | any index in range | `e_choice`, `e_random` |
| `time()` | any stream of readings; monotone only where a theorem says so. The limit made from it is an argument of `e_pricer` and `e_label`; the solvers on the master and scheduling problems get one too (vrp.py 521, 552, 558, 1202), which the model leaves out: their answers are arbitrary functions of the call anyway, but C110 and C111 say nothing about answers that depend on it | `e_clock` |
| order of `LpProblem.variables()` while diving | any list of variables of the program | `e_order` |
| iteration order of Python sets | any permutation | `perms` in `Model/Initial.v` |
| `sqrt`, `log` in the hyper-heuristic | any non-negative number | `e_ucb` |

## 5. What is modelled

| file of /repo/vrpy | model | not modelled |
|---|---|---|
| `checks.py` | `Model/Checks.v`, `Model/Reach.v` | `check_seed` (type test of the seed), logging |
| `vrp.py` `__init__`, `_format`, `_define_vehicle_types` | `Model/Args.v`, `Model/Checks.v`, `Model/Solve.v` | types other than int, float, list, None; a graph that is not a `DiGraph` |
| `vrp.py` `_pre_solve` and helpers, `preprocessing.py` | `Model/Preprocess.v` | logging |
| `clarke_wright.py` | `Model/ClarkeWright.v` | |
| `greedy.py` | `Model/Greedy.v` | |
| `vrp.py` `_initialize` and helpers | `Model/Initial.v` | |
| `subproblem.py` | `Model/Pricing.v` | `discard_nodes` (never called) |
| `subproblem_greedy.py` | `Model/GreedyPricing.v` | `_check_time_windows` (inside a string) |
| `subproblem_lp.py` | `Model/LPPricing.v` | solver command lines |
| `subproblem_cspy.py` | `Model/Cspy.v` | `REF_bwd`, `REF_join` (a callback is only passed together with `direction="forward"`, so they are never called); the labelling algorithm itself |
| `masterproblem.py`, `master_solve_pulp.py` | `Model/Master.v`, `Model/ColGen.v` | solver command lines |
| `restricted_master_heuristics.py` | `Model/Dive.v` | the parent links beyond what `current_node` is used for |
| `hyper_heuristic.py` | `Model/Hyper.v` | the measure `relative_improvement` and the acceptance types other than the default (the constructor is only called without arguments) |
| `vrp.py` `_solve`, `_column_generation`, `_find_columns`, ... | `Model/ColGen.v` | logging |
| `vrp.py` `_post_process` and result properties | `Model/Post.v` | `comp_time` |
| `schedule.py` | `Model/Schedule.v` | solver command lines |
| `vrp.py` `solve` | `Model/Solve.v` | what an object looks like after a call that raised |

Not modelled: `benchmarks/`, `examples/`, `docs/`, `tests/`, floating point rounding, memory and running time,
identity of objects except where two names reach one route graph (`Model/ClarkeWright.v` has a heap).

## 6. Properties that are false of the code

Each has a theorem with suffix `_refuted` containing a concrete input on which the code, with solvers that answer
exactly, violates the property; the weaker statement that does hold carries the suffix `_partial`.

| property | what goes wrong |
|---|---|
| C10 | arcs are removed using windows already tightened by a direct trip from the depot, wrong when a detour is faster |
| C13 | a partial preassignment only makes its arcs free; an optimal plan may avoid them |
| C16, C22 | Clarke and Wright prepends a customer using travel times of the opposite direction, so durations are exceeded for asymmetric times |
| C21 | an initial column of vehicle type k carries the cost of vehicle type 0 |
| C22 | initial round trips ignore time windows and collected loads |
| C25 | with a positive dual of the fleet row, greedy pricing adds the empty route |
| C26 | greedy pricing ignores service times, and the last arc when it stops at num_stops |
| C28, C60 | the pricing MIP admits circles of weight 0 detached from the route; their customers are lost from the reported plan |
| C31 | the big-M of the time window rows is too small |
| C35, C80 | without time windows or collection the labelling ignores service times; solve() with the default pricing returns routes longer than `duration` |
| C36 | without num_stops labelling limits a route to half the number of nodes |
| C40 | complete preassigned routes do not count against num_vehicles |
| C79 | the labelling pricing compares the arcs of a new route with the known ones whatever the vehicle type: in a mixed fleet a route known for one type is never offered for another |
| C44 | with minimize_global_span the 75th column has no span variable, the 1000th and labelling columns raise KeyError |
| C46 | Hyper can stop before the exact pricing problem was solved |
| C81 | with Hyper the counter of iterations without progress is overwritten by the iteration number: exact pricing is forced at most once, and never with the default `run_exact=1` |
| C47, C48 | diving makes one more iteration than max_iter; the first iteration runs after the time limit; cspy gets no limit when no time remains |
| C49 | while diving, BestPaths is counted whatever strategy was applied |
| C50, C51 | backtracking from the first infeasible dive raises AttributeError; the result of a dive may visit a customer twice |
| C55 | check_arrival_time fails for feasible routes if a detour is faster, and for locked routes |
| C56 | with distribution_collection the reported node_load exceeds the capacity |
| C57 | customers without demand may be visited twice on one day |
| C58 | solving twice: the fixed cost is added again, iterations are not reset, locked customers have gone |
| C59 | heuristic_only loses the customers of complete preassigned routes |
| C65 | BestPaths divides by zero when all weights are equal |
| C66 | BestPaths may drop the delivery of a kept pickup; the MIP then raises KeyError |
| C67 | greedy pricing adds columns of non-negative reduced cost when it stops at num_stops |
| C82-C85 | the round trips (single pairs) with which column generation starts are not checked against windows, collected load, stops and duration, and are returned when nothing better is found |
| C86 | the labelling algorithm counts time from 0, not from when the depot opens; with a service time at the depot a route without a timetable is accepted and returned |
| C87 | the round trip the search starts from collects more than the vehicle can carry, and is returned (as C84, with labelling) |
| C88 | without time windows the labelling algorithm does not count services in the duration (as C80) |
| C90 | with `cspy=False` a route of negative cost is priced and added again and again, each copy lowers the optimum (every route variable is at most 1), and without max_iter and time_limit column generation never ends |
| C92 | initial routes given by the user are not checked: one with more stops than allowed is returned |
| C93 | mixed fleet: an initial route that needs a dear vehicle type is priced with the costs of type 0, is preferred for it, and the result costs more than a plan contained in the initial routes |
| C94 | Clarke & Wright uses the travel time of the wrong direction (C16); its route takes longer than `duration` and is returned |
| C95 | heuristic_only does not look at num_vehicles; its plan needs more vehicles and is cheaper |
| C98 | heuristic_only: the customers of a complete preassigned route are removed before the search, and the route is never added to the result; nobody serves these customers |
| C99 | preassigned routes are not checked: one with too many stops that takes too long is reported, and num_vehicles does not count it |
| C100 | a customer with a frequency above one may be visited less often than required, without a sign in the result: the pool starts with one round trip each, the columns generated depend on dual values, and the final problem fills the gap with an artificial variable of cost 1e10 that is not reported |
| C101 | the number of vehicles is not part of the problem that chooses the routes; they may not fit into the days although other routes would, and then the schedule is empty |
| C102 | mixed fleet, as C93: a dear route is preferred to given cheap ones |
| C103 | the nodes of the diving tree take their tabu list from a mutable default argument, so all problems of a process share it, and columns are named by numbers; after a few diving calls the columns to fix are all barred, the relaxation stays fractional and every route with a positive value is returned: customers are visited twice |
| C104 | a periodic problem moves `num_vehicles` to the scheduling problem and leaves an empty list in its place; the second call of solve() knows no limit and may send more vehicles than there are |
| C105 | one variable is fixed per iteration and diving ends when pricing finds nothing, so a relaxed solution is read as a plan: every column with a positive value is a route; customers are visited twice and there are more routes than vehicles |
| C106 | BestPaths and Hyper divide by the difference between the largest and the smallest reduced weight; when all are equal (one customer is enough) solve() raises ZeroDivisionError |
| C107 | the nodes of a preassigned route are taken out of the graph whatever their frequency, so a preassigned visit replaces all of them: a customer with frequency 3 and one preassigned visit is visited once, and not reported as dropped |
| C108 | solve() skips the search when no customer is left and then reads what an earlier call left: preassigning the routes of a first call in a second one on the same object reports every route twice, at twice the price; with drop_penalty it raises AttributeError, since dropped_nodes is only set by the search |
| C109 | initial routes that visit a customer twice: the relaxed master problem covers, the last one partitions, and there are no artificial variables, so solve() can raise an exception on a problem it solves without initial routes |
| C111 | when the time is up the remaining time is 0.0, and subproblem_cspy.py 252 turns 0 into None: the labelling algorithm then runs without any limit |

## 7. Testing the theorems

`seeded/LOG.jsonl` has one line per wrong program: the definition edited, the edit, the claim it breaks, the theorems
that failed, the theorems that were tightened because of it.

How to read it:

- `claim_broken` is the claim predicted before the run. It is empty for controls and for edits made without a prediction.
- `claim_named_after_run` appears when another claim was named after seeing which theorems failed. It is not a prediction,
  and it is no evidence that the predicted claim is tight.
- `outcome` is `caught` only if a theorem of every predicted claim failed. "Build failed, but not through ..." means that
  the edit was noticed by something else: the prediction may have been wrong, the failure may have been hidden, or the
  predicted theorem may be too weak.
- `theorems_failed` are the theorems that use a lemma whose proof failed. Coq stops at the first error of a file, so the
  list can be too short. It can also be too long: a failing proof script does not show that the claim is false.
- `rerun_past_first_failures` is a second run in which each failed proof was skipped in the scratch copy, to see the
  failures behind the first ones.

Earlier versions of the log gave, for runs 4 to 6 (identifiers such as K43, N53 and I70), the claim named after the run
as `claim_broken`, and called such edits caught. That has been corrected: 93 edits made the build fail without reaching
every predicted claim, 16 more had no prediction, and 2 gave no result because the edited model did not type-check. The
second run past the first failures covers 52 edits only, 8 of them with no more than Proofs/Limits.v built; it was stopped for lack of time.
