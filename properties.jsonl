{"id": "C01", "title": "Constructor accepts exactly the well-formed graphs and completes them", "statement": "VehicleRoutingProblem(G) succeeds exactly when Source and Sink are nodes, nothing enters Source, nothing leaves Sink, Source and Sink are connected once depot arcs are completed, and every arc has a cost. On success the only change to G is that every customer without an arc from Source (or to Sink) gets one with cost 1e10; every node, attribute and existing arc is left as it was.", "quantifier": "every DiGraph, with any nodes, arcs and attributes, in any insertion order", "why_tests_cant": "The set of graphs is infinite; tests try five small graphs.", "anchors": ["vrpy/checks.py:check_vrp", "vrpy/vrp.py:VehicleRoutingProblem.__init__"]}
{"id": "C02", "title": "Argument validation accepts exactly the documented arguments", "statement": "solve() gets past argument checking exactly when num_stops is absent or a positive integer, every load capacity is a positive integer, duration is absent or a non-negative integer, the pricing strategy is one of the five names and, for a mixed fleet, load_capacity/num_vehicles/fixed_cost that are present have equal lengths and every arc cost is a list with one entry per vehicle type. Each violated rule raises the documented exception class.", "quantifier": "every combination of argument values and every graph", "why_tests_cant": "Combinatorial space of argument combinations and graph shapes.", "anchors": ["vrpy/checks.py:check_arguments", "vrpy/vrp.py:VehicleRoutingProblem._define_vehicle_types", "vrpy/vrp.py:VehicleRoutingProblem._format"]}
{"id": "C03", "title": "Feasibility errors are never false alarms", "statement": "If solve() raises ValueError because of a demand or a duration, then no route visiting that customer can respect the largest capacity (non-negative demands), respectively the duration limit (non-negative travel and service times). Conversely if the check passes, every demand is at most the largest capacity and every customer lies on a Source-to-Sink walk whose travel time is within the duration limit.", "quantifier": "every network with non-negative times, every capacity list and duration", "why_tests_cant": "Needs a statement about all routes of all graphs.", "anchors": ["vrpy/checks.py:check_feasibility"]}
{"id": "C04", "title": "User-supplied initial routes are accepted exactly when they are complete routes of the graph", "statement": "solve(initial_routes=R) gets past the check exactly when every route starts at Source and ends at Sink, every customer occurs in at least one route and every consecutive pair of a route is an arc of the graph.", "quantifier": "every list of routes and every graph", "why_tests_cant": "Infinite input space.", "anchors": ["vrpy/checks.py:check_initial_routes"]}
{"id": "C05", "title": "Preassignments and option combinations are rejected exactly when documented", "statement": "preassignments are accepted exactly when each consecutive pair is an arc of the graph; heuristic_only is refused exactly for time windows, pickup-delivery, distribution-collection, mixed fleet or periodic problems; pickup_delivery is refused with cspy=True or when no node has a request; with periodic and num_vehicles both given, the fleet bound is applied per day in the schedule only.", "quantifier": "every list of preassignments, every flag combination, every graph", "why_tests_cant": "Infinite input space.", "anchors": ["vrpy/checks.py:check_preassignments", "vrpy/checks.py:check_clarke_wright_compatibility", "vrpy/checks.py:check_consistency", "vrpy/checks.py:check_periodic_num_vehicles"]}
{"id": "C06", "title": "Missing attributes get defaults and nothing else changes", "statement": "After preprocessing every node has demand, collect, service_time, lower, upper (default 0) and frequency (default 1) and every arc has a time (default 0); attributes the user supplied keep their value, except that a positive demand at Source or Sink is replaced by 0 and a zero Sink upper bound is recomputed; the only arc added is Source-Sink with zero cost for every vehicle type.", "quantifier": "every accepted graph", "why_tests_cant": "Infinite input space; the 'nothing else changes' half cannot be sampled.", "anchors": ["vrpy/vrp.py:_set_zero_attributes", "vrpy/vrp.py:_set_time_to_zero_if_missing", "vrpy/vrp.py:_update_dummy_attributes"]}
{"id": "C07", "title": "A missing Sink closing time never makes a route late", "statement": "When Sink has no (or zero) upper bound, the recomputed bound is large enough that any route which reaches its last customer within that customer's window reaches Sink within Sink's window, and it is the smallest such bound.", "quantifier": "every graph, every route", "why_tests_cant": "All routes of all graphs.", "anchors": ["vrpy/vrp.py:_readjust_sink_time_windows"]}
{"id": "C08", "title": "A fixed cost is charged exactly once per vehicle used", "statement": "In a solve on a fresh problem, the reported cost of every route that visits at least one customer with vehicle type k is its travel cost plus fixed_cost[k]; costs of arcs not leaving Source are unchanged.", "quantifier": "every graph, every fixed cost vector, every vehicle type, every route", "why_tests_cant": "All routes; and histories of repeated solves.", "anchors": ["vrpy/vrp.py:_add_fixed_costs", "vrpy/vrp.py:best_routes_cost"]}
{"id": "C09", "title": "Capacity preprocessing never removes a usable arc", "statement": "An arc is removed exactly when the demands of its end points together exceed the largest capacity. No arc of a route whose load fits some vehicle is removed (non-negative demands, or pickup-delivery routes whose running load stays within bounds), and after a passed feasibility check every customer keeps its round trip.", "quantifier": "every network, capacity list and feasible route", "why_tests_cant": "All routes of all graphs.", "anchors": ["vrpy/vrp.py:_remove_infeasible_arcs_capacities", "vrpy/vrp.py:_prune_graph"]}
{"id": "C10", "title": "Time window preprocessing never removes a usable arc or a feasible arrival", "statement": "Tightening of time windows and removal of arcs keeps every route that respects the user's time windows feasible.", "quantifier": "every network with time windows, every feasible route", "why_tests_cant": "All routes of all graphs; depends on a triangle inequality no test exercises.", "anchors": ["vrpy/vrp.py:_remove_infeasible_arcs_time_windows"]}
{"id": "C11", "title": "The computed stop bound is the exact knapsack optimum and never cuts off a route", "statement": "With load capacities, the number of stops is limited to the largest number of nodes whose (truncated) demands fit in the largest vehicle (and likewise for collected amounts), combined with the user's num_stops by minimum; hence no capacity-feasible route is excluded by the computed limit.", "quantifier": "every network with non-negative demands, every capacity, every route", "why_tests_cant": "Dynamic program over unbounded sizes; optimality is a statement about all subsets.", "anchors": ["vrpy/preprocessing.py:get_num_stops_upper_bound", "vrpy/preprocessing.py:_knapsack"]}
{"id": "C12", "title": "Locked complete routes leave the problem untouched elsewhere", "statement": "A preassigned route from Source to Sink removes exactly its customers (and their arcs) from the network; a partial preassignment sets exactly the costs of its arcs to 0 for every vehicle type; reported costs still use the original arc costs.", "quantifier": "every graph and list of preassignments", "why_tests_cant": "Infinite input space; frame condition.", "anchors": ["vrpy/vrp.py:_lock", "vrpy/vrp.py:_update_dummy_attributes"]}
{"id": "C13", "title": "A preassigned partial route is kept in the solution", "statement": "If solve(preassignments=[...]) is given a partial route, some returned route contains its arcs consecutively.", "quantifier": "every instance and partial preassignment", "why_tests_cant": "Statement about all optimal solutions of all instances.", "anchors": ["vrpy/vrp.py:_lock", "docs/solving_options.rst"]}
{"id": "C14", "title": "Clarke & Wright visits every customer exactly once", "statement": "The routes computed by the Clarke & Wright heuristic (heuristic_only=True, or the initial solution) are simple Source-to-Sink paths along arcs of the graph which together visit every customer exactly once, and the computation does not raise.", "quantifier": "every graph in which every customer has its depot arcs, every savings parameter, every limit, every hash order of the final set of routes", "why_tests_cant": "Invariant over all merge sequences on all graphs.", "anchors": ["vrpy/clarke_wright.py:_ClarkeWright.run", "vrpy/clarke_wright.py:_process_edge", "vrpy/clarke_wright.py:_merge_route", "vrpy/clarke_wright.py:_update_routes"]}
{"id": "C15", "title": "Clarke & Wright respects capacity and stop limits", "statement": "If every single demand fits in the vehicle, every Clarke & Wright route has total demand at most the capacity; every route has at most num_stops customers (num_stops >= 1).", "quantifier": "every graph, capacity, stop limit", "why_tests_cant": "All merge sequences on all graphs.", "anchors": ["vrpy/clarke_wright.py:_constraints_met", "vrpy/clarke_wright.py:_merge_route"]}
{"id": "C16", "title": "Clarke & Wright respects the duration limit", "statement": "Every Clarke & Wright route has total travel plus service time at most the duration limit.", "quantifier": "every graph with times, every duration", "why_tests_cant": "All merge sequences on all graphs, symmetric or not.", "anchors": ["vrpy/clarke_wright.py:_constraints_met", "vrpy/clarke_wright.py:_merge_route"]}
{"id": "C17", "title": "The Clarke & Wright value is the sum of its route costs", "statement": "best_value of the heuristic equals the sum over its routes of the costs of their arcs.", "quantifier": "every graph, savings parameter and limits", "why_tests_cant": "Incremental bookkeeping over all merge sequences.", "anchors": ["vrpy/clarke_wright.py:_merge_route", "vrpy/clarke_wright.py:_update_routes"]}
{"id": "C18", "title": "The greedy heuristic always terminates with disjoint simple routes", "statement": "The greedy initial heuristic terminates and every route it returns is a simple Source-to-Sink path of the graph; no customer is visited twice; if every customer's round trip satisfies the limits then every customer is visited exactly once.", "quantifier": "every graph in which depot arcs exist, every limit", "why_tests_cant": "Termination and invariants over all runs.", "anchors": ["vrpy/greedy.py:_Greedy.run", "vrpy/greedy.py:_run_forward", "vrpy/greedy.py:_get_next_node", "vrpy/greedy.py:_update"]}
{"id": "C19", "title": "The greedy heuristic respects capacity, stop and duration limits", "statement": "Every greedy route that visits a customer has total demand within the capacity, at most num_stops customers and total travel plus customer service time within the duration limit; its value is the sum of the route costs.", "quantifier": "every graph and limits", "why_tests_cant": "Invariant over all runs.", "anchors": ["vrpy/greedy.py:_constraints_met", "vrpy/greedy.py:_check_capacity", "vrpy/greedy.py:_check_duration", "vrpy/greedy.py:_update"]}
{"id": "C20", "title": "Round trips cover every customer exactly once", "statement": "The fallback initial solution consists of exactly one Source-v-Sink trip per customer v.", "quantifier": "every graph", "why_tests_cant": "All graphs.", "anchors": ["vrpy/clarke_wright.py:_RoundTrip.run", "vrpy/vrp.py:_get_initial_solution"]}
{"id": "C21", "title": "Initial columns carry the first vehicle type that can carry the load, and its cost", "statement": "Each initial route becomes a column with exactly its arcs, the smallest vehicle type whose capacity covers its total demand, and the cost of the route for that vehicle type; if no type fits, ValueError is raised.", "quantifier": "every list of initial routes, every capacity list, every network", "why_tests_cant": "Infinite input space.", "anchors": ["vrpy/vrp.py:_convert_initial_routes_to_digraphs"]}
{"id": "C22", "title": "Initial columns are feasible routes", "statement": "Every column of the automatically generated initial solution satisfies the constraints the user asked for (time windows, capacity for collection, duration).", "quantifier": "every instance that passes the checks", "why_tests_cant": "All instances.", "anchors": ["vrpy/vrp.py:_get_initial_solution", "vrpy/clarke_wright.py:_RoundTrip", "vrpy/checks.py:check_pickup_delivery_time_windows"]}
{"id": "C23", "title": "Arc weights sum to the reduced cost of the route", "statement": "For any route, the sum of the pricing weights of its arcs equals the cost of the route for the vehicle type minus the dual values of the customers visited minus the dual of the fleet bound of that type.", "quantifier": "every network, dual vector, vehicle type and route", "why_tests_cant": "All routes and dual vectors.", "anchors": ["vrpy/subproblem.py:add_reduced_cost_attribute"]}
{"id": "C24", "title": "Heuristic pricing graphs are sub-networks selected as documented", "statement": "BestEdges1 keeps exactly the arcs with cost at most alpha times the largest dual; BestEdges2 keeps all depot arcs and the int(ratio*m) other arcs of lowest reduced cost; BestPaths keeps exactly the arcs of the k shortest paths. Attributes are unchanged and every route of the pricing graph is a route of the original graph.", "quantifier": "every network, dual vector and parameter", "why_tests_cant": "All networks.", "anchors": ["vrpy/subproblem.py:remove_edges_1", "vrpy/subproblem.py:remove_edges_2", "vrpy/subproblem.py:remove_edges_3"]}
{"id": "C25", "title": "Randomised greedy pricing only adds genuine, capacity- and stop-feasible routes", "statement": "Whatever the random choices, every column added by the randomised greedy pricing is a simple Source-to-Sink path of the graph that visits a customer, with load within the vehicle's capacity, at most num_stops customers, and recorded cost equal to its arc costs.", "quantifier": "every network, every random sequence, every limit", "why_tests_cant": "All random sequences.", "anchors": ["vrpy/subproblem_greedy.py:solve", "vrpy/subproblem_greedy.py:_get_next_node", "vrpy/subproblem_greedy.py:_get_previous_node", "vrpy/subproblem_greedy.py:_update", "vrpy/subproblem_greedy.py:_add_new_route"]}
{"id": "C26", "title": "Randomised greedy pricing respects the duration limit", "statement": "Every column added by the randomised greedy pricing has duration (as reported by best_routes_duration) within the limit.", "quantifier": "every network, random sequence and limit", "why_tests_cant": "All random sequences.", "anchors": ["vrpy/subproblem_greedy.py:_check_duration", "vrpy/subproblem_greedy.py:_update"]}
{"id": "C27", "title": "A solution of the pricing MIP is a single elementary route", "statement": "Whenever elementarity constraints are active, the arcs selected by any integral feasible solution of the pricing MIP are exactly the arcs of one simple Source-to-Sink path visiting at least one customer.", "quantifier": "every network, every feasible solution", "why_tests_cant": "Flow decomposition over all graphs and solutions.", "anchors": ["vrpy/subproblem_lp.py:_formulate", "vrpy/subproblem_lp.py:_add_elementarity", "vrpy/subproblem_lp.py:_add_new_route"]}
{"id": "C28", "title": "Columns from the pricing MIP are single routes in every mode", "statement": "The column built from any feasible solution of the pricing MIP (also when no negative cycle was detected, so that elementarity constraints are omitted) is the arc set of one Source-to-Sink path.", "quantifier": "every network and feasible solution", "why_tests_cant": "All solutions, including degenerate ones.", "anchors": ["vrpy/subproblem_lp.py:_formulate", "vrpy/subproblem_lp.py:_add_new_route"]}
{"id": "C29", "title": "MIP pricing respects stops, load and duration", "statement": "Every route obtained from the pricing MIP has at most num_stops customers, load within the capacity of its vehicle type and travel plus service time within the duration limit.", "quantifier": "every network, limits and feasible solution", "why_tests_cant": "All feasible solutions.", "anchors": ["vrpy/subproblem_lp.py:_add_max_stops", "vrpy/subproblem_lp.py:_add_max_load", "vrpy/subproblem_lp.py:_add_max_duration"]}
{"id": "C30", "title": "MIP pricing respects time windows", "statement": "Every route obtained from the pricing MIP with time windows has arrival times (as reported by arrival_time) within every node's window.", "quantifier": "every network and feasible solution", "why_tests_cant": "All feasible solutions.", "anchors": ["vrpy/subproblem_lp.py:_add_time_windows", "vrpy/vrp.py:arrival_time"]}
{"id": "C31", "title": "MIP pricing does not exclude time-window-feasible routes", "statement": "Every simple route that respects the time windows corresponds to a feasible solution of the pricing MIP.", "quantifier": "every network and feasible route", "why_tests_cant": "All routes; the big-M constant matters.", "anchors": ["vrpy/subproblem_lp.py:_add_time_windows"]}
{"id": "C32", "title": "MIP pricing respects pickup and delivery", "statement": "Every route obtained from the pricing MIP with pickup_delivery visits a pickup exactly if it visits its delivery, the pickup first, and the running load stays between 0 and the capacity.", "quantifier": "every network with requests and every feasible solution", "why_tests_cant": "All feasible solutions.", "anchors": ["vrpy/subproblem_lp.py:_add_pickup_delivery"]}
{"id": "C33", "title": "MIP pricing respects simultaneous distribution and collection", "statement": "Along every route obtained from the pricing MIP with distribution_collection, goods still to deliver plus goods collected never exceed the capacity.", "quantifier": "every network and feasible solution", "why_tests_cant": "All feasible solutions.", "anchors": ["vrpy/subproblem_lp.py:_add_distribution_collection"]}
{"id": "C34", "title": "The labelling resources measure what they claim", "statement": "Extending labels along a path with the custom resource functions yields the number of arcs, the total demand, the arrival time with waiting, and, for distribution-collection, the total collected and the maximum load carried on any arc; hence a path whose labels stay within the limits respects capacity, time windows and simultaneous loads.", "quantifier": "every network and path", "why_tests_cant": "Induction over all paths.", "anchors": ["vrpy/subproblem_cspy.py:_MyREFCallback.REF_fwd", "vrpy/subproblem_cspy.py:formulate"]}
{"id": "C35", "title": "Labelling pricing enforces the duration limit including service times", "statement": "Every route accepted by the labelling pricing with a duration limit has duration (travel plus service) within the limit.", "quantifier": "every network and path", "why_tests_cant": "All paths.", "anchors": ["vrpy/subproblem_cspy.py:add_max_duration", "vrpy/subproblem_cspy.py:get_REF"]}
{"id": "C36", "title": "Labelling resource limits exclude no feasible route", "statement": "Every simple route that satisfies the user's constraints stays within the resource limits passed to the labelling algorithm.", "quantifier": "every network and feasible route", "why_tests_cant": "All routes.", "anchors": ["vrpy/subproblem_cspy.py:__init__", "vrpy/subproblem_cspy.py:formulate"]}
{"id": "C37", "title": "Columns have pairwise distinct names and the pool only grows", "statement": "In any run, whatever the mix of pricing algorithms, columns are only ever appended and no two columns share a name, so every column has its own master variable.", "quantifier": "every history of column additions", "why_tests_cant": "All histories.", "anchors": ["vrpy/subproblem_greedy.py:_add_new_route", "vrpy/subproblem_lp.py:_add_new_route", "vrpy/subproblem_cspy.py:create_new_route", "vrpy/vrp.py:_find_columns"]}
{"id": "C38", "title": "The final selection visits every customer exactly once", "statement": "Without drop_penalty and periodic, in any integral optimal solution of the final master MIP every customer belongs to exactly one selected column.", "quantifier": "every pool of columns, every feasible integral solution", "why_tests_cant": "All pools and all solutions.", "anchors": ["vrpy/master_solve_pulp.py:_formulate", "vrpy/master_solve_pulp.py:_solve", "vrpy/master_solve_pulp.py:get_total_cost_and_routes"]}
{"id": "C39", "title": "Dropped customers are exactly the unvisited ones and are paid for", "statement": "With drop_penalty, each customer is either in exactly one selected route or in the list of dropped nodes, not both, and best_value is the sum of route costs plus drop_penalty per dropped node.", "quantifier": "every pool and feasible integral solution", "why_tests_cant": "All solutions.", "anchors": ["vrpy/master_solve_pulp.py:_add_drop_variables", "vrpy/vrp.py:best_value"]}
{"id": "C40", "title": "The fleet bound holds per vehicle type", "statement": "With num_vehicles, the returned best_routes use at most (exactly, with use_all_vehicles) num_vehicles[k] routes of type k.", "quantifier": "every pool, solution and list of preassignments", "why_tests_cant": "All solutions.", "anchors": ["vrpy/master_solve_pulp.py:_add_bound_vehicles", "vrpy/master_solve_pulp.py:_add_vehicle_dummy_variables", "vrpy/vrp.py:_best_routes_as_node_lists"]}
{"id": "C41", "title": "Periodic customers are visited as often as their frequency", "statement": "With periodic, the number of selected routes containing a customer plus its artificial visits equals its frequency; so without artificial visits it is visited exactly frequency times, by distinct routes.", "quantifier": "every pool and feasible integral solution", "why_tests_cant": "All solutions.", "anchors": ["vrpy/master_solve_pulp.py:_add_set_covering_constraints", "vrpy/master_solve_pulp.py:_add_artificial_variables"]}
{"id": "C42", "title": "Non-elementary columns are never part of the final solution", "statement": "No selected column of the final MIP visits a node twice.", "quantifier": "every pool and feasible integral solution", "why_tests_cant": "All solutions.", "anchors": ["vrpy/master_solve_pulp.py:_solve", "vrpy/subproblem_cspy.py:create_new_route"]}
{"id": "C43", "title": "The relaxed master value is a valid lower bound when pricing fails", "statement": "If no feasible route of any vehicle type has negative reduced cost for the final duals, then no set of feasible routes visiting every customer within the fleet bounds costs less than the dual value of the relaxation.", "quantifier": "every network, every dual vector, every feasible plan", "why_tests_cant": "All plans.", "anchors": ["vrpy/subproblem.py:add_reduced_cost_attribute", "vrpy/vrp.py:_column_generation", "docs/mathematical_background.rst"]}
{"id": "C44", "title": "With minimize_global_span the objective is the most expensive selected route", "statement": "In any feasible solution of the master problem with minimize_global_span the makespan variable is at least the cost of every selected column, and every generated column can be selected.", "quantifier": "every pool, every solution", "why_tests_cant": "All pools, also larger than the preallocated number of rows.", "anchors": ["vrpy/master_solve_pulp.py:_add_maximum_makespan_constraints", "vrpy/master_solve_pulp.py:_add_makespan_variable", "vrpy/master_solve_pulp.py:_add_route_selection_variable_for_global_span"]}
{"id": "C45", "title": "Column generation stops early only after exact pricing failed for every vehicle type", "statement": "For the strategies Exact, BestEdges1, BestEdges2 and BestPaths, when column generation ends without hitting the time, iteration or stagnation limit, the last iteration solved the exact pricing problem for every vehicle type and found no column.", "quantifier": "every behaviour of the pricing algorithms and solver, every history", "why_tests_cant": "All schedules of pricing outcomes.", "anchors": ["vrpy/vrp.py:_column_generation", "vrpy/vrp.py:_find_columns", "vrpy/vrp.py:_solve_subproblem_with_heuristic", "docs/solving_options.rst"]}
{"id": "C46", "title": "Every heuristic pricing strategy falls back to exact pricing", "statement": "For every pricing strategy including Hyper, if the heuristic finds no column the sub problem is solved exactly before column generation ends.", "quantifier": "every strategy and pricing outcome", "why_tests_cant": "All schedules.", "anchors": ["vrpy/vrp.py:_solve_subproblem_with_heuristic", "vrpy/vrp.py:_get_next_pricing_strategy", "docs/solving_options.rst"]}
{"id": "C47", "title": "max_iter bounds the number of column generation iterations", "statement": "With max_iter=m >= 1, solve() performs at most m pricing iterations on a fresh problem, and always at least one.", "quantifier": "every behaviour of pricing and clock", "why_tests_cant": "All schedules.", "anchors": ["vrpy/vrp.py:_column_generation"]}
{"id": "C48", "title": "After the time limit no further iteration starts, and every solver call gets the remaining time", "statement": "With time_limit > 0 no pricing iteration starts after the limit has passed, and the remaining time given to sub problems is positive and at most the limit, or 0 once it has passed; the final MIP always gets at least 5 seconds.", "quantifier": "every clock", "why_tests_cant": "All clock behaviours.", "anchors": ["vrpy/vrp.py:_get_time_remaining", "vrpy/vrp.py:_column_generation", "vrpy/subproblem_cspy.py:solve", "vrpy/subproblem_lp.py:solve"]}
{"id": "C49", "title": "Hyper-heuristic selection is well defined", "statement": "The hyper-heuristic always returns a known strategy of maximal score, never prefers an already tried strategy to an untried one, counts every application, and its intensification parameter stays within [0.1, 1].", "quantifier": "every history of pricing outcomes, runtimes and objective values", "why_tests_cant": "All histories.", "anchors": ["vrpy/hyper_heuristic.py:pick_heuristic", "vrpy/hyper_heuristic.py:update_scaling_factor", "vrpy/hyper_heuristic.py:current_performance", "vrpy/hyper_heuristic.py:_update_params_wgtavr"]}
{"id": "C50", "title": "Diving fixes at most one new column per call and never the same one twice", "statement": "Over any sequence of dives at most max_depth+1 columns are fixed in total, at most one per call, all distinct, each to value 1; a dive that makes the relaxation infeasible backtracks.", "quantifier": "every sequence of relaxations and solver answers", "why_tests_cant": "All histories.", "anchors": ["vrpy/restricted_master_heuristics.py:_DivingHeuristic.run_dive"]}
{"id": "C51", "title": "Dive results are a valid selection of routes", "statement": "After solve(dive=True) every customer is visited exactly once by best_routes.", "quantifier": "every instance", "why_tests_cant": "All runs.", "anchors": ["vrpy/vrp.py:_solve", "vrpy/master_solve_pulp.py:get_total_cost_and_routes"]}
{"id": "C52", "title": "best_routes lists every selected route once, numbered from 1, then the locked routes", "statement": "After column generation best_routes maps 1..n to the node lists of the n selected columns in order, followed by the complete preassigned routes; the node list of an elementary column is exactly its path.", "quantifier": "every selection and list of preassignments", "why_tests_cant": "All selections.", "anchors": ["vrpy/vrp.py:_best_routes_as_node_lists"]}
{"id": "C53", "title": "A locked route gets the cheapest vehicle type that can carry it", "statement": "The vehicle type reported for a complete preassigned route is the first one of least cost among those whose capacity covers its load.", "quantifier": "every network, route and capacity list", "why_tests_cant": "All inputs.", "anchors": ["vrpy/vrp.py:_best_routes_as_node_lists"]}
{"id": "C54", "title": "Reported costs, loads and durations are the sums over the route", "statement": "best_routes_cost, best_routes_load and best_routes_duration give for every route the sum of arc costs for its vehicle type, of node demands, and of arc times plus node service times; best_value is their total (the maximum with minimize_global_span) plus drop penalties.", "quantifier": "every solution", "why_tests_cant": "All solutions.", "anchors": ["vrpy/vrp.py:best_routes_cost", "vrpy/vrp.py:best_routes_load", "vrpy/vrp.py:best_routes_duration", "vrpy/vrp.py:best_value"]}
{"id": "C55", "title": "arrival_time and departure_time are the earliest feasible schedule", "statement": "Reported arrival times start at Source's opening time, never precede a node's opening time, leave room for service and travel between consecutive nodes, and are the earliest such times; so check_arrival_time passes exactly when the route has some schedule within the windows. departure_time is arrival plus service.", "quantifier": "every network and simple route", "why_tests_cant": "All routes.", "anchors": ["vrpy/vrp.py:arrival_time", "vrpy/vrp.py:departure_time", "vrpy/vrp.py:check_arrival_time"]}
{"id": "C56", "title": "node_load is the load on the vehicle and respects the capacity", "statement": "node_load gives the accumulated demand after each node; with distribution_collection it gives the load when leaving the node, which for a feasible route never exceeds the capacity.", "quantifier": "every network and route", "why_tests_cant": "All routes.", "anchors": ["vrpy/vrp.py:node_load"]}
{"id": "C57", "title": "The schedule assigns every route to exactly one day", "statement": "If a schedule is reported, every route appears on exactly one day within the period, no customer is visited twice on a day, and no day uses more vehicles of a type than num_vehicles allows; if no feasible schedule exists it is empty.", "quantifier": "every set of routes and every integral feasible solution", "why_tests_cant": "All solutions.", "anchors": ["vrpy/schedule.py:_formulate", "vrpy/schedule.py:routes_per_day"]}
{"id": "C58", "title": "Solving twice gives the same problem", "statement": "Calling solve() a second time with the same arguments solves the same problem: same network, costs, limits and options.", "quantifier": "every problem and history of solve calls", "why_tests_cant": "Histories of calls.", "anchors": ["vrpy/vrp.py:solve", "vrpy/vrp.py:_pre_solve", "vrpy/vrp.py:_add_fixed_costs"]}
{"id": "C59", "title": "heuristic_only returns a complete feasible plan", "statement": "solve(heuristic_only=True) on an accepted capacitated problem returns routes that visit every customer exactly once along arcs of the graph, within capacity and stop limits, and best_value is their cost including fixed costs.", "quantifier": "every accepted input", "why_tests_cant": "All inputs, end to end.", "anchors": ["vrpy/vrp.py:solve", "vrpy/vrp.py:_solve_with_clarke_wright"]}
{"id": "C60", "title": "solve() returns a complete feasible plan", "statement": "If solve() returns for a capacitated problem with MIP pricing, then best_routes visits every customer exactly once, with every route within capacity, stop and duration limits, whatever the LP/MIP solver returned as optimal solutions.", "quantifier": "every accepted input, every solver behaviour", "why_tests_cant": "All inputs and solver behaviours, end to end.", "anchors": ["vrpy/vrp.py:solve", "vrpy/vrp.py:_solve", "vrpy/vrp.py:_find_columns"]}
{"id": "C61", "title": "Preprocessing as a whole excludes no feasible route", "statement": "A route over the user's network that avoids locked customers, fits the largest vehicle (total load, or running load for pickup and delivery), keeps the user's time windows (when travel directly is never slower) and the user's stop limit, is still a route of the network handed to the solver, with the same timetable, and within the stop limit handed to the solver.", "quantifier": "every accepted graph, option combination and route", "why_tests_cant": "All routes of all graphs; composition of five preprocessing steps.", "anchors": ["vrpy/vrp.py:_pre_solve"]}
{"id": "C62", "title": "Clarke & Wright is never worse than round trips when there is no detour", "statement": "If going directly between two customers never costs more than returning to the depot in between, the value of the Clarke & Wright solution is at most the total cost of serving every customer by its own round trip.", "quantifier": "every graph with this cost property, every limit and savings parameter", "why_tests_cant": "Monotonicity over all merge sequences on all graphs.", "anchors": ["vrpy/clarke_wright.py:_merge_route", "vrpy/clarke_wright.py:_process_edge", "vrpy/clarke_wright.py:_initialize_routes"]}
{"id": "C63", "title": "The greedy heuristic follows the nearest neighbour rule", "statement": "Every customer on a greedy route is a cheapest one to reach among the customers still waiting that the vehicle can go on to within capacity and duration, and a route ends only when the vehicle can go on to nobody or has made num_stops stops.", "quantifier": "every graph in which depot arcs exist, every limit", "why_tests_cant": "All runs on all graphs.", "anchors": ["vrpy/greedy.py:_get_next_node", "vrpy/greedy.py:_constraints_met", "vrpy/greedy.py:_update"]}
{"id": "C64", "title": "Savings are considered from the largest to the smallest", "statement": "Clarke & Wright considers every arc between two customers exactly once, in order of non-increasing saving cost(i,Sink) + cost(Source,j) - alpha * cost(i,j).", "quantifier": "every graph in which depot arcs exist, every alpha", "why_tests_cant": "All graphs.", "anchors": ["vrpy/clarke_wright.py:_get_savings"]}
{"id": "C65", "title": "The BestPaths pricing graph can always be built", "statement": "On every network with at least one Source-to-Sink path, selecting the arcs of the k best paths succeeds, so choosing pricing_strategy='BestPaths' never makes a solvable instance fail.", "quantifier": "every network, dual vector and number of paths", "why_tests_cant": "The failure needs all arc weights to coincide under the current duals, which depends on the LP solution reached.", "anchors": ["vrpy/subproblem.py:remove_edges_3", "vrpy/vrp.py:_attempt_solve_best_paths"]}
{"id": "C66", "title": "The pricing MIP can be built on every pricing graph", "statement": "For every heuristic pricing graph of a pickup-and-delivery instance the pricing MIP can be formulated (no exception is raised).", "quantifier": "every network with requests, dual vector and pricing strategy", "why_tests_cant": "Whether a pickup survives in the pricing graph without its delivery depends on the duals of the run.", "anchors": ["vrpy/subproblem_lp.py:_add_pickup_delivery", "vrpy/subproblem.py:remove_edges_3"]}
{"id": "C67", "title": "Randomised greedy pricing only adds columns of negative reduced cost", "statement": "Every column added by the randomised greedy pricing has negative reduced cost.", "quantifier": "every network, dual vector, random sequence and limit", "why_tests_cant": "It must hold for every random sequence and every dual vector.", "anchors": ["vrpy/subproblem_greedy.py:solve", "vrpy/subproblem_greedy.py:_update"]}
{"id": "C68", "title": "The final selection is the cheapest one the pool allows", "statement": "If the integer program is solved to optimality, the returned value is the price of the selected routes and dropped customers, and no valid selection of generated columns (every customer once or dropped, fleet bounds, elementary columns) is cheaper.", "quantifier": "every network, every pool of columns, every optimal solver answer", "why_tests_cant": "It compares with every other selection of columns.", "anchors": ["vrpy/master_solve_pulp.py:_formulate", "vrpy/master_solve_pulp.py:get_total_cost_and_routes"]}
{"id": "C69", "title": "The master problem fails only for named reasons", "statement": "Building, extending, solving and reading the master problem raise an exception exactly when: a column visits a node that needs no visit (KeyError), a column cannot be numbered for the global span (KeyError), the fleet is missing or combined with periodic, or the solver does not report an optimal solution.", "quantifier": "every network, options, pool and solver answer", "why_tests_cant": "All pools and all solver answers.", "anchors": ["vrpy/master_solve_pulp.py:_formulate", "vrpy/master_solve_pulp.py:update", "vrpy/master_solve_pulp.py:_solve", "vrpy/master_solve_pulp.py:get_total_cost_and_routes"]}
{"id": "C70", "title": "The master problem is the documented set covering program", "statement": "After any number of added columns, the feasible points of the program handed to the solver are exactly those of the documented formulation (covering, fleet, drop, periodic and span constraints) with the documented objective, in the relaxation and in the final program.", "quantifier": "every network, options, history of added columns and vector of values", "why_tests_cant": "All histories and all vectors.", "anchors": ["vrpy/master_solve_pulp.py:_formulate", "vrpy/master_solve_pulp.py:update", "docs/mathematical_background.rst"]}
{"id": "C71", "title": "The lower bound of column generation is a lower bound", "statement": "When column generation with exact MIP pricing and no hyper-heuristic ends without reaching a limit, the last value of the relaxed master problem is, up to the pricing tolerance of 1/1000 per route, no larger than the cost of any plan of feasible routes that serves every customer within the fleet.", "quantifier": "all networks, options without periodic visits and global span, fleets, dual values and solver answers that are correct for the programs built", "why_tests_cant": "The bound speaks about all plans, including those that were never generated.", "anchors": ["vrpy/vrp.py:_column_generation", "vrpy/vrp.py:_find_columns", "vrpy/master_solve_pulp.py:get_duals", "vrpy/subproblem_lp.py:solve"]}
{"id": "C72", "title": "The hyper-heuristic can always choose", "statement": "With pricing_strategy Hyper, when all customers must be served exactly once, the choice of the next pricing strategy never fails during column generation. In general it fails exactly when no column has a positive value in the relaxed solution.", "quantifier": "all iterations of all runs from a fresh problem, all clocks, random choices and sound solver answers", "why_tests_cant": "A division by the number of active columns must be shown to be possible in every iteration of every run.", "anchors": ["vrpy/hyper_heuristic.py:current_performance", "vrpy/hyper_heuristic.py:update_parameters", "vrpy/vrp.py:_get_next_pricing_strategy"]}
{"id": "C73", "title": "Which plain problems solve() accepts", "statement": "For a problem with one vehicle type (no time windows, pickups, distribution-collection or preassignments), construction and the checks and preprocessing of solve() succeed exactly when the graph is a valid network (Source and Sink present, nothing enters Source or leaves Sink, Sink reachable, all arcs have a cost), the arguments have valid types and values, some vehicle can carry each customer's demand, and each customer can be reached and left within the duration limit.", "quantifier": "every graph with non-negative demands and times, every argument values", "why_tests_cant": "An equivalence over all graphs and arguments, end to end through constructor, checks and preprocessing.", "anchors": ["vrpy/vrp.py:__init__", "vrpy/vrp.py:solve", "vrpy/vrp.py:_pre_solve", "vrpy/checks.py"]}
{"id": "C74", "title": "Preprocessing in full", "statement": "After preprocessing, the data from which results are computed equals the user's data with documented defaults filled in, the fixed cost of each vehicle type added to the arcs leaving Source, and a zero-cost Source-Sink arc. The network handed to the solution methods has exactly the nodes that are not inside a complete preassigned route, unchanged attributes except for time windows tightened by the direct trips, exactly the arcs whose two demands fit some vehicle and that can be used in time, unchanged costs except 0 on partially preassigned arcs and 1e10 on Source-Sink when all vehicles must be used. The limits used are the user's, with the capacity of the largest vehicle and the exact number of customers that fit it.", "quantifier": "all graphs with the depot arcs and one cost per vehicle type, all options and all limits for which preprocessing succeeds", "why_tests_cant": "Says of every node, arc and attribute of every input what it becomes and that nothing else changes.", "anchors": ["vrpy/vrp.py:_pre_solve", "vrpy/vrp.py:_update_dummy_attributes", "vrpy/vrp.py:_add_fixed_costs", "vrpy/vrp.py:_lock", "vrpy/vrp.py:_prune_graph", "vrpy/preprocessing.py"]}
{"id": "C75", "title": "Clarke and Wright is the savings procedure", "statement": "The Clarke and Wright routes are obtained from one round trip per customer by going once through the arcs between customers in order of decreasing saving (return cost plus departure cost minus the parameter times the direct cost); at each arc a customer that is alone on its trip is put behind the last, otherwise before the first customer of another trip, whenever the resulting trip respects capacity, duration and stops, and nothing else happens. With heuristic_only the parameter is 1, routes are numbered from 0, vehicle type 0 is used, and options the heuristic does not support are rejected.", "quantifier": "all networks, limits (with symmetric travel times if the duration is limited), parameters and set iteration orders", "why_tests_cant": "A refinement between the dictionary-based implementation and the textbook procedure for every network.", "anchors": ["vrpy/clarke_wright.py:_ClarkeWright", "vrpy/vrp.py:_solve_with_clarke_wright"]}
{"id": "C76", "title": "Clarke and Wright leaves no possible merge", "statement": "When Clarke and Wright ends, no customer that is alone on its trip could be served after the last, or before the first, customer of another trip within the capacity, duration and stop limits.", "quantifier": "all networks with non-negative demands (and times for which dropping an end customer does not lengthen a trip, if the duration is limited), all limits and set iteration orders", "why_tests_cant": "Maximality of the result over all pairs of returned routes for every input, although every arc is looked at only once.", "anchors": ["vrpy/clarke_wright.py:_process_edge", "vrpy/clarke_wright.py:run"]}
{"id": "C77", "title": "Where the initial columns come from", "statement": "Initial routes given by the user are used unchanged, exactly when they go from Source to Sink along existing arcs, leave out no customer and fit a vehicle; otherwise an exception is raised. Without them, a plain problem starts from the Clarke and Wright routes for the parameters 0.1 to 1.9 followed by the greedy routes, a pickup and delivery problem from one route per request, and any other problem from round trips. Column i is route i with its own nodes, arcs and cost, and the first vehicle type that can carry its load.", "quantifier": "all networks, options, limits and lists of initial routes", "why_tests_cant": "Describes the starting point for every combination of options and every input.", "anchors": ["vrpy/vrp.py:_initialize", "vrpy/vrp.py:_get_initial_solution", "vrpy/vrp.py:_convert_initial_routes_to_digraphs", "vrpy/checks.py:check_initial_routes"]}
{"id": "C78", "title": "What one call of the labelling pricing does", "statement": "When the labelling pricing is called, nothing changes unless the pricing graph has a path. Otherwise the algorithm is run first without, then (only if its improving answer is already a known column) with the elementary restriction and the smallest arc weight as threshold; with elementary=True or for simultaneous distribution and collection only the restricted run takes place. A path of reduced cost less than -0.001 whose edges differ from every known column becomes a new last column with the vehicle type, arcs, cost and numbering of that path; in every other case the columns are unchanged and the call reports that nothing was found.", "quantifier": "all networks, limits, options, pools of columns and labelling algorithms returning resource feasible paths", "why_tests_cant": "The answers of the labelling algorithm and the pools are unbounded; tests see one answer per instance.", "anchors": ["vrpy/subproblem_cspy.py:_SubProblemCSPY.solve", "vrpy/subproblem_cspy.py:create_new_route", "vrpy/subproblem_cspy.py:create_new_route", "vrpy/subproblem_cspy.py:solve"]}
{"id": "C79", "title": "The lower bound with labelling pricing", "statement": "When the search with the default (labelling) pricing ends because no column is found, the value of the relaxed problem is, up to the tolerance 0.001 per arc, a lower bound on the cost of every plan of the fleet.", "quantifier": "all networks, limits, fleets, and exact answers of the master solver and of the labelling algorithm", "why_tests_cant": "Ranges over every plan of every network.", "anchors": ["vrpy/vrp.py:_find_columns", "vrpy/subproblem_cspy.py:_SubProblemCSPY.solve", "vrpy/subproblem_cspy.py:create_new_route"]}
{"id": "C80", "title": "Plans found with labelling pricing are correct", "statement": "solve() with the default (labelling) pricing returns a plan that serves every customer exactly once and nobody else, along existing arcs, within stops, capacity and duration, numbered 1..n, whose value is the price of the plan.", "quantifier": "all networks and arguments of capacitated problems with one vehicle type, all pricing strategies, all answers of the master solver that satisfy its constraints and of the labelling algorithm that are resource feasible, all set orders and clocks", "why_tests_cant": "An invariant of the whole column generation loop, whatever columns are found, including columns that visit a customer twice.", "anchors": ["vrpy/vrp.py:solve", "vrpy/subproblem_cspy.py:_SubProblemCSPY", "vrpy/master_solve_pulp.py:_MasterSolvePulp"]}
{"id": "C81", "title": "run_exact counts the iterations without progress after which pricing is exact", "statement": "For every pricing strategy, an iteration of column generation solves the pricing problem exactly at once, instead of applying the chosen heuristic, precisely when the value of the relaxation has not changed in exactly the last run_exact iterations; column generation stops after more than 1000 iterations in a row without a change.", "quantifier": "every problem, every behaviour of the solvers, every iteration of every run", "why_tests_cant": "The counter depends on the whole history of relaxation values.", "anchors": ["vrpy/vrp.py:_get_next_pricing_strategy", "vrpy/vrp.py:_find_columns", "vrpy/vrp.py:_column_generation", "vrpy/vrp.py:solve"]}
{"id": "C82", "title": "Plans for problems with time windows are correct", "statement": "solve() on a problem with time windows and columns from the MIP returns routes that each have a timetable within all windows, respect capacity, stops and duration and follow existing arcs; every customer is on exactly one route or, if a penalty was given, reported as dropped; the vehicle types and the numbers of vehicles are respected; the value is the cost of the routes plus the penalties.", "quantifier": "all networks with windows and service times, all arguments, pricing strategies, drop penalties, numbers of vehicles, all answers of the solvers that satisfy the constraints they were given, all clocks and set orders", "why_tests_cant": "An invariant of the whole column generation loop and of the final selection, whatever columns the solver proposes.", "anchors": ["vrpy/vrp.py:solve", "vrpy/subproblem_lp.py:_add_time_windows", "vrpy/vrp.py:_remove_infeasible_arcs_time_windows"]}
{"id": "C83", "title": "Plans for pickup and delivery problems are correct", "statement": "solve() on a pickup and delivery problem returns routes on which every pickup is followed by its delivery, the load is never negative and never above the capacity, and nothing is left on board; all limits, windows, numbers of vehicles and the value are right, and each customer is on exactly one route or dropped.", "quantifier": "all networks in which every customer belongs to one pair, all arguments, all answers of the solvers that satisfy the constraints they were given", "why_tests_cant": "An invariant of the whole column generation loop and of the final selection, whatever columns the solver proposes.", "anchors": ["vrpy/vrp.py:solve", "vrpy/subproblem_lp.py:_add_pickup_delivery", "vrpy/vrp.py:_get_initial_solution"]}
{"id": "C84", "title": "Plans for distribution and collection problems are correct", "statement": "solve() with distribution_collection returns routes on which, at every point, what was collected and what is still to be delivered together fit the vehicle; all other limits, the numbers of vehicles and the value are right, and each customer is on exactly one route or dropped.", "quantifier": "all networks with non-negative demands and collects, all arguments, all answers of the solvers that satisfy the constraints they were given", "why_tests_cant": "An invariant of the whole column generation loop and of the final selection, whatever columns the solver proposes.", "anchors": ["vrpy/vrp.py:solve", "vrpy/subproblem_lp.py:_add_distribution_collection", "vrpy/vrp.py:_get_initial_solution"]}
{"id": "C85", "title": "Plans for mixed fleets are correct", "statement": "solve() on a mixed fleet reports for every route a vehicle type that can carry its load, uses no type more often than there are vehicles of it (exactly as often with use_all_vehicles), and best_value is the sum over the routes of the arc costs and the fixed cost of the reported type, plus the penalties for dropped customers.", "quantifier": "all networks, all lists of capacities, fixed costs and numbers of vehicles, all drop penalties, all answers of the solvers that satisfy the constraints they were given", "why_tests_cant": "An invariant of the whole column generation loop and of the final selection, whatever columns the solver proposes.", "anchors": ["vrpy/vrp.py:solve", "vrpy/vrp.py:best_value", "vrpy/master_solve_pulp.py:_MasterSolvePulp", "vrpy/vrp.py:_define_vehicle_types"]}
{"id": "C86", "title": "Plans for time windows are correct with the default labelling pricing", "statement": "solve() on a problem with time windows, with columns from the labelling algorithm (the default), returns routes that each have a timetable within all windows, respect capacity, stops and duration; every customer is on exactly one route or reported as dropped; the numbers of vehicles are respected and the value is the cost of the routes plus the penalties.", "quantifier": "all networks with windows and service times, all arguments, pricing strategies, drop penalties, numbers of vehicles, all resource feasible paths the labelling algorithm may return, all answers of the master solver that satisfy its constraints, all clocks", "why_tests_cant": "An invariant of the whole column generation loop and of the final selection, whatever paths the labelling algorithm returns.", "anchors": ["vrpy/vrp.py:solve", "vrpy/subproblem_cspy.py:REF_fwd", "vrpy/subproblem_cspy.py:formulate"]}
{"id": "C87", "title": "Plans for distribution and collection are correct with the default labelling pricing", "statement": "solve() with distribution_collection and columns from the labelling algorithm returns routes on which, at every point, what was collected and what is still to be delivered together fit the vehicle; all other limits, the numbers of vehicles and the value are right, and each customer is on exactly one route or dropped.", "quantifier": "all networks with non-negative demands and collects, all arguments, all resource feasible paths the labelling algorithm may return, all answers of the master solver that satisfy its constraints", "why_tests_cant": "An invariant of the whole column generation loop and of the final selection, whatever paths the labelling algorithm returns.", "anchors": ["vrpy/vrp.py:solve", "vrpy/subproblem_cspy.py:REF_fwd", "vrpy/subproblem_cspy.py:formulate"]}
{"id": "C88", "title": "Plans for mixed fleets are correct with the default labelling pricing", "statement": "solve() on a mixed fleet with columns from the labelling algorithm reports for every route a vehicle type that can carry its load, uses no type more often than there are vehicles of it, keeps the limits on stops and duration, and best_value is the sum of the arc costs and the fixed cost of the reported type plus the penalties.", "quantifier": "all networks, all lists of capacities, fixed costs and numbers of vehicles, all drop penalties, all resource feasible paths the labelling algorithm may return, all answers of the master solver that satisfy its constraints", "why_tests_cant": "An invariant of the whole column generation loop and of the final selection, whatever paths the labelling algorithm returns.", "anchors": ["vrpy/vrp.py:solve", "vrpy/vrp.py:best_value", "vrpy/subproblem_cspy.py:_SubProblemCSPY"]}
{"id": "C89", "title": "solve() always ends with the default labelling pricing", "statement": "With columns from the labelling algorithm (the default), a call of solve() ends: the number of iterations of column generation, with or without diving, is bounded by a number that depends only on the network and the arguments, even when neither max_iter nor time_limit is given.", "quantifier": "all networks, all constructor and solve() arguments with cspy=True, all answers of the master solver and the labelling algorithm, all clocks and random numbers", "why_tests_cant": "Termination of a loop whose exit condition depends on external solvers; a test can only show that one run with one solver stopped.", "anchors": ["vrpy/vrp.py:solve", "vrpy/vrp.py:_column_generation", "vrpy/vrp.py:_find_columns", "vrpy/subproblem_cspy.py:solve"]}
{"id": "C90", "title": "solve() ends with MIP pricing", "statement": "With cspy=False, a call of solve() ends even when neither max_iter nor time_limit is given: the number of iterations of column generation is bounded by a number that depends only on the network and the arguments.", "quantifier": "all networks, all constructor and solve() arguments with cspy=False, all optimal answers of the master solver, all answers of the pricing solver, all clocks and random numbers", "why_tests_cant": "Termination of a loop that may add the same column again; whether it stops depends on every answer of the external solvers.", "anchors": ["vrpy/vrp.py:solve", "vrpy/vrp.py:_column_generation", "vrpy/vrp.py:_find_columns", "vrpy/subproblem_lp.py:solve", "vrpy/master_solve_pulp.py:solve"]}
{"id": "C91", "title": "The hyper-heuristic chooses by the score of the history", "statement": "With pricing_strategy=\"Hyper\", every time the strategy is not forced, the strategy applied is one whose score is maximal, where the score is the documented weighted function of the run's history: the share of the columns in use that the strategy found, how many applications took longer than its latest one, its share of the total decrease of the relaxed optimum, its columns in use per column found, and how seldom it was tried; the weight of success against curiosity follows successes and failures. A strategy never tried scores 1e10. A column found by a strategy is credited to that strategy for the rest of the run.", "quantifier": "all networks, all runs of column generation with the hyper-heuristic, with or without diving, all answers of the solvers, all clocks and random numbers", "why_tests_cant": "The score depends on the whole history of the run, which depends on solver answers, clock and random numbers; a test sees one history.", "anchors": ["vrpy/hyper_heuristic.py:pick_heuristic", "vrpy/hyper_heuristic.py:current_performance", "vrpy/hyper_heuristic.py:_current_performance_wgtavr", "vrpy/hyper_heuristic.py:_update_params_wgtavr", "vrpy/hyper_heuristic.py:update_scaling_factor", "vrpy/vrp.py:_get_next_pricing_strategy", "vrpy/vrp.py:_update_hyper_heuristic", "vrpy/master_solve_pulp.py:get_heuristic_distribution"]}
{"id": "C92", "title": "Plans built from given initial routes are correct", "statement": "If solve() is given initial_routes that are routes of the network and keep the limits, the plan it returns is correct in every variant: each customer is on exactly one route or dropped (if allowed), every route runs along arcs of the network, keeps the load, stop, duration, time window, pickup-delivery and distribution-collection limits of its vehicle type, the fleet suffices, and best_value is the cost of the plan.", "quantifier": "all networks, all lists of initial routes that keep the limits, all constructor and solve() arguments (no preassignments, no diving), all answers of the master and pricing solvers or of the labelling algorithm, all clocks and random numbers", "why_tests_cant": "The initial routes seed the set of columns from which the plan is chosen after an unbounded number of pricing rounds with solver answers that vary.", "anchors": ["vrpy/vrp.py:solve", "vrpy/vrp.py:_initialize", "vrpy/vrp.py:_convert_initial_routes_to_digraphs", "vrpy/checks.py:check_initial_routes", "vrpy/vrp.py:_post_process"]}
{"id": "C93", "title": "The result is never worse than the routes the search starts from", "statement": "If the routes with which column generation starts (the user's initial_routes, or the round trips built by solve()) contain a plan that serves or drops every customer with the vehicles available, then best_value is at most the cost of that plan: the sum of its route costs, fixed costs and drop penalties, or with minimize_global_span the cost of its dearest route plus the penalties.", "quantifier": "all networks and arguments, all initial routes and all plans made of them, all pricing answers, all master answers that are optimal when the solver says so, all clocks and random numbers", "why_tests_cant": "It compares the result with every plan that can be made of the initial routes, after any number of pricing rounds.", "anchors": ["vrpy/vrp.py:solve", "vrpy/vrp.py:_initialize", "vrpy/vrp.py:_convert_initial_routes_to_digraphs", "vrpy/master_solve_pulp.py:_formulate", "vrpy/master_solve_pulp.py:get_total_cost_and_routes", "vrpy/vrp.py:best_value"]}
{"id": "C94", "title": "Plans for plain problems are correct", "statement": "A call of solve() on a problem without time windows, pickups, collections, periods and mixed fleet, with a penalty for dropped customers, a bound on the number of vehicles and use_all_vehicles as the user likes, whatever the pricing, returns a plan: every customer is on exactly one route or dropped, dropped only if there is a penalty, each route keeps capacity, stop and time limits, there are not more routes than vehicles (exactly as many with use_all_vehicles), and best_value is the cost of the routes plus the penalties.", "quantifier": "every graph and arguments of a plain problem, every combination of drop penalty, fleet bound, use_all_vehicles, pricing strategy and pricing method, every behaviour of the solvers that answers feasibly, every enumeration order of sets", "why_tests_cant": "The plan depends on the graph, on the iteration order of sets, on the columns the solvers happen to return and on when they stop; tests see a few of these runs.", "anchors": ["vrpy/vrp.py:solve", "vrpy/vrp.py:_get_initial_solution", "vrpy/vrp.py:_column_generation", "vrpy/vrp.py:best_value"]}
{"id": "C95", "title": "solve() is never worse than heuristic_only", "statement": "On a plain problem with enough vehicles for the routes that solve(heuristic_only=True) returns, solve() returns a plan whose best_value is not larger, provided the solver answers the master problem rightly.", "quantifier": "every plain problem, every pricing strategy and pricing method, every behaviour of the pricing solvers that answers feasibly, every iteration or time limit that lets the call end", "why_tests_cant": "It compares two runs on the same input, for every input; the second is a search whose course depends on the solvers.", "anchors": ["vrpy/vrp.py:solve", "vrpy/vrp.py:_solve_with_clarke_wright", "vrpy/vrp.py:_get_initial_solution", "vrpy/clarke_wright.py:run"]}
{"id": "C96", "title": "Preassigned routes leave the problem of the other customers", "statement": "When solve() gets complete preassigned routes, its result is that of solve() on the graph without the customers of these routes, followed by the preassigned routes in the given order; dropped customers are the same, and best_value is larger by the cost of the preassigned routes with the fixed cost of a vehicle for each.", "quantifier": "every graph and arguments, every option (time windows, pickups, collections, mixed fleet, drop penalty, use_all_vehicles, minimize_global_span, diving, every pricing), every list of complete routes that leaves a customer, every behaviour of the solvers and of the random choices", "why_tests_cant": "It relates two runs of the whole search on two different inputs, for every input.", "anchors": ["vrpy/vrp.py:solve", "vrpy/vrp.py:_lock", "vrpy/vrp.py:_update_dummy_attributes", "vrpy/vrp.py:_best_routes_as_node_lists"]}
{"id": "C97", "title": "Plans with preassigned routes are correct on plain problems", "statement": "On a plain problem with complete preassigned routes, the last routes reported are the preassigned ones, the others are a plan for the remaining customers within the limits, and best_value is the cost of all routes with the penalties.", "quantifier": "every plain problem, every list of complete routes that leaves a customer, every pricing strategy and method, every behaviour of the solvers that answers feasibly", "why_tests_cant": "The plan for the remaining customers depends on the graph that is left and on the columns the solvers happen to return.", "anchors": ["vrpy/vrp.py:solve", "vrpy/vrp.py:_lock", "vrpy/vrp.py:best_value", "vrpy/vrp.py:_best_routes_as_node_lists"]}
{"id": "C98", "title": "Complete preassigned routes are reported", "statement": "Every complete route given as a preassignment is one of best_routes.", "quantifier": "every call of solve() that succeeds, every option, every list of preassignments", "why_tests_cant": "The routes are taken out before the search and put back after it, on a path that depends on the options; tests use a few of them.", "anchors": ["vrpy/vrp.py:solve", "vrpy/vrp.py:_lock", "vrpy/vrp.py:_solve_with_clarke_wright", "vrpy/vrp.py:_best_routes_as_node_lists"]}
{"id": "C99", "title": "All reported routes keep the limits, preassigned ones included", "statement": "With preassigned routes, every route that solve() reports visits at most num_stops customers and takes at most duration, and there are not more routes than vehicles.", "quantifier": "every problem with limits, every list of preassigned routes, every behaviour of the solvers", "why_tests_cant": "Nothing in the code compares the preassigned routes with the limits; whether it matters depends on the routes given.", "anchors": ["vrpy/vrp.py:solve", "vrpy/vrp.py:_lock", "vrpy/vrp.py:_pre_solve", "vrpy/checks.py:check_preassignments"]}
{"id": "C100", "title": "Periodic customers are visited as often as required", "statement": "With periodic=T, every route that solve() returns is a route of the graph within the limits, and every customer is visited exactly as many times as its frequency says (once if it has none); best_value is the cost of these routes.", "quantifier": "every periodic problem, every frequency, every list of initial routes, every behaviour of the solvers that answers feasibly", "why_tests_cant": "Whether a customer is visited often enough depends on which columns the search has produced; artificial visits fill the gap and are not reported, so a test sees a plan that looks complete.", "anchors": ["vrpy/vrp.py:solve", "vrpy/vrp.py:_get_initial_solution", "vrpy/master_solve_pulp.py:_formulate", "vrpy/master_solve_pulp.py:_add_artificial_variables"]}
{"id": "C101", "title": "The schedule returned by solve() fits the vehicles and the days", "statement": "With periodic=T, schedule puts every route returned on one of T days, with no customer with a demand visited twice on a day and at most num_vehicles routes of each type a day, as evenly as possible; it exists whenever some plan can be scheduled.", "quantifier": "every periodic problem, every number of vehicles, every behaviour of the solvers that answers feasibly", "why_tests_cant": "The routes are chosen without looking at days or vehicles, so whether they can be scheduled depends on the costs of the instance.", "anchors": ["vrpy/vrp.py:solve", "vrpy/vrp.py:schedule", "vrpy/schedule.py:_formulate", "vrpy/schedule.py:routes_per_day"]}
{"id": "C102", "title": "Routes given to a periodic problem are a floor for the result", "statement": "With periodic=T and initial_routes that visit every customer exactly as often as its frequency says, the plan solve() returns visits every customer as often as required too and does not cost more than these routes, as long as they cost less than 10^10 more than the plan; for incomplete routes, missing visits counted at 10^10 each, the result is never worse than any selection of the given routes that visits nobody too often.", "quantifier": "every periodic problem with one vehicle type, every list of initial routes, every selection of them, every behaviour of the solvers whose answers called optimal are optimal", "why_tests_cant": "The selection ranges over all sub-multisets of the given routes, and the result depends on everything the search adds to them; a missing visit is invisible in the reported cost.", "anchors": ["vrpy/vrp.py:solve", "vrpy/vrp.py:_convert_initial_routes_to_digraphs", "vrpy/master_solve_pulp.py:_add_artificial_variables", "vrpy/master_solve_pulp.py:get_total_cost_and_routes"]}
{"id": "C103", "title": "Solving one problem does not change the result of another one", "statement": "The results of solve() on a new VRP object depend on its graph, its options, the arguments of solve() and what the solvers, the clock and the random numbers answer, but not on which other problems were solved before in the same Python process.", "quantifier": "every sequence of earlier calls of solve() on any objects with any arguments, every new problem, every behaviour of the solvers", "why_tests_cant": "It ranges over all histories of a process; a test run in a fresh process, or after calls that leave nothing behind, cannot see state shared between objects.", "anchors": ["vrpy/vrp.py:solve", "vrpy/restricted_master_heuristics.py:run_dive", "vrpy/restricted_master_heuristics.py:_LPNode", "vrpy/master_solve_pulp.py:solve_and_dive"]}
{"id": "C104", "title": "The number of vehicles still limits the plan when the same object is solved again", "statement": "When solve() is called on a VRP object that was solved before, num_vehicles limits the routes, or the routes of a day with periodic, exactly as in the first call.", "quantifier": "every problem, every earlier successful call, every behaviour of the solvers", "why_tests_cant": "It is a statement about all histories of an object; the attribute is overwritten while solving.", "anchors": ["vrpy/vrp.py:solve", "vrpy/vrp.py:_pre_solve", "vrpy/checks.py:check_periodic_num_vehicles", "vrpy/schedule.py:_formulate"]}
{"id": "C105", "title": "solve(dive=True) returns a plan", "statement": "With dive=True the routes returned by solve() are drivable by their vehicle types, visit only customers, visit every customer that is not dropped exactly once, are not more than there are vehicles, and cost best_value.", "quantifier": "every problem of every variant without preassigned routes and periods, both pricing methods, every earlier call in the process, every behaviour of solver, labelling algorithm and clock", "why_tests_cant": "Which columns are fixed depends on fractional solutions of the solver; tests try a few instances whose relaxation is nearly integral.", "anchors": ["vrpy/vrp.py:_solve", "vrpy/vrp.py:_find_columns", "vrpy/master_solve_pulp.py:solve_and_dive", "vrpy/restricted_master_heuristics.py:run_dive", "vrpy/master_solve_pulp.py:get_total_cost_and_routes"]}
{"id": "C106", "title": "solve() returns a plan instead of raising an exception", "statement": "On every problem with one vehicle type and without time windows, pickups, periods and global span (capacity, stops, duration, drop penalty, fixed costs are allowed) that the checks accept and that has enough vehicles, solve() returns a plan: it raises no exception and does not loop for ever, unless the solver gives up on a master problem that has an optimum.", "quantifier": "every plain problem, every pricing strategy, both pricing methods, every limit on time and iterations, every behaviour of solver, labelling algorithm and clock", "why_tests_cant": "An exception can come up in any iteration and depends on the dual values and columns the solvers happen to return; tests see the runs of one solver on a few graphs.", "anchors": ["vrpy/vrp.py:solve", "vrpy/vrp.py:_pre_solve", "vrpy/vrp.py:_find_columns", "vrpy/vrp.py:_def_subproblem", "vrpy/subproblem.py:remove_edges_3", "vrpy/master_solve_pulp.py:get_total_cost_and_routes"]}
{"id": "C107", "title": "Preassigned routes count as visits in a periodic problem", "statement": "In a periodic problem with complete preassigned routes, every customer is visited as often as its frequency says: a preassigned visit counts as one of them and solve() plans the others. The preassigned routes are among the routes reported.", "quantifier": "every periodic problem, every list of complete preassigned routes, every pricing method, every behaviour of solver, labelling algorithm and clock", "why_tests_cant": "The two features are implemented in different places (removal of nodes before the search, right hand sides of the covering rows, post-processing), and their interaction depends on frequencies, graph and solver answers; a test fixes one combination.", "anchors": ["vrpy/vrp.py:_lock", "vrpy/master_solve_pulp.py:_add_set_covering_constraints", "vrpy/vrp.py:solve", "vrpy/schedule.py:_formulate"]}
{"id": "C108", "title": "Preassigning a whole plan returns this plan", "statement": "If the complete preassigned routes contain all customers, solve() reports exactly these routes, with nobody dropped, and best_value is the sum of their costs.", "quantifier": "every problem and all its options, every list of complete preassigned routes that contains all customers, every state of the object, every behaviour of the solver", "why_tests_cant": "In this case solve() skips the search and the attributes it reads afterwards keep what an earlier call or the constructor left there; tests of single calls on new objects cannot show it.", "anchors": ["vrpy/vrp.py:solve", "vrpy/vrp.py:_lock", "vrpy/vrp.py:_solve", "vrpy/vrp.py:_post_process", "vrpy/vrp.py:_best_routes_as_node_lists"]}
{"id": "C109", "title": "Starting from a plan of one's own, solve() returns one that is no worse", "statement": "If the initial routes given by the user cover every customer, go along arcs of the network and keep the limits, solve() returns a plan and raises no exception; if some of them, perhaps with customers dropped, already make a plan for the vehicles there are, best_value is at most the cost of this plan.", "quantifier": "every plain problem (one vehicle type, no time windows, pickups, collections or periods), every list of initial routes, every fleet size, every pricing method, every behaviour of solver, labelling algorithm and clock", "why_tests_cant": "Whether an exception is raised depends on the graph, on the given routes, on the fleet, and on the answers of the solvers in every iteration; tests fix all of them.", "anchors": ["vrpy/vrp.py:solve", "vrpy/vrp.py:_convert_initial_routes_to_digraphs", "vrpy/vrp.py:_column_generation", "vrpy/master_solve_pulp.py:solve", "vrpy/master_solve_pulp.py:_solve"]}
{"id": "C110", "title": "Limits of 0 are no limits, and limits that are not reached change nothing", "statement": "solve() with time_limit=0 and max_iter=0 does exactly what it does without these arguments. If the call without limits returns, and it keeps the limits (the clock never reaches time_limit, the iterations on this object are at most max_iter), then the call with the limits returns the same results and leaves the object in the same state.", "quantifier": "every problem and every combination of the other arguments, every state of the object, every behaviour of solver, labelling algorithm and clock; for a time limit, solvers whose answers do not depend on the limit they are given", "why_tests_cant": "The limits are consulted between any two steps of the search, at moments the clock decides; a test sees one clock and one number of iterations.", "anchors": ["vrpy/vrp.py:solve", "vrpy/vrp.py:_get_time_remaining", "vrpy/vrp.py:_column_generation", "vrpy/subproblem_lp.py:solve"]}
{"id": "C111", "title": "With a time limit, no search for routes runs without one", "statement": "If time_limit is given, every search for new routes is given a limit of at most that time. So what the solver or the labelling algorithm would find with more time, or without a limit, has no influence on the results.", "quantifier": "every problem, every time limit other than 0, every pricing method and strategy, every behaviour of the clock", "why_tests_cant": "It concerns the moment at which the clock passes the limit; tests with a time limit do not control the clock.", "anchors": ["vrpy/vrp.py:solve", "vrpy/vrp.py:_get_time_remaining", "vrpy/subproblem_cspy.py:solve", "vrpy/subproblem_lp.py:solve"]}
