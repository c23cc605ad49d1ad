{
 "claims": [
  {
   "property": "C01",
   "status": "proved",
   "theorems": [
    "C01_accepts_exactly",
    "C01_only_completes",
    "C01_exception_class"
   ],
   "note": ""
  },
  {
   "property": "C02",
   "status": "proved",
   "theorems": [
    "C02_accepts_exactly",
    "C02_exception_class",
    "C02_only_wraps_costs",
    "C02_arguments_effect"
   ],
   "note": ""
  },
  {
   "property": "C03",
   "status": "proved",
   "theorems": [
    "C03_passes_iff",
    "C03_no_false_alarm"
   ],
   "note": ""
  },
  {
   "property": "C04",
   "status": "proved",
   "theorems": [
    "C04_accepts_exactly",
    "C04_exception_class"
   ],
   "note": ""
  },
  {
   "property": "C05",
   "status": "proved",
   "theorems": [
    "C05_preassignments",
    "C05_preassignments_exception",
    "C05_heuristic_only",
    "C05_heuristic_only_exception",
    "C05_pickup_delivery",
    "C05_pickup_delivery_exception",
    "C05_periodic_fleet_per_day",
    "C05_fleet_otherwise",
    "C05_request_arcs"
   ],
   "note": ""
  },
  {
   "property": "C06",
   "status": "proved",
   "theorems": [
    "C06_defaults_and_frame",
    "C06_never_raises"
   ],
   "note": ""
  },
  {
   "property": "C07",
   "status": "proved",
   "theorems": [
    "C07_sink_bound_least"
   ],
   "note": ""
  },
  {
   "property": "C08",
   "status": "proved",
   "theorems": [
    "C08_fixed_cost_once",
    "C08_other_arcs_unchanged"
   ],
   "note": ""
  },
  {
   "property": "C09",
   "status": "proved",
   "theorems": [
    "C09_removes_exactly",
    "C09_keeps_feasible_routes",
    "C09_keeps_round_trips"
   ],
   "note": ""
  },
  {
   "property": "C10",
   "status": "partial",
   "theorems": [
    "C10_effect",
    "C10_other_attributes",
    "C10_keeps_feasible_routes_partial",
    "C10_adds_no_route",
    "C10_keeps_feasible_routes_refuted"
   ],
   "note": "Refuted as stated: without a triangle inequality on travel times a usable arc is removed (C10_keeps_feasible_routes_refuted). Proved under the triangle inequality (\u2026_partial), together with the exact effect and soundness of the pruning."
  },
  {
   "property": "C11",
   "status": "proved",
   "theorems": [
    "C11_knapsack_exact",
    "C11_stop_bound_exact",
    "C11_excludes_no_route"
   ],
   "note": ""
  },
  {
   "property": "C12",
   "status": "proved",
   "theorems": [
    "C12_lock_effect",
    "C12_nothing_left",
    "C12_never_raises",
    "C12_reported_costs_not_locked"
   ],
   "note": ""
  },
  {
   "property": "C13",
   "status": "partial",
   "theorems": [
    "C13_partial_route_kept_refuted",
    "C13_incentive_partial"
   ],
   "note": "Refuted: a partial preassignment only makes its arcs free, an optimal plan may avoid them (C13_partial_route_kept_refuted). The exact incentive is proved."
  },
  {
   "property": "C14",
   "status": "proved",
   "theorems": [
    "C14_every_customer_once"
   ],
   "note": ""
  },
  {
   "property": "C15",
   "status": "proved",
   "theorems": [
    "C15_capacity_and_stops"
   ],
   "note": ""
  },
  {
   "property": "C16",
   "status": "partial",
   "theorems": [
    "C16_duration_partial",
    "C16_duration_refuted"
   ],
   "note": "The stated property is false (C16_duration_refuted: with asymmetric travel times a customer is put in front of a route using the travel time of the opposite direction). C16_duration_partial proves it for symmetric times when every round trip fits."
  },
  {
   "property": "C17",
   "status": "proved",
   "theorems": [
    "C17_value"
   ],
   "note": ""
  },
  {
   "property": "C18",
   "status": "proved",
   "theorems": [
    "C18_disjoint_simple_routes"
   ],
   "note": ""
  },
  {
   "property": "C19",
   "status": "proved",
   "theorems": [
    "C19_limits_and_value"
   ],
   "note": ""
  },
  {
   "property": "C20",
   "status": "proved",
   "theorems": [
    "C20_round_trips",
    "C20_fallback"
   ],
   "note": ""
  },
  {
   "property": "C21",
   "status": "partial",
   "theorems": [
    "C21_columns_partial",
    "C21_no_type_raises",
    "C21_cost_of_type_refuted"
   ],
   "note": "Type, arcs, numbering and ValueError are proved in full; the cost is always that of vehicle type 0, so the cost part is false for other types (C21_cost_of_type_refuted)."
  },
  {
   "property": "C22",
   "status": "partial",
   "theorems": [
    "C22_initial_routes_partial",
    "C22_time_windows_refuted",
    "C22_collection_refuted"
   ],
   "note": "False with time windows (C22_time_windows_refuted) and with collection (C22_collection_refuted), and for asymmetric times (C16_duration_refuted); proved for the plain capacitated problem (C22_initial_routes_partial)."
  },
  {
   "property": "C23",
   "status": "proved",
   "theorems": [
    "C23_reduced_cost",
    "C23_reduced_cost_span"
   ],
   "note": ""
  },
  {
   "property": "C24",
   "status": "proved",
   "theorems": [
    "C24_best_edges_1",
    "C24_best_edges_2",
    "C24_best_paths",
    "C24_routes_of_the_graph"
   ],
   "note": ""
  },
  {
   "property": "C25",
   "status": "partial",
   "theorems": [
    "C25_greedy_columns_partial",
    "C25_visits_customer_refuted"
   ],
   "note": "Route shape, arcs, load, stops and cost are proved; 'visits a customer' is false (C25_visits_customer_refuted: with a positive fleet dual the empty trip Source-Sink is added)."
  },
  {
   "property": "C26",
   "status": "partial",
   "theorems": [
    "C26_greedy_travel_time_partial",
    "C26_no_service_partial",
    "C26_service_refuted",
    "C26_last_arc_refuted"
   ],
   "note": "Refuted: service times are ignored (C26_service_refuted) and so is the last arc at num_stops (C26_last_arc_refuted). What is checked is proved (partial theorems)."
  },
  {
   "property": "C27",
   "status": "proved",
   "theorems": [
    "C27_single_route",
    "C27_column"
   ],
   "note": ""
  },
  {
   "property": "C28",
   "status": "partial",
   "theorems": [
    "C28_route_and_cycles_partial",
    "C28_route_as_good_partial",
    "C28_single_route_refuted"
   ],
   "note": "Refuted: an optimal solution may contain a detached zero-weight cycle (C28_single_route_refuted). Proved: route plus cycles, and the route alone is as good."
  },
  {
   "property": "C29",
   "status": "proved",
   "theorems": [
    "C29_limits"
   ],
   "note": ""
  },
  {
   "property": "C30",
   "status": "proved",
   "theorems": [
    "C30_windows"
   ],
   "note": ""
  },
  {
   "property": "C31",
   "status": "partial",
   "theorems": [
    "C31_complete_partial",
    "C31_complete_refuted"
   ],
   "note": "Refuted: big-M is too small for some arcs (C31_complete_refuted, on a graph produced by preprocessing). Proved when the constants are large enough (mip_data)."
  },
  {
   "property": "C32",
   "status": "proved",
   "theorems": [
    "C32_requests"
   ],
   "note": ""
  },
  {
   "property": "C33",
   "status": "proved",
   "theorems": [
    "C33_both_ways"
   ],
   "note": ""
  },
  {
   "property": "C34",
   "status": "proved",
   "theorems": [
    "C34_resources",
    "C34_accepted_routes",
    "C34_column"
   ],
   "note": ""
  },
  {
   "property": "C35",
   "status": "partial",
   "theorems": [
    "C35_custom_resources_partial",
    "C35_travel_time_partial",
    "C35_service_refuted"
   ],
   "note": "Refuted without time windows or collection (C35_service_refuted); proved with the custom resource functions, and for travel times otherwise."
  },
  {
   "property": "C36",
   "status": "partial",
   "theorems": [
    "C36_no_route_excluded_partial",
    "C36_no_route_excluded_refuted"
   ],
   "note": "Refuted: without num_stops half the number of nodes limits the arcs of a route (C36_no_route_excluded_refuted). Proved for data satisfying labelling_data."
  },
  {
   "property": "C37",
   "status": "proved",
   "theorems": [
    "C37_names_distinct",
    "C37_append_only",
    "C37_own_variable"
   ],
   "note": ""
  },
  {
   "property": "C38",
   "status": "proved",
   "theorems": [
    "C38_pools",
    "C38_exactly_once"
   ],
   "note": ""
  },
  {
   "property": "C39",
   "status": "proved",
   "theorems": [
    "C39_dropped",
    "C39_value"
   ],
   "note": ""
  },
  {
   "property": "C40",
   "status": "partial",
   "theorems": [
    "C40_fleet_partial",
    "C40_preassigned_refuted"
   ],
   "note": "Proved for the routes selected by the master problem; preassigned complete routes are not counted (see the refutation)."
  },
  {
   "property": "C41",
   "status": "proved",
   "theorems": [
    "C41_periodic"
   ],
   "note": ""
  },
  {
   "property": "C42",
   "status": "proved",
   "theorems": [
    "C42_elementary"
   ],
   "note": ""
  },
  {
   "property": "C43",
   "status": "proved",
   "theorems": [
    "C43_weak_duality",
    "C43_lower_bound"
   ],
   "note": ""
  },
  {
   "property": "C44",
   "status": "partial",
   "theorems": [
    "C44_span_partial",
    "C44_value_partial",
    "C44_seventy_fifth_refuted",
    "C44_other_columns_refuted"
   ],
   "note": "Refuted: the 75th column can never be selected, the 1000th and labelling columns raise KeyError. Proved for columns 1..74."
  },
  {
   "property": "C45",
   "status": "proved",
   "theorems": [
    "C45_exact_failed",
    "C45_exact_failed_dive"
   ],
   "note": ""
  },
  {
   "property": "C46",
   "status": "partial",
   "theorems": [
    "C46_fallback_partial",
    "C46_hyper_refuted",
    "C46_strategy_names"
   ],
   "note": "Refuted for Hyper (C46_hyper_refuted): column generation stops with bound 180 although a plan costs 170. For every other strategy, and for Hyper in the iteration where run_exact forces the exact problem, proved."
  },
  {
   "property": "C47",
   "status": "partial",
   "theorems": [
    "C47_max_iter",
    "C47_terminates",
    "C47_dive_partial",
    "C47_dive_refuted"
   ],
   "note": "Proved without diving; with diving one more iteration is possible, and happens (C47_dive_refuted)."
  },
  {
   "property": "C48",
   "status": "partial",
   "theorems": [
    "C48_in_time_partial",
    "C48_remaining",
    "C48_first_refuted",
    "C48_cspy_refuted"
   ],
   "note": "Refuted for the first iteration of column generation and of diving (C48_first_refuted), and the limit handed to cspy disappears once no time remains (C48_cspy_refuted); proved for all other iterations, and the remaining time is characterised."
  },
  {
   "property": "C49",
   "status": "partial",
   "theorems": [
    "C49_selection",
    "C49_any_best",
    "C49_counting_partial",
    "C49_counting_refuted"
   ],
   "note": "Selection proved for pools of at most 10^10 columns (the score of an untried strategy is 10^10). Counting is exact outside diving; while diving BestPaths is counted whatever was applied (C49_counting_refuted)."
  },
  {
   "property": "C50",
   "status": "partial",
   "theorems": [
    "C50_one_dive_partial",
    "C50_failure",
    "C50_fixed",
    "C50_fixing",
    "C50_backtrack_refuted"
   ],
   "note": "Number, distinctness and value of fixed variables proved. Backtracking from the first infeasible dive raises AttributeError (C50_backtrack_refuted, characterised by C50_failure)."
  },
  {
   "property": "C51",
   "status": "partial",
   "theorems": [
    "C51_covered_partial",
    "C51_dive_refuted"
   ],
   "note": "Refuted: a dive can end with a customer visited twice although the solver is exact (C51_dive_refuted). Proved: everybody is visited, fixed columns are selected."
  },
  {
   "property": "C52",
   "status": "proved",
   "theorems": [
    "C52_node_lists",
    "C52_no_error"
   ],
   "note": ""
  },
  {
   "property": "C53",
   "status": "proved",
   "theorems": [
    "C53_locked_type"
   ],
   "note": ""
  },
  {
   "property": "C54",
   "status": "proved",
   "theorems": [
    "C54_costs",
    "C54_loads",
    "C54_durations",
    "C54_value",
    "C54_no_error"
   ],
   "note": ""
  },
  {
   "property": "C55",
   "status": "partial",
   "theorems": [
    "C55_arrival",
    "C55_departure",
    "C55_no_error",
    "C55_check_arrival_partial",
    "C55_check_arrival_refuted",
    "C55_check_locked_refuted",
    "C55_check_departure",
    "C55_checks_together"
   ],
   "note": "arrival_time and departure_time are proved to be the earliest schedule for every route. check_arrival_time passing exactly for feasible routes is proved for routes in the preprocessed network when, with time windows, direct trips are fastest; refuted without that (C55_check_arrival_refuted) and for complete preassigned routes (C55_check_locked_refuted). The departure time at Source is its opening time, without Source's service time."
  },
  {
   "property": "C56",
   "status": "partial",
   "theorems": [
    "C56_accumulated",
    "C56_not_reported",
    "C56_both_partial",
    "C56_capacity_refuted"
   ],
   "note": "Accumulated demand proved. With distribution_collection the reported number is the load plus (capacity - total demand of the route), so it exceeds the capacity on feasible routes: C56_capacity_refuted."
  },
  {
   "property": "C57",
   "status": "partial",
   "theorems": [
    "C57_schedule_partial",
    "C57_best",
    "C57_no_error",
    "C57_no_demand_refuted"
   ],
   "note": "Proved: one day per route within the period, fleet bound per type and day, customers with positive demand at most once a day, empty exactly when impossible, best balance. Refuted for customers without demand (C57_no_demand_refuted); customers of complete preassigned routes are not constrained either."
  },
  {
   "property": "C58",
   "status": "partial",
   "theorems": [
    "C58_same_problem_partial",
    "C58_heuristic_partial",
    "C58_fixed_cost_refuted",
    "C58_iterations_refuted",
    "C58_duration_refuted",
    "C58_preassigned_refuted"
   ],
   "note": "Proved for calls without preassignments, fixed cost, time windows and (with a duration) when every round trip fits: same network, limits, options; with heuristic_only same plan and price. Refuted in general: the fixed cost is added again, iterations count against max_iter, pruned arcs can make the second call raise, complete preassigned routes are gone."
  },
  {
   "property": "C59",
   "status": "partial",
   "theorems": [
    "C59_heuristic_only",
    "C59_preassigned_refuted"
   ],
   "note": "Proved for every acceptable problem without preassignments: a plan is returned, complete, feasible and correctly priced; durations respected for symmetric times and feasible round trips. Refuted with a complete preassigned route, whose customers are lost (C59_preassigned_refuted)."
  },
  {
   "property": "C60",
   "status": "partial",
   "theorems": [
    "C60_exact_partial",
    "C60_refuted"
   ],
   "note": "False as stated: the MIP pricing problem does not exclude circles of weight 0 detached from the route, so customers can be lost although every solver answer is optimal (C60_refuted). C60_exact_partial proves the full conclusion (every customer exactly once, limits, numbering, value, duration) for all capacitated problems with one vehicle type when the pricing answers that become columns contain no detached circle."
  },
  {
   "property": "C61",
   "status": "proved",
   "theorems": [
    "C61_preprocessing_safe"
   ],
   "note": ""
  },
  {
   "property": "C62",
   "status": "proved",
   "theorems": [
    "C62_not_worse_than_round_trips"
   ],
   "note": ""
  },
  {
   "property": "C63",
   "status": "proved",
   "theorems": [
    "C63_nearest_neighbour"
   ],
   "note": ""
  },
  {
   "property": "C64",
   "status": "proved",
   "theorems": [
    "C64_savings_order"
   ],
   "note": ""
  },
  {
   "property": "C65",
   "status": "partial",
   "theorems": [
    "C65_best_paths_partial",
    "C65_best_paths_refuted"
   ],
   "note": "Refuted: ZeroDivisionError when all weights are equal; C65_best_paths_partial says that this is the only failure."
  },
  {
   "property": "C66",
   "status": "partial",
   "theorems": [
    "C66_mip_can_be_built_partial",
    "C66_best_paths_requests_refuted"
   ],
   "note": "Refuted for BestPaths (delivery node missing from the pricing graph); sufficient condition proved."
  },
  {
   "property": "C67",
   "status": "partial",
   "theorems": [
    "C67_negative_partial",
    "C67_negative_refuted"
   ],
   "note": "Refuted: at num_stops the weight of the last arc is not counted; proved otherwise."
  },
  {
   "property": "C68",
   "status": "proved",
   "theorems": [
    "C68_cheapest"
   ],
   "note": ""
  },
  {
   "property": "C69",
   "status": "proved",
   "theorems": [
    "C69_formulate",
    "C69_update",
    "C69_solve",
    "C69_read"
   ],
   "note": ""
  },
  {
   "property": "C70",
   "status": "proved",
   "theorems": [
    "C70_formulation",
    "C70_selections"
   ],
   "note": ""
  },
  {
   "property": "C71",
   "status": "proved",
   "theorems": [
    "C71_lower_bound"
   ],
   "note": ""
  },
  {
   "property": "C72",
   "status": "proved",
   "theorems": [
    "C72_strategy_always",
    "C72_strategy_choice"
   ],
   "note": ""
  },
  {
   "property": "C73",
   "status": "proved",
   "theorems": [
    "C73_accepted_exactly"
   ],
   "note": ""
  },
  {
   "property": "C74",
   "status": "proved",
   "theorems": [
    "C74_copy",
    "C74_sink_bound",
    "C74_network_nodes",
    "C74_network_arcs",
    "C74_limits"
   ],
   "note": ""
  },
  {
   "property": "C75",
   "status": "proved",
   "theorems": [
    "C75_savings_procedure",
    "C75_heuristic_only"
   ],
   "note": ""
  },
  {
   "property": "C76",
   "status": "proved",
   "theorems": [
    "C76_no_merge_left"
   ],
   "note": ""
  },
  {
   "property": "C77",
   "status": "proved",
   "theorems": [
    "C77_given_routes",
    "C77_automatic",
    "C77_columns",
    "C77_plain",
    "C77_pickups"
   ],
   "note": ""
  },
  {
   "property": "C78",
   "status": "proved",
   "theorems": [
    "C78_labelling_call"
   ],
   "note": ""
  },
  {
   "property": "C79",
   "status": "partial",
   "theorems": [
    "C79_lower_bound_partial",
    "C79_mixed_fleet_refuted"
   ],
   "note": "C79_lower_bound_partial: bound up to 1/1000 per arc, for exact labelling answers, limited stops, and dual values under which the known routes have non-negative reduced cost for every vehicle type (automatic for one type). Refuted for mixed fleets (C79_mixed_fleet_refuted): a route known for one type is never priced for another, and solve() returns a plan ten times as expensive as the best."
  },
  {
   "property": "C80",
   "status": "partial",
   "theorems": [
    "C80_labelling_partial",
    "C80_duration_refuted"
   ],
   "note": "Proved for all capacitated problems with one vehicle type; the duration part for services that take no time. Refuted for durations with services (C80_duration_refuted): the labelling counts travel times only."
  },
  {
   "property": "C81",
   "status": "partial",
   "theorems": [
    "C81_run_exact_partial",
    "C81_stagnation",
    "C81_hyper_once",
    "C81_hyper_never",
    "C81_hyper_refuted"
   ],
   "note": "Proved for the fixed strategies: exact pricing is chosen in exactly the iterations before which the value has been unchanged for run_exact iterations. Refuted for Hyper, where the counter is overwritten by the iteration number: exact pricing is forced at most in the iteration number run_exact, and never with the default run_exact=1."
  },
  {
   "property": "C82",
   "status": "partial",
   "theorems": [
    "C82_time_windows_partial",
    "C82_refuted"
   ],
   "note": "Proved in full for the calls in which the round trips with which column generation starts meet the limits; without that the code returns them all the same (C82_refuted: the depot closes before the only route returned is back). If it takes time to go from a customer to another nothing is assumed about circles; otherwise pricing answers are assumed to contain none (see C60)."
  },
  {
   "property": "C83",
   "status": "partial",
   "theorems": [
    "C83_pickup_delivery_partial",
    "C83_refuted"
   ],
   "note": "Proved in full, without any assumption on circles, for networks in which every customer belongs to exactly one pair and the single-pair routes with which column generation starts meet the limits; without the latter the code returns them all the same (C83_refuted: two stops with num_stops=1)."
  },
  {
   "property": "C84",
   "status": "partial",
   "theorems": [
    "C84_distribution_collection_partial",
    "C84_refuted"
   ],
   "note": "Proved in full for the calls in which the round trips (pairs) with which column generation starts meet the limits; without that the code returns them all the same (C84_refuted: 100 collected by a vehicle of capacity 10). Pricing answers are assumed to contain no detached circles (see C60)."
  },
  {
   "property": "C85",
   "status": "partial",
   "theorems": [
    "C85_mixed_fleet_partial",
    "C85_refuted"
   ],
   "note": "Proved in full for the calls in which the round trips (pairs) with which column generation starts meet the limits; without that the code returns them all the same (C85_refuted: a route longer than duration). Pricing answers are assumed to contain no detached circles (see C60)."
  },
  {
   "property": "C86",
   "status": "partial",
   "theorems": [
    "C86_windows_labelling_partial",
    "C86_refuted"
   ],
   "note": "Proved for the calls in which the first round trips meet the limits (as C82) and the depot opens at 0 or before or needs no service. Refuted without the latter (C86_refuted): the labelling counts time from 0, and a route without a timetable is returned. The value is that of the routes if none is empty."
  },
  {
   "property": "C87",
   "status": "partial",
   "theorems": [
    "C87_collection_labelling_partial",
    "C87_refuted"
   ],
   "note": "Proved for the calls in which the first round trips meet the limits (false otherwise: C87_refuted); with time windows also the depot condition of C86. The value is that of the routes if none is empty."
  },
  {
   "property": "C88",
   "status": "partial",
   "theorems": [
    "C88_fleet_labelling_partial",
    "C88_refuted"
   ],
   "note": "Proved for the calls in which the first round trips meet the limits (as C85). Without time windows a duration limit needs services that take no time: refuted otherwise (C88_refuted)."
  },
  {
   "property": "C89",
   "status": "proved",
   "theorems": [
    "C89_ends"
   ],
   "note": ""
  },
  {
   "property": "C90",
   "status": "partial",
   "theorems": [
    "C90_ends_mip_partial",
    "C90_refuted"
   ],
   "note": "False as stated: with negative arc costs column generation never ends although every solver answer is optimal (C90_refuted). C90_ends_mip_partial proves it for all non-negative costs and fixed costs, without preassignments, diving and global span, whatever the pricing solver answers."
  },
  {
   "property": "C91",
   "status": "proved",
   "theorems": [
    "C91_scores",
    "C91_marks"
   ],
   "note": ""
  },
  {
   "property": "C92",
   "status": "partial",
   "theorems": [
    "C92_initial_routes_partial",
    "C92_refuted"
   ],
   "note": "Proved for initial routes that keep the limits (solve() does not check them and returns them all the same: C92_refuted), without preassignments and diving; with labelling the conditions of C86-C88 on the depot's window and on services. Pricing answers by the MIP are assumed to contain no detached circles unless moving takes time (see C60)."
  },
  {
   "property": "C93",
   "status": "partial",
   "theorems": [
    "C93_never_worse_partial",
    "C93_refuted"
   ],
   "note": "Proved when all vehicles are alike, without preassignments and diving, for initial routes given or built by solve() in the variants (for the Clarke & Wright routes of a plain problem see C95); with minimize_global_span for at most 74 routes to start from. False for a mixed fleet (C93_refuted): an initial route is priced with the costs of vehicle type 0 whatever type it needs, and the result costs 150 where the initial routes offer 40."
  },
  {
   "property": "C94",
   "status": "partial",
   "theorems": [
    "C94_plain_partial",
    "C94_refuted"
   ],
   "note": "Proved without preassignments and diving. A time limit needs symmetric times and customers that can be served alone (false otherwise: C94_refuted), no greedy pricing (C26) and, with labelling, no service times (C35). MIP answers are assumed to contain no detached circles (C60_refuted)."
  },
  {
   "property": "C95",
   "status": "partial",
   "theorems": [
    "C95_beats_heuristic_partial",
    "C95_refuted"
   ],
   "note": "Proved for plain problems without minimize_global_span, preassignments and diving, when there are enough vehicles for the heuristic plan (heuristic_only ignores num_vehicles: C95_refuted), for master answers that are optimal whenever reported as such; other assumptions as in C94."
  },
  {
   "property": "C96",
   "status": "partial",
   "theorems": [
    "C96_reduction_partial"
   ],
   "note": "Proved for all options, when somebody is left to serve. When Sink has no closing time, the second graph has the one the code computes from all customers. The value is stated for one vehicle type, and routes that a vehicle can carry for less than 1e10. In a periodic problem the days may differ (the schedule also places the preassigned routes)."
  },
  {
   "property": "C97",
   "status": "partial",
   "theorems": [
    "C97_plain_partial"
   ],
   "note": "C94 for the remaining customers, with the preassigned routes after it; assumptions of C94 and C96."
  },
  {
   "property": "C98",
   "status": "partial",
   "theorems": [
    "C98_reported_partial",
    "C98_refuted"
   ],
   "note": "Proved for every successful call without heuristic_only. False with heuristic_only (C98_refuted): the preassigned route is not reported and nobody serves its customer."
  },
  {
   "property": "C99",
   "status": "partial",
   "theorems": [
    "C99_limits_partial",
    "C99_refuted"
   ],
   "note": "False (C99_refuted): a preassigned route with two stops (limit one) that takes 8 (limit 7) is reported as a third route for two vehicles. The other routes keep the limits on plain problems (C99_limits_partial; vehicles: C97)."
  },
  {
   "property": "C100",
   "status": "partial",
   "theorems": [
    "C100_visits_partial",
    "C100_refuted"
   ],
   "note": "False (C100_refuted): a customer with frequency 3 is visited twice although all solver answers are optimal and a full plan exists; the third visit is an artificial variable of cost 1e10. True: the routes keep all limits, nobody is visited too often, customers with frequency one are visited exactly once, best_value is the price of the routes (C100_visits_partial; without drop penalty, preassignments, diving)."
  },
  {
   "property": "C101",
   "status": "partial",
   "theorems": [
    "C101_schedule_partial",
    "C101_refuted"
   ],
   "note": "False (C101_refuted): num_vehicles is not used when the routes are chosen, so the schedule can be empty although another plan could be scheduled. A schedule that is not empty is correct and as even as possible (C101_schedule_partial)."
  },
  {
   "property": "C102",
   "status": "partial",
   "theorems": [
    "C102_floor_partial",
    "C102_refuted"
   ],
   "note": "False for mixed fleets (C102_refuted, the reason is that of C93). Proved for one vehicle type, without minimising the span, drop penalty, preassignments, diving, heuristic_only (C102_floor_partial). Needs the master solver's optimal answers to be optimal."
  },
  {
   "property": "C103",
   "status": "partial",
   "theorems": [
    "C103_isolated_partial",
    "C103_bars_partial",
    "C103_refuted"
   ],
   "note": "False in general (C103_refuted): diving calls leave a list of barred columns behind that all later diving calls in the process read. True when this call does not dive or no earlier one did (C103_isolated_partial); C103_bars_partial bounds what a call leaves behind. Earlier calls that raised an exception are not modelled."
  },
  {
   "property": "C104",
   "status": "partial",
   "theorems": [
    "C104_limits_partial",
    "C104_refuted"
   ],
   "note": "False for periodic problems (C104_refuted, and for every such problem the limit is gone after the first call: second half of C104_limits_partial); kept for all others (first half)."
  },
  {
   "property": "C105",
   "status": "partial",
   "theorems": [
    "C105_variants_partial",
    "C105_plain_partial",
    "C105_refuted"
   ],
   "note": "False as stated: a right solver, a new process, five routes for four vehicles and three customers visited twice (C105_refuted). Proved for all variants: every route is drivable by its type, only customers are visited, nobody is lost unless the solver failed on a solvable master problem, dropped customers only with a penalty, and best_value is the price of the routes (C105_variants_partial, C105_plain_partial)."
  },
  {
   "property": "C106",
   "status": "partial",
   "theorems": [
    "C106_labelling_partial",
    "C106_mip_partial",
    "C106_any_partial",
    "C106_refuted"
   ],
   "note": "False for BestPaths and Hyper (C106_refuted: ZeroDivisionError with one customer). Proved for Exact, BestEdges1 and BestEdges2 with labelling (C106_labelling_partial, includes termination), with MIP pricing and non-negative costs (C106_mip_partial), and with any costs up to termination (C106_any_partial). Missing: other kinds of problems, preassigned and initial routes given by the user, diving."
  },
  {
   "property": "C107",
   "status": "partial",
   "theorems": [
    "C107_visits_partial",
    "C107_refuted"
   ],
   "note": "False (C107_refuted): a customer with frequency 3 and one preassigned visit is visited once, although a full plan containing that route exists. True (C107_visits_partial): the preassigned routes are reported last, their customers are visited by them only, the others as in C100. Missing: time windows, pickups, collections, given first routes, greedy pricing."
  },
  {
   "property": "C108",
   "status": "partial",
   "theorems": [
    "C108_plan_partial",
    "C108_refuted",
    "C108_penalty_refuted"
   ],
   "note": "Proved for new objects, all options except diving (C108_plan_partial; value for one vehicle type). False for an object solved before (C108_refuted: all routes reported twice) and with a drop penalty (C108_penalty_refuted: AttributeError; the theorem shows it is so always)."
  },
  {
   "property": "C109",
   "status": "partial",
   "theorems": [
    "C109_labelling_partial",
    "C109_mip_partial",
    "C109_refuted"
   ],
   "note": "False when the given routes cover but are no plan (C109_refuted: two overlapping routes, GenericException, and no sound solver helps). Proved when some of the given routes make a plan: solve() returns unless the solver gives up on a solvable bounded program, and the value is at most that of the plan (C109_labelling_partial, C109_mip_partial with non-negative costs). Missing: BestPaths and Hyper (C106_refuted), other kinds of problems, diving."
  },
  {
   "property": "C110",
   "status": "proved",
   "theorems": [
    "C110_zero",
    "C110_generous"
   ],
   "note": "C110_zero: for every call and every outcome, also exceptions. C110_generous: limits kept by the unlimited call; the solvers on the master and scheduling problems are modelled without a time limit (DESIGN section 4)."
  },
  {
   "property": "C111",
   "status": "partial",
   "theorems": [
    "C111_partial",
    "C111_refuted"
   ],
   "note": "False for the labelling algorithm once the time is up (C111_refuted: it is then called without a limit). Proved for MIP pricing, and for the labelling algorithm as long as the clock does not reach the limit (C111_partial)."
  }
 ]
}