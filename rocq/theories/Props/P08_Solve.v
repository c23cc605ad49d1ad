(** Properties C58-C60, C73 and the end-to-end parts of C40 and C46: calls of solve(). *)
From Verif.Base Require Import Prelude Graph.
From Verif.Spec Require Import Routes Network Inputs Feasible LinProg MIP Run Results Plans.
From Verif.Model Require Import Args Reach Checks Preprocess Initial LPPricing Master Hyper ColGen Post Schedule Solve.
From Verif.Proofs Require Import SolveUser SolveSamples SolveExact SolveWitness AgainEnd AgainWitness.
From Verif.Props Require Import Samples.

(* ---- C73 ---- *)
(** The steps of the constructor and of solve() that come before the search succeed exactly on
    acceptable problems. *)
Theorem C73_accepted_exactly : forall (g : rgraph) a drop all periodic span tabu sa,
  wf g -> a_mixed_fleet a = false -> no_empty_costs g -> nonneg_user_demands g ->
  (forall u v, 0 <= user_time g u v) -> sa_pre sa = [] ->
  ((exists v r, create g a false false false drop all periodic span tabu = Ok v /\ prepare v sa = Ok r) <->
   acceptable g a (sa_strategy sa)).
Proof. exact accepted_exactly. Qed.
Print Assumptions C73_accepted_exactly.

Example C73_case : wf raw2 /\ no_empty_costs raw2 /\ nonneg_user_demands raw2 /\
  (forall u v, 0 <= user_time raw2 u v) /\ acceptable raw2 args2 "BestEdges1" /\
  ~ acceptable raw2 (args2_with 3 9) "BestEdges1" /\ ~ acceptable raw2 (args2_with 10 1) "BestEdges1" /\
  ~ acceptable raw2 args2 "Fastest".
Proof. exact acceptable_cases. Qed.

(* ---- C46 ---- *)
(** The search uses the strategy the caller named, and the limits the caller gave; no strategy
    ([None]) stands for the hyper-heuristic. *)
Theorem C46_strategy_names : forall X v sa a K p keys, let C := cg_of X v sa a K p keys in
  (sa_strategy sa = "Exact" -> cg_strategy C = Some Exact) /\
  (sa_strategy sa = "BestPaths" -> cg_strategy C = Some BestPaths) /\
  (sa_strategy sa = "BestEdges1" -> cg_strategy C = Some BestEdges1) /\
  (sa_strategy sa = "BestEdges2" -> cg_strategy C = Some BestEdges2) /\
  (sa_strategy sa = "Hyper" -> cg_strategy C = None) /\
  cg_cspy C = sa_cspy sa /\ cg_greedy C = sa_greedy sa /\ cg_max_iter C = sa_max_iter sa /\
  cg_run_exact C = sa_run_exact sa /\ cg_time_limit C = sa_time_limit sa /\
  cg_elementary C = orb (sa_dive sa) (sa_elementary sa).
Proof. exact strategy_names. Qed.
Print Assumptions C46_strategy_names.

(* ---- C59 ---- *)
Theorem C59_heuristic_only : forall X fuel fuel2 sa (g : rgraph) a drop all periodic span tabu,
  wf g -> a_mixed_fleet a = false -> no_empty_costs g -> nonneg_user_demands g ->
  (forall u v, 0 <= user_time g u v) -> truthy periodic = false ->
  sa_pre sa = [] -> sa_heuristic sa = true -> (forall l, Permutation l (x_perms X 10 l)) ->
  acceptable g a (sa_strategy sa) ->
  exists v v' out, create g a false false false drop all periodic span tabu = Ok v /\
    solve X fuel fuel2 sa v = Ok (v', out) /\
    let rs := map snd (sv_routes (out_solved out)) in
    serves g rs /\ (forall r, In r rs -> within_limits g a r) /\
    map fst (sv_routes (out_solved out)) = seq 0 (List.length rs) /\
    (forall i, (i < List.length rs)%nat -> dget Nat.eqb i (sv_types (out_solved out)) = Some 0%nat) /\
    out_schedule out = None /\ sv_dropped (out_solved out) = [] /\
    (span = false -> exists q, best_value (out_solved out) = Ok q /\ q == plan_price g a rs) /\
    ((forall u, In u (custs g) -> user_time g u Sink == user_time g Source u) ->
     (forall u w, In u (custs g) -> In w (custs g) -> In (u, w) (arc_list g) -> In (w, u) (arc_list g) ->
        user_time g w u == user_time g u w) ->
     (forall D u, time_limit a D -> In u (custs g) ->
        user_time g Source u + user_time g u Sink + user_service g u <= inject_Z D) ->
     forall r, In r rs -> within_time g a r).
Proof. exact heuristic_user. Qed.
Print Assumptions C59_heuristic_only.

Example C59_case : wf raw2 /\ no_empty_costs raw2 /\ nonneg_user_demands raw2 /\
  (forall u v, 0 <= user_time raw2 u v) /\ acceptable raw2 args2 "BestEdges1" /\
  exists v v' out, create raw2 args2 false false false None false None false [] = Ok v /\
    solve X2 5 5 (only_heuristic "BestEdges1" []) v = Ok (v', out) /\
    sv_routes (out_solved out) = routes2 /\ best_value (out_solved out) = Ok value2 /\
    (1 < List.length routes2)%nat.
Proof. exact heuristic_case. Qed.

(** A complete preassigned route is not among the routes of heuristic_only: its customers are not
    visited. *)
Theorem C59_preassigned_refuted : exists X sa g a v v' out u,
  wf g /\ acceptable g a (sa_strategy sa) /\ sa_heuristic sa = true /\
  (forall l, Permutation l (x_perms X 10 l)) /\
  create g a false false false None false None false [] = Ok v /\
  solve X 5 5 sa v = Ok (v', out) /\
  In u (custs g) /\ (exists r, In r (sa_pre sa) /\ In u r) /\
  forall i r, In (i, r) (sv_routes (out_solved out)) -> ~ In u r.
Proof. exact heuristic_loses_locked. Qed.
Print Assumptions C59_preassigned_refuted.

(* ---- C60 ---- *)
(** Missing: [no_circles], an assumption about the answers of the pricing solver that the code does
    not enforce (see C60_refuted); initial routes, preassignments, diving, a penalty for dropped
    customers, several vehicle types. *)
Theorem C60_exact_partial : forall X fuel fuel2 sa (g : rgraph) a drop all periodic span tabu v v' out,
  wf g -> a_mixed_fleet a = false -> no_empty_costs g -> nonneg_user_demands g ->
  (forall u r, node_data g u = Some r -> r_aux_depot r = false) ->
  truthy periodic = false -> truthyQ drop = false ->
  sa_pre sa = [] -> sa_initial sa = [] -> sa_cspy sa = false -> sa_dive sa = false -> sa_heuristic sa = false ->
  (forall x l, Permutation l (x_perms X x l)) ->
  (forall n q, sound_answer q (e_master (x_env X) n q)) ->
  (forall n tl q, sound_answer q (e_pricer (x_env X) n tl q)) ->
  no_circles (x_env X) -> finds_paths (x_path X) ->
  create g a false false false drop all periodic span tabu = Ok v -> solve X fuel fuel2 sa v = Ok (v', out) ->
  let rs := map snd (sv_routes (out_solved out)) in
  each_once (custs g) rs /\ only_visits (custs g) rs /\
  (forall r, In r rs -> route_shape r /\ (stops r <> [] -> along (arc_list g ++ depot_arcs g) r) /\ within_limits g a r) /\
  map fst (sv_routes (out_solved out)) = seq 1 (List.length rs) /\
  out_schedule out = None /\ sv_dropped (out_solved out) = [] /\
  (span = false -> (forall x y l, a_load_capacity a <> PList (x :: y :: l)) -> (forall r, In r rs -> stops r <> []) ->
   exists q, best_value (out_solved out) = Ok q /\ q == plan_price g a rs) /\
  (sa_greedy sa = false -> 0 <= user_service g Source ->
   (forall u, In u (custs g) -> user_time g u Sink == user_time g Source u) ->
   (forall u w, In u (custs g) -> In w (custs g) -> In (u, w) (arc_list g) -> In (w, u) (arc_list g) ->
      user_time g w u == user_time g u w) ->
   (forall D u, time_limit a D -> In u (custs g) ->
      user_time g Source u + user_time g u Sink + user_service g u <= inject_Z D) ->
   forall r, In r rs -> stops r <> [] -> within_time g a r).
Proof. exact exact_user. Qed.
Print Assumptions C60_exact_partial.

Example C60_case : wf raw2 /\ no_empty_costs raw2 /\ nonneg_user_demands raw2 /\
  (forall u r, node_data raw2 u = Some r -> r_aux_depot r = false) /\
  (forall x l, Permutation l (x_perms X6 x l)) /\
  (forall n q, sound_answer q (e_master (x_env X6) n q)) /\
  (forall n tl q, sound_answer q (e_pricer (x_env X6) n tl q)) /\
  no_circles (x_env X6) /\ finds_paths (x_path X6) /\
  0 <= user_service raw2 Source /\
  (forall u, In u (custs raw2) -> user_time raw2 u Sink == user_time raw2 Source u) /\
  (forall u w, In u (custs raw2) -> In w (custs raw2) -> In (u, w) (arc_list raw2) -> In (w, u) (arc_list raw2) ->
     user_time raw2 w u == user_time raw2 u w) /\
  (forall D u, time_limit args6 D -> In u (custs raw2) ->
     user_time raw2 Source u + user_time raw2 u Sink + user_service raw2 u <= inject_Z D) /\
  exists v v' out, create raw2 args6 false false false None false None false [] = Ok v /\
    solve X6 9 9 sa6 v = Ok (v', out) /\ v_iter v' = 2%nat /\
    sv_routes (out_solved out) = routes6 /\ best_value (out_solved out) = Ok 10000000072.
Proof. exact exact_case. Qed.

(** All answers of the solver are optimal, there is no negative cycle wherever none is reported,
    and yet a customer is on no route. *)
Theorem C60_refuted : exists X sa g a v v' out u,
  wf g /\ acceptable g a (sa_strategy sa) /\ sa_pre sa = [] /\ sa_cspy sa = false /\ sa_dive sa = false /\
  sa_heuristic sa = false /\ (forall x l, Permutation l (x_perms X x l)) /\
  (forall n q, sound_answer q (e_master (x_env X) n q) /\
     (a_status (e_master (x_env X) n q) = Optimal -> forall y, feasible y q ->
      value (a_value (e_master (x_env X) n q)) (p_obj q) <= value y (p_obj q))) /\
  (forall n tl q, sound_answer q (e_pricer (x_env X) n tl q) /\
     (a_status (e_pricer (x_env X) n tl q) = Optimal -> forall y, feasible y q ->
      value (a_value (e_pricer (x_env X) n tl q)) (p_obj q) <= value y (p_obj q))) /\
  (forall n h, e_negative (x_env X) n h = false -> ~ negative_cycle h) /\
  finds_paths (x_path X) /\
  create g a false false false None false None false [] = Ok v /\
  solve X 5 5 sa v = Ok (v', out) /\
  In u (custs g) /\ forall i r, In (i, r) (sv_routes (out_solved out)) -> ~ In u r.
Proof. exact exact_loses_customers. Qed.
Print Assumptions C60_refuted.

(* ---- C58 ---- *)
(** What the search works with (the network of vrp.py:428-483, limits, fleet, options) is the same in
    the second call. Missing: preassignments, fixed costs, time windows, arcs whose removal puts a
    customer out of reach, a fleet in a periodic problem, and the counters of iterations; the
    refutations below show that the first, second, fourth and last are needed. *)
Theorem C58_same_problem_partial : forall X fuel fuel2 sa (g : rgraph) a0 pickup both drop all periodic span tabu v v1 out,
  wf g -> create g a0 false pickup both drop all periodic span tabu = Ok v ->
  solve X fuel fuel2 sa v = Ok (v1, out) -> sa_pre sa = [] -> py_truthy (a_fixed_cost a0) = false ->
  truthy periodic && py_truthy (a_num_vehicles a0) = false ->
  (forall D, time_limit a0 D -> (forall u w, 0 <= user_time g u w) /\
     forall u, In u (custs g) -> user_time g Source u + user_time g u Sink <= inject_Z D) ->
  exists a1 a2 K p1 p2, prepare v sa = Ok (a1, K, p1) /\ prepare v1 sa = Ok (a2, K, p2) /\
    pr_graph p2 = pr_graph p1 /\ pr_num_stops p2 = pr_num_stops p1 /\ pr_max_capacity p2 = pr_max_capacity p1 /\
    pr_num_vehicles p2 = pr_num_vehicles p1 /\ pr_num_vehicles_schedule p2 = pr_num_vehicles_schedule p1 /\
    pr_more_routes p2 = pr_more_routes p1 /\
    a_load_capacity a2 = a_load_capacity a1 /\ a_duration a2 = a_duration a1 /\ a_fixed_cost a2 = a_fixed_cost a1 /\
    a_num_vehicles a2 = a_num_vehicles a1 /\ a_mixed_fleet a2 = a_mixed_fleet a1 /\ a_strategy a2 = a_strategy a1 /\
    options_of v1 sa = options_of v sa /\ v_drop v1 = v_drop v /\ v_span v1 = v_span v /\
    v_initial v1 = sa_initial sa /\ v_pre v1 = [].
Proof. exact second_solve. Qed.
Print Assumptions C58_same_problem_partial.

(** With heuristic_only the second call returns the same plan at the same price, and leaves the object
    as it found it. *)
Theorem C58_heuristic_partial : forall X fuel fuel2 sa (g : rgraph) a drop all periodic span tabu v v1 out,
  wf g -> a_mixed_fleet a = false -> no_empty_costs g -> truthy periodic = false ->
  create g a false false false drop all periodic span tabu = Ok v -> solve X fuel fuel2 sa v = Ok (v1, out) ->
  sa_pre sa = [] -> sa_heuristic sa = true -> (forall l, Permutation l (x_perms X 10 l)) ->
  py_truthy (a_fixed_cost a) = false ->
  (forall D, time_limit a D -> (forall u w, 0 <= user_time g u w) /\
     forall u, In u (custs g) -> user_time g Source u + user_time g u Sink <= inject_Z D) ->
  exists out2, solve X fuel fuel2 sa v1 = Ok (v1, out2) /\
    sv_routes (out_solved out2) = sv_routes (out_solved out) /\
    sv_types (out_solved out2) = sv_types (out_solved out) /\
    sv_dropped (out_solved out2) = sv_dropped (out_solved out) /\
    best_value (out_solved out2) = best_value (out_solved out).
Proof. exact second_heuristic. Qed.
Print Assumptions C58_heuristic_partial.

Example C58_case : wf raw2 /\ no_empty_costs raw2 /\ py_truthy (a_fixed_cost args10) = false /\
  time_limit args10 9 /\
  (forall D, time_limit args10 D -> (forall u w, 0 <= user_time raw2 u w) /\
     forall u, In u (custs raw2) -> user_time raw2 Source u + user_time raw2 u Sink <= inject_Z D) /\
  (forall l, Permutation l (x_perms X2 10 l)) /\
  exists v v1 out, create raw2 args10 false false false None false None false [] = Ok v /\
    solve X2 5 5 (only_heuristic "BestEdges1" []) v = Ok (v1, out) /\
    sv_routes (out_solved out) = routes2 /\
    (exists u w, In (u, w) (arc_list raw2) /\ ~ In (u, w) (arc_list (v_graph v1))).
Proof. exact twice_case. Qed.

(** The fixed cost is added to the arcs again by each call. *)
Theorem C58_fixed_cost_refuted : exists X sa g a v v1 v2 out1 out2 q1 q2,
  wf g /\ acceptable g a (sa_strategy sa) /\ sa_pre sa = [] /\ sa_heuristic sa = true /\
  (forall l, Permutation l (x_perms X 10 l)) /\
  create g a false false false None false None false [] = Ok v /\
  solve X 5 5 sa v = Ok (v1, out1) /\ solve X 5 5 sa v1 = Ok (v2, out2) /\
  sv_routes (out_solved out2) = sv_routes (out_solved out1) /\
  best_value (out_solved out1) = Ok q1 /\ best_value (out_solved out2) = Ok q2 /\ q1 < q2.
Proof. exact fixed_cost_twice. Qed.
Print Assumptions C58_fixed_cost_refuted.

(** The iterations of the first call count against max_iter in the second. *)
Theorem C58_iterations_refuted : exists X sa g a v v1 v2 out1 out2 q1 q2,
  wf g /\ acceptable g a (sa_strategy sa) /\ sa_pre sa = [] /\ py_truthy (a_fixed_cost a) = false /\
  sa_cspy sa = false /\ sa_dive sa = false /\ sa_heuristic sa = false /\ sa_max_iter sa = Some 2%Z /\
  (forall x l, Permutation l (x_perms X x l)) /\
  (forall n q, sound_answer q (e_master (x_env X) n q) /\
     (a_status (e_master (x_env X) n q) = Optimal -> forall y, feasible y q ->
      value (a_value (e_master (x_env X) n q)) (p_obj q) <= value y (p_obj q))) /\
  (forall n tl q, sound_answer q (e_pricer (x_env X) n tl q) /\
     (a_status (e_pricer (x_env X) n tl q) = Optimal -> forall y, feasible y q ->
      value (a_value (e_pricer (x_env X) n tl q)) (p_obj q) <= value y (p_obj q))) /\
  (forall n h, e_negative (x_env X) n h = false -> ~ negative_cycle h) /\
  finds_paths (x_path X) /\
  create g a false false false None false None false [] = Ok v /\
  solve X 9 9 sa v = Ok (v1, out1) /\ solve X 9 9 sa v1 = Ok (v2, out2) /\
  best_value (out_solved out1) = Ok q1 /\ best_value (out_solved out2) = Ok q2 /\ q1 < q2.
Proof. exact iterations_twice. Qed.
Print Assumptions C58_iterations_refuted.

(** An arc pruned by the first call can be the only way to reach a customer in time. *)
Theorem C58_duration_refuted : exists X sa g a v v1 out,
  wf g /\ acceptable g a (sa_strategy sa) /\ sa_pre sa = [] /\ sa_heuristic sa = true /\
  py_truthy (a_fixed_cost a) = false /\ (forall l, Permutation l (x_perms X 10 l)) /\
  create g a false false false None false None false [] = Ok v /\
  solve X 5 5 sa v = Ok (v1, out) /\ solve X 5 5 sa v1 = Err ValueError.
Proof. exact duration_twice. Qed.
Print Assumptions C58_duration_refuted.

(** The customers of a complete preassigned route are gone in the second call. *)
Theorem C58_preassigned_refuted : exists X sa g a v v1 out,
  wf g /\ acceptable g a (sa_strategy sa) /\ sa_heuristic sa = true /\
  (forall l, Permutation l (x_perms X 10 l)) /\
  (forall r, In r (sa_pre sa) -> route_shape r /\ along (arc_list g) r /\ stops r <> []) /\
  create g a false false false None false None false [] = Ok v /\
  solve X 5 5 sa v = Ok (v1, out) /\ solve X 5 5 sa v1 = Err ValueError.
Proof. exact preassigned_twice. Qed.
Print Assumptions C58_preassigned_refuted.

(* ---- C40 ---- *)
(** One vehicle, a complete preassigned route and another customer: two routes are returned. *)
Theorem C40_preassigned_refuted : exists X sa g a v v' out n,
  wf g /\ acceptable g a (sa_strategy sa) /\ a_num_vehicles a = PNum (PInt (Z.of_nat n)) /\ (0 < n)%nat /\
  sa_cspy sa = false /\ sa_dive sa = false /\ sa_heuristic sa = false /\
  (forall x l, Permutation l (x_perms X x l)) /\
  (forall n q, sound_answer q (e_master (x_env X) n q) /\
     (a_status (e_master (x_env X) n q) = Optimal -> forall y, feasible y q ->
      value (a_value (e_master (x_env X) n q)) (p_obj q) <= value y (p_obj q))) /\
  (forall n tl q, sound_answer q (e_pricer (x_env X) n tl q) /\
     (a_status (e_pricer (x_env X) n tl q) = Optimal -> forall y, feasible y q ->
      value (a_value (e_pricer (x_env X) n tl q)) (p_obj q) <= value y (p_obj q))) /\
  (forall n h, e_negative (x_env X) n h = false -> ~ negative_cycle h) /\
  finds_paths (x_path X) /\
  create g a false false false None false None false [] = Ok v /\
  solve X 9 9 sa v = Ok (v', out) /\
  (n < List.length (sv_routes (out_solved out)))%nat /\
  (forall i r, In (i, r) (sv_routes (out_solved out)) -> stops r <> []).
Proof. exact fleet_exceeded. Qed.
Print Assumptions C40_preassigned_refuted.
