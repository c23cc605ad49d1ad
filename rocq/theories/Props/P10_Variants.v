(** Properties C82-C88: plans of solve() with time windows, pickups and deliveries, distribution and
    collection, several vehicle types and dropped customers, when columns come from the MIP (C82-C85) or
    from the labelling algorithm (C86-C88). *)
From Verif.Base Require Import Prelude Graph.
From Verif.Spec Require Import Routes Network Inputs LinProg MIP Timing Run Results Plans Variants.
From Verif.Model Require Import Args Initial LPPricing Cspy Master ColGen Post Schedule Solve.
From Verif.Proofs Require Import AnyCases AnyWitness AnyLabelled Sharp.

(* ---- C82 ---- *)
(** Missing: the first columns are round trips that are not checked against windows and duration, so
    they are assumed to fit (see C82_refuted); preassignments, initial routes, diving; [no_circles] if it takes
    no time to go from one customer to another. *)
Theorem C82_time_windows_partial : forall X fuel fuel2 sa (g : rgraph) a drop all per span tabu v v' out,
  wf g -> a_mixed_fleet a = false -> no_empty_costs g ->
  (forall u r, node_data g u = Some r -> r_aux_depot r = false) ->
  truthy per = false -> sa_pre sa = [] -> sa_initial sa = [] -> sa_cspy sa = false -> sa_dive sa = false ->
  sa_heuristic sa = false ->
  nonneg_user_demands g -> 0 <= user_service g Source ->
  (forall u, In u (custs g) -> within_time g a [Source; u; Sink]) ->
  (forall u, In u (custs g) ->
     exists T, tw_feasible (user_time g) (user_service g) (user_lower g) (user_upper g T) [Source; u; Sink]) ->
  (forall n q, sound_answer q (e_master (x_env X) n q)) ->
  (forall n tl q, sound_answer q (e_pricer (x_env X) n tl q)) ->
  no_circles (x_env X) \/ takes_time g -> finds_paths (x_path X) ->
  create g a true false false drop all per span tabu = Ok v -> solve X fuel fuel2 sa v = Ok (v', out) ->
  let s := out_solved out in
  exists ks, planned g a true false false drop all (sv_routes s) (fun i => dget Nat.eqb i (sv_types s)) (sv_dropped s) ks /\
    nobody_idle (sv_routes s) /\ out_schedule out = None /\
    (span = false -> (forall x y l, a_load_capacity a <> PList (x :: y :: l)) ->
     exists q, best_value s = Ok q /\ q == plan_cost g a drop ks (sv_routes s) (sv_dropped s)).
Proof. exact windows_user. Qed.
Print Assumptions C82_time_windows_partial.

Example C82_case : exists X sa g a v v' out,
  wf g /\ a_mixed_fleet a = false /\ no_empty_costs g /\
  (forall u r, node_data g u = Some r -> r_aux_depot r = false) /\
  sa_pre sa = [] /\ sa_initial sa = [] /\ sa_cspy sa = false /\ sa_dive sa = false /\ sa_heuristic sa = false /\
  nonneg_user_demands g /\ 0 <= user_service g Source /\
  (forall u, In u (custs g) -> within_time g a [Source; u; Sink]) /\
  (forall u, In u (custs g) ->
     exists T, tw_feasible (user_time g) (user_service g) (user_lower g) (user_upper g T) [Source; u; Sink]) /\
  (forall n q, sound_answer q (e_master (x_env X) n q)) /\
  (forall n tl q, sound_answer q (e_pricer (x_env X) n tl q)) /\ takes_time g /\ finds_paths (x_path X) /\
  create g a true false false None false None false [] = Ok v /\ solve X 9 9 sa v = Ok (v', out) /\
  v_iter v' = 3%nat /\
  sv_routes (out_solved out) = [(1%nat, [Source; Cust 3; Sink]); (2%nat, [Source; Cust 1; Cust 2; Sink])] /\
  best_value (out_solved out) = Ok 61.
Proof. exact windows_case. Qed.

(** The depot closes at 100, and the only route returned arrives at 110. *)
Theorem C82_refuted : exists X sa g a v v' out i r,
  wf g /\ no_empty_costs g /\ nonneg_user_demands g /\ (forall u w, 0 <= user_time g u w) /\
  sa_pre sa = [] /\ sa_initial sa = [] /\ sa_cspy sa = false /\ sa_dive sa = false /\ sa_heuristic sa = false /\
  (forall n q, sound_answer q (e_master (x_env X) n q)) /\
  (forall n tl q, sound_answer q (e_pricer (x_env X) n tl q)) /\ no_circles (x_env X) /\ finds_paths (x_path X) /\
  create g a true false false None false None false [] = Ok v /\ solve X 9 9 sa v = Ok (v', out) /\
  In (i, r) (sv_routes (out_solved out)) /\
  forall T, ~ tw_feasible (user_time g) (user_service g) (user_lower g) (user_upper g T) r.
Proof. exact windows_missed. Qed.
Print Assumptions C82_refuted.

(* ---- C83 ---- *)
(** Missing: the first columns serve one pair each and are not checked against the limits, so they are
    assumed to fit (see C83_refuted); preassignments, initial routes, diving. *)
Theorem C83_pickup_delivery_partial : forall X fuel fuel2 sa (g : rgraph) a w drop all per span tabu v v' out,
  wf g -> (a_mixed_fleet a = false -> no_empty_costs g) ->
  (forall u r, node_data g u = Some r -> r_aux_depot r = false) ->
  truthy per = false -> sa_pre sa = [] -> sa_initial sa = [] -> sa_cspy sa = false -> sa_dive sa = false ->
  sa_heuristic sa = false ->
  proper_pairs g -> 0 <= user_demand g Source -> 0 <= user_demand g Sink -> 0 <= user_service g Source ->
  (forall n, stop_limit a n -> (2 <= n)%Z) ->
  (forall u d, user_pair g u d -> within_time g a [Source; u; d; Sink]) ->
  (forall u d c, user_pair g u d -> capacity_of a 0 c -> user_demand g u <= inject_Z c) ->
  (w = true -> forall u d, user_pair g u d ->
     exists T, tw_feasible (user_time g) (user_service g) (user_lower g) (user_upper g T) [Source; u; d; Sink]) ->
  (forall n q, sound_answer q (e_master (x_env X) n q)) ->
  (forall n tl q, sound_answer q (e_pricer (x_env X) n tl q)) -> finds_paths (x_path X) ->
  create g a w true false drop all per span tabu = Ok v -> solve X fuel fuel2 sa v = Ok (v', out) ->
  let s := out_solved out in
  exists ks, planned g a w true false drop all (sv_routes s) (fun i => dget Nat.eqb i (sv_types s)) (sv_dropped s) ks /\
    nobody_idle (sv_routes s) /\ out_schedule out = None /\
    (span = false -> a_mixed_fleet a = true \/ (forall x y l, a_load_capacity a <> PList (x :: y :: l)) ->
     exists q, best_value s = Ok q /\ q == plan_cost g a drop ks (sv_routes s) (sv_dropped s)).
Proof. exact pairs_user. Qed.
Print Assumptions C83_pickup_delivery_partial.

Example C83_case : exists X sa g a v v' out,
  wf g /\ no_empty_costs g /\
  (forall u r, node_data g u = Some r -> r_aux_depot r = false) /\
  sa_pre sa = [] /\ sa_initial sa = [] /\ sa_cspy sa = false /\ sa_dive sa = false /\ sa_heuristic sa = false /\
  proper_pairs g /\ 0 <= user_demand g Source /\ 0 <= user_demand g Sink /\ 0 <= user_service g Source /\
  (forall n, stop_limit a n -> (2 <= n)%Z) /\
  (forall u d, user_pair g u d -> within_time g a [Source; u; d; Sink]) /\
  (forall u d c, user_pair g u d -> capacity_of a 0 c -> user_demand g u <= inject_Z c) /\
  (forall n q, sound_answer q (e_master (x_env X) n q)) /\
  (forall n tl q, sound_answer q (e_pricer (x_env X) n tl q)) /\ finds_paths (x_path X) /\
  create g a false true false None false None false [] = Ok v /\ solve X 9 9 sa v = Ok (v', out) /\
  v_iter v' = 3%nat /\
  sv_routes (out_solved out) = [(1%nat, [Source; Cust 1; Cust 2; Cust 3; Cust 4; Sink])] /\
  best_value (out_solved out) = Ok 24.
Proof. exact pairs_case. Qed.

(** Routes with two stops although num_stops is 1. *)
Theorem C83_refuted : exists X sa g a v v' out i r n,
  wf g /\ no_empty_costs g /\ proper_pairs g /\ (forall u w, 0 <= user_time g u w) /\
  sa_pre sa = [] /\ sa_initial sa = [] /\ sa_cspy sa = false /\ sa_dive sa = false /\ sa_heuristic sa = false /\
  (forall n q, sound_answer q (e_master (x_env X) n q)) /\
  (forall n tl q, sound_answer q (e_pricer (x_env X) n tl q)) /\ finds_paths (x_path X) /\
  create g a false true false None false None false [] = Ok v /\ solve X 9 9 sa v = Ok (v', out) /\
  In (i, r) (sv_routes (out_solved out)) /\ stop_limit a n /\ (n < Z.of_nat (List.length (stops r)))%Z.
Proof. exact pairs_too_long. Qed.
Print Assumptions C83_refuted.

(* ---- C84 ---- *)
(** Missing: the first columns are round trips whose collected load, duration and windows are not
    checked, so they are assumed to fit (see C84_refuted); [no_circles], preassignments, initial routes, diving. *)
Theorem C84_distribution_collection_partial : forall X fuel fuel2 sa (g : rgraph) a w drop all per span tabu v v' out,
  wf g -> (a_mixed_fleet a = false -> no_empty_costs g) ->
  (forall u r, node_data g u = Some r -> r_aux_depot r = false) ->
  truthy per = false -> sa_pre sa = [] -> sa_initial sa = [] -> sa_cspy sa = false -> sa_dive sa = false ->
  sa_heuristic sa = false ->
  nonneg_user_demands g -> (forall u, 0 <= user_collect g u) -> 0 <= user_service g Source ->
  (forall u, In u (custs g) -> within_time g a [Source; u; Sink]) ->
  (forall u k c, In u (custs g) -> first_carrier a (user_demand g u) k -> capacity_of a k c ->
     user_collect g u <= inject_Z c) ->
  (w = true -> forall u, In u (custs g) ->
     exists T, tw_feasible (user_time g) (user_service g) (user_lower g) (user_upper g T) [Source; u; Sink]) ->
  (forall n q, sound_answer q (e_master (x_env X) n q)) ->
  (forall n tl q, sound_answer q (e_pricer (x_env X) n tl q)) ->
  no_circles (x_env X) \/ (w = true /\ takes_time g) -> finds_paths (x_path X) ->
  create g a w false true drop all per span tabu = Ok v -> solve X fuel fuel2 sa v = Ok (v', out) ->
  let s := out_solved out in
  exists ks, planned g a w false true drop all (sv_routes s) (fun i => dget Nat.eqb i (sv_types s)) (sv_dropped s) ks /\
    nobody_idle (sv_routes s) /\ out_schedule out = None /\
    (span = false -> a_mixed_fleet a = true \/ (forall x y l, a_load_capacity a <> PList (x :: y :: l)) ->
     exists q, best_value s = Ok q /\ q == plan_cost g a drop ks (sv_routes s) (sv_dropped s)).
Proof. exact both_user. Qed.
Print Assumptions C84_distribution_collection_partial.

Example C84_case : exists X sa g a v v' out,
  wf g /\ no_empty_costs g /\
  (forall u r, node_data g u = Some r -> r_aux_depot r = false) /\
  sa_pre sa = [] /\ sa_initial sa = [] /\ sa_cspy sa = false /\ sa_dive sa = false /\ sa_heuristic sa = false /\
  nonneg_user_demands g /\ (forall u, 0 <= user_collect g u) /\ 0 <= user_service g Source /\
  (forall u, In u (custs g) -> within_time g a [Source; u; Sink]) /\
  (forall u k c, In u (custs g) -> first_carrier a (user_demand g u) k -> capacity_of a k c ->
     user_collect g u <= inject_Z c) /\
  (forall n q, sound_answer q (e_master (x_env X) n q)) /\
  (forall n tl q, sound_answer q (e_pricer (x_env X) n tl q)) /\ no_circles (x_env X) /\ finds_paths (x_path X) /\
  create g a false false true None false None false [] = Ok v /\ solve X 9 9 sa v = Ok (v', out) /\
  v_iter v' = 3%nat /\
  sv_routes (out_solved out) = [(1%nat, [Source; Cust 3; Sink]); (2%nat, [Source; Cust 1; Cust 2; Sink])] /\
  best_value (out_solved out) = Ok 61.
Proof. exact both_case. Qed.

(** A route on which more is collected than the vehicle can carry. *)
Theorem C84_refuted : exists X sa g a v v' out i r c,
  wf g /\ no_empty_costs g /\ nonneg_user_demands g /\ (forall u w, 0 <= user_time g u w) /\
  sa_pre sa = [] /\ sa_initial sa = [] /\ sa_cspy sa = false /\ sa_dive sa = false /\ sa_heuristic sa = false /\
  (forall n q, sound_answer q (e_master (x_env X) n q)) /\
  (forall n tl q, sound_answer q (e_pricer (x_env X) n tl q)) /\ no_circles (x_env X) /\ finds_paths (x_path X) /\
  create g a false false true None false None false [] = Ok v /\ solve X 9 9 sa v = Ok (v', out) /\
  In (i, r) (sv_routes (out_solved out)) /\ a_load_capacity a = PNum (PInt c) /\
  inject_Z c < node_sum (user_collect g) (stops r).
Proof. exact collected_too_much. Qed.
Print Assumptions C84_refuted.

(* ---- C85 ---- *)
(** Missing: the first columns are round trips whose duration and windows are not checked, so they
    are assumed to fit (see C85_refuted); [no_circles], greedy pricing, preassignments, initial routes, diving. *)
Theorem C85_mixed_fleet_partial : forall X fuel fuel2 sa (g : rgraph) a w drop all per span tabu v v' out,
  wf g -> a_mixed_fleet a = true ->
  (forall u r, node_data g u = Some r -> r_aux_depot r = false) ->
  truthy per = false -> sa_pre sa = [] -> sa_initial sa = [] -> sa_cspy sa = false -> sa_dive sa = false ->
  sa_heuristic sa = false -> sa_greedy sa = false \/ w = true ->
  nonneg_user_demands g -> 0 <= user_service g Source ->
  (forall u, In u (custs g) -> within_time g a [Source; u; Sink]) ->
  (w = true -> forall u, In u (custs g) ->
     exists T, tw_feasible (user_time g) (user_service g) (user_lower g) (user_upper g T) [Source; u; Sink]) ->
  (forall n q, sound_answer q (e_master (x_env X) n q)) ->
  (forall n tl q, sound_answer q (e_pricer (x_env X) n tl q)) ->
  no_circles (x_env X) \/ (w = true /\ takes_time g) -> finds_paths (x_path X) ->
  create g a w false false drop all per span tabu = Ok v -> solve X fuel fuel2 sa v = Ok (v', out) ->
  let s := out_solved out in
  exists ks, planned g a w false false drop all (sv_routes s) (fun i => dget Nat.eqb i (sv_types s)) (sv_dropped s) ks /\
    nobody_idle (sv_routes s) /\ out_schedule out = None /\
    (span = false -> exists q, best_value s = Ok q /\ q == plan_cost g a drop ks (sv_routes s) (sv_dropped s)).
Proof. exact mixed_user. Qed.
Print Assumptions C85_mixed_fleet_partial.

Example C85_case : exists X sa g a v v' out,
  wf g /\ a_mixed_fleet a = true /\
  (forall u r, node_data g u = Some r -> r_aux_depot r = false) /\
  sa_pre sa = [] /\ sa_initial sa = [] /\ sa_cspy sa = false /\ sa_dive sa = false /\ sa_heuristic sa = false /\ sa_greedy sa = false /\
  nonneg_user_demands g /\ 0 <= user_service g Source /\
  (forall u, In u (custs g) -> within_time g a [Source; u; Sink]) /\
  (forall u, In u (custs g) ->
     exists T, tw_feasible (user_time g) (user_service g) (user_lower g) (user_upper g T) [Source; u; Sink]) /\
  (forall n q, sound_answer q (e_master (x_env X) n q)) /\
  (forall n tl q, sound_answer q (e_pricer (x_env X) n tl q)) /\ takes_time g /\ finds_paths (x_path X) /\
  create g a true false false (Some 50) false None false [] = Ok v /\ solve X 9 9 sa v = Ok (v', out) /\
  v_iter v' = 3%nat /\ number_of a 0 1 /\ number_of a 1 1 /\
  sv_routes (out_solved out) = [(1%nat, [Source; Cust 3; Sink]); (2%nat, [Source; Cust 1; Cust 2; Sink])] /\
  sv_types (out_solved out) = [(1%nat, 0%nat); (2%nat, 1%nat)] /\
  best_value (out_solved out) = Ok 58.
Proof. exact mixed_case. Qed.

(** A route that takes longer than duration. *)
Theorem C85_refuted : exists X sa g a v v' out i r D,
  wf g /\ a_mixed_fleet a = true /\ nonneg_user_demands g /\ (forall u w, 0 <= user_time g u w) /\
  sa_pre sa = [] /\ sa_initial sa = [] /\ sa_cspy sa = false /\ sa_dive sa = false /\ sa_heuristic sa = false /\
  (forall n q, sound_answer q (e_master (x_env X) n q)) /\
  (forall n tl q, sound_answer q (e_pricer (x_env X) n tl q)) /\ no_circles (x_env X) /\ finds_paths (x_path X) /\
  create g a false false false None false None false [] = Ok v /\ solve X 9 9 sa v = Ok (v', out) /\
  In (i, r) (sv_routes (out_solved out)) /\ time_limit a D /\
  inject_Z D < path_sum (user_time g) r + node_sum (user_service g) (stops r).
Proof. exact mixed_too_late. Qed.
Print Assumptions C85_refuted.

(* ---- C86 ---- *)
(** Time windows with labelling pricing, the default. Missing: as C82, and the algorithm counts time from 0 and not
    from when the depot opens, so this must not matter (see C86_refuted). [nobody_idle]: the algorithm
    may return the route without customers. *)
Theorem C86_windows_labelling_partial : forall X fuel fuel2 sa (g : rgraph) a drop all per span tabu v v' out,
  wf g -> a_mixed_fleet a = false -> no_empty_costs g ->
  (forall u r, node_data g u = Some r -> r_aux_depot r = false) ->
  truthy per = false -> sa_pre sa = [] -> sa_initial sa = [] -> sa_cspy sa = true -> sa_dive sa = false ->
  sa_heuristic sa = false ->
  nonneg_user_demands g -> 0 <= user_service g Source ->
  (forall u, In u (custs g) -> within_time g a [Source; u; Sink]) ->
  (forall u, In u (custs g) ->
     exists T, tw_feasible (user_time g) (user_service g) (user_lower g) (user_upper g T) [Source; u; Sink]) ->
  (forall n q, sound_answer q (e_master (x_env X) n q)) ->
  (forall n tl h, sound_labelling h (e_label (x_env X) n tl h)) -> finds_paths (x_path X) ->
  opens_well g ->
  create g a true false false drop all per span tabu = Ok v -> solve X fuel fuel2 sa v = Ok (v', out) ->
  let s := out_solved out in
  exists ks, planned g a true false false drop all (sv_routes s) (fun i => dget Nat.eqb i (sv_types s)) (sv_dropped s) ks /\
    out_schedule out = None /\
    (span = false -> nobody_idle (sv_routes s) -> (forall x y l, a_load_capacity a <> PList (x :: y :: l)) ->
     exists q, best_value s = Ok q /\ q == plan_cost g a drop ks (sv_routes s) (sv_dropped s)).
Proof. exact windows_labelled. Qed.
Print Assumptions C86_windows_labelling_partial.

Example C86_case : exists X sa g a v v' out,
  wf g /\ a_mixed_fleet a = false /\ no_empty_costs g /\
  (forall u r, node_data g u = Some r -> r_aux_depot r = false) /\
  sa_pre sa = [] /\ sa_initial sa = [] /\ sa_cspy sa = true /\ sa_dive sa = false /\ sa_heuristic sa = false /\
  nonneg_user_demands g /\ 0 <= user_service g Source /\
  (forall u, In u (custs g) -> within_time g a [Source; u; Sink]) /\
  (forall u, In u (custs g) ->
     exists T, tw_feasible (user_time g) (user_service g) (user_lower g) (user_upper g T) [Source; u; Sink]) /\
  (forall n q, sound_answer q (e_master (x_env X) n q)) /\
  (forall n tl h, sound_labelling h (e_label (x_env X) n tl h)) /\ finds_paths (x_path X) /\ opens_well g /\
  create g a true false false None false None false [] = Ok v /\ solve X 9 9 sa v = Ok (v', out) /\
  v_iter v' = 2%nat /\ map c_name (v_chosen v') = [CNat 3; CElem 4] /\
  sv_routes (out_solved out) = [(1%nat, [Source; Cust 3; Sink]); (2%nat, [Source; Cust 1; Cust 2; Sink])] /\
  best_value (out_solved out) = Ok 61.
Proof. exact windows_labelled_case. Qed.

(** The depot opens at 10 and departure takes 5; the route returned cannot be driven in time. *)
Theorem C86_refuted : exists X sa g a v v' out i r,
  wf g /\ a_mixed_fleet a = false /\ no_empty_costs g /\ nonneg_user_demands g /\ (forall u w, 0 <= user_time g u w) /\ (forall u, 0 <= user_service g u) /\
  sa_pre sa = [] /\ sa_initial sa = [] /\ sa_cspy sa = true /\ sa_dive sa = false /\ sa_heuristic sa = false /\
  user_lower g Source <= user_upper g 0 Source /\
  (forall u, In u (custs g) ->
     exists T, tw_feasible (user_time g) (user_service g) (user_lower g) (user_upper g T) [Source; u; Sink]) /\
  (forall n q, sound_answer q (e_master (x_env X) n q)) /\
  (forall n tl h, sound_labelling h (e_label (x_env X) n tl h)) /\ finds_paths (x_path X) /\
  create g a true false false None false None false [] = Ok v /\ solve X 9 9 sa v = Ok (v', out) /\
  In (i, r) (sv_routes (out_solved out)) /\
  forall T, ~ tw_feasible (user_time g) (user_service g) (user_lower g) (user_upper g T) r.
Proof. exact labelling_leaves_early. Qed.
Print Assumptions C86_refuted.

(* ---- C87 ---- *)
(** Distribution and collection with labelling pricing. Missing: as C84 (see C87_refuted), and C86 with time windows. *)
Theorem C87_collection_labelling_partial : forall X fuel fuel2 sa (g : rgraph) a w drop all per span tabu v v' out,
  wf g -> (a_mixed_fleet a = false -> no_empty_costs g) ->
  (forall u r, node_data g u = Some r -> r_aux_depot r = false) ->
  truthy per = false -> sa_pre sa = [] -> sa_initial sa = [] -> sa_cspy sa = true -> sa_dive sa = false ->
  sa_heuristic sa = false ->
  nonneg_user_demands g -> (forall u, 0 <= user_collect g u) -> 0 <= user_service g Source ->
  (forall u, In u (custs g) -> within_time g a [Source; u; Sink]) ->
  (forall u k c, In u (custs g) -> first_carrier a (user_demand g u) k -> capacity_of a k c ->
     user_collect g u <= inject_Z c) ->
  (w = true -> forall u, In u (custs g) ->
     exists T, tw_feasible (user_time g) (user_service g) (user_lower g) (user_upper g T) [Source; u; Sink]) ->
  (forall n q, sound_answer q (e_master (x_env X) n q)) ->
  (forall n tl h, sound_labelling h (e_label (x_env X) n tl h)) -> finds_paths (x_path X) ->
  (w = true -> opens_well g) ->
  create g a w false true drop all per span tabu = Ok v -> solve X fuel fuel2 sa v = Ok (v', out) ->
  let s := out_solved out in
  exists ks, planned g a w false true drop all (sv_routes s) (fun i => dget Nat.eqb i (sv_types s)) (sv_dropped s) ks /\
    out_schedule out = None /\
    (span = false -> nobody_idle (sv_routes s) -> a_mixed_fleet a = true \/ (forall x y l, a_load_capacity a <> PList (x :: y :: l)) ->
     exists q, best_value s = Ok q /\ q == plan_cost g a drop ks (sv_routes s) (sv_dropped s)).
Proof. exact both_labelled. Qed.
Print Assumptions C87_collection_labelling_partial.

Example C87_case : exists X sa g a v v' out,
  wf g /\ no_empty_costs g /\
  (forall u r, node_data g u = Some r -> r_aux_depot r = false) /\
  sa_pre sa = [] /\ sa_initial sa = [] /\ sa_cspy sa = true /\ sa_dive sa = false /\ sa_heuristic sa = false /\
  nonneg_user_demands g /\ (forall u, 0 <= user_collect g u) /\ 0 <= user_service g Source /\
  (forall u, In u (custs g) -> within_time g a [Source; u; Sink]) /\
  (forall u k c, In u (custs g) -> first_carrier a (user_demand g u) k -> capacity_of a k c ->
     user_collect g u <= inject_Z c) /\
  (forall n q, sound_answer q (e_master (x_env X) n q)) /\
  (forall n tl h, sound_labelling h (e_label (x_env X) n tl h)) /\ finds_paths (x_path X) /\
  create g a false false true None false None false [] = Ok v /\ solve X 9 9 sa v = Ok (v', out) /\
  v_iter v' = 2%nat /\ map c_name (v_chosen v') = [CNat 3; CElem 4] /\
  sv_routes (out_solved out) = [(1%nat, [Source; Cust 3; Sink]); (2%nat, [Source; Cust 1; Cust 2; Sink])] /\
  best_value (out_solved out) = Ok 61.
Proof. exact both_labelled_case. Qed.

(** A route on which more is collected than the vehicle can carry, with the default pricing. *)
Theorem C87_refuted : exists X sa g a v v' out i r c,
  wf g /\ no_empty_costs g /\ nonneg_user_demands g /\ (forall u w, 0 <= user_time g u w) /\
  sa_pre sa = [] /\ sa_initial sa = [] /\ sa_cspy sa = true /\ sa_dive sa = false /\ sa_heuristic sa = false /\
  (forall n q, right_answer q (e_master (x_env X) n q)) /\
  (forall n tl h, sound_labelling h (e_label (x_env X) n tl h)) /\ finds_paths (x_path X) /\
  create g a false false true None false None false [] = Ok v /\ solve X 9 9 sa v = Ok (v', out) /\
  In (i, r) (sv_routes (out_solved out)) /\ capacity_of a 0 c /\
  inject_Z c < node_sum (user_collect g) (stops r).
Proof. exact label_collects_too_much. Qed.
Print Assumptions C87_refuted.

(* ---- C88 ---- *)
(** Several vehicle types with labelling pricing. Missing: as C85, and without time windows the
    algorithm does not count services (see C88_refuted). *)
Theorem C88_fleet_labelling_partial : forall X fuel fuel2 sa (g : rgraph) a w drop all per span tabu v v' out,
  wf g -> a_mixed_fleet a = true ->
  (forall u r, node_data g u = Some r -> r_aux_depot r = false) ->
  truthy per = false -> sa_pre sa = [] -> sa_initial sa = [] -> sa_cspy sa = true -> sa_dive sa = false ->
  sa_heuristic sa = false -> sa_greedy sa = false \/ w = true ->
  nonneg_user_demands g -> 0 <= user_service g Source ->
  (forall u, In u (custs g) -> within_time g a [Source; u; Sink]) ->
  (w = true -> forall u, In u (custs g) ->
     exists T, tw_feasible (user_time g) (user_service g) (user_lower g) (user_upper g T) [Source; u; Sink]) ->
  (forall n q, sound_answer q (e_master (x_env X) n q)) ->
  (forall n tl h, sound_labelling h (e_label (x_env X) n tl h)) -> finds_paths (x_path X) ->
  (w = true -> opens_well g) ->
  (w = false -> forall D, time_limit a D -> forall u, user_service g u == 0) ->
  create g a w false false drop all per span tabu = Ok v -> solve X fuel fuel2 sa v = Ok (v', out) ->
  let s := out_solved out in
  exists ks, planned g a w false false drop all (sv_routes s) (fun i => dget Nat.eqb i (sv_types s)) (sv_dropped s) ks /\
    out_schedule out = None /\
    (span = false -> nobody_idle (sv_routes s) -> exists q, best_value s = Ok q /\ q == plan_cost g a drop ks (sv_routes s) (sv_dropped s)).
Proof. exact mixed_labelled. Qed.
Print Assumptions C88_fleet_labelling_partial.

Example C88_case : exists X sa g a v v' out,
  wf g /\ a_mixed_fleet a = true /\
  (forall u r, node_data g u = Some r -> r_aux_depot r = false) /\
  sa_pre sa = [] /\ sa_initial sa = [] /\ sa_cspy sa = true /\ sa_dive sa = false /\ sa_heuristic sa = false /\ sa_greedy sa = false /\
  nonneg_user_demands g /\ 0 <= user_service g Source /\
  (forall u, In u (custs g) -> within_time g a [Source; u; Sink]) /\
  (forall u, In u (custs g) ->
     exists T, tw_feasible (user_time g) (user_service g) (user_lower g) (user_upper g T) [Source; u; Sink]) /\
  (forall n q, sound_answer q (e_master (x_env X) n q)) /\
  (forall n tl h, sound_labelling h (e_label (x_env X) n tl h)) /\ finds_paths (x_path X) /\ opens_well g /\
  create g a true false false (Some 50) false None false [] = Ok v /\ solve X 9 9 sa v = Ok (v', out) /\
  v_iter v' = 2%nat /\ number_of a 0 1 /\ number_of a 1 1 /\ map c_name (v_chosen v') = [CNat 3; CElem 4] /\
  sv_routes (out_solved out) = [(1%nat, [Source; Cust 3; Sink]); (2%nat, [Source; Cust 1; Cust 2; Sink])] /\
  sv_types (out_solved out) = [(1%nat, 0%nat); (2%nat, 1%nat)] /\
  best_value (out_solved out) = Ok 58.
Proof. exact mixed_labelled_case. Qed.

(** A route that takes longer than duration, although every customer can be served alone. *)
Theorem C88_refuted : exists X sa g a v v' out i r D,
  wf g /\ a_mixed_fleet a = true /\ nonneg_user_demands g /\ (forall u w, 0 <= user_time g u w) /\ (forall u, 0 <= user_service g u) /\
  sa_pre sa = [] /\ sa_initial sa = [] /\ sa_cspy sa = true /\ sa_dive sa = false /\ sa_heuristic sa = false /\ sa_greedy sa = false /\
  (forall u, In u (custs g) -> within_time g a [Source; u; Sink]) /\
  (forall n q, sound_answer q (e_master (x_env X) n q)) /\
  (forall n tl h, sound_labelling h (e_label (x_env X) n tl h)) /\ finds_paths (x_path X) /\
  create g a false false false None false None false [] = Ok v /\ solve X 9 9 sa v = Ok (v', out) /\
  In (i, r) (sv_routes (out_solved out)) /\ time_limit a D /\
  inject_Z D < path_sum (user_time g) r + node_sum (user_service g) (stops r).
Proof. exact labelling_fleet_late. Qed.
Print Assumptions C88_refuted.
