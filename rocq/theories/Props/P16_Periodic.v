(** Properties C100 to C102: periodic problems. *)
From Verif.Base Require Import Prelude Graph.
From Verif.Spec Require Import Routes Network Inputs Feasible LinProg Pricing MIP Timing Labelling Run Results Plans Variants Periodic.
From Verif.Model Require Import Args Initial LPPricing Cspy Master ColGen Post Schedule Solve.
From Verif.Proofs Require Import PerUser PerWitness Sharp.

(* ---- C100 ---- *)
(** Missing: that a customer with a frequency above one is visited as often as required (false, see below); drop
    penalties, preassignments, diving, greedy pricing without time windows, pickups or collections. *)
Theorem C100_visits_partial : forall X fuel fuel2 sa (g : rgraph) a w pd both drop all period span tabu v v' out,
  wf g -> (a_mixed_fleet a = false -> no_empty_costs g) ->
  (forall r, In r (sa_initial sa) -> route_shape r /\ stops r <> []) ->
  (forall u r, node_data g u = Some r -> r_aux_depot r = false) ->
  period <> 0%Z -> truthyQ drop = false -> sa_pre sa = [] -> sa_dive sa = false -> sa_heuristic sa = false ->
  sa_greedy sa = false \/ w || pd || both = true ->
  0 <= user_demand g Source -> 0 <= user_demand g Sink -> 0 <= user_service g Source ->
  (pd = false -> nonneg_user_demands g) -> (pd = false -> both = true -> forall u, 0 <= user_collect g u) ->
  (pd = true -> proper_pairs g) ->
  (forall r k, first_route (sa_initial sa) g pd r -> first_carrier a (node_sum (user_demand g) (stops r)) k ->
     (forall c, capacity_of a k c -> node_sum (user_demand g) (stops r) <= inject_Z c) ->
     (forall n, stop_limit a n -> (0 < n)%Z) -> (forall l n, a_load_capacity a = PList l -> In n l -> 0 < num_val n) ->
     respects g a w pd both k r) ->
  (forall n q, sound_answer q (e_master (x_env X) n q)) ->
  (sa_cspy sa = false -> (forall n tl q, sound_answer q (e_pricer (x_env X) n tl q)) /\ (pd = false -> no_circles (x_env X) \/ (w = true /\ takes_time g))) ->
  (sa_cspy sa = true -> (forall n tl h, sound_labelling h (e_label (x_env X) n tl h)) /\
     (w = true -> user_lower g Source <= user_upper g 0 Source /\ (user_lower g Source <= 0 \/ user_service g Source <= 0)) /\
     (w || pd || both = false -> forall D, time_limit a D -> forall u, user_service g u == 0)) ->
  (forall q, sound_answer q (x_days X q)) ->
  finds_paths (x_path X) ->
  create g a w pd both drop all (Some period) span tabu = Ok v -> solve X fuel fuel2 sa v = Ok (v', out) ->
  let routes := sv_routes (out_solved out) in
  let rs := map snd routes in
  exists ks, List.length ks = List.length rs /\
    map fst routes = seq 1 (List.length rs) /\
    (forall i k, nth_error ks i = Some k -> dget Nat.eqb (S i) (sv_types (out_solved out)) = Some k) /\
    Forall2 (fun k r => route_shape r /\ (stops r <> [] -> along (arc_list g ++ depot_arcs g) r /\ respects g a w pd both k r)) ks rs /\
    (sa_cspy sa = false -> forall r, In r rs -> stops r <> []) /\
    (forall u, In u (custs g) -> (Z.of_nat (visits u rs) <= user_freq g u)%Z /\
       ((user_freq g u <= 1)%Z -> Z.of_nat (visits u rs) = user_freq g u)) /\
    only_visits (custs g) rs /\ sv_dropped (out_solved out) = [] /\
    (span = false -> (forall r, In r rs -> stops r <> []) -> a_mixed_fleet a = true \/ (forall x y l, a_load_capacity a <> PList (x :: y :: l)) ->
     exists q, best_value (out_solved out) = Ok q /\ q == fleet_price g a (combine ks rs)).
Proof. exact per_routes. Qed.
Print Assumptions C100_visits_partial.

(** Customer 1 has to be visited three times and is visited twice, although the solvers answer correctly, there are no limits
    on iterations or time, and a plan with three visits exists. The route list does not tell: nobody is dropped. *)
Theorem C100_refuted : exists X sa g a period v v' out u,
  wf g /\ acceptable g a (sa_strategy sa) /\ sa_pre sa = [] /\ sa_initial sa = [] /\ sa_cspy sa = false /\ sa_dive sa = false /\
  sa_heuristic sa = false /\ sa_greedy sa = false /\ sa_time_limit sa = None /\ sa_max_iter sa = None /\
  (forall n q, right_answer q (e_master (x_env X) n q)) /\ (forall n tl q, right_answer q (e_pricer (x_env X) n tl q)) /\
  (forall n h, e_negative (x_env X) n h = false -> ~ negative_cycle h) /\ (forall q, sound_answer q (x_days X q)) /\
  finds_paths (x_path X) /\
  create g a false false false None false (Some period) false [] = Ok v /\ solve X 9 9 sa v = Ok (v', out) /\
  In u (custs g) /\ (Z.of_nat (visits u (map snd (sv_routes (out_solved out)))) < user_freq g u)%Z /\
  out_schedule out <> Some [] /\
  exists ks rs day, full_plan g a false false false period ks rs day.
Proof. exact short_visits. Qed.
Print Assumptions C100_refuted.

(* ---- C101 ---- *)
(** Missing: that there is a schedule at all (false, see below), and what C100 misses. *)
Theorem C101_schedule_partial : forall X fuel fuel2 sa (g : rgraph) a w pd both drop all period span tabu v v' out,
  wf g -> (a_mixed_fleet a = false -> no_empty_costs g) ->
  (forall r, In r (sa_initial sa) -> route_shape r /\ stops r <> []) ->
  (forall u r, node_data g u = Some r -> r_aux_depot r = false) ->
  period <> 0%Z -> truthyQ drop = false -> sa_pre sa = [] -> sa_dive sa = false -> sa_heuristic sa = false ->
  sa_greedy sa = false \/ w || pd || both = true ->
  0 <= user_demand g Source -> 0 <= user_demand g Sink -> 0 <= user_service g Source ->
  (pd = false -> nonneg_user_demands g) -> (pd = false -> both = true -> forall u, 0 <= user_collect g u) ->
  (pd = true -> proper_pairs g) ->
  (forall r k, first_route (sa_initial sa) g pd r -> first_carrier a (node_sum (user_demand g) (stops r)) k ->
     (forall c, capacity_of a k c -> node_sum (user_demand g) (stops r) <= inject_Z c) ->
     (forall n, stop_limit a n -> (0 < n)%Z) -> (forall l n, a_load_capacity a = PList l -> In n l -> 0 < num_val n) ->
     respects g a w pd both k r) ->
  (forall n q, sound_answer q (e_master (x_env X) n q)) ->
  (sa_cspy sa = false -> (forall n tl q, sound_answer q (e_pricer (x_env X) n tl q)) /\ (pd = false -> no_circles (x_env X) \/ (w = true /\ takes_time g))) ->
  (sa_cspy sa = true -> (forall n tl h, sound_labelling h (e_label (x_env X) n tl h)) /\
     (w = true -> user_lower g Source <= user_upper g 0 Source /\ (user_lower g Source <= 0 \/ user_service g Source <= 0)) /\
     (w || pd || both = false -> forall D, time_limit a D -> forall u, user_service g u == 0)) ->
  (forall q, sound_answer q (x_days X q)) ->
  finds_paths (x_path X) ->
  create g a w pd both drop all (Some period) span tabu = Ok v -> solve X fuel fuel2 sa v = Ok (v', out) ->
  let routes := sv_routes (out_solved out) in
  let type := fun i => dget Nat.eqb i (sv_types (out_solved out)) in
  exists d, out_schedule out = Some d /\
    (d = [] \/ exists day, good_week g a period routes type day /\ describes routes day d /\
       ((forall q, right_answer q (x_days X q)) ->
        forall day', good_week g a period routes type day' ->
        forall m, spread_within period (map fst routes) day' m -> spread_within period (map fst routes) day m)).
Proof. exact per_days. Qed.
Print Assumptions C101_schedule_partial.

(** The schedule is empty, and indeed the routes cannot be driven by the vehicles, although another plan could be:
    the number of vehicles is not looked at when the routes are chosen. *)
Theorem C101_refuted : exists X sa g a period v v' out,
  wf g /\ acceptable g a (sa_strategy sa) /\ sa_pre sa = [] /\ sa_initial sa = [] /\ sa_cspy sa = false /\ sa_dive sa = false /\
  sa_heuristic sa = false /\ sa_greedy sa = false /\ sa_time_limit sa = None /\ sa_max_iter sa = None /\
  (forall n q, right_answer q (e_master (x_env X) n q)) /\ (forall n tl q, right_answer q (e_pricer (x_env X) n tl q)) /\
  (forall n h, e_negative (x_env X) n h = false -> ~ negative_cycle h) /\ (forall q, right_answer q (x_days X q)) /\
  finds_paths (x_path X) /\
  create g a false false false None false (Some period) false [] = Ok v /\ solve X 9 9 sa v = Ok (v', out) /\
  (forall day, ~ good_week g a period (sv_routes (out_solved out)) (fun i => dget Nat.eqb i (sv_types (out_solved out))) day) /\
  out_schedule out = Some [] /\
  exists ks rs day, full_plan g a false false false period ks rs day.
Proof. exact no_schedule. Qed.
Print Assumptions C101_refuted.

(* ---- C102 ---- *)
(** Missing: several vehicle types (false, see C102_refuted), minimising the span, and what C100 misses. The figure 10000000000 is the price the
    program puts on every missing visit. *)
Theorem C102_floor_partial : forall X fuel fuel2 sa (g : rgraph) a w pd both drop all period span tabu v v' out,
  wf g -> (a_mixed_fleet a = false -> no_empty_costs g) ->
  (forall r, In r (sa_initial sa) -> route_shape r /\ stops r <> []) ->
  (forall u r, node_data g u = Some r -> r_aux_depot r = false) ->
  period <> 0%Z -> truthyQ drop = false -> span = false -> a_mixed_fleet a = false -> (forall x y l, a_load_capacity a <> PList (x :: y :: l)) ->
  sa_initial sa <> [] -> sa_pre sa = [] -> sa_dive sa = false -> sa_heuristic sa = false ->
  sa_greedy sa = false \/ w || pd || both = true ->
  0 <= user_demand g Source -> 0 <= user_demand g Sink -> 0 <= user_service g Source ->
  (pd = false -> nonneg_user_demands g) -> (pd = false -> both = true -> forall u, 0 <= user_collect g u) ->
  (pd = true -> proper_pairs g) ->
  (forall r k, first_route (sa_initial sa) g pd r -> first_carrier a (node_sum (user_demand g) (stops r)) k ->
     (forall c, capacity_of a k c -> node_sum (user_demand g) (stops r) <= inject_Z c) ->
     (forall n, stop_limit a n -> (0 < n)%Z) -> (forall l n, a_load_capacity a = PList l -> In n l -> 0 < num_val n) ->
     respects g a w pd both k r) ->
  (forall n q, right_answer q (e_master (x_env X) n q)) ->
  (sa_cspy sa = false -> (forall n tl q, sound_answer q (e_pricer (x_env X) n tl q)) /\ (pd = false -> no_circles (x_env X) \/ (w = true /\ takes_time g))) ->
  (sa_cspy sa = true -> (forall n tl h, sound_labelling h (e_label (x_env X) n tl h)) /\
     (w = true -> user_lower g Source <= user_upper g 0 Source /\ (user_lower g Source <= 0 \/ user_service g Source <= 0)) /\
     (w || pd || both = false -> forall D, time_limit a D -> forall u, user_service g u == 0)) ->
  (forall q, sound_answer q (x_days X q)) ->
  finds_paths (x_path X) ->
  create g a w pd both drop all (Some period) span tabu = Ok v -> solve X fuel fuel2 sa v = Ok (v', out) ->
  let rs := map snd (sv_routes (out_solved out)) in
  (forall r, In r rs -> stops r <> []) ->
  forall rs1 rest, Permutation (sa_initial sa) (rs1 ++ rest) ->
  (forall u, In u (custs g) -> (Z.of_nat (visits u rs1) <= user_freq g u)%Z /\ ((user_freq g u <= 1)%Z -> Z.of_nat (visits u rs1) = user_freq g u)) ->
  exists q, best_value (out_solved out) = Ok q /\
    q + (10000000000 # 1) * inject_Z (missing g rs) <= Qsum (map (route_price g a) rs1) + (10000000000 # 1) * inject_Z (missing g rs1) /\
    (missing g rs1 = 0%Z -> Qsum (map (route_price g a) rs1) < q + (10000000000 # 1) ->
     q <= Qsum (map (route_price g a) rs1) /\ forall u, In u (custs g) -> Z.of_nat (visits u rs) = user_freq g u).
Proof. exact per_warm. Qed.
Print Assumptions C102_floor_partial.

(** A call that meets the hypotheses of [C100_visits_partial], [C101_schedule_partial] and [C102_floor_partial]: three days, two vehicles, and a
    customer to be visited every day. *)
Example C100_case : exists X sa g a v v' out,
  wf g /\ no_empty_costs g /\ (forall r, In r (sa_initial sa) -> route_shape r /\ stops r <> []) /\
  (forall u r, node_data g u = Some r -> r_aux_depot r = false) /\
  sa_pre sa = [] /\ sa_dive sa = false /\ sa_heuristic sa = false /\ sa_greedy sa = false /\ sa_cspy sa = false /\
  0 <= user_demand g Source /\ 0 <= user_demand g Sink /\ 0 <= user_service g Source /\ nonneg_user_demands g /\
  (forall r k, respects g a false false false k r) /\
  (forall n q, right_answer q (e_master (x_env X) n q)) /\ (forall n tl q, sound_answer q (e_pricer (x_env X) n tl q)) /\
  no_circles (x_env X) /\ (forall q, right_answer q (x_days X q)) /\ finds_paths (x_path X) /\
  create g a false false false None false (Some 3%Z) false [] = Ok v /\ solve X 9 9 sa v = Ok (v', out) /\
  user_freq g (Cust 1) = 3%Z /\ number_of a 0 2 /\
  sv_routes (out_solved out) = [(1%nat, [Source; Cust 1; Sink]); (2%nat, [Source; Cust 1; Sink]); (3%nat, [Source; Cust 1; Cust 2; Sink])] /\
  out_schedule out = Some [(0%nat, [1%nat]); (1%nat, [2%nat]); (2%nat, [3%nat])] /\
  best_value (out_solved out) = Ok 55 /\
  a_mixed_fleet a = false /\ (forall x y l, a_load_capacity a <> PList (x :: y :: l)) /\
  (forall u, In u (custs g) -> Z.of_nat (visits u (sa_initial sa)) = user_freq g u) /\ Qsum (map (route_price g a) (sa_initial sa)) == 73.
Proof. exact week_case. Qed.

(** Two vehicle types: the given routes for the small vehicle cost 40, the result 150. *)
Theorem C102_refuted : exists X sa g a v v' out q,
  wf g /\ a_mixed_fleet a = true /\ nonneg_user_demands g /\ sa_pre sa = [] /\ sa_dive sa = false /\ sa_heuristic sa = false /\
  (forall r, In r (sa_initial sa) -> route_shape r /\ along (arc_list g) r /\
     forall k, first_carrier a (node_sum (user_demand g) (stops r)) k -> respects g a false false false k r) /\
  (forall n q, right_answer q (e_master (x_env X) n q)) /\
  (forall n tl q, sound_answer q (e_pricer (x_env X) n tl q)) /\ (forall q, sound_answer q (x_days X q)) /\ finds_paths (x_path X) /\
  create g a false false false None false (Some 2%Z) false [] = Ok v /\ solve X 9 9 sa v = Ok (v', out) /\
  best_value (out_solved out) = Ok q /\
  exists r1 r2, In r1 (sa_initial sa) /\ In r2 (sa_initial sa) /\
    (forall u, In u (custs g) -> Z.of_nat (visits u [r1; r2]) = user_freq g u) /\
    first_carrier a (node_sum (user_demand g) (stops r1)) 0 /\ first_carrier a (node_sum (user_demand g) (stops r2)) 0 /\
    fleet_price g a [(0%nat, r1); (0%nat, r2)] == 40 /\ q == 150.
Proof. exact week_worse. Qed.
Print Assumptions C102_refuted.
