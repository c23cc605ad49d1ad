(** Properties C92 and C93: solve() with initial routes, and what the search starts from. *)
From Verif.Base Require Import Prelude Graph.
From Verif.Spec Require Import Routes Network Inputs LinProg MIP Timing Run Results Plans Variants.
From Verif.Model Require Import Args Initial LPPricing Cspy Master ColGen Post Schedule Solve.
From Verif.Proofs Require Import AnyGiven WarmWitness Sharp.

(* ---- C92 ---- *)
(** Missing: the initial routes are not checked against the limits, so they are assumed to keep them (see C92_refuted);
    preassignments and diving; [no_circles] for MIP pricing if it takes no time to go from one customer to another. *)
Theorem C92_initial_routes_partial : forall X fuel fuel2 sa (g : rgraph) a w pd both drop all per span tabu v v' out,
  wf g -> (a_mixed_fleet a = false -> no_empty_costs g) ->
  (forall u r, node_data g u = Some r -> r_aux_depot r = false) ->
  truthy per = false -> sa_pre sa = [] -> sa_initial sa <> [] -> sa_dive sa = false -> sa_heuristic sa = false ->
  sa_greedy sa = false \/ w || pd || both = true ->
  (forall r, In r (sa_initial sa) -> route_shape r /\ stops r <> [] /\
     forall k, first_carrier a (node_sum (user_demand g) (stops r)) k -> respects g a w pd both k r) ->
  0 <= user_demand g Source -> 0 <= user_demand g Sink -> 0 <= user_service g Source ->
  (pd = false -> nonneg_user_demands g) -> (pd = false -> both = true -> forall u, 0 <= user_collect g u) ->
  (pd = true -> proper_pairs g) ->
  (forall n q, sound_answer q (e_master (x_env X) n q)) ->
  (sa_cspy sa = false -> (forall n tl q, sound_answer q (e_pricer (x_env X) n tl q)) /\
     (pd = false -> no_circles (x_env X) \/ (w = true /\ takes_time g))) ->
  (sa_cspy sa = true -> (forall n tl h, sound_labelling h (e_label (x_env X) n tl h)) /\
     (w = true -> opens_well g) /\
     (w || pd || both = false -> forall D, time_limit a D -> forall u, user_service g u == 0)) ->
  finds_paths (x_path X) ->
  create g a w pd both drop all per span tabu = Ok v -> solve X fuel fuel2 sa v = Ok (v', out) ->
  let s := out_solved out in
  exists ks, planned g a w pd both drop all (sv_routes s) (fun i => dget Nat.eqb i (sv_types s)) (sv_dropped s) ks /\
    (sa_cspy sa = false -> nobody_idle (sv_routes s)) /\ out_schedule out = None /\
    (span = false -> nobody_idle (sv_routes s) -> a_mixed_fleet a = true \/ (forall x y l, a_load_capacity a <> PList (x :: y :: l)) ->
     exists q, best_value s = Ok q /\ q == plan_cost g a drop ks (sv_routes s) (sv_dropped s)).
Proof. exact given_user. Qed.
Print Assumptions C92_initial_routes_partial.

Example C92_case : exists X sa g a v v' out,
  wf g /\ no_empty_costs g /\ (forall u r, node_data g u = Some r -> r_aux_depot r = false) /\
  sa_pre sa = [] /\ sa_initial sa = trips_w /\ sa_dive sa = false /\ sa_heuristic sa = false /\ sa_greedy sa = false /\
  (forall r, In r (sa_initial sa) -> route_shape r /\ stops r <> [] /\
     forall k, first_carrier a (node_sum (user_demand g) (stops r)) k -> respects g a true false false k r) /\
  nonneg_user_demands g /\ 0 <= user_service g Source /\
  (forall n q, right_answer q (e_master (x_env X) n q)) /\ sa_cspy sa = false /\
  (forall n tl q, sound_answer q (e_pricer (x_env X) n tl q)) /\ takes_time g /\ finds_paths (x_path X) /\
  starting_plan g a false None false (sa_initial sa) trips_w [] /\ Qsum (map (route_price g a) trips_w) == 87 /\
  create g a true false false None false None false [] = Ok v /\ solve X 9 9 sa v = Ok (v', out) /\
  v_iter v' = 3%nat /\
  sv_routes (out_solved out) = [(1%nat, [Source; Cust 3; Sink]); (2%nat, [Source; Cust 1; Cust 2; Sink])] /\
  best_value (out_solved out) = Ok 61.
Proof. exact given_case. Qed.

(** The route given by the user has two stops, one is allowed, and it is returned. *)
Theorem C92_refuted : exists X sa g a v v' out i r n,
  wf g /\ no_empty_costs g /\ nonneg_user_demands g /\ (forall u w, 0 <= user_time g u w) /\
  sa_pre sa = [] /\ sa_initial sa = [r] /\ route_shape r /\ along (arc_list g) r /\
  sa_cspy sa = true /\ sa_dive sa = false /\ sa_heuristic sa = false /\
  (forall n q, right_answer q (e_master (x_env X) n q)) /\
  (forall n tl h, sound_labelling h (e_label (x_env X) n tl h)) /\ finds_paths (x_path X) /\
  create g a false false false None false None false [] = Ok v /\ solve X 9 9 sa v = Ok (v', out) /\
  In (i, r) (sv_routes (out_solved out)) /\ stop_limit a n /\ (n < Z.of_nat (List.length (stops r)))%Z.
Proof. exact given_too_long. Qed.
Print Assumptions C92_refuted.

(* ---- C93 ---- *)
(** [rs] and [dropped] are any plan made of routes the search starts from: the user's initial routes, or one
    round trip for each customer (pickup and delivery: for each pair). Missing: several vehicle types, for
    which it is false (see C93_refuted); preassignments and diving; with minimize_global_span more than 74
    routes to start from (see C44_seventy_fifth_refuted). *)
Theorem C93_never_worse_partial : forall X fuel fuel2 sa (g : rgraph) a w pd both drop all per span tabu v v' out rs dropped,
  wf g -> a_mixed_fleet a = false -> no_empty_costs g -> (forall x y l, a_load_capacity a <> PList (x :: y :: l)) ->
  (forall u r, node_data g u = Some r -> r_aux_depot r = false) ->
  truthy per = false -> sa_pre sa = [] -> sa_dive sa = false -> sa_heuristic sa = false ->
  sa_greedy sa = false \/ w || pd || both = true ->
  (sa_initial sa = [] -> w || pd || both = true) ->
  (forall r, In r (sa_initial sa) -> route_shape r /\ stops r <> []) ->
  (forall r, first_route (sa_initial sa) g pd r -> respects g a w pd both 0 r) ->
  0 <= user_demand g Source -> 0 <= user_demand g Sink -> 0 <= user_service g Source ->
  (pd = false -> nonneg_user_demands g) -> (pd = false -> both = true -> forall u, 0 <= user_collect g u) ->
  (pd = true -> proper_pairs g) ->
  (forall n q, right_answer q (e_master (x_env X) n q)) ->
  (sa_cspy sa = false -> (forall n tl q, sound_answer q (e_pricer (x_env X) n tl q)) /\
     (pd = false -> no_circles (x_env X) \/ (w = true /\ takes_time g))) ->
  (sa_cspy sa = true -> (forall n tl h, sound_labelling h (e_label (x_env X) n tl h)) /\
     (w = true -> opens_well g) /\
     (w || pd || both = false -> forall D, time_limit a D -> forall u, user_service g u == 0)) ->
  finds_paths (x_path X) -> custs g <> [] ->
  create g a w pd both drop all per span tabu = Ok v -> solve X fuel fuel2 sa v = Ok (v', out) ->
  (all = true -> nobody_idle (sv_routes (out_solved out))) ->
  starting_plan g a pd drop all (sa_initial sa) rs dropped ->
  let penalties := match drop with Some x => x * inject_Z (Z.of_nat (List.length dropped)) | None => 0 end in
  (span = false -> exists q, best_value (out_solved out) = Ok q /\ q <= Qsum (map (route_price g a) rs) + penalties) /\
  (span = true -> few_first (sa_initial sa) g -> forall q, best_value (out_solved out) = Ok q ->
     q <= dearest g a rs + penalties).
Proof. exact warm_user. Qed.
Print Assumptions C93_never_worse_partial.

(** The case above: the initial routes cost 87, the result 61. With minimize_global_span: *)
Example C93_case : exists X sa g a v v' out,
  sa_initial sa = given_w /\ (forall n q, right_answer q (e_master (x_env X) n q)) /\
  starting_plan g a false None false (sa_initial sa) given_w [] /\ few_first (sa_initial sa) g /\ dearest g a given_w == 31 /\
  create g a true false false None false None true [] = Ok v /\ solve X 9 9 sa v = Ok (v', out) /\
  best_value (out_solved out) = Ok 31.
Proof. exact span_case_w. Qed.

(** Mixed fleet: the initial route that needs the dear vehicle is priced as if the cheap one drove it. The
    initial routes contain a plan for 40; the result costs 150. *)
Theorem C93_refuted : exists X sa g a v v' out q,
  wf g /\ a_mixed_fleet a = true /\ nonneg_user_demands g /\ sa_pre sa = [] /\ sa_dive sa = false /\ sa_heuristic sa = false /\
  (forall r, In r (sa_initial sa) -> route_shape r /\ along (arc_list g) r /\
     forall k, first_carrier a (node_sum (user_demand g) (stops r)) k -> respects g a false false false k r) /\
  (forall n q, right_answer q (e_master (x_env X) n q)) /\
  (forall n tl q, sound_answer q (e_pricer (x_env X) n tl q)) /\ finds_paths (x_path X) /\
  create g a false false false None false None false [] = Ok v /\ solve X 9 9 sa v = Ok (v', out) /\
  best_value (out_solved out) = Ok q /\
  exists r1 r2, In r1 (sa_initial sa) /\ In r2 (sa_initial sa) /\
    (forall u, In u (custs g) -> visits u [r1; r2] = 1%nat) /\
    first_carrier a (node_sum (user_demand g) (stops r1)) 0 /\ first_carrier a (node_sum (user_demand g) (stops r2)) 0 /\
    fleet_price g a [(0%nat, r1); (0%nat, r2)] == 40 /\ q == 150.
Proof. exact mixed_worse. Qed.
Print Assumptions C93_refuted.
