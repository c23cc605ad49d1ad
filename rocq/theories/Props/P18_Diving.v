(** Property C105: the routes of solve(dive=True). *)
From Verif.Base Require Import Prelude Graph.
From Verif.Spec Require Import Routes Network Inputs Feasible LinProg Pricing MIP Timing Run Results Plans Variants Plain Diving.
From Verif.Model Require Import Args Initial LPPricing Cspy Master ColGen Post Schedule Solve.
From Verif.Proofs Require Import DiveUser DiveCases.

(* ---- C105 ---- *)
(** Missing: that everybody is visited once and that there are vehicles for all routes, which is false, see below; what
    the theorems for calls without diving miss (see C82 to C88 and C94). The first part of the disjunction is a solver that
    fails on a solvable master problem: diving looks at no status. *)
Theorem C105_variants_partial : forall X fuel fuel2 sa (g : rgraph) a w pd both drop all per span tabu v v' out,
  wf g -> (a_mixed_fleet a = false -> no_empty_costs g) ->
  (sa_initial sa = [] -> w || pd || both || a_mixed_fleet a = true) ->
  (forall r, In r (sa_initial sa) -> route_shape r /\ stops r <> []) ->
  (forall u r, node_data g u = Some r -> r_aux_depot r = false) ->
  truthy per = false -> sa_pre sa = [] -> sa_dive sa = true -> sa_heuristic sa = false ->
  sa_greedy sa = false \/ w || pd || both = true ->
  0 <= user_demand g Source -> 0 <= user_demand g Sink -> 0 <= user_service g Source ->
  (pd = false -> nonneg_user_demands g) -> (pd = false -> both = true -> forall u, 0 <= user_collect g u) ->
  (pd = true -> proper_pairs g) ->
  (forall r k, first_route (sa_initial sa) g pd r -> first_carrier a (node_sum (user_demand g) (stops r)) k ->
     respects g a w pd both k r) ->
  (forall n q, sound_answer q (e_master (x_env X) n q)) ->
  (forall n i q, sound_answer q (e_dive (x_env X) n i q)) ->
  (forall n l z, In z (e_order (x_env X) n l) -> In z l) ->
  (sa_cspy sa = false -> (forall n tl q, sound_answer q (e_pricer (x_env X) n tl q)) /\
     (pd = false -> no_circles (x_env X) \/ (w = true /\ takes_time g))) ->
  (sa_cspy sa = true -> (forall n tl h, sound_labelling h (e_label (x_env X) n tl h)) /\
     (w = true -> opens_well g) /\
     (w || pd || both = false -> forall D, time_limit a D -> forall u, user_service g u == 0)) ->
  finds_paths (x_path X) ->
  create g a w pd both drop all per span tabu = Ok v -> solve X fuel fuel2 sa v = Ok (v', out) ->
  let s := out_solved out in
  exists ks, driven g a w pd both drop (sv_routes s) (fun i => dget Nat.eqb i (sv_types s)) (sv_dropped s) ks /\
    (sa_cspy sa = false -> nobody_idle (sv_routes s)) /\
    ((exists n q x, feasible x q /\ a_status (e_master (x_env X) n q) <> Optimal) \/
     nobody_lost g (sv_routes s) (sv_dropped s)) /\
    out_schedule out = None /\
    (span = false -> nobody_idle (sv_routes s) -> a_mixed_fleet a = true \/ (forall x y l, a_load_capacity a <> PList (x :: y :: l)) ->
     exists q, best_value s = Ok q /\ q == plan_cost g a drop ks (sv_routes s) (sv_dropped s)).
Proof. exact dive_user. Qed.
Print Assumptions C105_variants_partial.

(** Plain problems without given routes. *)
Theorem C105_plain_partial : forall X fuel fuel2 sa (g : rgraph) a drop all per span tabu v v' out,
  wf g -> a_mixed_fleet a = false -> no_empty_costs g -> nonneg_user_demands g ->
  (forall u r, node_data g u = Some r -> r_aux_depot r = false) ->
  truthy per = false -> sa_pre sa = [] -> sa_initial sa = [] -> sa_dive sa = true -> sa_heuristic sa = false ->
  sa_greedy sa = false \/ (forall D, ~ time_limit a D) ->
  0 <= user_service g Source -> fair_times g a ->
  (forall x l, Permutation l (x_perms X x l)) ->
  (forall n q, sound_answer q (e_master (x_env X) n q)) ->
  (forall n i q, sound_answer q (e_dive (x_env X) n i q)) ->
  (forall n l z, In z (e_order (x_env X) n l) -> In z l) ->
  (sa_cspy sa = false -> (forall n tl q, sound_answer q (e_pricer (x_env X) n tl q)) /\ no_circles (x_env X)) ->
  (sa_cspy sa = true -> (forall n tl h, sound_labelling h (e_label (x_env X) n tl h)) /\
     (forall D, time_limit a D -> forall u, user_service g u == 0)) ->
  finds_paths (x_path X) ->
  create g a false false false drop all per span tabu = Ok v -> solve X fuel fuel2 sa v = Ok (v', out) ->
  let s := out_solved out in
  exists ks, driven g a false false false drop (sv_routes s) (fun i => dget Nat.eqb i (sv_types s)) (sv_dropped s) ks /\
    (sa_cspy sa = false -> sa_greedy sa = false -> (forall x y l, a_load_capacity a <> PList (x :: y :: l)) ->
     nobody_idle (sv_routes s)) /\
    ((exists n q x, feasible x q /\ a_status (e_master (x_env X) n q) <> Optimal) \/
     nobody_lost g (sv_routes s) (sv_dropped s)) /\
    out_schedule out = None /\
    (span = false -> nobody_idle (sv_routes s) -> (forall x y l, a_load_capacity a <> PList (x :: y :: l)) ->
     exists q, best_value s = Ok q /\ q == plan_cost g a drop ks (sv_routes s) (sv_dropped s)).
Proof. exact dive_plain. Qed.
Print Assumptions C105_plain_partial.

(** Two groups of three customers, at most two of a group on a route, four vehicles. In a new process and with solvers that
    are right, the result has five routes and visits three customers twice, though routes given by the user make up a
    cheaper plan with four. *)
Theorem C105_refuted : exists X sa g a v v' out routes types ks q,
  wf g /\ acceptable g a (sa_strategy sa) /\ sa_pre sa = [] /\ sa_cspy sa = false /\ sa_dive sa = true /\ sa_heuristic sa = false /\
  sa_greedy sa = false /\ sa_time_limit sa = None /\ sa_max_iter sa = None /\
  (forall n q, right_answer q (e_master (x_env X) n q)) /\ (forall n i q, right_answer q (e_dive (x_env X) n i q)) /\
  (forall n l, e_order (x_env X) n l = l) /\
  (forall n tl q, right_answer q (e_pricer (x_env X) n tl q)) /\
  (forall n h, e_negative (x_env X) n h = false -> ~ negative_cycle h) /\ finds_paths (x_path X) /\
  create g a false false false None false None false [] = Ok v /\ solve X 3 3 sa v = Ok (v', out) /\
  number_of a 0 4 /\ List.length (sv_routes (out_solved out)) = 5%nat /\
  visits (Cust 5) (map snd (sv_routes (out_solved out))) = 2%nat /\ best_value (out_solved out) = Ok q /\
  (forall i r, In (i, r) routes -> In r (sa_initial sa)) /\
  planned g a false false false None false routes types [] ks /\ plan_cost g a None ks routes [] < q.
Proof. exact dive_exceeds. Qed.
Print Assumptions C105_refuted.

Example C105_case : exists X sa g a v v' out,
  wf g /\ no_empty_costs g /\ nonneg_user_demands g /\ sa_initial sa <> [] /\
  (forall r, In r (sa_initial sa) -> route_shape r /\ stops r <> []) /\
  (forall u r, node_data g u = Some r -> r_aux_depot r = false) /\
  sa_pre sa = [] /\ sa_dive sa = true /\ sa_heuristic sa = false /\ sa_greedy sa = false /\ sa_cspy sa = false /\
  0 <= user_service g Source /\
  (forall r k, first_route (sa_initial sa) g false r -> first_carrier a (node_sum (user_demand g) (stops r)) k ->
     respects g a false false false k r) /\
  (forall n q, sound_answer q (e_master (x_env X) n q)) /\
  (forall n i q, sound_answer q (e_dive (x_env X) n i q)) /\
  (forall n l z, In z (e_order (x_env X) n l) -> In z l) /\
  (forall n tl q, sound_answer q (e_pricer (x_env X) n tl q)) /\ no_circles (x_env X) /\ finds_paths (x_path X) /\
  create g a false false false None false None false [] = Ok v /\ solve X 3 3 sa v = Ok (v', out) /\
  List.length (sv_routes (out_solved out)) = 5%nat /\ best_value (out_solved out) = Ok 48.
Proof. exact dive_case. Qed.

Example C105_plain_case : exists X sa g a v v' out,
  wf g /\ a_mixed_fleet a = false /\ no_empty_costs g /\ nonneg_user_demands g /\
  (forall u r, node_data g u = Some r -> r_aux_depot r = false) /\
  sa_pre sa = [] /\ sa_initial sa = [] /\ sa_dive sa = true /\ sa_heuristic sa = false /\ sa_greedy sa = false /\ sa_cspy sa = false /\
  0 <= user_service g Source /\ fair_times g a /\ time_limit a 8 /\
  (forall x l, Permutation l (x_perms X x l)) /\
  (forall n q, sound_answer q (e_master (x_env X) n q)) /\
  (forall n i q, sound_answer q (e_dive (x_env X) n i q)) /\
  (forall n l z, In z (e_order (x_env X) n l) -> In z l) /\
  (forall n tl q, sound_answer q (e_pricer (x_env X) n tl q)) /\ no_circles (x_env X) /\ finds_paths (x_path X) /\
  create g a false false false (Some 50) false None false [] = Ok v /\ solve X 9 9 sa v = Ok (v', out) /\
  sv_routes (out_solved out) = [(1%nat, [Source; Cust 1; Cust 2; Sink]); (2%nat, [Source; Cust 3; Cust 4; Sink])] /\
  best_value (out_solved out) = Ok 60.
Proof. exact dive_plain_case. Qed.
