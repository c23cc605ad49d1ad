(** Properties C96 to C99: preassigned complete routes. *)
From Verif.Base Require Import Prelude Graph.
From Verif.Spec Require Import Routes Network Inputs Prep LinProg MIP Timing Run Results Plans Variants Plain Locked.
From Verif.Model Require Import Args Initial LPPricing Cspy Master ColGen Post Schedule Solve.
From Verif.Proofs Require Import LockedUser LockedPlain LockedWitness.

(* ---- C96 ---- *)
(** The call without preassignments is made on the graph without the customers of the preassigned routes. When the
    user gives Sink no closing time, the code takes it from all customers, those on preassigned routes included;
    hence [closing T]. The schedule of a periodic problem also has the preassigned routes.
    Missing: preassignments of all customers; problems with times in which
    nobody can be left for Sink at a positive time and Sink has no closing time ([clocked]). *)
Theorem C96_reduction_partial : forall X fuel fuel2 sa (g : rgraph) a w pd both drop all per span tabu v v' out,
  wf g -> (a_mixed_fleet a = false -> no_empty_costs g) ->
  all_complete (sa_pre sa) -> clocked g ->
  (exists u, In u (custs g) /\ ~ In u (riders (sa_pre sa))) ->
  (forall D, time_limit a D -> (forall u x, 0 <= user_time g u x) /\
     forall u, In u (custs g) -> ~ In u (riders (sa_pre sa)) -> user_time g Source u + user_time g u Sink <= inject_Z D) ->
  (pd = true -> exists u d, ~ In u (riders (sa_pre sa)) /\ user_pair g u d) ->
  create g a w pd both drop all per span tabu = Ok v -> solve X fuel fuel2 sa v = Ok (v', out) ->
  let s := out_solved out in
  exists T v1 v2 out2, let s2 := out_solved out2 in
    (~ user_upper g 0 Sink == 0 -> T = None) /\
    create (closing T (others (riders (sa_pre sa)) g)) a w pd both drop all per span tabu = Ok v1 /\
    solve X fuel fuel2 (mkSA (sa_initial sa) [] (sa_strategy sa) (sa_cspy sa) (sa_elementary sa) (sa_time_limit sa) (sa_dive sa)
      (sa_greedy sa) (sa_max_iter sa) (sa_run_exact sa) (sa_heuristic sa)) v1 = Ok (v2, out2) /\
    sv_routes s = sv_routes s2 ++
      (if sa_heuristic sa then [] else combine (seq (S (List.length (sv_routes s2))) (List.length (sa_pre sa))) (sa_pre sa)) /\
    (forall i, (i <= List.length (sv_routes s2))%nat -> dget Nat.eqb i (sv_types s) = dget Nat.eqb i (sv_types s2)) /\
    sv_dropped s = sv_dropped s2 /\ out_value out = out_value out2 /\ (truthy per = false -> out_schedule out = out_schedule out2) /\
    (a_mixed_fleet a = false -> span = false -> sa_heuristic sa = false ->
     0 <= user_demand g Source -> 0 <= user_demand g Sink ->
     (forall r, In r (sa_pre sa) -> route_shape r /\ stops r <> [] /\ route_price g a r < inject_Z 10000000000 /\
        forall c, capacity_of a 0 c -> node_sum (user_demand g) (stops r) <= inject_Z c) ->
     forall q2, best_value s2 = Ok q2 ->
       exists q, best_value s = Ok q /\ q == q2 + Qsum (map (route_price g a) (sa_pre sa))).
Proof. exact locked_user. Qed.
Print Assumptions C96_reduction_partial.

(* ---- C97 ---- *)
(** Missing: what C94 and C96 miss. *)
Theorem C97_plain_partial : forall X fuel fuel2 sa (g : rgraph) a drop all per span tabu v v' out,
  wf g -> a_mixed_fleet a = false -> no_empty_costs g -> nonneg_user_demands g ->
  (forall u r, node_data g u = Some r -> r_aux_depot r = false) ->
  truthy per = false -> all_complete (sa_pre sa) -> sa_initial sa = [] -> sa_dive sa = false -> sa_heuristic sa = false ->
  (exists u, In u (custs g) /\ ~ In u (riders (sa_pre sa))) -> clocked g ->
  sa_greedy sa = false \/ (forall D, ~ time_limit a D) ->
  (forall u, 0 <= user_service g u) -> (forall u x, 0 <= user_time g u x) -> fair_times g a ->
  (forall x l, Permutation l (x_perms X x l)) ->
  (forall n q, sound_answer q (e_master (x_env X) n q)) ->
  (sa_cspy sa = false -> (forall n tl q, sound_answer q (e_pricer (x_env X) n tl q)) /\ no_circles (x_env X)) ->
  (sa_cspy sa = true -> (forall n tl h, sound_labelling h (e_label (x_env X) n tl h)) /\
     (forall D, time_limit a D -> forall u, user_service g u == 0)) ->
  finds_paths (x_path X) ->
  create g a false false false drop all per span tabu = Ok v -> solve X fuel fuel2 sa v = Ok (v', out) ->
  let s := out_solved out in
  let rest := others (riders (sa_pre sa)) g in
  exists n ks,
    map snd (skipn n (sv_routes s)) = sa_pre sa /\
    map fst (sv_routes s) = seq 1 (n + List.length (sa_pre sa)) /\
    planned rest a false false false drop all (firstn n (sv_routes s)) (fun i => dget Nat.eqb i (sv_types s)) (sv_dropped s) ks /\
    (span = false -> nobody_idle (firstn n (sv_routes s)) -> (forall x y l, a_load_capacity a <> PList (x :: y :: l)) ->
     (forall r, In r (sa_pre sa) -> route_shape r /\ stops r <> [] /\ route_price g a r < inject_Z 10000000000 /\
        forall c, capacity_of a 0 c -> node_sum (user_demand g) (stops r) <= inject_Z c) ->
     exists q, best_value s = Ok q /\
       q == plan_cost rest a drop ks (firstn n (sv_routes s)) (sv_dropped s) + Qsum (map (route_price g a) (sa_pre sa))).
Proof. exact locked_plain. Qed.
Print Assumptions C97_plain_partial.

(* ---- C98 ---- *)
(** For every call of solve() that succeeds, whatever the options, if heuristic_only is not used. *)
Theorem C98_reported_partial : forall X fuel fuel2 sa v v' out, sa_heuristic sa = false -> solve X fuel fuel2 sa v = Ok (v', out) ->
  forall r, In r (sa_pre sa) -> complete_route r -> exists i, In (i, r) (sv_routes (out_solved out)).
Proof. exact kept. Qed.
Print Assumptions C98_reported_partial.

(** With heuristic_only the preassigned route is not reported; nobody serves its customer, who is not dropped either. *)
Theorem C98_refuted : exists X sa g a v v' out,
  wf g /\ sa_pre sa = [[Source; Cust 2; Sink]] /\ sa_heuristic sa = true /\ In (Cust 2) (custs g) /\
  create g a false false false None false None false [] = Ok v /\ solve X 9 9 sa v = Ok (v', out) /\
  sv_routes (out_solved out) = [(0%nat, [Source; Cust 1; Sink]); (1%nat, [Source; Cust 3; Cust 4; Sink])] /\
  sv_dropped (out_solved out) = [] /\ best_value (out_solved out) = Ok 57.
Proof. exact lost_case. Qed.
Print Assumptions C98_refuted.

(* ---- C99 ---- *)
(** The routes that were not preassigned keep the limits on stops and time. Missing: what C97 misses. *)
Theorem C99_limits_partial : forall X fuel fuel2 sa (g : rgraph) a drop all per span tabu v v' out,
  wf g -> a_mixed_fleet a = false -> no_empty_costs g -> nonneg_user_demands g ->
  (forall u r, node_data g u = Some r -> r_aux_depot r = false) ->
  truthy per = false -> all_complete (sa_pre sa) -> sa_initial sa = [] -> sa_dive sa = false -> sa_heuristic sa = false ->
  (exists u, In u (custs g) /\ ~ In u (riders (sa_pre sa))) -> clocked g ->
  sa_greedy sa = false \/ (forall D, ~ time_limit a D) ->
  (forall u, 0 <= user_service g u) -> (forall u x, 0 <= user_time g u x) -> fair_times g a ->
  (forall x l, Permutation l (x_perms X x l)) ->
  (forall n q, sound_answer q (e_master (x_env X) n q)) ->
  (sa_cspy sa = false -> (forall n tl q, sound_answer q (e_pricer (x_env X) n tl q)) /\ no_circles (x_env X)) ->
  (sa_cspy sa = true -> (forall n tl h, sound_labelling h (e_label (x_env X) n tl h)) /\
     (forall D, time_limit a D -> forall u, user_service g u == 0)) ->
  finds_paths (x_path X) ->
  create g a false false false drop all per span tabu = Ok v -> solve X fuel fuel2 sa v = Ok (v', out) ->
  forall i r, In (i, r) (sv_routes (out_solved out)) -> stops r <> [] ->
    In r (sa_pre sa) \/
    (forall n, stop_limit a n -> (Z.of_nat (List.length (stops r)) <= n)%Z) /\ within_time g a r.
Proof. exact locked_limits. Qed.
Print Assumptions C99_limits_partial.

(** A preassigned route is not checked: it visits two customers although the limit is one, takes more than the time
    allowed, and is a third route for two vehicles. *)
Theorem C99_refuted : exists X sa g a v v' out,
  wf g /\ all_complete (sa_pre sa) /\ sa_heuristic sa = false /\ stop_limit a 1 /\ time_limit a 7 /\ number_of a 0 2 /\
  (forall n q, right_answer q (e_master (x_env X) n q)) /\ (forall n tl q, sound_answer q (e_pricer (x_env X) n tl q)) /\ finds_paths (x_path X) /\
  create g a false false false None false None false [] = Ok v /\ solve X 9 9 sa v = Ok (v', out) /\
  sv_routes (out_solved out) = [(1%nat, [Source; Cust 3; Sink]); (2%nat, [Source; Cust 4; Sink]); (3%nat, [Source; Cust 1; Cust 2; Sink])] /\
  sv_types (out_solved out) = [(1%nat, 0%nat); (2%nat, 0%nat); (3%nat, 0%nat)] /\
  ~ within_time g a [Source; Cust 1; Cust 2; Sink].
Proof. exact unchecked_case. Qed.
Print Assumptions C99_refuted.

(** A chain of four customers; customer 2 has a vehicle already. *)
Example C96_C97_case : exists X sa g a v v' out,
  wf g /\ a_mixed_fleet a = false /\ no_empty_costs g /\ nonneg_user_demands g /\
  (forall u r, node_data g u = Some r -> r_aux_depot r = false) /\
  all_complete (sa_pre sa) /\ sa_initial sa = [] /\ sa_dive sa = false /\ sa_heuristic sa = false /\ sa_greedy sa = false /\ sa_cspy sa = false /\
  (exists u, In u (custs g) /\ ~ In u (riders (sa_pre sa))) /\ clocked g /\
  (forall u, 0 <= user_service g u) /\ (forall u x, 0 <= user_time g u x) /\ fair_times g a /\ time_limit a 8 /\
  (forall x l, Permutation l (x_perms X x l)) /\
  (forall n q, right_answer q (e_master (x_env X) n q)) /\
  (forall n tl q, sound_answer q (e_pricer (x_env X) n tl q)) /\ no_circles (x_env X) /\ finds_paths (x_path X) /\
  (forall r, In r (sa_pre sa) -> route_shape r /\ stops r <> [] /\ route_price g a r < inject_Z 10000000000 /\
     forall c, capacity_of a 0 c -> node_sum (user_demand g) (stops r) <= inject_Z c) /\
  create g a false false false (Some 50) false None false [] = Ok v /\ solve X 9 9 sa v = Ok (v', out) /\
  sa_pre sa = [[Source; Cust 2; Sink]] /\
  sv_routes (out_solved out) = [(1%nat, [Source; Cust 1; Sink]); (2%nat, [Source; Cust 3; Cust 4; Sink]); (3%nat, [Source; Cust 2; Sink])] /\
  best_value (out_solved out) = Ok 84.
Proof. exact locked_case. Qed.
