(** Properties C94 and C95: plans of solve() on plain problems, and their value against that of
    solve(heuristic_only=True). *)
From Verif.Base Require Import Prelude Graph.
From Verif.Spec Require Import Routes Network Inputs LinProg MIP Timing Run Results Plans Variants Plain.
From Verif.Model Require Import Args Initial LPPricing Cspy Master ColGen Post Schedule Solve.
From Verif.Proofs Require Import PlainUser PlainWitness Sharp.

(* ---- C94 ---- *)
(** Missing: times for which the heuristics do not keep the time limit ([fair_times]), and greedy pricing with a
    time limit, which does not keep it (see C94_refuted and C26); preassignments and diving; [no_circles] for MIP pricing;
    service times for the labelling algorithm with a time limit. *)
Theorem C94_plain_partial : forall X fuel fuel2 sa (g : rgraph) a drop all per span tabu v v' out,
  wf g -> a_mixed_fleet a = false -> no_empty_costs g -> nonneg_user_demands g ->
  (forall u r, node_data g u = Some r -> r_aux_depot r = false) ->
  truthy per = false -> sa_pre sa = [] -> sa_initial sa = [] -> sa_dive sa = false -> sa_heuristic sa = false ->
  sa_greedy sa = false \/ (forall D, ~ time_limit a D) ->
  0 <= user_service g Source -> fair_times g a ->
  (forall x l, Permutation l (x_perms X x l)) ->
  (forall n q, sound_answer q (e_master (x_env X) n q)) ->
  (sa_cspy sa = false -> (forall n tl q, sound_answer q (e_pricer (x_env X) n tl q)) /\ no_circles (x_env X)) ->
  (sa_cspy sa = true -> (forall n tl h, sound_labelling h (e_label (x_env X) n tl h)) /\
     (forall D, time_limit a D -> forall u, user_service g u == 0)) ->
  finds_paths (x_path X) ->
  create g a false false false drop all per span tabu = Ok v -> solve X fuel fuel2 sa v = Ok (v', out) ->
  let s := out_solved out in
  exists ks, planned g a false false false drop all (sv_routes s) (fun i => dget Nat.eqb i (sv_types s)) (sv_dropped s) ks /\
    (sa_cspy sa = false -> sa_greedy sa = false -> (forall x y l, a_load_capacity a <> PList (x :: y :: l)) ->
     nobody_idle (sv_routes s)) /\
    out_schedule out = None /\
    (span = false -> nobody_idle (sv_routes s) -> (forall x y l, a_load_capacity a <> PList (x :: y :: l)) ->
     exists q, best_value s = Ok q /\ q == plan_cost g a drop ks (sv_routes s) (sv_dropped s)).
Proof. exact plain_user. Qed.
Print Assumptions C94_plain_partial.

(* ---- C95 ---- *)
(** heuristic_only does not look at the number of vehicles, hence the assumption that there are enough (see C95_refuted). Missing:
    minimize_global_span, preassignments, diving, and what C94 misses. *)
Theorem C95_beats_heuristic_partial : forall X fuel fuel2 sa (g : rgraph) a drop all per tabu v v' out
  fuel' fuel2' sh vh outh,
  wf g -> a_mixed_fleet a = false -> no_empty_costs g -> nonneg_user_demands g ->
  (forall x y l, a_load_capacity a <> PList (x :: y :: l)) ->
  (forall u r, node_data g u = Some r -> r_aux_depot r = false) ->
  truthy per = false -> sa_pre sa = [] -> sa_initial sa = [] -> sa_dive sa = false -> sa_heuristic sa = false ->
  sa_greedy sa = false \/ (forall D, ~ time_limit a D) ->
  0 <= user_service g Source -> fair_times g a ->
  (forall x l, Permutation l (x_perms X x l)) ->
  (forall n q, right_answer q (e_master (x_env X) n q)) ->
  (sa_cspy sa = false -> (forall n tl q, sound_answer q (e_pricer (x_env X) n tl q)) /\ no_circles (x_env X)) ->
  (sa_cspy sa = true -> (forall n tl h, sound_labelling h (e_label (x_env X) n tl h)) /\
     (forall D, time_limit a D -> forall u, user_service g u == 0)) ->
  finds_paths (x_path X) -> custs g <> [] ->
  create g a false false false drop all per false tabu = Ok v -> solve X fuel fuel2 sa v = Ok (v', out) ->
  (all = true -> nobody_idle (sv_routes (out_solved out))) ->
  sa_heuristic sh = true -> sa_pre sh = [] -> sa_strategy sh = sa_strategy sa -> sa_cspy sh = sa_cspy sa ->
  solve X fuel' fuel2' sh v = Ok (vh, outh) ->
  (forall k n, number_of a k n -> k = 0%nat /\
     inject_Z (Z.of_nat (List.length (sv_routes (out_solved outh)))) <= n /\
     (all = true -> inject_Z (Z.of_nat (List.length (sv_routes (out_solved outh)))) == n)) ->
  exists q qh, best_value (out_solved out) = Ok q /\ best_value (out_solved outh) = Ok qh /\ q <= qh.
Proof. exact beats_user. Qed.
Print Assumptions C95_beats_heuristic_partial.

(** Clarke & Wright takes the cheap arc in the middle of a chain of four customers; solve() does not. *)
Example C94_C95_case : exists X sa sh g a v v' out vh outh,
  wf g /\ a_mixed_fleet a = false /\ no_empty_costs g /\ nonneg_user_demands g /\
  (forall u r, node_data g u = Some r -> r_aux_depot r = false) /\
  sa_pre sa = [] /\ sa_initial sa = [] /\ sa_dive sa = false /\ sa_heuristic sa = false /\ sa_greedy sa = false /\ sa_cspy sa = false /\
  0 <= user_service g Source /\ fair_times g a /\ time_limit a 8 /\ number_of a 0 3 /\
  (forall x l, Permutation l (x_perms X x l)) /\
  (forall n q, right_answer q (e_master (x_env X) n q)) /\
  (forall n tl q, sound_answer q (e_pricer (x_env X) n tl q)) /\ no_circles (x_env X) /\ finds_paths (x_path X) /\
  create g a false false false (Some 50) false None false [] = Ok v /\ solve X 9 9 sa v = Ok (v', out) /\
  v_iter v' = 4%nat /\
  sv_routes (out_solved out) = [(1%nat, [Source; Cust 1; Cust 2; Sink]); (2%nat, [Source; Cust 3; Cust 4; Sink])] /\
  best_value (out_solved out) = Ok 60 /\
  sa_heuristic sh = true /\ sa_pre sh = [] /\ sa_strategy sh = sa_strategy sa /\ sa_cspy sh = sa_cspy sa /\
  solve X 9 9 sh v = Ok (vh, outh) /\
  sv_routes (out_solved outh) = [(0%nat, [Source; Cust 1; Sink]); (1%nat, [Source; Cust 2; Cust 3; Sink]); (2%nat, [Source; Cust 4; Sink])] /\
  best_value (out_solved outh) = Ok 82.
Proof. exact plain_case. Qed.

(** Times that depend on the direction: the initial route of Clarke & Wright takes longer than allowed and is returned. *)
Theorem C94_refuted : exists X sa g a v v' out i r D,
  wf g /\ a_mixed_fleet a = false /\ no_empty_costs g /\ nonneg_user_demands g /\ (forall u w, 0 <= user_time g u w) /\
  (forall u, user_service g u == 0) /\ (forall u, In u (custs g) -> path_sum (user_time g) [Source; u; Sink] <= inject_Z D) /\
  sa_pre sa = [] /\ sa_initial sa = [] /\ sa_cspy sa = true /\ sa_dive sa = false /\ sa_greedy sa = false /\ sa_heuristic sa = false /\
  (forall x l, Permutation l (x_perms X x l)) /\ (forall n q, right_answer q (e_master (x_env X) n q)) /\
  (forall n tl h, sound_labelling h (e_label (x_env X) n tl h)) /\ finds_paths (x_path X) /\
  create g a false false false None false None false [] = Ok v /\ solve X 9 9 sa v = Ok (v', out) /\
  In (i, r) (sv_routes (out_solved out)) /\ time_limit a D /\ inject_Z D < path_sum (user_time g) r.
Proof. exact plain_too_long. Qed.
Print Assumptions C94_refuted.

(** One vehicle: the plan of heuristic_only needs two. *)
Theorem C95_refuted : exists X sa sh g a v v' out vh outh,
  wf g /\ a_mixed_fleet a = false /\ no_empty_costs g /\ nonneg_user_demands g /\ (forall D, ~ time_limit a D) /\
  sa_pre sa = [] /\ sa_initial sa = [] /\ sa_cspy sa = true /\ sa_dive sa = false /\ sa_greedy sa = false /\ sa_heuristic sa = false /\
  (forall x l, Permutation l (x_perms X x l)) /\ (forall n q, right_answer q (e_master (x_env X) n q)) /\
  (forall n tl h, sound_labelling h (e_label (x_env X) n tl h)) /\ finds_paths (x_path X) /\
  create g a false false false None false None false [] = Ok v /\ solve X 9 9 sa v = Ok (v', out) /\
  sa_heuristic sh = true /\ sa_pre sh = [] /\ sa_strategy sh = sa_strategy sa /\ sa_cspy sh = sa_cspy sa /\
  solve X 9 9 sh v = Ok (vh, outh) /\
  number_of a 0 1 /\ List.length (sv_routes (out_solved out)) = 1%nat /\ List.length (sv_routes (out_solved outh)) = 2%nat /\
  best_value (out_solved out) = Ok 66 /\ best_value (out_solved outh) = Ok 34.
Proof. exact heuristic_cheaper. Qed.
Print Assumptions C95_refuted.
