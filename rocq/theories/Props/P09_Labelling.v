(** Properties C78-C80: pricing with the labelling algorithm. *)
From Verif.Base Require Import Prelude Graph.
From Verif.Spec Require Import Routes Network Inputs Feasible LinProg Pricing MIP Columns Timing Labelling Master Duality Run Results Plans.
From Verif.Model Require Import Args Preprocess Initial Pricing LPPricing Cspy Master ColGen Post Schedule Solve.
From Verif.Proofs Require Import Deciders CspyCall SolveExact LabelBound PricingWitness MasterWitness ColGenWitness SolveSamples LabelWitness BruteLabel.
From Verif.Props Require Import Samples P04_Pricing.

(* ---- C78 ---- *)
(** One call of the labelling subproblem, for the answers of the labelling algorithm: when it is run,
    which path is turned into a column, when a second run without repeated nodes follows, and what
    is left unchanged. *)
Theorem C78_labelling_call : forall g h K k caps o ns dur alg keys,
  network K h -> (k < K)%nat -> sound_labelling h alg -> wf g ->
  forall run elementary pool r,
  cspy_solve g h k caps o ns dur alg keys run elementary pool = Ok r ->
  (run = false -> r = (pool, false)) /\
  (run = true -> exists m, limits h o k caps ns dur = Ok m /\
    let stop := fun r' => r' = (pool, false) in
    let last := fun r' => exists t, least_weight g t /\ after h k pool (alg m (extension h o caps dur) true (Some t)) stop r' in
    (elementary = true \/ o_distribution_collection o = true -> last r) /\
    (elementary = false -> o_distribution_collection o = false ->
     after h k pool (alg m (extension h o caps dur) false None) last r)).
Proof. exact labelling_call. Qed.
Print Assumptions C78_labelling_call.

(** The first answer visits customer 1 twice and is in the pool already: the second run adds a route. *)
Example C78_case :
  let alg := labeller [[Source; Cust 1; Cust 2; Cust 1; Sink]; trip [Cust 1; Cust 2]] net4p in
  network 1 net4p /\ sound_labelling net4p alg /\ wf net4p /\
  exists c c',
    cspy_solve net4p net4p 0 None plain_options (Some 4%Z) None alg (custs net4p) true false [] = Ok ([c], true) /\
    c_name c = CNonElem 1 /\
    cspy_solve net4p net4p 0 None plain_options (Some 4%Z) None alg (custs net4p) true false [c] = Ok ([c; c'], true) /\
    c_name c' = CElem 2 /\ c_path c' = Some (trip [Cust 1; Cust 2]) /\
    cspy_solve net4p net4p 0 None plain_options (Some 4%Z) None alg (custs net4p) true false [c; c'] = Ok ([c; c'], false).
Proof.
  split; [exact net4p_network|]. split; [apply labeller_sound|]. split; [apply wfb_ok; vm_compute; reflexivity|].
  eexists. eexists. split; [vm_compute; reflexivity|]. split; [vm_compute; reflexivity|]. split; [vm_compute; reflexivity|].
  split; [vm_compute; reflexivity|]. split; vm_compute; reflexivity.
Qed.

(* ---- C79 ---- *)
(** When the search with labelling pricing ends because nothing was found, the value of the last
    relaxation is a lower bound for every plan, up to 1/1000 per arc. Asked of the oracles: the dual
    values are feasible and prove the value of the relaxation, and the labelling algorithm is exact.
    What is missing: the feasibility of the dual values must include the columns of the pool, driven
    by any vehicle type, because the pricing never adds the arcs of a known column again; and the
    number of stops is limited (C36). *)
Theorem C79_lower_bound_partial : forall E C g f s s', fresh C g s -> column_generation E C f s = Ok s' -> s_more s' = false ->
  cg_strategy C <> None -> cg_cspy C = true -> cg_greedy C = false ->
  network (cg_types C) g -> mo_periodic (cg_master C) = false -> mo_span (cg_master C) = false ->
  (forall fl, mo_fleet (cg_master C) = Some fl -> fl <> [] -> (cg_types C <= List.length fl)%nat) ->
  labelling_data g (cg_options C) (cg_caps C) (cg_stops C) (cg_duration C) ->
  (forall n tl h, sound_labelling h (e_label E n tl h)) ->
  (forall st s1 D q, starts E C s st -> solve_relaxed E C st = Ok (s1, D, q) ->
     (exists v, q = Some v /\ dual_solution (cg_master C) (s_master st) (e_duals E (S (s_tick st))) v) /\
     (forall k c cs, (k < cg_types C)%nat -> In c (s_pool st) -> listing c = arcs (trip cs) ->
        0 <= reduced_cost g D 1 k cs) /\
     forall k h j m e, (k < cg_types C)%nat -> add_reduced_cost D k None g = Ok h ->
       limits h (cg_options C) k (cg_caps C) (cg_stops C) (cg_duration C) = Ok m ->
       (cg_elementary C = true -> e = true) ->
       let ref := extension h (cg_options C) (cg_caps C) (cg_duration C) in
       exact_labelling h m ref e (e_label E (S j) (cspy_limit (time_remaining C false (e_clock E j))) h m ref)) ->
  exists q, nth_error (rev (s_bounds s')) 0 = Some (Some q) /\
    forall P, Duality.serves g (cg_master C) P ->
      (forall k c, In (k, c) P -> (k < cg_types C)%nat /\
         drivable g (cg_options C) (cg_caps C) k (cg_stops C) (cg_duration C) c) ->
      q <= tours_cost g P + (1 # 1000) * Qsum_over P (fun t => inject_Z (Z.of_nat (List.length (snd t) + 1))).
Proof. exact labelling_bound. Qed.
Print Assumptions C79_lower_bound_partial.

Example C79_case : fresh cg_l netm start_g /\ column_generation env_l cg_l 5 start_g = Ok end_l /\ s_more end_l = false /\
  cg_strategy cg_l <> None /\ cg_cspy cg_l = true /\ cg_greedy cg_l = false /\ network (cg_types cg_l) netm /\
  labelling_data netm (cg_options cg_l) (cg_caps cg_l) (cg_stops cg_l) (cg_duration cg_l) /\
  (forall n tl h, sound_labelling h (e_label env_l n tl h)) /\
  (forall st s1 D q, starts env_l cg_l start_g st -> solve_relaxed env_l cg_l st = Ok (s1, D, q) ->
     (exists v, q = Some v /\ dual_solution (cg_master cg_l) (s_master st) (e_duals env_l (S (s_tick st))) v) /\
     (forall k c cs, (k < cg_types cg_l)%nat -> In c (s_pool st) -> listing c = arcs (trip cs) ->
        0 <= reduced_cost netm D 1 k cs) /\
     forall k h j m e, (k < cg_types cg_l)%nat -> add_reduced_cost D k None netm = Ok h ->
       limits h (cg_options cg_l) k (cg_caps cg_l) (cg_stops cg_l) (cg_duration cg_l) = Ok m ->
       (cg_elementary cg_l = true -> e = true) ->
       let ref := extension h (cg_options cg_l) (cg_caps cg_l) (cg_duration cg_l) in
       exact_labelling h m ref e (e_label env_l (S j) (cspy_limit (time_remaining cg_l false (e_clock env_l j))) h m ref)) /\
  map c_name (s_pool end_l) = [CNat 1; CNat 2; CNat 3; CElem 4] /\
  nth_error (rev (s_bounds end_l)) 0 = Some (Some 103).
Proof. exact bound_l. Qed.

(** With several vehicle types the bound is wrong, and the plan returned is not the best: a route
    that is known for one vehicle type is never offered for another one. One customer, two types,
    the second one cheaper; every answer of the solver and of the labelling algorithm is optimal. *)
Theorem C79_mixed_fleet_refuted : exists X sa g a v v' out q k r,
  wf g /\ accepted_args (with_strategy a (sa_strategy sa)) g /\ a_mixed_fleet a = true /\ falsy (a_num_vehicles a) /\
  sa_initial sa = [] /\ sa_pre sa = [] /\ sa_cspy sa = true /\ sa_elementary sa = true /\ sa_dive sa = false /\
  sa_greedy sa = false /\ sa_heuristic sa = false /\ sa_time_limit sa = None /\ sa_max_iter sa = None /\
  (forall x l, Permutation l (x_perms X x l)) /\
  (forall n q, sound_answer q (e_master (x_env X) n q) /\
     (a_status (e_master (x_env X) n q) = Optimal -> forall y, feasible y q ->
      value (a_value (e_master (x_env X) n q)) (p_obj q) <= value y (p_obj q))) /\
  (forall n tl h, sound_labelling h (e_label (x_env X) n tl h) /\
     forall m ref, exact_labelling h m ref true (e_label (x_env X) n tl h m ref)) /\ finds_paths (x_path X) /\
  create g a false false false None false None false [] = Ok v /\ solve X 9 9 sa v = Ok (v', out) /\
  best_value (out_solved out) = Ok q /\
  (exists l c, a_load_capacity a = PList l /\ nth_error l k = Some c /\ node_sum (user_demand g) (stops r) <= num_val c) /\
  (exists n, a_num_stops a = PNum (PInt n) /\ (Z.of_nat (List.length (stops r)) <= n)%Z) /\ falsy (a_duration a) /\ falsy (a_fixed_cost a) /\
  route_shape r /\ along (arc_list g) r /\ stops r = custs g /\ path_sum (user_cost g k) r + 17 < q.
Proof. exact cheaper_vehicle_ignored. Qed.
Print Assumptions C79_mixed_fleet_refuted.

(* ---- C80 ---- *)
(** solve() with labelling pricing (the default) on a problem without time windows, pickups and
    deliveries, collections, dropping and periods: as C60, for every labelling algorithm that returns
    resource feasible paths. Travel times limit the routes if services take no time. *)
Theorem C80_labelling_partial : forall X fuel fuel2 sa g a drop all per span tabu v v' out,
  wf g -> a_mixed_fleet a = false -> no_empty_costs g -> nonneg_user_demands g ->
  (forall u r, node_data g u = Some r -> r_aux_depot r = false) ->
  truthy per = false -> truthyQ drop = false ->
  sa_pre sa = [] -> sa_initial sa = [] -> sa_cspy sa = true -> sa_dive sa = false -> sa_heuristic sa = false ->
  (forall x l, Permutation l (x_perms X x l)) ->
  (forall n q, sound_answer q (e_master (x_env X) n q)) ->
  (forall n tl h, sound_labelling h (e_label (x_env X) n tl h)) -> finds_paths (x_path X) ->
  create g a false false false drop all per span tabu = Ok v -> solve X fuel fuel2 sa v = Ok (v', out) ->
  let rs := map snd (sv_routes (out_solved out)) in
  each_once (custs g) rs /\ only_visits (custs g) rs /\
  (forall r, In r rs -> route_shape r /\ (stops r <> [] -> along (arc_list g ++ depot_arcs g) r) /\ within_limits g a r) /\
  map fst (sv_routes (out_solved out)) = seq 1 (List.length rs) /\
  out_schedule out = None /\ sv_dropped (out_solved out) = [] /\
  (span = false -> (forall x y l, a_load_capacity a <> PList (x :: y :: l)) -> (forall r, In r rs -> stops r <> []) ->
   exists q, best_value (out_solved out) = Ok q /\ q == plan_price g a rs) /\
  (sa_greedy sa = false -> 0 <= user_service g Source -> (forall u, In u (custs g) -> user_service g u == 0) ->
   (forall u, In u (custs g) -> user_time g u Sink == user_time g Source u) ->
   (forall u w, In u (custs g) -> In w (custs g) -> In (u, w) (arc_list g) -> In (w, u) (arc_list g) -> user_time g w u == user_time g u w) ->
   (forall D u, time_limit a D -> In u (custs g) -> user_time g Source u + user_time g u Sink + user_service g u <= inject_Z D) ->
   forall r, In r rs -> stops r <> [] -> within_time g a r).
Proof. exact labelling_user. Qed.
Print Assumptions C80_labelling_partial.

(** A call that meets the hypotheses: the first column found visits a customer twice, the second is
    selected. *)
Example C80_case : let g := raw7 0 in
  wf g /\ no_empty_costs g /\ nonneg_user_demands g /\
  (forall u r, node_data g u = Some r -> r_aux_depot r = false) /\
  (forall x l, Permutation l (x_perms X7 x l)) /\
  (forall n q, sound_answer q (e_master (x_env X7) n q)) /\
  (forall n tl h, sound_labelling h (e_label (x_env X7) n tl h)) /\ finds_paths (x_path X7) /\
  0 <= user_service g Source /\ (forall u, In u (custs g) -> user_service g u == 0) /\
  (forall u, In u (custs g) -> user_time g u Sink == user_time g Source u) /\
  (forall u w, In u (custs g) -> In w (custs g) -> In (u, w) (arc_list g) -> In (w, u) (arc_list g) ->
     user_time g w u == user_time g u w) /\
  (forall D u, time_limit args7 D -> In u (custs g) ->
     user_time g Source u + user_time g u Sink + user_service g u <= inject_Z D) /\
  exists v v' out, create g args7 false false false None false None false [] = Ok v /\
    solve X7 9 9 sa7 v = Ok (v', out) /\ v_iter v' = 3%nat /\ map c_name (v_chosen v') = [CElem 22] /\
    sv_routes (out_solved out) = [(1%nat, trip [Cust 1; Cust 2])] /\ best_value (out_solved out) = Ok 22.
Proof. exact labelling_case. Qed.

(** Services count in the duration, but not for the labelling algorithm: a route returned by the
    default settings exceeds the limit, although every customer can be served alone. *)
Theorem C80_duration_refuted : exists X sa g a v v' out r,
  wf g /\ acceptable g a (sa_strategy sa) /\ (forall u w, 0 <= user_time g u w) /\ (forall u, 0 <= user_service g u) /\
  sa_initial sa = [] /\ sa_pre sa = [] /\ sa_cspy sa = true /\ sa_dive sa = false /\ sa_greedy sa = false /\ sa_heuristic sa = false /\
  (forall x l, Permutation l (x_perms X x l)) /\
  (forall n q, sound_answer q (e_master (x_env X) n q) /\
     (a_status (e_master (x_env X) n q) = Optimal -> forall y, feasible y q ->
      value (a_value (e_master (x_env X) n q)) (p_obj q) <= value y (p_obj q))) /\
  (forall n tl h, sound_labelling h (e_label (x_env X) n tl h)) /\ finds_paths (x_path X) /\
  (forall u, In u (custs g) -> user_time g u Sink == user_time g Source u) /\
  (forall u w, In u (custs g) -> In w (custs g) -> In (u, w) (arc_list g) -> In (w, u) (arc_list g) ->
     user_time g w u == user_time g u w) /\
  (forall D u, time_limit a D -> In u (custs g) ->
     user_time g Source u + user_time g u Sink + user_service g u <= inject_Z D) /\
  create g a false false false None false None false [] = Ok v /\ solve X 9 9 sa v = Ok (v', out) /\
  In r (map snd (sv_routes (out_solved out))) /\ ~ within_time g a r.
Proof. exact labelling_overtime. Qed.
Print Assumptions C80_duration_refuted.
