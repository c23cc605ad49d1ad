(** Properties C45-C51, C71, C72 and C81: column generation, the hyper-heuristic and diving.

    The clock, the solvers, networkx, cspy and the random numbers are an arbitrary [E : env]
    (Model/ColGen.v). [fresh C g s]: the state before column generation. [starts E C s st]: an
    iteration of column generation from [s] starts in [st]; [iteration]: the same, diving included
    (Spec/Run.v). *)
From Verif.Base Require Import Prelude Graph.
From Verif.Spec Require Import Routes Network LinProg Pricing MIP Columns Pool Master Duality Run.
From Verif.Model Require Import Args Reach Checks Preprocess ClarkeWright Greedy Initial Pricing
  GreedyPricing LPPricing Cspy Master Dive Hyper ColGen.
From Verif.Proofs Require Import OwnVariable Deciders LPProofs PricingCor ColGenProofs RunProofs BoundProofs HyperProofs DiveProofs
  ColGenCor ColGenEnd HyperTotal DiveCor Certificate PricingWitness MasterWitness Oracles ColGenWitness DiveWitness Stagnation.

(* ---- C45 ---- *)
(** [s_more s' = false]: the run ended because the last iteration found nothing; otherwise a limit
    was reached. *)
Theorem C45_exact_failed : forall E C g f s s', fresh C g s -> cg_strategy C <> None ->
  column_generation E C f s = Ok s' ->
  (s_more s' = true /\ stopped E C s') \/
  (s_more s' = false /\ exists st s1 D q sl, starts E C s st /\ solve_relaxed E C st = Ok (s1, D, q) /\
     find_columns E C st = Ok sl /\ s' = tick (tick sl) /\ exact_failed_for_all E C g D (s_pool st) (s_pool s')).
Proof. exact exhausted_known. Qed.
Print Assumptions C45_exact_failed.

Theorem C45_exact_failed_dive : forall E C g f f2 s s', fresh C g s -> cg_strategy C <> None ->
  generate_and_dive E C f f2 s = Ok s' ->
  (s_more s' = true /\ stopped E C s') \/
  (s_more s' = false /\ exists s0 st s1 D q sl, column_generation E C f s = Ok s0 /\ starts E C (start_dive s0) st /\
     solve_relaxed E C st = Ok (s1, D, q) /\
     find_columns E C st = Ok sl /\ s' = tick (tick sl) /\ exact_failed_for_all E C g D (s_pool st) (s_pool s')).
Proof. exact exhausted_dive_known. Qed.
Print Assumptions C45_exact_failed_dive.

Example C45_case : fresh cg_g netm start_g /\ cg_strategy cg_g <> None /\ column_generation env_g cg_g 5 start_g = Ok end_g /\
  s_more end_g = false /\ s_iter end_g = 2%nat /\ List.length (s_pool end_g) = 4%nat.
Proof.
  split; [exact fresh_g|]. split; [discriminate|]. split; [exact ran_g|]. split; [vm_compute; reflexivity|]. split; vm_compute; reflexivity.
Qed.

(* ---- C37, continued from P04_Pricing ---- *)
(** Whatever the mix of pricing algorithms: when column generation has ended, the route variables of the
    master problem are those of the columns, one for each, and no two have the same name. *)
Theorem C37_own_variable : forall E C g f s s', fresh C g s -> column_generation E C f s = Ok s' ->
  NoDup (map c_name (s_pool s')) /\
  Permutation (flat_map (fun y => match mc_var y with Y n => [n] | _ => [] end) (ms_cols (s_master s'))) (map c_name (s_pool s')).
Proof. exact own_variable. Qed.
Print Assumptions C37_own_variable.

Example C37_variable_case : fresh cg_g netm start_g /\ column_generation env_g cg_g 5 start_g = Ok end_g /\
  List.length (s_pool start_g) = 3%nat /\ List.length (s_pool end_g) = 4%nat.
Proof. split; [exact fresh_g|]. split; [exact ran_g|]. split; vm_compute; reflexivity. Qed.

(* ---- C46 ---- *)
(** What is missing: with Hyper, exact pricing is forced at most in the iteration with the number
    [run_exact] (C81). *)
Theorem C46_fallback_partial : forall E C g f s s', fresh C g s -> column_generation E C f s = Ok s' -> s_more s' = false ->
  exists st s1 D q sl, starts E C s st /\ solve_relaxed E C st = Ok (s1, D, q) /\
    find_columns E C st = Ok sl /\ s' = tick (tick sl) /\
    (cg_strategy C <> None \/ Z.of_nat (s_noimp st) = cg_run_exact C ->
     exact_failed_for_all E C g D (s_pool st) (s_pool s')).
Proof. exact exhausted_any. Qed.
Print Assumptions C46_fallback_partial.

(** With Hyper, column generation can end with the bound 180 although there is a plan of cost 170. *)
Theorem C46_hyper_refuted : exists E C g s s1 D q s' P, fresh C g s /\ network 1 g /\ cg_types C = 1%nat /\
  cg_strategy C = None /\ cg_max_iter C = None /\ cg_time_limit C = None /\
  (forall i w n, k_shortest (arc_list g) w n (e_paths E i w n)) /\
  exact_answer (program_of (s_master s)) (e_master E (S (s_tick s)) (program_of (s_master s))) /\
  solve_relaxed E C s = Ok (s1, D, Some q) /\ dual_solution (cg_master C) (s_master s) (e_duals E (S (s_tick s))) q /\
  (forall i j pr h hr p, In pr (parameters BestPaths) -> add_reduced_cost D 0 None g = Ok h ->
     pricing_graph (e_paths E i) pr D 0 h = Ok hr ->
     LPPricing.formulate (fst hr) 0 (cg_caps C) (cg_options C) (cg_stops C) (cg_duration C) (e_negative E j h) = Ok p ->
     exact_answer p (e_pricer E j None p)) /\
  column_generation E C 5 s = Ok s' /\ s_iter s' = 1%nat /\ s_more s' = false /\ s_bounds s' = [Some q] /\
  serves g (cg_master C) P /\
  (forall k c, In (k, c) P -> k = 0%nat /\ drivable g (cg_options C) (cg_caps C) k (cg_stops C) (cg_duration C) c) /\
  tours_cost g P + 9 < q.
Proof. exact hyper_stops. Qed.
Print Assumptions C46_hyper_refuted.

(* ---- C47 ---- *)
Theorem C47_max_iter : forall E C g f s s' m, fresh C g s -> cg_max_iter C = Some m -> (1 <= m)%Z ->
  column_generation E C f s = Ok s' -> (1 <= Z.of_nat (s_iter s') <= m)%Z.
Proof. exact iterations. Qed.
Print Assumptions C47_max_iter.

(** Column generation always ends then: a larger number of steps makes no difference, and it fails
    only when an iteration fails. *)
Theorem C47_terminates : forall E C g f s m, fresh C g s -> cg_max_iter C = Some m -> (1 <= m)%Z -> (Z.to_nat m <= f)%nat ->
  column_generation E C f s = column_generation E C (Z.to_nat m) s /\
  forall e, column_generation E C f s = Err e -> exists st, starts E C s st /\ find_columns E C st = Err e.
Proof. exact terminates. Qed.
Print Assumptions C47_terminates.

(** What is missing: with diving there is one iteration more. *)
Theorem C47_dive_partial : forall E C g f f2 s s' m, fresh C g s -> cg_max_iter C = Some m -> (1 <= m)%Z ->
  generate_and_dive E C f f2 s = Ok s' -> (2 <= Z.of_nat (s_iter s') <= m + 1)%Z.
Proof. exact iterations_dive. Qed.
Print Assumptions C47_dive_partial.

Theorem C47_dive_refuted : exists E C g s s', fresh C g s /\ network 1 g /\ cg_max_iter C = Some 1%Z /\
  generate_and_dive E C 5 5 s = Ok s' /\ s_iter s' = 2%nat.
Proof. exact dive_too_long. Qed.
Print Assumptions C47_dive_refuted.

(* ---- C48 ---- *)
(** What is missing: nothing is checked before the first iteration of column generation and of
    diving. *)
Theorem C48_in_time_partial : forall E C s st l, iteration E C s st -> cg_time_limit C = Some l -> 0 < l ->
  (st = s \/ exists f s1, column_generation E C f s = Ok s1 /\ st = start_dive s1) \/
  exists n, s_tick st = S n /\ e_clock E n - cg_start C < l.
Proof. exact in_time. Qed.
Print Assumptions C48_in_time_partial.

Theorem C48_remaining : forall C l t, cg_time_limit C = Some l -> 0 < l ->
  (exists r, time_remaining C false t = Some r /\
     (t - cg_start C < l -> 0 < r /\ r == l - (t - cg_start C)) /\ (l <= t - cg_start C -> r == 0)) /\
  (exists r, time_remaining C true t = Some r /\ 5 <= r /\ l - (t - cg_start C) <= r /\ (r == 5 \/ r == l - (t - cg_start C))).
Proof. exact remaining. Qed.
Print Assumptions C48_remaining.

Example C48_case : iteration env_g cg_g start_g start_g /\ cg_time_limit cg_g = Some 100 /\
  (exists st, starts env_g cg_g start_g st /\ s_iter st = 1%nat).
Proof. exact later_iteration. Qed.

Theorem C48_first_refuted : exists E C g s s', fresh C g s /\ network 1 g /\ cg_time_limit C = Some 100 /\
  (forall n, 100 < e_clock E n - cg_start C) /\
  column_generation E C 5 s = Ok s' /\ s_iter s' = 1%nat /\ (List.length (s_pool s) < List.length (s_pool s'))%nat.
Proof. exact first_unchecked. Qed.
Print Assumptions C48_first_refuted.

(** cspy is given no limit at all once the time is up, and a negative one shortly before. *)
Theorem C48_cspy_refuted : exists C l t1 t2, cg_time_limit C = Some l /\ 0 < l /\
  l < t1 - cg_start C /\ cspy_limit (time_remaining C false t1) = None /\
  t2 - cg_start C < l /\ exists r, cspy_limit (time_remaining C false t2) = Some r /\ r < 0.
Proof. exact cspy_unlimited. Qed.
Print Assumptions C48_cspy_refuted.

(* ---- C49 ---- *)
Theorem C49_selection : forall E C g s st s1 D q s2 p,
  (forall i j, 0 <= e_ucb E i j) -> cg_strategy C = None -> fresh C g s ->
  iteration E C s st -> (Z.of_nat (List.length (s_pool st)) <= 10000000000)%Z ->
  (0 < s_iter st)%nat -> Z.of_nat (s_noimp st) <> cg_run_exact C ->
  solve_relaxed E C st = Ok (s1, D, q) -> next_strategy E C q s1 = Ok (s2, p) ->
  exists h2, s_hyper s2 = Some h2 /\ hy_current h2 = Some p /\
    (forall x, at_ (hy_points h2) x <= at_ (hy_points h2) p) /\
    (forall x, (0 < at_ (hy_iterations h2) p)%nat -> (0 < at_ (hy_iterations h2) x)%nat) /\
    1 # 10 <= hy_theta h2 <= 1.
Proof. exact hyper_selection. Qed.
Print Assumptions C49_selection.

(** Every strategy of maximal score can be drawn. *)
Theorem C49_any_best : forall h p, (forall s, at_ (hy_points h) s <= at_ (hy_points h) p) ->
  exists choice, pick_heuristic choice h = (set_current p h, p).
Proof. exact pick_any. Qed.
Print Assumptions C49_any_best.

(** The strategy applied before is counted. What is missing: while diving, BestPaths is counted instead. *)
Theorem C49_counting_partial : forall E C st s1 D q s2 p h cur, cg_strategy C = None -> (0 < s_iter st)%nat ->
  Z.of_nat (s_noimp st) <> cg_run_exact C ->
  solve_relaxed E C st = Ok (s1, D, q) -> next_strategy E C q s1 = Ok (s2, p) ->
  s_hyper st = Some h -> hy_current h = Some cur ->
  exists h2, s_hyper s2 = Some h2 /\
    forall x, at_ (hy_iterations h2) x =
      (at_ (hy_iterations h) x + if strat_eqb (if s_dive st then BestPaths else cur) x then 1 else 0)%nat.
Proof. exact counted. Qed.
Print Assumptions C49_counting_partial.

(** A strategy is applied twice and never counted; the hypotheses of the theorems above are met. *)
Theorem C49_counting_refuted : exists E C g s x st h s1 D q s2 p h2, fresh C g s /\ network 1 g /\ cg_strategy C = None /\
  (forall i j, 0 <= e_ucb E i j) /\ iteration E C s st /\ s_hyper st = Some h /\
  hy_current h = Some x /\
  solve_relaxed E C st = Ok (s1, D, q) /\ next_strategy E C q s1 = Ok (s2, p) /\ s_hyper s2 = Some h2 /\
  at_ (hy_iterations h) x = 0%nat /\ at_ (hy_iterations h2) x = 0%nat /\
  (0 < s_iter st)%nat /\ Z.of_nat (s_noimp st) <> cg_run_exact C /\ (Z.of_nat (List.length (s_pool st)) <= 10000000000)%Z.
Proof. exact not_counted. Qed.
Print Assumptions C49_counting_refuted.

(* ---- C50 ---- *)
(** [nearest]: of the variables that may be fixed, one nearest to an integer. What is missing:
    backtracking from the first dive fails. *)
Theorem C50_one_dive_partial : forall resolve p vars x d d1 added, run_dive resolve p vars x d = Ok (d1, added) ->
  ((3 < dv_depth d)%nat \/ (forall v, ~ candidate x vars (dv_tabu d) v)) /\ added = [] /\ d1 = d \/
  (dv_depth d <= 3)%nat /\ exists v, nearest x vars (dv_tabu d) v /\
    dv_depth d1 = S (dv_depth d) /\ dv_tabu d1 = dv_tabu d ++ [v] /\
    (a_status (resolve 0%nat (fixing [v] p)) = Optimal /\ added = [v] /\ dv_level d1 = S (dv_level d) \/
     a_status (resolve 0%nat (fixing [v] p)) <> Optimal /\ added = [] /\ dv_level d = S (dv_level d1)).
Proof. exact one_dive. Qed.
Print Assumptions C50_one_dive_partial.

Theorem C50_failure : forall resolve p vars x d,
  (forall e, run_dive resolve p vars x d = Err e -> e = AttributeError /\ (dv_depth d <= 3)%nat /\ dv_level d = 0%nat /\
     exists v, nearest x vars (dv_tabu d) v /\ a_status (resolve 0%nat (fixing [v] p)) <> Optimal) /\
  ((dv_depth d <= 3)%nat -> dv_level d = 0%nat -> (exists v, candidate x vars (dv_tabu d) v) ->
   (forall v, nearest x vars (dv_tabu d) v -> a_status (resolve 0%nat (fixing [v] p)) <> Optimal) ->
   run_dive resolve p vars x d = Err AttributeError).
Proof. exact dive_fails. Qed.
Print Assumptions C50_failure.

Theorem C50_fixed : forall E C g s st s', fresh C g s -> iteration E C s st -> find_columns E C st = Ok s' ->
  exists added, s_fixed s' = s_fixed st ++ added /\ (List.length added <= 1)%nat /\ (s_dive st = false -> added = []) /\
    NoDup (s_fixed s') /\ (List.length (s_fixed s') <= 4)%nat /\
    (s_dive st = true -> let p := fixing (s_fixed s') (program_of (s_master st)) in
     feasible (a_value (e_master E (S (S (s_tick st))) p)) p ->
     forall v, In v (s_fixed s') -> In v (map mc_var (ms_cols (s_master st))) -> s_values s' v == 1).
Proof. exact dive_fixes. Qed.
Print Assumptions C50_fixed.

(** Fixing variables means: they are 1. *)
Theorem C50_fixing : forall fixed p x, feasible x (fixing fixed p) <-> feasible x p /\ forall v, In v fixed -> x v == 1.
Proof. exact fixing_iff. Qed.
Print Assumptions C50_fixing.

Theorem C50_backtrack_refuted : exists E C g s s0 v, fresh C g s /\ network 1 g /\
  column_generation E C 5 s = Ok s0 /\ s_master s0 = s_master s /\
  (forall n, exact_answer (program_of (s_master s)) (e_master E n (program_of (s_master s)))) /\
  (forall n i, let p := fixing [v] (program_of (s_master s)) in exact_answer p (e_dive E n i p) /\ forall x, ~ feasible x p) /\
  generate_and_dive E C 5 5 s = Err AttributeError.
Proof. exact dive_breaks. Qed.
Print Assumptions C50_backtrack_refuted.

(* ---- C51 ---- *)
(** What is missing: customers may be visited several times. *)
Theorem C51_covered_partial : forall E C g f f2 s s' t sel dropped, fresh C g s -> wf g ->
  solve_columns E C f f2 true s = Ok (s', Some (t, sel, dropped)) ->
  mo_periodic (cg_master C) = false -> (forall p, ~ drops (cg_master C) p) ->
  exists st, iteration E C s st /\
    (let p := fixing (s_fixed s') (program_of (s_master st)) in
     let a := e_master E (S (S (s_tick st))) p in
     feasible (a_value a) p ->
     dropped = [] /\ NoDup sel /\ (forall c, In c sel -> In c (s_pool s')) /\
     (forall c, In (Y (c_name c)) (s_fixed s') -> In c (s_pool st) -> exists c', In c' sel /\ untag c' = untag c) /\
     forall v d, customer g v d -> exists c, In c sel /\ (0 < times v c)%nat).
Proof. exact dive_covers. Qed.
Print Assumptions C51_covered_partial.

(** The solver is right, and a customer is visited twice. This case meets the hypotheses above. *)
Theorem C51_dive_refuted : exists E C g s s' t sel v d, fresh C g s /\ network 1 g /\
  mo_periodic (cg_master C) = false /\ (forall p, ~ drops (cg_master C) p) /\
  s_master s' = s_master s /\
  (forall n i fixed, fixed = [] \/ fixed = s_fixed s' -> let p := fixing fixed (program_of (s_master s)) in
     exact_answer p (e_master E n p) /\ exact_answer p (e_dive E n i p)) /\
  solve_columns E C 5 5 true s = Ok (s', Some (t, sel, [])) /\
  customer g v d /\ columns_with v sel = 2%nat /\
  exists sel0, valid_selection g (cg_master C) (s_pool s) sel0 [] /\ price (cg_master C) sel0 [] == t.
Proof. exact dive_invalid. Qed.
Print Assumptions C51_dive_refuted.

(* ---- C71 ---- *)
(** [dual_solution]: the dual values are feasible for the relaxed master problem and prove its
    value; [serves]: the tours visit everybody within the fleet; 1/1000 is the pricing tolerance. *)
Theorem C71_lower_bound : forall E C g f s s', fresh C g s -> column_generation E C f s = Ok s' -> s_more s' = false ->
  cg_strategy C <> None -> cg_cspy C = false ->
  network (cg_types C) g -> mo_periodic (cg_master C) = false -> mo_span (cg_master C) = false ->
  (forall fl, mo_fleet (cg_master C) = Some fl -> fl <> [] -> (cg_types C <= List.length fl)%nat) ->
  (forall k, (k < cg_types C)%nat -> mip_data g (cg_options C) (cg_caps C) k) ->
  (forall st s1 D q, starts E C s st -> solve_relaxed E C st = Ok (s1, D, q) ->
     (exists v, q = Some v /\ dual_solution (cg_master C) (s_master st) (e_duals E (S (s_tick st))) v) /\
     forall k h j p, (k < cg_types C)%nat -> add_reduced_cost D k None g = Ok h ->
       LPPricing.formulate h k (cg_caps C) (cg_options C) (cg_stops C) (cg_duration C) (e_negative E (S j) h) = Ok p ->
       exact_answer p (e_pricer E (S j) (time_remaining C false (e_clock E j)) p)) ->
  exists q, nth_error (rev (s_bounds s')) 0 = Some (Some q) /\
    forall P, serves g (cg_master C) P ->
      (forall k c, In (k, c) P -> (k < cg_types C)%nat /\
         drivable g (cg_options C) (cg_caps C) k (cg_stops C) (cg_duration C) c) ->
      q <= tours_cost g P + (1 # 1000) * inject_Z (Z.of_nat (List.length P)).
Proof. exact lower_bound. Qed.
Print Assumptions C71_lower_bound.

Example C71_case : fresh cg_g netm start_g /\ column_generation env_g cg_g 5 start_g = Ok end_g /\ s_more end_g = false /\
  cg_strategy cg_g <> None /\ cg_cspy cg_g = false /\ network (cg_types cg_g) netm /\
  (forall k, (k < cg_types cg_g)%nat -> mip_data netm (cg_options cg_g) (cg_caps cg_g) k) /\
  (forall st s1 D q, starts env_g cg_g start_g st -> solve_relaxed env_g cg_g st = Ok (s1, D, q) ->
     (exists v, q = Some v /\ dual_solution (cg_master cg_g) (s_master st) (e_duals env_g (S (s_tick st))) v) /\
     forall k h j p, (k < cg_types cg_g)%nat -> add_reduced_cost D k None netm = Ok h ->
       LPPricing.formulate h k (cg_caps cg_g) (cg_options cg_g) (cg_stops cg_g) (cg_duration cg_g) (e_negative env_g (S j) h) = Ok p ->
       exact_answer p (e_pricer env_g (S j) (time_remaining cg_g false (e_clock env_g j)) p)) /\
  nth_error (rev (s_bounds end_g)) 0 = Some (Some 103).
Proof. exact bound_g. Qed.

(* ---- C72 ---- *)
Theorem C72_strategy_always : forall E C g, cg_strategy C = None -> cg_run_exact C <> 0%Z ->
  forall s st s1 D q, fresh C g s -> wf g -> starts E C s st ->
  mo_periodic (cg_master C) = false -> (forall p, ~ drops (cg_master C) p) -> (exists v d, customer g v d) ->
  (forall st, starts E C s st -> let p := program_of (s_master st) in
     sound_answer p (e_master E (S (s_tick st)) p) /\ a_objective (e_master E (S (s_tick st)) p) <> None) ->
  solve_relaxed E C st = Ok (s1, D, q) ->
  exists s2 p, next_strategy E C q s1 = Ok (s2, p).
Proof. exact strategy_always. Qed.
Print Assumptions C72_strategy_always.

(** In general, also when customers may be dropped and while diving: the choice fails exactly when
    no column is in use. *)
Theorem C72_strategy_choice : forall E C g, cg_strategy C = None -> cg_run_exact C <> 0%Z ->
  forall s st s1 D q, fresh C g s -> iteration E C s st ->
  (forall st s1 D q, iteration E C s st -> solve_relaxed E C st = Ok (s1, D, q) -> q <> None) ->
  solve_relaxed E C st = Ok (s1, D, q) ->
  (s_iter st = 0%nat \/ Z.of_nat (s_noimp st) = cg_run_exact C \/ (exists c, In c (s_pool st) /\ 0 < s_values s1 (Y (c_name c))) ->
   exists s2 p, next_strategy E C q s1 = Ok (s2, p)) /\
  ((0 < s_iter st)%nat -> Z.of_nat (s_noimp st) <> cg_run_exact C -> (forall c, In c (s_pool st) -> ~ 0 < s_values s1 (Y (c_name c))) ->
   find_columns E C st = Err ZeroDivisionError).
Proof. exact strategy_choice. Qed.
Print Assumptions C72_strategy_choice.

Example C72_case : fresh cg_k netm start_k /\ wf netm /\ cg_strategy cg_k = None /\ cg_run_exact cg_k <> 0%Z /\
  mo_periodic (cg_master cg_k) = false /\ (forall p, ~ drops (cg_master cg_k) p) /\ (exists v d, customer netm v d) /\
  (forall st, starts env_g cg_k start_k st -> let p := program_of (s_master st) in
     sound_answer p (e_master env_g (S (s_tick st)) p) /\ a_objective (e_master env_g (S (s_tick st)) p) <> None) /\
  exists st, starts env_g cg_k start_k st /\ s_iter st = 1%nat.
Proof. exact hyper_case. Qed.

(* ---- C81 ---- *)
(** [stagnant l n]: the latest value of the relaxation was already found in exactly [n] iterations
    directly before. With a fixed strategy, exact pricing is chosen in exactly the iterations before
    which this number is [run_exact]. What is missing: Hyper. *)
Theorem C81_run_exact_partial : forall E C g s st p0 s1 D q, fresh C g s -> cg_strategy C = Some p0 -> starts E C s st ->
  solve_relaxed E C st = Ok (s1, D, q) ->
  exists n, stagnant (rev (s_bounds st)) n /\ s_noimp st = n /\ s_iter st = List.length (s_bounds st) /\
    (Z.of_nat n = cg_run_exact C -> next_strategy E C q s1 = Ok (s1, Exact)) /\
    (Z.of_nat n <> cg_run_exact C -> next_strategy E C q s1 = Ok (s1, p0)).
Proof. exact stagnation_choice. Qed.
Print Assumptions C81_run_exact_partial.

(** Also at the end: the limit [by_stagnation] of [stopped] means more than 1000 iterations in a row
    without another value. *)
Theorem C81_stagnation : forall E C g f s s', fresh C g s -> cg_strategy C <> None -> column_generation E C f s = Ok s' ->
  stagnant (rev (s_bounds s')) (s_noimp s') /\ s_iter s' = List.length (s_bounds s').
Proof. exact stagnation_end. Qed.
Print Assumptions C81_stagnation.

Example C81_case : exists st s1 D q s2, fresh (cg_s (Some BestEdges1) 2) netm start_g /\
  starts env_s (cg_s (Some BestEdges1) 2) start_g st /\ s_bounds st = [Some 122; Some 122; Some 122] /\
  solve_relaxed env_s (cg_s (Some BestEdges1) 2) st = Ok (s1, D, q) /\
  next_strategy env_s (cg_s (Some BestEdges1) 2) q s1 = Ok (s2, Exact).
Proof. exact stagnation_case. Qed.

(** With Hyper, exact pricing is forced at most once: in the iteration with the number [run_exact],
    counted from 0, if the value did not change in the iteration before. *)
Theorem C81_hyper_once : forall E C g s st, fresh C g s -> cg_strategy C = None -> (0 < cg_run_exact C)%Z -> starts E C s st ->
  Z.of_nat (s_noimp st) = cg_run_exact C ->
  Z.of_nat (List.length (s_bounds st)) = cg_run_exact C /\ (2 <= cg_run_exact C)%Z /\
  exists a b l, rev (s_bounds st) = a :: b :: l /\ same_value a b.
Proof. exact hyper_exact_once. Qed.
Print Assumptions C81_hyper_once.

Example C81_hyper_case : exists st s1 D q s2, fresh (cg_s None 2) netm start_k /\
  starts env_s (cg_s None 2) start_k st /\ Z.of_nat (s_noimp st) = cg_run_exact (cg_s None 2) /\
  s_bounds st = [Some 122; Some 122] /\
  solve_relaxed env_s (cg_s None 2) st = Ok (s1, D, q) /\
  next_strategy env_s (cg_s None 2) q s1 = Ok (s2, Exact).
Proof. exact hyper_once_case. Qed.

(** With the default value of [run_exact] it is never forced. *)
Theorem C81_hyper_never : forall E C g s st, fresh C g s -> cg_strategy C = None -> cg_run_exact C = 1%Z -> starts E C s st ->
  Z.of_nat (s_noimp st) <> cg_run_exact C.
Proof. exact hyper_exact_never. Qed.
Print Assumptions C81_hyper_never.

Theorem C81_hyper_refuted : exists E C g s st s1 D q s2 p, fresh C g s /\ network 1 g /\ cg_strategy C = None /\ cg_run_exact C = 1%Z /\
  starts E C s st /\ stagnant (rev (s_bounds st)) 1 /\
  solve_relaxed E C st = Ok (s1, D, q) /\ next_strategy E C q s1 = Ok (s2, p) /\ p <> Exact.
Proof. exact hyper_ignores. Qed.
Print Assumptions C81_hyper_refuted.
