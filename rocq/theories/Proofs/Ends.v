(** No loop of the model runs out of fuel, except perhaps column generation. *)
From Verif.Base Require Import Prelude Graph.
From Verif.Spec Require Import Routes Network LinProg.
From Verif.Model Require Import Args Reach Checks Preprocess ClarkeWright Greedy Initial Pricing
  GreedyPricing LPPricing Cspy Master Dive Hyper ColGen Post Schedule Solve.

(** The computation ends. *)
Definition finishes {A} (r : res A) : Prop := r <> Err OutOfFuel.

Lemma nf_ok {A} (a : A) : finishes (Ok a). Proof. discriminate. Qed.
Lemma nf_err {A} e : e <> OutOfFuel -> finishes (Err e : res A). Proof. intros H X. apply H. injection X. auto. Qed.
Lemma nf_bind {A B} (r : res A) (f : A -> res B) : finishes r -> (forall a, r = Ok a -> finishes (f a)) -> finishes (bind r f).
Proof. destruct r as [a|e]; intros H K; cbn; [apply K; reflexivity|]. intro X. apply H. injection X as ->. reflexivity. Qed.
Lemma nf_bind' {A B} (r : res A) (f : A -> res B) : finishes r -> (forall a, finishes (f a)) -> finishes (bind r f).
Proof. intros H K. apply nf_bind; auto. Qed.
Lemma nf_raise b e : e <> OutOfFuel -> finishes (raise_if b e).
Proof. intro H. destruct b; [apply nf_err; exact H|apply nf_ok]. Qed.
Lemma nf_opt {A} e (o : option A) : e <> OutOfFuel -> finishes (of_opt e o).
Proof. intro H. destruct o; [apply nf_ok|apply nf_err; exact H]. Qed.
Lemma nf_foldM {A S} (f : S -> A -> res S) l : (forall s a, finishes (f s a)) -> forall s, finishes (foldM f l s).
Proof. intro H. induction l as [|a l IH]; intro s; cbn; [apply nf_ok|]. apply nf_bind'; auto. Qed.
Lemma nf_mapM {A B} (f : A -> res B) l : (forall a, finishes (f a)) -> finishes (mapM f l).
Proof. intro H. induction l as [|a l IH]; cbn; [apply nf_ok|]. apply nf_bind'; [auto|]. intro. apply nf_bind'; [auto|]. intro. apply nf_ok. Qed.
Lemma nf_iterM {A} (f : A -> res unit) l : (forall a, finishes (f a)) -> finishes (iterM f l).
Proof. intro H. induction l as [|a l IH]; cbn; [apply nf_ok|]. apply nf_bind'; auto. Qed.

Lemma nf_get_node N E (g : graph N E) v : finishes (get_node g v). Proof. apply nf_opt. discriminate. Qed.
Lemma nf_get_arc N E (g : graph N E) u v : finishes (get_arc g u v). Proof. apply nf_opt. discriminate. Qed.
Lemma nf_pymax l : finishes (pymax l). Proof. destruct l; discriminate. Qed.
Lemma nf_pymin l : finishes (pymin l). Proof. destruct l; discriminate. Qed.
Lemma nf_zmax l : finishes (zmax l). Proof. destruct l; discriminate. Qed.

Create HintDb nf.
#[export] Hint Resolve nf_get_node nf_get_arc nf_pymax nf_pymin nf_zmax : nf.
Ltac nf_step := fail.
Ltac nf := repeat first
  [ progress intros
  | apply nf_ok
  | (apply nf_err; discriminate)
  | (apply nf_raise; discriminate)
  | (apply nf_opt; discriminate)
  | solve [eauto 3 with nf]
  | apply nf_bind'
  | nf_step
  | apply nf_foldM | apply nf_mapM | apply nf_iterM
  | match goal with |- finishes (match ?x with _ => _ end) => destruct x end
  | progress cbn beta iota zeta delta [fst snd] ].
Lemma nf_Args_py_len : forall x0, finishes (@Args.py_len x0).
Proof. intros. unfold Args.py_len. nf. Qed.
#[export] Hint Resolve nf_Args_py_len : nf.
Lemma nf_Reach_shortest_path_length : forall x0 x1 x2 x3, finishes (@Reach.shortest_path_length x0 x1 x2 x3).
Proof. intros. unfold Reach.shortest_path_length. nf. Qed.
#[export] Hint Resolve nf_Reach_shortest_path_length : nf.
Lemma nf_shortest_from : forall A f n s t, finishes (shortest_from A f n s t).
Proof. induction f as [|f IH]; intros; cbn [shortest_from]; nf. Qed.
#[export] Hint Resolve nf_shortest_from : nf.
Lemma nf_Reach_shortest_path : forall x0 x1 x2, finishes (@Reach.shortest_path x0 x1 x2).
Proof. intros. unfold Reach.shortest_path. nf. Qed.
#[export] Hint Resolve nf_Reach_shortest_path : nf.
Lemma nf_Checks_check_depot : forall x0 x1, finishes (@Checks.check_depot x0 x1).
Proof. intros. unfold Checks.check_depot. nf. Qed.
#[export] Hint Resolve nf_Checks_check_depot : nf.
Lemma nf_Checks_check_vrp : forall x0, finishes (@Checks.check_vrp x0).
Proof. intros. unfold Checks.check_vrp. nf. Qed.
#[export] Hint Resolve nf_Checks_check_vrp : nf.
Lemma nf_Checks_define_vehicle_types : forall x0, finishes (@Checks.define_vehicle_types x0).
Proof. intros. unfold Checks.define_vehicle_types. nf. Qed.
#[export] Hint Resolve nf_Checks_define_vehicle_types : nf.
Lemma nf_Checks_py_items : forall x0, finishes (@Checks.py_items x0).
Proof. intros. unfold Checks.py_items. nf. Qed.
#[export] Hint Resolve nf_Checks_py_items : nf.
Lemma nf_Checks_check_same_len : forall x0 x1, finishes (@Checks.check_same_len x0 x1).
Proof. intros. unfold Checks.check_same_len. nf. Qed.
#[export] Hint Resolve nf_Checks_check_same_len : nf.
Lemma nf_Checks_check_cost_vector : forall x0 x1, finishes (@Checks.check_cost_vector x0 x1).
Proof. intros. unfold Checks.check_cost_vector. nf. Qed.
#[export] Hint Resolve nf_Checks_check_cost_vector : nf.
Lemma nf_Checks_check_arguments : forall x0 x1 x2, finishes (@Checks.check_arguments x0 x1 x2).
Proof. intros. unfold Checks.check_arguments. nf. Qed.
#[export] Hint Resolve nf_Checks_check_arguments : nf.
Lemma nf_Checks_prepare_args : forall x0 x1, finishes (@Checks.prepare_args x0 x1).
Proof. intros. unfold Checks.prepare_args. nf. Qed.
#[export] Hint Resolve nf_Checks_prepare_args : nf.
Lemma nf_Checks_check_clarke_wright_compatibility : forall x0 x1 x2 x3 x4, finishes (@Checks.check_clarke_wright_compatibility x0 x1 x2 x3 x4).
Proof. intros. unfold Checks.check_clarke_wright_compatibility. nf. Qed.
#[export] Hint Resolve nf_Checks_check_clarke_wright_compatibility : nf.
Lemma nf_Checks_first_node : forall x0, finishes (@Checks.first_node x0).
Proof. intros. unfold Checks.first_node. nf. Qed.
#[export] Hint Resolve nf_Checks_first_node : nf.
Lemma nf_Checks_last_node : forall x0, finishes (@Checks.last_node x0).
Proof. intros. unfold Checks.last_node. nf. Qed.
#[export] Hint Resolve nf_Checks_last_node : nf.
Lemma nf_Checks_check_initial_routes : forall x0 x1, finishes (@Checks.check_initial_routes x0 x1).
Proof. intros. unfold Checks.check_initial_routes. nf. Qed.
#[export] Hint Resolve nf_Checks_check_initial_routes : nf.
Lemma nf_Checks_check_preassignments : forall x0 x1, finishes (@Checks.check_preassignments x0 x1).
Proof. intros. unfold Checks.check_preassignments. nf. Qed.
#[export] Hint Resolve nf_Checks_check_preassignments : nf.
Lemma nf_Checks_check_consistency : forall x0 x1 x2, finishes (@Checks.check_consistency x0 x1 x2).
Proof. intros. unfold Checks.check_consistency. nf. Qed.
#[export] Hint Resolve nf_Checks_check_consistency : nf.
Lemma nf_Checks_check_feasibility : forall x0 x1 x2, finishes (@Checks.check_feasibility x0 x1 x2).
Proof. intros. unfold Checks.check_feasibility. nf. Qed.
#[export] Hint Resolve nf_Checks_check_feasibility : nf.
Lemma nf_Checks_check_pickup_delivery_time_windows : forall x0 x1, finishes (@Checks.check_pickup_delivery_time_windows x0 x1).
Proof. intros. unfold Checks.check_pickup_delivery_time_windows. nf. Qed.
#[export] Hint Resolve nf_Checks_check_pickup_delivery_time_windows : nf.
Lemma nf_Preprocess_py_get : forall x0 x1 x2, finishes (@Preprocess.py_get x0 x1 x2).
Proof. intros. unfold Preprocess.py_get. nf. Qed.
#[export] Hint Resolve nf_Preprocess_py_get : nf.
Lemma nf_upd_at : forall A f k l, finishes (@upd_at A f k l).
Proof. intros. unfold upd_at. nf. Qed.
#[export] Hint Resolve nf_upd_at : nf.
Lemma nf_map_arcsM N E E' (f : arc -> E -> res E') (g : graph N E) : (forall a e, finishes (f a e)) -> finishes (map_arcsM f g).
Proof. intros. unfold map_arcsM. apply nf_bind'; [|intros; apply nf_ok]. apply nf_mapM. intros [a e]. apply nf_bind'; [apply H|intros; apply nf_ok]. Qed.
Ltac nf_step ::= apply nf_map_arcsM.
Lemma nf_Preprocess_add_fixed_cost_arc : forall x0 x1 x2, finishes (@Preprocess.add_fixed_cost_arc x0 x1 x2).
Proof. intros. unfold Preprocess.add_fixed_cost_arc. nf. Qed.
#[export] Hint Resolve nf_Preprocess_add_fixed_cost_arc : nf.
Lemma nf_Preprocess_add_fixed_costs : forall x0 x1 x2, finishes (@Preprocess.add_fixed_costs x0 x1 x2).
Proof. intros. unfold Preprocess.add_fixed_costs. nf. Qed.
#[export] Hint Resolve nf_Preprocess_add_fixed_costs : nf.
Lemma nf_Preprocess_zero_arc : forall x0, finishes (@Preprocess.zero_arc x0).
Proof. intros. unfold Preprocess.zero_arc. nf. Qed.
#[export] Hint Resolve nf_Preprocess_zero_arc : nf.
Lemma nf_Preprocess_set_time_to_zero : forall x0, finishes (@Preprocess.set_time_to_zero x0).
Proof. intros. unfold Preprocess.set_time_to_zero. nf. Qed.
#[export] Hint Resolve nf_Preprocess_set_time_to_zero : nf.
Lemma nf_Preprocess_readjust_sink : forall x0, finishes (@Preprocess.readjust_sink x0).
Proof. intros. unfold Preprocess.readjust_sink. nf. Qed.
#[export] Hint Resolve nf_Preprocess_readjust_sink : nf.
Lemma nf_Preprocess_update_dummy_attributes : forall x0 x1, finishes (@Preprocess.update_dummy_attributes x0 x1).
Proof. intros. unfold Preprocess.update_dummy_attributes. nf. Qed.
#[export] Hint Resolve nf_Preprocess_update_dummy_attributes : nf.
Lemma nf_Preprocess_zero_cost : forall x0 x1, finishes (@Preprocess.zero_cost x0 x1).
Proof. intros. unfold Preprocess.zero_cost. nf. Qed.
#[export] Hint Resolve nf_Preprocess_zero_cost : nf.
Lemma nf_Preprocess_zero_arc_cost : forall x0 x1 x2, finishes (@Preprocess.zero_arc_cost x0 x1 x2).
Proof. intros. unfold Preprocess.zero_arc_cost. nf. Qed.
#[export] Hint Resolve nf_Preprocess_zero_arc_cost : nf.
Lemma nf_Preprocess_is_complete : forall x0, finishes (@Preprocess.is_complete x0).
Proof. intros. unfold Preprocess.is_complete. nf. Qed.
#[export] Hint Resolve nf_Preprocess_is_complete : nf.
Lemma nf_Preprocess_lock_route : forall x0 x1 x2, finishes (@Preprocess.lock_route x0 x1 x2).
Proof. intros. unfold Preprocess.lock_route. nf. Qed.
#[export] Hint Resolve nf_Preprocess_lock_route : nf.
Lemma nf_Preprocess_lock : forall x0 x1 x2, finishes (@Preprocess.lock x0 x1 x2).
Proof. intros. unfold Preprocess.lock. nf. Qed.
#[export] Hint Resolve nf_Preprocess_lock : nf.
Lemma nf_Preprocess_remove_infeasible_arcs_capacities : forall x0 x1, finishes (@Preprocess.remove_infeasible_arcs_capacities x0 x1).
Proof. intros. unfold Preprocess.remove_infeasible_arcs_capacities. nf. Qed.
#[export] Hint Resolve nf_Preprocess_remove_infeasible_arcs_capacities : nf.
Lemma nf_Preprocess_strengthen_node : forall x0 x1, finishes (@Preprocess.strengthen_node x0 x1).
Proof. intros. unfold Preprocess.strengthen_node. nf. Qed.
#[export] Hint Resolve nf_Preprocess_strengthen_node : nf.
Lemma nf_Preprocess_tw_step : forall x0 x1, finishes (@Preprocess.tw_step x0 x1).
Proof. intros. unfold Preprocess.tw_step. nf. Qed.
#[export] Hint Resolve nf_Preprocess_tw_step : nf.
Lemma nf_Preprocess_remove_infeasible_arcs_time_windows : forall x0, finishes (@Preprocess.remove_infeasible_arcs_time_windows x0).
Proof. intros. unfold Preprocess.remove_infeasible_arcs_time_windows. nf. Qed.
#[export] Hint Resolve nf_Preprocess_remove_infeasible_arcs_time_windows : nf.
Lemma nf_Preprocess_prune_graph : forall x0 x1 x2, finishes (@Preprocess.prune_graph x0 x1 x2).
Proof. intros. unfold Preprocess.prune_graph. nf. Qed.
#[export] Hint Resolve nf_Preprocess_prune_graph : nf.
Lemma nf_Preprocess_tab_get : forall x0 x1 x2, finishes (@Preprocess.tab_get x0 x1 x2).
Proof. intros. unfold Preprocess.tab_get. nf. Qed.
#[export] Hint Resolve nf_Preprocess_tab_get : nf.
Lemma nf_Preprocess_knap_step : forall x0 x1 x2 x3, finishes (@Preprocess.knap_step x0 x1 x2 x3).
Proof. intros. unfold Preprocess.knap_step. nf. Qed.
#[export] Hint Resolve nf_Preprocess_knap_step : nf.
Lemma nf_Preprocess_knapsack : forall x0 x1, finishes (@Preprocess.knapsack x0 x1).
Proof. intros. unfold Preprocess.knapsack. nf. Qed.
#[export] Hint Resolve nf_Preprocess_knapsack : nf.
Lemma nf_Preprocess_num_stops_upper_bound : forall x0 x1 x2 x3, finishes (@Preprocess.num_stops_upper_bound x0 x1 x2 x3).
Proof. intros. unfold Preprocess.num_stops_upper_bound. nf. Qed.
#[export] Hint Resolve nf_Preprocess_num_stops_upper_bound : nf.
Lemma nf_Preprocess_penalise_empty : forall x0, finishes (@Preprocess.penalise_empty x0).
Proof. intros. unfold Preprocess.penalise_empty. nf. Qed.
#[export] Hint Resolve nf_Preprocess_penalise_empty : nf.
Lemma nf_Preprocess_pre_solve : forall x0 x1 x2, finishes (@Preprocess.pre_solve x0 x1 x2).
Proof. intros. unfold Preprocess.pre_solve. nf. Qed.
#[export] Hint Resolve nf_Preprocess_pre_solve : nf.
Lemma nf_ClarkeWright_first_costs : forall x0, finishes (@ClarkeWright.first_costs x0).
Proof. intros. unfold ClarkeWright.first_costs. nf. Qed.
#[export] Hint Resolve nf_ClarkeWright_first_costs : nf.
Lemma nf_ClarkeWright_scost : forall x0 x1 x2, finishes (@ClarkeWright.scost x0 x1 x2).
Proof. intros. unfold ClarkeWright.scost. nf. Qed.
#[export] Hint Resolve nf_ClarkeWright_scost : nf.
Lemma nf_ClarkeWright_stime : forall x0 x1 x2, finishes (@ClarkeWright.stime x0 x1 x2).
Proof. intros. unfold ClarkeWright.stime. nf. Qed.
#[export] Hint Resolve nf_ClarkeWright_stime : nf.
Lemma nf_ClarkeWright_first_capacity : forall x0, finishes (@ClarkeWright.first_capacity x0).
Proof. intros. unfold ClarkeWright.first_capacity. nf. Qed.
#[export] Hint Resolve nf_ClarkeWright_first_capacity : nf.
Lemma nf_ClarkeWright_remove_edge : forall x0 x1, finishes (@ClarkeWright.remove_edge x0 x1).
Proof. intros. unfold ClarkeWright.remove_edge. nf. Qed.
#[export] Hint Resolve nf_ClarkeWright_remove_edge : nf.
Lemma nf_ClarkeWright_route_id : forall x0 x1, finishes (@ClarkeWright.route_id x0 x1).
Proof. intros. unfold ClarkeWright.route_id. nf. Qed.
#[export] Hint Resolve nf_ClarkeWright_route_id : nf.
Lemma nf_ClarkeWright_route_of : forall x0 x1, finishes (@ClarkeWright.route_of x0 x1).
Proof. intros. unfold ClarkeWright.route_of. nf. Qed.
#[export] Hint Resolve nf_ClarkeWright_route_of : nf.
Lemma nf_ClarkeWright_cw_init_node : forall x0 x1 x2 x3, finishes (@ClarkeWright.cw_init_node x0 x1 x2 x3).
Proof. intros. unfold ClarkeWright.cw_init_node. nf. Qed.
#[export] Hint Resolve nf_ClarkeWright_cw_init_node : nf.
Lemma nf_ClarkeWright_cw_init : forall x0 x1, finishes (@ClarkeWright.cw_init x0 x1).
Proof. intros. unfold ClarkeWright.cw_init. nf. Qed.
#[export] Hint Resolve nf_ClarkeWright_cw_init : nf.
Lemma nf_ClarkeWright_saving : forall x0 x1 x2 x3, finishes (@ClarkeWright.saving x0 x1 x2 x3).
Proof. intros. unfold ClarkeWright.saving. nf. Qed.
#[export] Hint Resolve nf_ClarkeWright_saving : nf.
Lemma nf_ClarkeWright_cw_savings : forall x0 x1, finishes (@ClarkeWright.cw_savings x0 x1).
Proof. intros. unfold ClarkeWright.cw_savings. nf. Qed.
#[export] Hint Resolve nf_ClarkeWright_cw_savings : nf.
Lemma nf_ClarkeWright_ordered_edges : forall x0 x1, finishes (@ClarkeWright.ordered_edges x0 x1).
Proof. intros. unfold ClarkeWright.ordered_edges. nf. Qed.
#[export] Hint Resolve nf_ClarkeWright_ordered_edges : nf.
Lemma nf_ClarkeWright_extra_time : forall x0 x1 x2, finishes (@ClarkeWright.extra_time x0 x1 x2).
Proof. intros. unfold ClarkeWright.extra_time. nf. Qed.
#[export] Hint Resolve nf_ClarkeWright_extra_time : nf.
Lemma nf_ClarkeWright_cw_constraints : forall x0 x1 x2 x3 x4, finishes (@ClarkeWright.cw_constraints x0 x1 x2 x3 x4).
Proof. intros. unfold ClarkeWright.cw_constraints. nf. Qed.
#[export] Hint Resolve nf_ClarkeWright_cw_constraints : nf.
Lemma nf_ClarkeWright_cw_merge : forall x0 x1 x2 x3 x4 x5, finishes (@ClarkeWright.cw_merge x0 x1 x2 x3 x4 x5).
Proof. intros. unfold ClarkeWright.cw_merge. nf. Qed.
#[export] Hint Resolve nf_ClarkeWright_cw_merge : nf.
Lemma nf_ClarkeWright_can_append : forall x0 x1 x2 x3 x4, finishes (@ClarkeWright.can_append x0 x1 x2 x3 x4).
Proof. intros. unfold ClarkeWright.can_append. nf. Qed.
#[export] Hint Resolve nf_ClarkeWright_can_append : nf.
Lemma nf_ClarkeWright_can_prepend : forall x0 x1 x2 x3 x4, finishes (@ClarkeWright.can_prepend x0 x1 x2 x3 x4).
Proof. intros. unfold ClarkeWright.can_prepend. nf. Qed.
#[export] Hint Resolve nf_ClarkeWright_can_prepend : nf.
Lemma nf_ClarkeWright_process_edge : forall x0 x1 x2 x3, finishes (@ClarkeWright.process_edge x0 x1 x2 x3).
Proof. intros. unfold ClarkeWright.process_edge. nf. Qed.
#[export] Hint Resolve nf_ClarkeWright_process_edge : nf.
Lemma nf_ClarkeWright_collect_route : forall x0 x1 x2, finishes (@ClarkeWright.collect_route x0 x1 x2).
Proof. intros. unfold ClarkeWright.collect_route. nf. Qed.
#[export] Hint Resolve nf_ClarkeWright_collect_route : nf.
Lemma nf_ClarkeWright_cw_collect : forall x0 x1, finishes (@ClarkeWright.cw_collect x0 x1).
Proof. intros. unfold ClarkeWright.cw_collect. nf. Qed.
#[export] Hint Resolve nf_ClarkeWright_cw_collect : nf.
Lemma nf_ClarkeWright_cw_run : forall x0 x1 x2 x3, finishes (@ClarkeWright.cw_run x0 x1 x2 x3).
Proof. intros. unfold ClarkeWright.cw_run. nf. Qed.
#[export] Hint Resolve nf_ClarkeWright_cw_run : nf.
Lemma nf_ClarkeWright_clarke_wright : forall x0 x1 x2 x3 x4 x5, finishes (@ClarkeWright.clarke_wright x0 x1 x2 x3 x4 x5).
Proof. intros. unfold ClarkeWright.clarke_wright. nf. Qed.
#[export] Hint Resolve nf_ClarkeWright_clarke_wright : nf.
Lemma nf_list_remove : forall v l, finishes (list_remove v l).
Proof. induction l as [|w l IH]; cbn [list_remove]; nf. Qed.
#[export] Hint Resolve nf_list_remove : nf.
Lemma nf_Greedy_g_check_capacity : forall x0 x1 x2 x3, finishes (@Greedy.g_check_capacity x0 x1 x2 x3).
Proof. intros. unfold Greedy.g_check_capacity. nf. Qed.
#[export] Hint Resolve nf_Greedy_g_check_capacity : nf.
Lemma nf_Greedy_g_check_duration : forall x0 x1 x2 x3 x4, finishes (@Greedy.g_check_duration x0 x1 x2 x3 x4).
Proof. intros. unfold Greedy.g_check_duration. nf. Qed.
#[export] Hint Resolve nf_Greedy_g_check_duration : nf.
Lemma nf_Greedy_g_constraints : forall x0 x1 x2 x3 x4 x5, finishes (@Greedy.g_constraints x0 x1 x2 x3 x4 x5).
Proof. intros. unfold Greedy.g_constraints. nf. Qed.
#[export] Hint Resolve nf_Greedy_g_constraints : nf.
Lemma nf_Greedy_g_next : forall x0 x1 x2, finishes (@Greedy.g_next x0 x1 x2).
Proof. intros. unfold Greedy.g_next. nf. Qed.
#[export] Hint Resolve nf_Greedy_g_next : nf.
Lemma nf_Greedy_g_update : forall x0 x1 x2 x3, finishes (@Greedy.g_update x0 x1 x2 x3).
Proof. intros. unfold Greedy.g_update. nf. Qed.
#[export] Hint Resolve nf_Greedy_g_update : nf.
Lemma next_todo g lim s v : g_next g lim s = Ok v -> v = Sink \/ In v (gs_todo s).
Proof.
  unfold g_next. destruct (gs_path s) as [p|]; [|discriminate]. intro H.
  apply bind_ok in H. destruct H as (u & _ & H). apply bind_ok in H. destruct H as (out & H1 & H2).
  assert (A : forall x, In x out -> In (fst x) (gs_todo s)).
  { revert H1. apply (foldM_inv _ (fun acc => forall x, In x acc -> In (fst x) (gs_todo s))); [|intros x []].
    intros acc w acc' _ IH Hs. apply bind_ok in Hs. destruct Hs as (ok & _ & Hs).
    destruct (ok && mem w (gs_todo s)) eqn:E; [|injection Hs as <-; exact IH].
    apply bind_ok in Hs. destruct Hs as (c & _ & Hs). injection Hs as <-.
    intros x Hx. apply in_app_or in Hx. destruct Hx as [Hx|[<-|[]]]; [auto|]. cbn. apply andb_true_iff in E. apply mem_In. tauto. }
  destruct (sorted_asc snd out) as [|[w c] t] eqn:E; injection H2 as <-; [auto|]. right.
  apply (A (w, c)). apply (Permutation_in (l := sorted_asc snd out)); [apply Permutation_sym, sorted_asc_perm|]. rewrite E. left. reflexivity.
Qed.
Lemma remove_length v l l' : list_remove v l = Ok l' -> List.length l = S (List.length l') /\ incl l' l.
Proof.
  revert l'. induction l as [|w l IH]; intros l' H; cbn in H; [discriminate|].
  destruct (node_eqb w v); [injection H as <-; split; [reflexivity|intros x Hx; right; exact Hx]|].
  apply bind_ok in H. destruct H as (t & H1 & H2). injection H2 as <-. destruct (IH _ H1) as [A B]. cbn. split; [lia|].
  intros x [->|Hx]; [left; reflexivity|right; auto].
Qed.
Lemma update_todo g lim s v r : g_update g lim s v = Ok r ->
  (is_depot v = true /\ gs_todo (fst r) = gs_todo s \/
   is_depot v = false /\ List.length (gs_todo s) = S (List.length (gs_todo (fst r))) /\ incl (gs_todo (fst r)) (gs_todo s)) /\
  (v = Sink -> snd r = Sink /\ gs_path (fst r) = option_map (fun p => p ++ [Sink]) (gs_path s)).
Proof.
  unfold g_update. destruct (gs_path s) as [p|]; [|discriminate]. intro H.
  apply bind_ok in H. destruct H as (d & _ & H). apply bind_ok in H. destruct H as (u & _ & H).
  apply bind_ok in H. destruct H as (todo & T & H). apply bind_ok in H. destruct H as (c & _ & H).
  apply bind_ok in H. destruct H as (t & _ & H).
  assert (X : is_depot v = true /\ todo = gs_todo s \/
     is_depot v = false /\ List.length (gs_todo s) = S (List.length todo) /\ incl todo (gs_todo s)).
  { destruct (is_depot v); [injection T as <-; auto|]. right. split; [reflexivity|]. apply remove_length in T. exact T. }
  destruct (_ && negb (node_eqb v Sink)) eqn:E.
  - assert (v <> Sink). { intros ->. rewrite andb_comm in E. discriminate. }
    destruct (has_arc g v Sink).
    + apply bind_ok in H. destruct H as (c' & _ & H). injection H as <-. cbn. tauto.
    + injection H as <-. cbn. tauto.
  - injection H as <-. cbn. split; [exact X|]. intros ->. auto.
Qed.
Lemma nf_g_forward g lim : forall f s, (forall v, In v (gs_todo s) -> is_depot v = false) ->
  (List.length (gs_todo s) < f)%nat -> finishes (g_forward g lim f s).
Proof.
  induction f as [|f IH]; intros s D L; [lia|]. cbn [g_forward].
  apply nf_bind; [nf|]. intros v Hv. apply nf_bind; [nf|]. intros r Hr.
  destruct (node_eqb (snd r) Sink) eqn:E; [nf|].
  destruct (update_todo _ _ _ _ _ Hr) as [U1 U2]. destruct (next_todo _ _ _ _ Hv) as [-> |Hin].
  { destruct (U2 eq_refl) as [X _]. rewrite X in E. discriminate. }
  destruct U1 as [[U1 _]|(U0 & U1 & U3)]; [rewrite (D v Hin) in U1; discriminate|].
  apply IH; [intros w Hw; apply D, U3, Hw|lia].
Qed.
Lemma forward_todo g lim : forall f s s1, g_forward g lim f s = Ok s1 -> (forall v, In v (gs_todo s) -> is_depot v = false) ->
  incl (gs_todo s1) (gs_todo s) /\ (List.length (gs_todo s1) <= List.length (gs_todo s))%nat /\
  (gs_path s = Some [Source] -> is_source_sink (gs_path s1) = false -> (List.length (gs_todo s1) < List.length (gs_todo s))%nat).
Proof.
  induction f as [|f IH]; intros s s1 H D; cbn [g_forward] in H; [discriminate|].
  apply bind_ok in H. destruct H as (v & Hv & H). apply bind_ok in H. destruct H as (r & Hr & H).
  destruct (update_todo _ _ _ _ _ Hr) as [U1 U2]. destruct (next_todo _ _ _ _ Hv) as [-> |Hin].
  - destruct (U2 eq_refl) as [X Y]. rewrite X in H. cbn in H. injection H as <-.
    destruct U1 as [[_ ->]|[U1 _]]; [|discriminate]. split; [apply incl_refl|]. split; [lia|]. intros P Q. rewrite Y, P in Q. discriminate.
  - destruct U1 as [[U1 _]|(U0 & U1 & U3)]; [rewrite (D v Hin) in U1; discriminate|].
    destruct (node_eqb (snd r) Sink); [injection H as <-; split; [exact U3|split; lia]|].
    apply IH in H; [|intros w Hw; apply D, U3, Hw]. destruct H as (A & B & _). split; [eapply incl_tran; eassumption|split; lia].
Qed.
Lemma nf_g_run g lim : forall f rs s, (forall v, In v (gs_todo s) -> is_depot v = false) ->
  (List.length (gs_todo s) < f)%nat -> finishes (g_run g lim f rs s).
Proof.
  induction f as [|f IH]; intros rs s D L; [lia|]. cbn [g_run]. destruct (gs_todo s) as [|w t] eqn:T; [nf|].
  rewrite <- T in *. apply nf_bind; [apply nf_g_forward; [exact D|cbn; lia]|]. intros s1 H1.
  apply forward_todo in H1; [|exact D]. cbn [gs_todo gs_path] in H1. destruct H1 as (A & B & F).
  destruct (is_source_sink (gs_path s1)) eqn:E; [nf|]. apply IH; [intros v Hv; apply D, A, Hv|]. specialize (F eq_refl eq_refl). lia.
Qed.
Lemma custs_customers (g : vgraph) v : In v (custs g) -> is_depot v = false.
Proof. unfold custs. rewrite filter_In. intros [_ H]. unfold is_cust in H. destruct v; cbn in *; auto; discriminate. Qed.
Lemma nf_greedy_heuristic g c n d : finishes (greedy_heuristic g c n d).
Proof.
  unfold greedy_heuristic. apply nf_bind'; [nf|]. intro g1. apply nf_bind'; [nf|]. intro c1.
  apply nf_bind'; [|nf]. apply nf_g_run; cbn [gs_todo]; [apply custs_customers|lia].
Qed.
#[export] Hint Resolve nf_greedy_heuristic : nf.
Lemma nf_Initial_initial_cost : forall x0 x1, finishes (@Initial.initial_cost x0 x1).
Proof. intros. unfold Initial.initial_cost. nf. Qed.
#[export] Hint Resolve nf_Initial_initial_cost : nf.
Lemma nf_first_type_from : forall g r l k, finishes (first_type_from g r k l).
Proof. induction l as [|c l IH]; intros; cbn [first_type_from]; nf. Qed.
#[export] Hint Resolve nf_first_type_from : nf.
Lemma nf_Initial_initial_type : forall x0 x1 x2, finishes (@Initial.initial_type x0 x1 x2).
Proof. intros. unfold Initial.initial_type. nf. Qed.
#[export] Hint Resolve nf_Initial_initial_type : nf.
Lemma nf_initial_column : forall g caps id r, finishes (initial_column g caps id r).
Proof. intros. unfold initial_column. nf. Qed.
#[export] Hint Resolve nf_initial_column : nf.
Lemma nf_convert_from : forall g caps rs id, finishes (convert_from g caps id rs).
Proof. induction rs as [|r rs IH]; intros; cbn [convert_from]; nf. Qed.
#[export] Hint Resolve nf_convert_from : nf.
Lemma nf_Initial_convert_initial_routes : forall x0 x1 x2, finishes (@Initial.convert_initial_routes x0 x1 x2).
Proof. intros. unfold Initial.convert_initial_routes. nf. Qed.
#[export] Hint Resolve nf_Initial_convert_initial_routes : nf.
Lemma nf_Initial_cw_runs : forall x0 x1 x2 x3 x4, finishes (@Initial.cw_runs x0 x1 x2 x3 x4).
Proof. intros. unfold Initial.cw_runs. nf. Qed.
#[export] Hint Resolve nf_Initial_cw_runs : nf.
Lemma nf_Initial_pickup_routes : forall x0 x1, finishes (@Initial.pickup_routes x0 x1).
Proof. intros. unfold Initial.pickup_routes. nf. Qed.
#[export] Hint Resolve nf_Initial_pickup_routes : nf.
Lemma nf_Initial_get_initial_solution : forall x0 x1 x2 x3 x4 x5 x6, finishes (@Initial.get_initial_solution x0 x1 x2 x3 x4 x5 x6).
Proof. intros. unfold Initial.get_initial_solution. nf. Qed.
#[export] Hint Resolve nf_Initial_get_initial_solution : nf.
Lemma nf_Initial_initialize : forall x0 x1 x2 x3 x4 x5 x6 x7, finishes (@Initial.initialize x0 x1 x2 x3 x4 x5 x6 x7).
Proof. intros. unfold Initial.initialize. nf. Qed.
#[export] Hint Resolve nf_Initial_initialize : nf.
Lemma nf_Initial_solve_with_clarke_wright : forall x0 x1 x2 x3 x4 x5 x6, finishes (@Initial.solve_with_clarke_wright x0 x1 x2 x3 x4 x5 x6).
Proof. intros. unfold Initial.solve_with_clarke_wright. nf. Qed.
#[export] Hint Resolve nf_Initial_solve_with_clarke_wright : nf.
Lemma nf_Pricing_reduced_weight : forall x0 x1 x2 x3 x4, finishes (@Pricing.reduced_weight x0 x1 x2 x3 x4).
Proof. intros. unfold Pricing.reduced_weight. nf. Qed.
#[export] Hint Resolve nf_Pricing_reduced_weight : nf.
Lemma nf_Pricing_add_reduced_cost : forall x0 x1 x2 x3, finishes (@Pricing.add_reduced_cost x0 x1 x2 x3).
Proof. intros. unfold Pricing.add_reduced_cost. nf. Qed.
#[export] Hint Resolve nf_Pricing_add_reduced_cost : nf.
Lemma nf_Pricing_arc_cost : forall x0 x1 x2, finishes (@Pricing.arc_cost x0 x1 x2).
Proof. intros. unfold Pricing.arc_cost. nf. Qed.
#[export] Hint Resolve nf_Pricing_arc_cost : nf.
Lemma nf_Pricing_remove_edges_1 : forall x0 x1 x2 x3, finishes (@Pricing.remove_edges_1 x0 x1 x2 x3).
Proof. intros. unfold Pricing.remove_edges_1. nf. Qed.
#[export] Hint Resolve nf_Pricing_remove_edges_1 : nf.
Lemma nf_Pricing_remove_edges_3 : forall x0 x1 x2, finishes (@Pricing.remove_edges_3 x0 x1 x2).
Proof. intros. unfold Pricing.remove_edges_3. nf. Qed.
#[export] Hint Resolve nf_Pricing_remove_edges_3 : nf.
Lemma nf_Pricing_pricing_graph : forall x0 x1 x2 x3 x4, finishes (@Pricing.pricing_graph x0 x1 x2 x3 x4).
Proof. intros. unfold Pricing.pricing_graph. nf. Qed.
#[export] Hint Resolve nf_Pricing_pricing_graph : nf.
Lemma nf_GreedyPricing_arc_time : forall x0 x1, finishes (@GreedyPricing.arc_time x0 x1).
Proof. intros. unfold GreedyPricing.arc_time. nf. Qed.
#[export] Hint Resolve nf_GreedyPricing_arc_time : nf.
Lemma nf_GreedyPricing_arc_weight : forall x0 x1, finishes (@GreedyPricing.arc_weight x0 x1).
Proof. intros. unfold GreedyPricing.arc_weight. nf. Qed.
#[export] Hint Resolve nf_GreedyPricing_arc_weight : nf.
Lemma nf_GreedyPricing_p_check_capacity : forall x0 x1 x2 x3 x4, finishes (@GreedyPricing.p_check_capacity x0 x1 x2 x3 x4).
Proof. intros. unfold GreedyPricing.p_check_capacity. nf. Qed.
#[export] Hint Resolve nf_GreedyPricing_p_check_capacity : nf.
Lemma nf_GreedyPricing_p_check_duration : forall x0 x1 x2 x3 x4 x5, finishes (@GreedyPricing.p_check_duration x0 x1 x2 x3 x4 x5).
Proof. intros. unfold GreedyPricing.p_check_duration. nf. Qed.
#[export] Hint Resolve nf_GreedyPricing_p_check_duration : nf.
Lemma nf_GreedyPricing_p_constraints : forall x0 x1 x2 x3 x4 x5 x6 x7, finishes (@GreedyPricing.p_constraints x0 x1 x2 x3 x4 x5 x6 x7).
Proof. intros. unfold GreedyPricing.p_constraints. nf. Qed.
#[export] Hint Resolve nf_GreedyPricing_p_constraints : nf.
Lemma nf_GreedyPricing_path_end : forall x0 x1, finishes (@GreedyPricing.path_end x0 x1).
Proof. intros. unfold GreedyPricing.path_end. nf. Qed.
#[export] Hint Resolve nf_GreedyPricing_path_end : nf.
Lemma nf_GreedyPricing_p_extend : forall x0 x1 x2 x3 x4 x5 x6, finishes (@GreedyPricing.p_extend x0 x1 x2 x3 x4 x5 x6).
Proof. intros. unfold GreedyPricing.p_extend. nf. Qed.
#[export] Hint Resolve nf_GreedyPricing_p_extend : nf.
Lemma nf_GreedyPricing_p_update : forall x0 x1 x2 x3 x4, finishes (@GreedyPricing.p_update x0 x1 x2 x3 x4).
Proof. intros. unfold GreedyPricing.p_update. nf. Qed.
#[export] Hint Resolve nf_GreedyPricing_p_update : nf.
Lemma extend_new h caps dur k s fw pick v : p_extend h caps dur k s fw pick = Ok (Some v) -> ~ In v (ps_path s).
Proof.
  unfold p_extend. intro H. apply bind_ok in H. destruct H as (u & _ & H). apply bind_ok in H. destruct H as (out & H1 & H2).
  assert (A : forall x, In x out -> ~ In (fst x) (ps_path s)).
  { revert H1. apply (foldM_inv _ (fun acc => forall x, In x acc -> ~ In (fst x) (ps_path s))); [|intros x []].
    intros acc w acc' _ IH Hs. apply bind_ok in Hs. destruct Hs as (ok & Hok & Hs).
    destruct ok; [|injection Hs as <-; exact IH].
    apply bind_ok in Hs. destruct Hs as (c & _ & Hs). injection Hs as <-.
    intros x Hx. apply in_app_or in Hx. destruct Hx as [Hx|[<-|[]]]; [auto|]. cbn.
    unfold p_constraints in Hok. destruct (mem w (ps_path s)) eqn:M; [discriminate|]. intro I. apply mem_In in I. congruence. }
  set (l := firstn 5 (map fst (sorted_asc snd out))) in *.
  assert (B : forall x, In x l -> ~ In x (ps_path s)).
  { intros x Hx. assert (Hx2 : In x (map fst (sorted_asc snd out))).
    { rewrite <- (firstn_skipn 5). apply in_or_app. left. exact Hx. }
    apply in_map_iff in Hx2. destruct Hx2 as (y & <- & Hy). apply A.
    apply (Permutation_in (l := sorted_asc snd out)); [apply Permutation_sym, sorted_asc_perm|exact Hy]. }
  cbv zeta in H2. destruct l as [|x t] eqn:El; [discriminate|]. injection H2 as <-. apply B.
  exact (nth_In (x :: t) x (Nat.mod_upper_bound pick (List.length (x :: t)) ltac:(discriminate))).
Qed.
Lemma p_update_path h ns s fw v s1 new : p_update h ns s fw v = Ok (s1, new, true) ->
  In v (nodes h) /\ (forall w, In w (ps_path s) \/ w = v -> In w (ps_path s1)).
Proof.
  unfold p_update. intro H. apply bind_ok in H. destruct H as (u & _ & H). apply bind_ok in H. destruct H as (d & Hd & H).
  apply bind_ok in H. destruct H as (w & _ & H). apply bind_ok in H. destruct H as (t & _ & H). cbv zeta in H. split.
  { unfold get_node in Hd. destruct (node_data h v) eqn:E; [|discriminate]. apply node_data_In. exists n. exact E. }
  destruct (_ && _).
  - destruct fw; destruct (mem _ _); discriminate.
  - injection H as <- <- _. cbn [ps_path]. intros x [Hx| ->]; destruct fw; try (apply in_or_app); cbn; auto.
Qed.
Lemma nf_p_loop h caps ns dur k fw : forall f s pick,
  (List.length (filter (fun v => negb (mem v (ps_path s))) (nodes h)) < f)%nat -> finishes (p_loop h caps ns dur k f s fw pick).
Proof.
  induction f as [|f IH]; intros s pick L; [lia|]. cbn [p_loop].
  apply nf_bind; [nf|]. intros nv Hn. destruct nv as [v|]; [|nf]. destruct (negb (node_truthy v)); [nf|].
  apply nf_bind; [nf|]. intros [[s1 new] ext] Hu. destruct ext; [|nf]. apply IH.
  apply extend_new in Hn. destruct (p_update_path _ _ _ _ _ _ _ Hu) as [Hv Hp].
  eapply Nat.lt_le_trans; [|apply Nat.lt_succ_r; exact L]. clear - Hn Hv Hp.
  induction (nodes h) as [|w l IHl]; [destruct Hv|]. cbn [filter].
  assert (LE : (List.length (filter (fun v => negb (mem v (ps_path s1))) l) <= List.length (filter (fun v => negb (mem v (ps_path s))) l))%nat).
  { clear - Hp. induction l as [|x l IH]; [cbn; lia|]. cbn [filter]. destruct (mem x (ps_path s)) eqn:M.
    - assert (mem x (ps_path s1) = true) as -> by (apply mem_In, Hp; left; apply mem_In; exact M). exact IH.
    - destruct (mem x (ps_path s1)); cbn; lia. }
  destruct Hv as [->|Hv].
  - assert (mem v (ps_path s1) = true) as -> by (apply mem_In, Hp; right; reflexivity).
    assert (mem v (ps_path s) = false) as -> by (apply mem_false; exact Hn). cbn. lia.
  - specialize (IHl Hv). destruct (mem w (ps_path s)) eqn:M.
    + assert (mem w (ps_path s1) = true) as -> by (apply mem_In, Hp; left; apply mem_In; exact M). exact IHl.
    + destruct (mem w (ps_path s1)); cbn; lia.
Qed.
Lemma nf_p_run h caps ns dur k fw pick : finishes (p_run h caps ns dur k fw pick).
Proof.
  unfold p_run. apply nf_p_loop. apply Nat.lt_succ_r. generalize (nodes h). intro l.
  induction l as [|v l IH]; [cbn; lia|]. cbn [filter]. destruct (negb _); cbn [List.length]; lia.
Qed.
#[export] Hint Resolve nf_p_run : nf.
Lemma nf_GreedyPricing_p_new_route : forall x0 x1 x2 x3 x4, finishes (@GreedyPricing.p_new_route x0 x1 x2 x3 x4).
Proof. intros. unfold GreedyPricing.p_new_route. nf. Qed.
#[export] Hint Resolve nf_GreedyPricing_p_new_route : nf.
Lemma nf_p_attempt : forall h caps ns dur k keys fw s pick, finishes (p_attempt h caps ns dur k keys fw s pick).
Proof. intros. unfold p_attempt. nf. Qed.
#[export] Hint Resolve nf_p_attempt : nf.
Lemma nf_greedy_pricing : forall h caps ns dur k keys rs n rnd, finishes (greedy_pricing h caps ns dur k keys rs n rnd).
Proof. intros. unfold greedy_pricing. nf. Qed.
#[export] Hint Resolve nf_greedy_pricing : nf.
Lemma nf_LPPricing_capacity_at : forall x0 x1, finishes (@LPPricing.capacity_at x0 x1).
Proof. intros. unfold LPPricing.capacity_at. nf. Qed.
#[export] Hint Resolve nf_LPPricing_capacity_at : nf.
Lemma nf_LPPricing_depot_rows : forall x0, finishes (@LPPricing.depot_rows x0).
Proof. intros. unfold LPPricing.depot_rows. nf. Qed.
#[export] Hint Resolve nf_LPPricing_depot_rows : nf.
Lemma nf_LPPricing_load_rows : forall x0 x1 x2, finishes (@LPPricing.load_rows x0 x1 x2).
Proof. intros. unfold LPPricing.load_rows. nf. Qed.
#[export] Hint Resolve nf_LPPricing_load_rows : nf.
Lemma nf_LPPricing_request_rows : forall x0, finishes (@LPPricing.request_rows x0).
Proof. intros. unfold LPPricing.request_rows. nf. Qed.
#[export] Hint Resolve nf_LPPricing_request_rows : nf.
Lemma nf_LPPricing_formulate : forall x0 x1 x2 x3 x4 x5 x6, finishes (@LPPricing.formulate x0 x1 x2 x3 x4 x5 x6).
Proof. intros. unfold LPPricing.formulate. nf. Qed.
#[export] Hint Resolve nf_LPPricing_formulate : nf.
Lemma nf_LPPricing_lp_new_route : forall x0 x1 x2 x3 x4, finishes (@LPPricing.lp_new_route x0 x1 x2 x3 x4).
Proof. intros. unfold LPPricing.lp_new_route. nf. Qed.
#[export] Hint Resolve nf_LPPricing_lp_new_route : nf.
Lemma nf_LPPricing_lp_solve : forall x0 x1 x2 x3 x4 x5 x6 x7 x8 x9 x10 x11 x12, finishes (@LPPricing.lp_solve x0 x1 x2 x3 x4 x5 x6 x7 x8 x9 x10 x11 x12).
Proof. intros. unfold LPPricing.lp_solve. nf. Qed.
#[export] Hint Resolve nf_LPPricing_lp_solve : nf.
Lemma nf_Cspy_ref_fwd : forall x0 x1 x2 x3 x4, finishes (@Cspy.ref_fwd x0 x1 x2 x3 x4).
Proof. intros. unfold Cspy.ref_fwd. nf. Qed.
#[export] Hint Resolve nf_Cspy_ref_fwd : nf.
Lemma nf_Cspy_ref_default : forall x0 x1 x2 x3 x4, finishes (@Cspy.ref_default x0 x1 x2 x3 x4).
Proof. intros. unfold Cspy.ref_default. nf. Qed.
#[export] Hint Resolve nf_Cspy_ref_default : nf.
Lemma nf_Cspy_limits : forall x0 x1 x2 x3 x4 x5, finishes (@Cspy.limits x0 x1 x2 x3 x4 x5).
Proof. intros. unfold Cspy.limits. nf. Qed.
#[export] Hint Resolve nf_Cspy_limits : nf.
Lemma nf_Cspy_cspy_new_route : forall x0 x1 x2 x3 x4, finishes (@Cspy.cspy_new_route x0 x1 x2 x3 x4).
Proof. intros. unfold Cspy.cspy_new_route. nf. Qed.
#[export] Hint Resolve nf_Cspy_cspy_new_route : nf.
Lemma nf_cspy_loop : forall g h k caps o dur alg keys s m rs, finishes (cspy_loop g h k caps o dur alg keys m rs s).
Proof. induction s as [|e s IH]; intros; cbn [cspy_loop]; nf. Qed.
#[export] Hint Resolve nf_cspy_loop : nf.
Lemma nf_Cspy_cspy_solve : forall x0 x1 x2 x3 x4 x5 x6 x7 x8 x9 x10 x11, finishes (@Cspy.cspy_solve x0 x1 x2 x3 x4 x5 x6 x7 x8 x9 x10 x11).
Proof. intros. unfold Cspy.cspy_solve. nf. Qed.
#[export] Hint Resolve nf_Cspy_cspy_solve : nf.
Lemma nf_Master_fleet_size : forall x0, finishes (@Master.fleet_size x0).
Proof. intros. unfold Master.fleet_size. nf. Qed.
#[export] Hint Resolve nf_Master_fleet_size : nf.
Lemma nf_Master_row_at : forall x0 x1, finishes (@Master.row_at x0 x1).
Proof. intros. unfold Master.row_at. nf. Qed.
#[export] Hint Resolve nf_Master_row_at : nf.
Lemma nf_Master_fleet_coefs : forall x0 x1 x2, finishes (@Master.fleet_coefs x0 x1 x2).
Proof. intros. unfold Master.fleet_coefs. nf. Qed.
#[export] Hint Resolve nf_Master_fleet_coefs : nf.
Lemma nf_Master_visit_coefs : forall x0 x1, finishes (@Master.visit_coefs x0 x1).
Proof. intros. unfold Master.visit_coefs. nf. Qed.
#[export] Hint Resolve nf_Master_visit_coefs : nf.
Lemma nf_Master_route_variable : forall x0 x1 x2, finishes (@Master.route_variable x0 x1 x2).
Proof. intros. unfold Master.route_variable. nf. Qed.
#[export] Hint Resolve nf_Master_route_variable : nf.
Lemma nf_Master_span_row : forall x0 x1, finishes (@Master.span_row x0 x1).
Proof. intros. unfold Master.span_row. nf. Qed.
#[export] Hint Resolve nf_Master_span_row : nf.
Lemma nf_Master_span_route_variable : forall x0 x1 x2, finishes (@Master.span_route_variable x0 x1 x2).
Proof. intros. unfold Master.span_route_variable. nf. Qed.
#[export] Hint Resolve nf_Master_span_route_variable : nf.
Lemma nf_Master_new_variable : forall x0 x1 x2, finishes (@Master.new_variable x0 x1 x2).
Proof. intros. unfold Master.new_variable. nf. Qed.
#[export] Hint Resolve nf_Master_new_variable : nf.
Lemma nf_Master_drop_variables : forall x0 x1 x2, finishes (@Master.drop_variables x0 x1 x2).
Proof. intros. unfold Master.drop_variables. nf. Qed.
#[export] Hint Resolve nf_Master_drop_variables : nf.
Lemma nf_Master_dummy_variables : forall x0 x1 x2, finishes (@Master.dummy_variables x0 x1 x2).
Proof. intros. unfold Master.dummy_variables. nf. Qed.
#[export] Hint Resolve nf_Master_dummy_variables : nf.
Lemma nf_Master_extra_variables : forall x0 x1, finishes (@Master.extra_variables x0 x1).
Proof. intros. unfold Master.extra_variables. nf. Qed.
#[export] Hint Resolve nf_Master_extra_variables : nf.
Lemma nf_Master_span_variables : forall x0 x1, finishes (@Master.span_variables x0 x1).
Proof. intros. unfold Master.span_variables. nf. Qed.
#[export] Hint Resolve nf_Master_span_variables : nf.
Lemma nf_Master_formulate : forall x0 x1 x2, finishes (@Master.formulate x0 x1 x2).
Proof. intros. unfold Master.formulate. nf. Qed.
#[export] Hint Resolve nf_Master_formulate : nf.
Lemma nf_Master_update : forall x0 x1 x2, finishes (@Master.update x0 x1 x2).
Proof. intros. unfold Master.update. nf. Qed.
#[export] Hint Resolve nf_Master_update : nf.
Lemma nf_Master_get_duals : forall x0 x1 x2 x3 x4, finishes (@Master.get_duals x0 x1 x2 x3 x4).
Proof. intros. unfold Master.get_duals. nf. Qed.
#[export] Hint Resolve nf_Master_get_duals : nf.
Lemma nf_Master_solve_master : forall x0 x1 x2 x3 x4 x5 x6, finishes (@Master.solve_master x0 x1 x2 x3 x4 x5 x6).
Proof. intros. unfold Master.solve_master. nf. Qed.
#[export] Hint Resolve nf_Master_solve_master : nf.
Lemma nf_Master_get_total_cost_and_routes : forall x0 x1 x2 x3 x4, finishes (@Master.get_total_cost_and_routes x0 x1 x2 x3 x4).
Proof. intros. unfold Master.get_total_cost_and_routes. nf. Qed.
#[export] Hint Resolve nf_Master_get_total_cost_and_routes : nf.
Lemma nf_dive_loop : forall resolve p vars start n i run tabu added x d, finishes (dive_loop resolve p vars start n i run tabu added x d).
Proof. induction n as [|n IH]; intros; cbn [dive_loop]; nf. Qed.
#[export] Hint Resolve nf_dive_loop : nf.
Lemma nf_Dive_run_dive : forall x0 x1 x2 x3 x4, finishes (@Dive.run_dive x0 x1 x2 x3 x4).
Proof. intros. unfold Dive.run_dive. nf. Qed.
#[export] Hint Resolve nf_Dive_run_dive : nf.
Lemma nf_Dive_solve_and_dive : forall x0 x1 x2 x3 x4 x5 x6 x7 x8 x9 x10, finishes (@Dive.solve_and_dive x0 x1 x2 x3 x4 x5 x6 x7 x8 x9 x10).
Proof. intros. unfold Dive.solve_and_dive. nf. Qed.
#[export] Hint Resolve nf_Dive_solve_and_dive : nf.
Lemma nf_Hyper_current_performance : forall x0 x1 x2 x3 x4 x5 x6, finishes (@Hyper.current_performance x0 x1 x2 x3 x4 x5 x6).
Proof. intros. unfold Hyper.current_performance. nf. Qed.
#[export] Hint Resolve nf_Hyper_current_performance : nf.
Lemma nf_Hyper_quality : forall x0 x1, finishes (@Hyper.quality x0 x1).
Proof. intros. unfold Hyper.quality. nf. Qed.
#[export] Hint Resolve nf_Hyper_quality : nf.
Lemma nf_Hyper_update_parameters : forall x0, finishes (@Hyper.update_parameters x0).
Proof. intros. unfold Hyper.update_parameters. nf. Qed.
#[export] Hint Resolve nf_Hyper_update_parameters : nf.
Lemma nf_ColGen_subproblem : forall x0 x1 x2 x3 x4 x5 x6, finishes (@ColGen.subproblem x0 x1 x2 x3 x4 x5 x6).
Proof. intros. unfold ColGen.subproblem. nf. Qed.
#[export] Hint Resolve nf_ColGen_subproblem : nf.
Lemma nf_attempts : forall E C D k r ps s, finishes (attempts E C D k r ps s).
Proof. induction ps as [|p ps IH]; intros; cbn [attempts]; nf. Qed.
#[export] Hint Resolve nf_attempts : nf.
Lemma nf_ColGen_attempt : forall x0 x1 x2 x3 x4 x5 x6, finishes (@ColGen.attempt x0 x1 x2 x3 x4 x5 x6).
Proof. intros. unfold ColGen.attempt. nf. Qed.
#[export] Hint Resolve nf_ColGen_attempt : nf.
Lemma nf_ColGen_solve_subproblem : forall x0 x1 x2 x3 x4 x5 x6, finishes (@ColGen.solve_subproblem x0 x1 x2 x3 x4 x5 x6).
Proof. intros. unfold ColGen.solve_subproblem. nf. Qed.
#[export] Hint Resolve nf_ColGen_solve_subproblem : nf.
Lemma nf_per_route : forall E C p D k rs s, finishes (ColGen.per_route E C p D k rs s).
Proof. induction rs as [|r rs IH]; intros; cbn [ColGen.per_route]; nf. Qed.
#[export] Hint Resolve nf_per_route : nf.
Lemma nf_ColGen_greedy_step : forall x0 x1 x2 x3 x4, finishes (@ColGen.greedy_step x0 x1 x2 x3 x4).
Proof. intros. unfold ColGen.greedy_step. nf. Qed.
#[export] Hint Resolve nf_ColGen_greedy_step : nf.
Lemma nf_ColGen_adopt : forall x0 x1 x2, finishes (@ColGen.adopt x0 x1 x2).
Proof. intros. unfold ColGen.adopt. nf. Qed.
#[export] Hint Resolve nf_ColGen_adopt : nf.
Lemma nf_vehicles : forall E C p D ks s, finishes (vehicles E C p D ks s).
Proof. induction ks as [|k ks IH]; intros; cbn [vehicles]; nf. Qed.
#[export] Hint Resolve nf_vehicles : nf.
Lemma nf_ColGen_heuristic_distribution : forall x0 x1 x2, finishes (@ColGen.heuristic_distribution x0 x1 x2).
Proof. intros. unfold ColGen.heuristic_distribution. nf. Qed.
#[export] Hint Resolve nf_ColGen_heuristic_distribution : nf.
Lemma nf_ColGen_update_hyper : forall x0 x1 x2, finishes (@ColGen.update_hyper x0 x1 x2).
Proof. intros. unfold ColGen.update_hyper. nf. Qed.
#[export] Hint Resolve nf_ColGen_update_hyper : nf.
Lemma nf_ColGen_next_strategy : forall x0 x1 x2 x3, finishes (@ColGen.next_strategy x0 x1 x2 x3).
Proof. intros. unfold ColGen.next_strategy. nf. Qed.
#[export] Hint Resolve nf_ColGen_next_strategy : nf.
Lemma nf_ColGen_solve_relaxed : forall x0 x1 x2, finishes (@ColGen.solve_relaxed x0 x1 x2).
Proof. intros. unfold ColGen.solve_relaxed. nf. Qed.
#[export] Hint Resolve nf_ColGen_solve_relaxed : nf.
Lemma nf_ColGen_progress : forall x0 x1, finishes (@ColGen.progress x0 x1).
Proof. intros. unfold ColGen.progress. nf. Qed.
#[export] Hint Resolve nf_ColGen_progress : nf.
Lemma nf_ColGen_find_columns : forall x0 x1 x2, finishes (@ColGen.find_columns x0 x1 x2).
Proof. intros. unfold ColGen.find_columns. nf. Qed.
#[export] Hint Resolve nf_ColGen_find_columns : nf.
Lemma nf_ColGen_conclude : forall x0 x1 x2 x3, finishes (@ColGen.conclude x0 x1 x2 x3).
Proof. intros. unfold ColGen.conclude. nf. Qed.
#[export] Hint Resolve nf_ColGen_conclude : nf.
Lemma nf_Post_type_step : forall x0 x1 x2 x3 x4, finishes (@Post.type_step x0 x1 x2 x3 x4).
Proof. intros. unfold Post.type_step. nf. Qed.
#[export] Hint Resolve nf_Post_type_step : nf.
Lemma nf_Post_locked_type : forall x0 x1 x2 x3, finishes (@Post.locked_type x0 x1 x2 x3).
Proof. intros. unfold Post.locked_type. nf. Qed.
#[export] Hint Resolve nf_Post_locked_type : nf.
Lemma nf_column_lists : forall sp cs id, finishes (column_lists sp id cs).
Proof. induction cs as [|c cs IH]; intros; cbn [column_lists]; nf. Qed.
#[export] Hint Resolve nf_column_lists : nf.
Lemma nf_locked_lists : forall h caps K rs id, finishes (locked_lists h caps K id rs).
Proof. induction rs as [|c cs IH]; intros; cbn [locked_lists]; nf. Qed.
#[export] Hint Resolve nf_locked_lists : nf.
Lemma nf_Post_node_lists : forall x0 x1 x2 x3 x4 x5, finishes (@Post.node_lists x0 x1 x2 x3 x4 x5).
Proof. intros. unfold Post.node_lists. nf. Qed.
#[export] Hint Resolve nf_Post_node_lists : nf.
Lemma nf_Schedule_fleet_row : forall x0 x1 x2 x3 x4, finishes (@Schedule.fleet_row x0 x1 x2 x3 x4).
Proof. intros. unfold Schedule.fleet_row. nf. Qed.
#[export] Hint Resolve nf_Schedule_fleet_row : nf.
Lemma nf_Schedule_fleet_rows : forall x0 x1 x2 x3, finishes (@Schedule.fleet_rows x0 x1 x2 x3).
Proof. intros. unfold Schedule.fleet_rows. nf. Qed.
#[export] Hint Resolve nf_Schedule_fleet_rows : nf.
Lemma nf_Schedule_formulate_schedule : forall x0 x1 x2 x3 x4, finishes (@Schedule.formulate_schedule x0 x1 x2 x3 x4).
Proof. intros. unfold Schedule.formulate_schedule. nf. Qed.
#[export] Hint Resolve nf_Schedule_formulate_schedule : nf.
Lemma nf_Schedule_schedule_routes : forall x0 x1 x2 x3 x4 x5, finishes (@Schedule.schedule_routes x0 x1 x2 x3 x4 x5).
Proof. intros. unfold Schedule.schedule_routes. nf. Qed.
#[export] Hint Resolve nf_Schedule_schedule_routes : nf.
Lemma nf_Solve_prepare : forall x0 x1, finishes (@Solve.prepare x0 x1).
Proof. intros. unfold Solve.prepare. nf. Qed.
#[export] Hint Resolve nf_Solve_prepare : nf.
Lemma nf_Solve_start : forall x0 x1 x2 x3 x4, finishes (@Solve.start x0 x1 x2 x3 x4).
Proof. intros. unfold Solve.start. nf. Qed.
#[export] Hint Resolve nf_Solve_start : nf.
Lemma nf_Solve_post_process : forall x0 x1 x2 x3 x4 x5 x6 x7 x8, finishes (@Solve.post_process x0 x1 x2 x3 x4 x5 x6 x7 x8).
Proof. intros. unfold Solve.post_process. nf. Qed.
#[export] Hint Resolve nf_Solve_post_process : nf.
