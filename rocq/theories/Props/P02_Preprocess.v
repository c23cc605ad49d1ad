(** Properties C06-C13: what preprocessing changes, and what it must not change. *)
From Verif.Base Require Import Prelude Graph.
From Verif.Spec Require Import Routes Network Inputs Feasible Prep.
From Verif.Model Require Import Args Checks Preprocess.
From Verif.Proofs Require Import Deciders PreLemmas PruneProofs KnapProofs LockProofs PresolveProofs PresolveExact.
From Verif.Props Require Import Samples.

(** The user's graph after argument checking: costs are lists, some attributes are missing. *)
Definition raw2 : rgraph :=
  let nr d s l u := mkNR d None s l u None None false in
  let er c t := mkER (Some (Vec [c])) t in
  mkGraph [(Source, nr (Some 7) None None None); (Cust 1, nr (Some 3) (Some 1) None (Some 50));
           (Cust 2, nr (Some 4) None (Some 2) (Some 40)); (Cust 3, nr None (Some 2) None (Some 60));
           (Sink, nr None None None None)]
          [((Source, Cust 1), er 10 (Some 5)); ((Source, Cust 2), er 11 (Some 6)); ((Source, Cust 3), er 12 None);
           ((Cust 1, Cust 2), er 2 (Some 2)); ((Cust 2, Cust 3), er 3 (Some 6)); ((Cust 3, Cust 1), er 1 (Some 9));
           ((Cust 1, Sink), er 10 (Some 5)); ((Cust 2, Sink), er 11 (Some 6)); ((Cust 3, Sink), er 12 None)].
Definition cfg2 : config := mkConfig (Some 3%Z) (Some [8%Z]) None [5] None 1.
Definition opt2 : options := mkOptions true false false false None true [[Cust 1; Cust 2]].

Example raw2_meets_hypotheses :
  wf raw2 /\ In Source (nodes raw2) /\ In Sink (nodes raw2) /\ cost_lists 1 raw2 /\
  (forall u, ~ In (u, Source) (arc_list raw2)) /\ (forall v, ~ In (Sink, v) (arc_list raw2)) /\
  (forall v, In v (custs raw2) -> In (Source, v) (arc_list raw2) /\ In (v, Sink) (arc_list raw2)) /\
  exists p, pre_solve cfg2 opt2 raw2 = Ok p /\ pr_num_stops p = Some 3%Z /\ pr_more_routes p = true /\
    cost_of (pr_graph p) 0 (Cust 1) (Cust 2) = 0 /\ upper_of (pr_copy p) Sink == 62.
Proof.
  split; [apply wfb_ok; vm_compute; reflexivity|]. split; [simpl; auto|]. split; [simpl; tauto|].
  split.
  { intros u v e H. apply assoc_arc_In in H. simpl in H.
    repeat (destruct H as [H|H]; [inversion H; subst; eexists; split; [reflexivity|simpl; lia]|]). destruct H. }
  split; [intros u H; simpl in H; intuition discriminate|].
  split; [intros u H; simpl in H; intuition discriminate|].
  split.
  { intros v Hv. simpl in Hv. destruct Hv as [<-|[<-|[<-|[]]]]; simpl; tauto. }
  eexists. split; [vm_compute; reflexivity|]. vm_compute. repeat split; reflexivity.
Qed.

(* ---- C06 ---- *)
Theorem C06_defaults_and_frame : forall K (g : rgraph) (h : vgraph),
  wf g -> In Source (nodes g) -> In Sink (nodes g) ->
  update_dummy_attributes K g = Ok h ->
  nodes h = nodes g /\ wf h /\
  (forall v r, node_data g v = Some r -> exists d, node_data h v = Some d /\ filled v r d) /\
  (forall u v, match arc_data g u v with
               | Some e => exists e', arc_data h u v = Some e' /\ filled_arc e e'
               | None => arc_data h u v = if arc_eqb (u, v) (Source, Sink)
                                          then Some (mkE (repeat 0 K) 0 0) else None
               end).
Proof. exact update_dummy_ok. Qed.
Print Assumptions C06_defaults_and_frame.

Theorem C06_never_raises : forall K (g : rgraph),
  wf g -> In Source (nodes g) -> In Sink (nodes g) -> cost_lists 0 g ->
  exists h, update_dummy_attributes K g = Ok h.
Proof. exact update_dummy_total. Qed.
Print Assumptions C06_never_raises.

(* ---- C07 ---- *)
Theorem C07_sink_bound_least : forall K (g : rgraph) (h : vgraph) r,
  wf g -> In Source (nodes g) -> In Sink (nodes g) -> (forall v, ~ In (Sink, v) (arc_list g)) ->
  node_data g Sink = Some r -> (r_upper r = None \/ exists x, r_upper r = Some x /\ x == 0) ->
  update_dummy_attributes K g = Ok h ->
  (forall u t, In (u, Sink) (arc_list h) -> t <= upper_of h u ->
     t + service_of h u + time_of h u Sink <= upper_of h Sink) /\
  (forall U, (forall u t, In (u, Sink) (arc_list h) -> t <= upper_of h u ->
                t + service_of h u + time_of h u Sink <= U) -> upper_of h Sink <= U).
Proof. exact update_dummy_sink. Qed.
Print Assumptions C07_sink_bound_least.

(* ---- C08 ---- *)
Theorem C08_fixed_cost_once : forall c o (g : rgraph) p k cs,
  wf g -> In Source (nodes g) -> In Sink (nodes g) -> cost_lists (cf_vehicle_types c) g ->
  pre_solve c o g = Ok p -> (k < cf_vehicle_types c)%nat ->
  cs <> [] -> route_shape (Source :: cs ++ [Sink]) -> along (arc_list g) (Source :: cs ++ [Sink]) ->
  path_sum (cost_of (pr_copy p) k) (Source :: cs ++ [Sink])
  == path_sum (raw_cost g k) (Source :: cs ++ [Sink]) + nth k (cf_fixed_cost c) 0.
Proof. exact presolve_cost. Qed.
Print Assumptions C08_fixed_cost_once.

Theorem C08_other_arcs_unchanged : forall c o (g : rgraph) p k u v,
  wf g -> In Source (nodes g) -> In Sink (nodes g) -> cost_lists (cf_vehicle_types c) g ->
  pre_solve c o g = Ok p -> (k < cf_vehicle_types c)%nat ->
  In (u, v) (arc_list g) -> u <> Source -> cost_of (pr_copy p) k u v == raw_cost g k u v.
Proof. exact presolve_cost_frame. Qed.
Print Assumptions C08_other_arcs_unchanged.

(* ---- C09 ---- *)
Theorem C09_removes_exactly : forall cap (g : vgraph), wf g ->
  exists g', remove_infeasible_arcs_capacities cap g = Ok g' /\
    gnodes g' = gnodes g /\ wf g' /\
    (forall u v, In (u, v) (arc_list g') <->
       In (u, v) (arc_list g) /\ demand_of g u + demand_of g v <= inject_Z cap) /\
    (forall u v, In (u, v) (arc_list g') -> arc_data g' u v = arc_data g u v).
Proof. exact capacity_prune_ok. Qed.
Print Assumptions C09_removes_exactly.

Theorem C09_keeps_feasible_routes : forall cap (g g' : vgraph) r, wf g ->
  remove_infeasible_arcs_capacities cap g = Ok g' -> along (arc_list g) r ->
  (nonneg_demands g /\ node_sum (demand_of g) r <= inject_Z cap) \/
  loads_within (demand_of g) (inject_Z cap) r ->
  along (arc_list g') r.
Proof. exact capacity_prune_keeps. Qed.
Print Assumptions C09_keeps_feasible_routes.

Theorem C09_keeps_round_trips : forall cap (g g' : vgraph), wf g ->
  remove_infeasible_arcs_capacities cap g = Ok g' -> round_trips g ->
  demand_of g Source <= 0 -> demand_of g Sink <= 0 ->
  (forall v, In v (custs g) -> demand_of g v <= inject_Z cap) -> round_trips g'.
Proof. exact capacity_prune_round_trips. Qed.
Print Assumptions C09_keeps_round_trips.

Example C09_hypotheses_met : wf net1 /\ nonneg_demands net1 /\
  exists g', remove_infeasible_arcs_capacities 8 net1 = Ok g' /\
    has_arc net1 (Cust 2) (Cust 3) = true /\ has_arc g' (Cust 2) (Cust 3) = false /\
    along (arc_list g') [Source; Cust 1; Cust 2; Sink] /\
    node_sum (demand_of net1) [Source; Cust 1; Cust 2; Sink] <= 8.
Proof.
  split; [apply net1_network|]. split; [exact net1_demands|].
  eexists. split; [vm_compute; reflexivity|]. split; [reflexivity|]. split; [reflexivity|].
  split; [apply alongb_iff; reflexivity|vm_compute; discriminate].
Qed.

(* ---- C10 ---- *)
(** Exact effect of the time window preprocessing. *)
Theorem C10_effect : forall (g : vgraph), wf g -> In Source (nodes g) -> In Sink (nodes g) -> round_trips g ->
  exists g', remove_infeasible_arcs_time_windows g = Ok g' /\ wf g' /\ nodes g' = nodes g /\
    (forall v, demand_of g' v = demand_of g v /\ collect_of g' v = collect_of g v /\
               service_of g' v = service_of g v) /\
    (arc_list g <> [] -> forall v, In v (nodes g) ->
        lower_of g' v = tight_lower g v /\ upper_of g' v = tight_upper g v) /\
    (forall u v, In (u, v) (arc_list g') <-> In (u, v) (arc_list g) /\
       ~ (if match edges g with a :: _ => arc_eqb a (u, v) | [] => false end
          then too_late (time_of g) (service_of g) (lower_of g) (upper_of g) u v
          else too_late (time_of g) (service_of g) (tight_lower g) (tight_upper g) u v)) /\
    (forall u v, In (u, v) (arc_list g') -> arc_data g' u v = arc_data g u v).
Proof. exact tw_prune_ok. Qed.
Print Assumptions C10_effect.

Theorem C10_other_attributes : forall (g g' : vgraph),
  wf g -> In Source (nodes g) -> In Sink (nodes g) -> round_trips g ->
  remove_infeasible_arcs_time_windows g = Ok g' ->
  forall v, freq (nd g' v) = freq (nd g v) /\ request (nd g' v) = request (nd g v) /\
            is_aux_depot (nd g' v) = is_aux_depot (nd g v).
Proof. exact tw_prune_rest. Qed.
Print Assumptions C10_other_attributes.

(** Holds when going directly is never slower than through another customer. *)
Theorem C10_keeps_feasible_routes_partial : forall (g g' : vgraph) r T,
  wf g -> In Source (nodes g) -> In Sink (nodes g) -> round_trips g ->
  direct_is_fastest g -> nonneg_services g ->
  remove_infeasible_arcs_time_windows g = Ok g' ->
  route_shape r -> along (arc_list g) r ->
  timetable (time_of g) (service_of g) (lower_of g) (upper_of g) r T ->
  along (arc_list g') r /\ timetable (time_of g') (service_of g') (lower_of g') (upper_of g') r T.
Proof. exact tw_prune_keeps. Qed.
Print Assumptions C10_keeps_feasible_routes_partial.

Theorem C10_adds_no_route : forall (g g' : vgraph) r T,
  wf g -> In Source (nodes g) -> In Sink (nodes g) -> round_trips g ->
  remove_infeasible_arcs_time_windows g = Ok g' ->
  route_shape r -> along (arc_list g') r ->
  timetable (time_of g') (service_of g') (lower_of g') (upper_of g') r T ->
  along (arc_list g) r /\ timetable (time_of g) (service_of g) (lower_of g) (upper_of g) r T.
Proof. exact tw_prune_sound. Qed.
Print Assumptions C10_adds_no_route.

(** Without that assumption a usable arc can be removed. *)
Theorem C10_keeps_feasible_routes_refuted : exists K (g g' : vgraph) r,
  network K g /\ round_trips g /\ nonneg_times g /\ nonneg_services g /\
  remove_infeasible_arcs_time_windows g = Ok g' /\
  route_shape r /\ along (arc_list g) r /\ windows_ok g r /\ ~ along (arc_list g') r.
Proof. exact tw_prune_loses_route. Qed.
Print Assumptions C10_keeps_feasible_routes_refuted.

Example C10_hypotheses_met : direct_is_fastest net1 /\
  (exists g', remove_infeasible_arcs_time_windows net1 = Ok g' /\ lower_of g' (Cust 4) == 8 /\
     lower_of net1 (Cust 4) == 0) /\
  timetable (time_of net1) (service_of net1) (lower_of net1) (upper_of net1)
    [Source; Cust 1; Cust 2; Cust 3; Cust 4; Sink] [0; 5; 7; 10; 13; 22].
Proof.
  split.
  { split; intros u v H; simpl in H; intros H1 H2;
      repeat (destruct H as [H|H]; [inversion H; subst; try congruence; vm_compute; discriminate|]); destruct H. }
  split.
  - eexists. split; [vm_compute; reflexivity|]. vm_compute. split; reflexivity.
  - vm_compute. intuition discriminate.
Qed.

(* ---- C11 ---- *)
Theorem C11_knapsack_exact : forall ws C,
  (2 <= List.length ws)%nat -> (forall w, In w ws -> (0 <= w)%Z) ->
  exists m, knapsack ws C = Ok m /\ max_items ws (Z.of_nat C) m.
Proof. exact knapsack_exact. Qed.
Print Assumptions C11_knapsack_exact.

Theorem C11_stop_bound_exact : forall (g : vgraph) cap ns sdc,
  wf g -> In Source (nodes g) -> In Sink (nodes g) ->
  nonneg_demands g -> (sdc = true -> nonneg_collects g) -> (0 <= cap)%Z ->
  exists m b, num_stops_upper_bound g cap ns sdc = Ok b /\
    max_items (map (fun p => qtrunc (demand (snd p))) (gnodes g)) cap m /\
    exists m', (if sdc then exists mc, max_items (map (fun p => qtrunc (collect (snd p))) (gnodes g)) cap mc /\
                                       m' = Z.min m mc else m' = m) /\
    b = match ns with Some s => if (s =? 0)%Z then m' else Z.min m' s | None => m' end.
Proof. exact stop_bound_exact. Qed.
Print Assumptions C11_stop_bound_exact.

Theorem C11_excludes_no_route : forall (g : vgraph) cap ns sdc b r,
  wf g -> In Source (nodes g) -> In Sink (nodes g) ->
  nonneg_demands g -> (sdc = true -> nonneg_collects g) -> (0 <= cap)%Z ->
  num_stops_upper_bound g cap ns sdc = Ok b ->
  route_shape r -> (forall v, In v r -> In v (nodes g)) ->
  node_sum (demand_of g) (stops r) <= inject_Z cap ->
  (sdc = true -> node_sum (collect_of g) (stops r) <= inject_Z cap) ->
  (forall s, limit ns s -> (Z.of_nat (List.length (stops r)) <= s)%Z) ->
  (Z.of_nat (List.length (stops r)) <= b)%Z.
Proof. exact stop_bound_keeps. Qed.
Print Assumptions C11_excludes_no_route.

Example C11_values : knapsack [3; 5; 2; 7; 4]%Z 9 = Ok 3%Z /\ num_stops_upper_bound net1 9 None false = Ok 5%Z /\
  num_stops_upper_bound net1 9 (Some 2%Z) false = Ok 2%Z.
Proof. vm_compute. repeat split; reflexivity. Qed.

(* ---- C12 ---- *)
Theorem C12_lock_effect : forall K routes (g g' : vgraph) more,
  wf g -> lock K routes g = Ok (g', more) ->
  wf g' /\
  (forall v, In v (nodes g') <-> In v (nodes g) /\ ~ locked_away routes v) /\
  (forall v, In v (nodes g') -> node_data g' v = node_data g v) /\
  (forall u v, In (u, v) (arc_list g') <-> In (u, v) (arc_list g) /\ In u (nodes g') /\ In v (nodes g')) /\
  (forall u v, In (u, v) (arc_list g') -> time_of g' u v = time_of g u v) /\
  (forall u v, In (u, v) (arc_list g') ->
      option_map (fun e => List.length (ecost e)) (arc_data g' u v) =
      option_map (fun e => List.length (ecost e)) (arc_data g u v)) /\
  (forall k u v, In (u, v) (arc_list g') -> (k < K)%nat -> locked_arc routes (u, v) -> cost_of g' k u v = 0) /\
  (forall k u v, In (u, v) (arc_list g') -> ~ (k < K)%nat \/ ~ locked_arc routes (u, v) ->
      cost_of g' k u v = cost_of g k u v).
Proof. intros K routes g g' more W H. exact (lock_loop K routes g g' W (proj1 (lock_more K routes g g' more H))). Qed.
Print Assumptions C12_lock_effect.

(** Column generation is skipped exactly when no customer is left. *)
Theorem C12_nothing_left : forall K routes (g g' : vgraph) more,
  wf g -> lock K routes g = Ok (g', more) -> In Source (nodes g') -> In Sink (nodes g') ->
  (more = false <-> custs g' = []).
Proof. exact lock_nothing_left. Qed.
Print Assumptions C12_nothing_left.

Theorem C12_never_raises : forall K routes (g : vgraph), wf g ->
  (forall u v e, arc_data g u v = Some e -> (K <= List.length (ecost e))%nat) ->
  (forall r, In r routes -> r <> []) ->
  (forall r, In r routes -> ~ complete_route r -> along (arc_list g) r) ->
  (forall u v, locked_arc routes (u, v) -> ~ locked_away routes u /\ ~ locked_away routes v) ->
  exists g', foldM (lock_route K) routes g = Ok g'.
Proof. exact lock_total. Qed.
Print Assumptions C12_never_raises.

(** Reported costs are taken from a copy that locking does not touch: the arc costs the user gave
    plus the fixed cost on arcs leaving Source (C08), whatever is preassigned. *)
Theorem C12_reported_costs_not_locked : forall c o o' (g : rgraph) p p',
  pre_solve c o g = Ok p -> pre_solve c o' g = Ok p' -> pr_copy p = pr_copy p'.
Proof. exact presolve_copy_same. Qed.
Print Assumptions C12_reported_costs_not_locked.

Example C12_hypotheses_met : exists g' more,
  lock 1 [[Source; Cust 1; Cust 2; Sink]; [Cust 3; Cust 4]] net1 = Ok (g', more) /\
  nodes g' = [Source; Cust 3; Cust 4; Sink] /\ cost_of g' 0 (Cust 3) (Cust 4) = 0 /\
  cost_of net1 0 (Cust 3) (Cust 4) = 4 /\ more = true.
Proof. do 2 eexists. split; [vm_compute; reflexivity|]. repeat split; reflexivity. Qed.

(* ---- C13 ---- *)
Theorem C13_partial_route_kept_refuted : exists K (g g' : vgraph) routes more a rs,
  network K g /\ round_trips g /\ check_preassignments routes g = Ok tt /\ lock K routes g = Ok (g', more) /\
  locked_arc routes a /\ plan g' rs /\
  forall rs', plan g' rs' -> (exists r, In r rs' /\ In a (arcs r)) -> plan_cost g' 0 rs < plan_cost g' 0 rs'.
Proof. exact partial_lock_not_kept. Qed.
Print Assumptions C13_partial_route_kept_refuted.

(** What a partial preassignment does: a route becomes cheaper by the cost of the locked arcs it uses. *)
Theorem C13_incentive_partial : forall K routes (g g' : vgraph) more k r (saving : node -> node -> Q),
  wf g -> lock K routes g = Ok (g', more) -> (k < K)%nat ->
  (forall u v, locked_arc routes (u, v) -> saving u v == cost_of g k u v) ->
  (forall u v, ~ locked_arc routes (u, v) -> saving u v == 0) ->
  along (arc_list g') r ->
  path_sum (cost_of g' k) r == path_sum (cost_of g k) r - path_sum saving r.
Proof. exact lock_saving. Qed.
Print Assumptions C13_incentive_partial.

(* ---- C61 ---- *)
Theorem C61_preprocessing_safe : forall c o (g : rgraph) p,
  wf g -> In Source (nodes g) -> In Sink (nodes g) ->
  (forall u, ~ In (u, Source) (arc_list g)) -> (forall v, ~ In (Sink, v) (arc_list g)) ->
  cost_lists (cf_vehicle_types c) g ->
  (forall v, In v (custs g) -> In (Source, v) (arc_list g) /\ In (v, Sink) (arc_list g)) ->
  pre_solve c o g = Ok p ->
  forall r, route_shape r -> along (arc_list (pr_copy p)) r ->
  (forall v, In v r -> ~ locked_away (o_preassignments o) v) ->
  load_fits c (o_pickup_delivery o) (pr_copy p) r ->
  forall T,
  (o_time_windows o = true -> direct_is_fastest (pr_copy p) /\ nonneg_services (pr_copy p) /\
     timetable (time_of (pr_copy p)) (service_of (pr_copy p)) (lower_of (pr_copy p)) (upper_of (pr_copy p)) r T) ->
  (o_distribution_collection o = true -> nonneg_collects (pr_copy p) /\
     forall caps, cf_load_capacity c = Some caps ->
       exists cap, In cap caps /\ node_sum (collect_of (pr_copy p)) (stops r) <= inject_Z cap) ->
  (forall s, limit (cf_num_stops c) s -> (Z.of_nat (List.length (stops r)) <= s)%Z) ->
  (forall caps x, cf_load_capacity c = Some caps -> In x caps -> (0 <= x)%Z) ->
  along (arc_list (pr_graph p)) r /\
  (o_time_windows o = true -> timetable (time_of (pr_graph p)) (service_of (pr_graph p))
                                        (lower_of (pr_graph p)) (upper_of (pr_graph p)) r T) /\
  (forall s, limit (pr_num_stops p) s -> (Z.of_nat (List.length (stops r)) <= s)%Z).
Proof. exact presolve_safe. Qed.
Print Assumptions C61_preprocessing_safe.

Example C61_hypotheses_met : exists p, pre_solve cfg2 opt2 raw2 = Ok p /\ nonneg_times (pr_copy p) /\
  nonneg_services (pr_copy p) /\ direct_is_fastest (pr_copy p) /\
  let r := [Source; Cust 1; Cust 2; Cust 3; Sink] in
  route_shape r /\ along (arc_list (pr_copy p)) r /\
  (forall v, In v r -> ~ locked_away (o_preassignments opt2) v) /\
  load_fits cfg2 false (pr_copy p) r /\
  timetable (time_of (pr_copy p)) (service_of (pr_copy p)) (lower_of (pr_copy p)) (upper_of (pr_copy p))
    r [0; 5; 8; 14; 16].
Proof.
  eexists. split; [vm_compute; reflexivity|].
  split; [apply nonneg_timesb_ok; vm_compute; reflexivity|].
  split; [apply nonneg_servicesb_ok; vm_compute; reflexivity|].
  split.
  { split; intros u v H; vm_compute in H; intros H1 H2;
      repeat (destruct H as [H|H]; [inversion H; subst; try congruence; vm_compute; discriminate|]); destruct H. }
  cbv zeta. split; [apply route_shapeb_ok; vm_compute; reflexivity|].
  split; [apply alongb_iff; vm_compute; reflexivity|].
  split; [intros v _ (q & Hq & _); simpl in Hq; destruct Hq as [Hq|[]]; discriminate|].
  split.
  - intros caps H. inversion H; subst. exists 8%Z. split; [simpl; auto|].
    split; [apply nonneg_demandsb_ok; vm_compute; reflexivity|vm_compute; discriminate].
  - vm_compute. intuition discriminate.
Qed.

(* ---- C74 ---- *)
(** The complete effect of preprocessing. [pr_copy] holds the data results are computed from,
    [pr_graph] is the network handed to the solution methods. *)
Theorem C74_copy : forall c o (g : rgraph) p,
  wf g -> In Source (nodes g) -> In Sink (nodes g) ->
  (forall u, ~ In (u, Source) (arc_list g)) -> (forall v, ~ In (Sink, v) (arc_list g)) ->
  cost_lists (cf_vehicle_types c) g ->
  (forall v, In v (custs g) -> In (Source, v) (arc_list g) /\ In (v, Sink) (arc_list g)) ->
  pre_solve c o g = Ok p ->
  nodes (pr_copy p) = nodes g /\
  (forall v r, node_data g v = Some r -> exists d, node_data (pr_copy p) v = Some d /\ filled v r d) /\
  (forall u v e, arc_data g u v = Some e -> exists l e', r_cost e = Some (Vec l) /\ arc_data (pr_copy p) u v = Some e' /\
     given_or (r_time e) 0 (etime e') /\ List.length (ecost e') = List.length l /\
     forall k, (k < cf_vehicle_types c)%nat ->
       nth k (ecost e') 0 == nth k l 0 + (if node_eqb u Source then nth k (cf_fixed_cost c) 0 else 0)) /\
  (~ In (Source, Sink) (arc_list g) -> arc_data (pr_copy p) Source Sink = Some (mkE (repeat 0 (cf_vehicle_types c)) 0 0)) /\
  (forall u v, In (u, v) (arc_list (pr_copy p)) <-> In (u, v) (arc_list g) \/ (u, v) = (Source, Sink)).
Proof. intros. eapply copy_exact; eassumption. Qed.
Print Assumptions C74_copy.

Theorem C74_sink_bound : forall c o (g : rgraph) p r,
  wf g -> In Source (nodes g) -> In Sink (nodes g) ->
  (forall u, ~ In (u, Source) (arc_list g)) -> (forall v, ~ In (Sink, v) (arc_list g)) ->
  cost_lists (cf_vehicle_types c) g ->
  (forall v, In v (custs g) -> In (Source, v) (arc_list g) /\ In (v, Sink) (arc_list g)) ->
  pre_solve c o g = Ok p ->
  node_data g Sink = Some r -> (r_upper r = None \/ exists x, r_upper r = Some x /\ x == 0) ->
  (forall u t, In (u, Sink) (arc_list (pr_copy p)) -> t <= upper_of (pr_copy p) u ->
     t + service_of (pr_copy p) u + time_of (pr_copy p) u Sink <= upper_of (pr_copy p) Sink) /\
  (forall U, (forall u t, In (u, Sink) (arc_list (pr_copy p)) -> t <= upper_of (pr_copy p) u ->
                t + service_of (pr_copy p) u + time_of (pr_copy p) u Sink <= U) -> upper_of (pr_copy p) Sink <= U).
Proof. intros. eapply copy_sink; eassumption. Qed.
Print Assumptions C74_sink_bound.

Theorem C74_network_nodes : forall c o (g : rgraph) p,
  wf g -> In Source (nodes g) -> In Sink (nodes g) ->
  (forall u, ~ In (u, Source) (arc_list g)) -> (forall v, ~ In (Sink, v) (arc_list g)) ->
  cost_lists (cf_vehicle_types c) g ->
  (forall v, In v (custs g) -> In (Source, v) (arc_list g) /\ In (v, Sink) (arc_list g)) ->
  pre_solve c o g = Ok p ->
  (forall v, In v (nodes (pr_graph p)) <-> In v (nodes g) /\ ~ locked_away (o_preassignments o) v) /\
  (forall v, In v (nodes (pr_graph p)) ->
     demand_of (pr_graph p) v = demand_of (pr_copy p) v /\ collect_of (pr_graph p) v = collect_of (pr_copy p) v /\
     service_of (pr_graph p) v = service_of (pr_copy p) v /\
     freq (nd (pr_graph p) v) = freq (nd (pr_copy p) v) /\ request (nd (pr_graph p) v) = request (nd (pr_copy p) v) /\
     is_aux_depot (nd (pr_graph p) v) = is_aux_depot (nd (pr_copy p) v) /\
     lower_of (pr_graph p) v = (if o_time_windows o then tight_lower (pr_copy p) v else lower_of (pr_copy p) v) /\
     upper_of (pr_graph p) v = (if o_time_windows o then tight_upper (pr_copy p) v else upper_of (pr_copy p) v)).
Proof. intros. eapply network_nodes; eassumption. Qed.
Print Assumptions C74_network_nodes.

Theorem C74_network_arcs : forall c o (g : rgraph) p,
  wf g -> In Source (nodes g) -> In Sink (nodes g) ->
  (forall u, ~ In (u, Source) (arc_list g)) -> (forall v, ~ In (Sink, v) (arc_list g)) ->
  cost_lists (cf_vehicle_types c) g ->
  (forall v, In v (custs g) -> In (Source, v) (arc_list g) /\ In (v, Sink) (arc_list g)) ->
  pre_solve c o g = Ok p ->
  (forall u v, In (u, v) (arc_list (pr_graph p)) ->
     In (u, v) (arc_list (pr_copy p)) /\ ~ locked_away (o_preassignments o) u /\ ~ locked_away (o_preassignments o) v /\
     pair_fits c (pr_copy p) u v /\
     (o_time_windows o = true -> ~ too_late (time_of (pr_copy p)) (service_of (pr_copy p)) (lower_of (pr_copy p)) (upper_of (pr_copy p)) u v)) /\
  (exists a0, forall u v, In (u, v) (arc_list (pr_graph p)) -> (u, v) <> a0 -> o_time_windows o = true ->
     ~ too_late (time_of (pr_copy p)) (service_of (pr_copy p)) (tight_lower (pr_copy p)) (tight_upper (pr_copy p)) u v) /\
  (forall u v, In (u, v) (arc_list (pr_copy p)) -> ~ locked_away (o_preassignments o) u -> ~ locked_away (o_preassignments o) v ->
     pair_fits c (pr_copy p) u v ->
     (o_time_windows o = true -> ~ too_late (time_of (pr_copy p)) (service_of (pr_copy p)) (tight_lower (pr_copy p)) (tight_upper (pr_copy p)) u v) ->
     In (u, v) (arc_list (pr_graph p))) /\
  (forall u v, In (u, v) (arc_list (pr_graph p)) -> time_of (pr_graph p) u v = time_of (pr_copy p) u v /\
     forall k, (k < cf_vehicle_types c)%nat ->
       ((u, v) = (Source, Sink) -> o_use_all_vehicles o = true ->
          cost_of (pr_graph p) k u v = inject_Z 10000000000) /\
       ((u, v) <> (Source, Sink) \/ o_use_all_vehicles o = false -> locked_arc (o_preassignments o) (u, v) ->
          cost_of (pr_graph p) k u v = 0) /\
       ((u, v) <> (Source, Sink) \/ o_use_all_vehicles o = false -> ~ locked_arc (o_preassignments o) (u, v) ->
          cost_of (pr_graph p) k u v = cost_of (pr_copy p) k u v)).
Proof. intros. eapply network_arcs; eassumption. Qed.
Print Assumptions C74_network_arcs.

Theorem C74_limits : forall c o (g : rgraph) p,
  wf g -> In Source (nodes g) -> In Sink (nodes g) ->
  (forall u, ~ In (u, Source) (arc_list g)) -> (forall v, ~ In (Sink, v) (arc_list g)) ->
  cost_lists (cf_vehicle_types c) g ->
  (forall v, In v (custs g) -> In (Source, v) (arc_list g) /\ In (v, Sink) (arc_list g)) ->
  pre_solve c o g = Ok p ->
  (match cf_load_capacity c with
   | None => pr_max_capacity p = None
   | Some caps => exists m, pr_max_capacity p = Some m /\ In m caps /\ forall x, In x caps -> (x <= m)%Z
   end) /\
  (match cf_num_vehicles c with
   | None => pr_num_vehicles p = None /\ pr_num_vehicles_schedule p = []
   | Some l =>
       (o_periodic o = None \/ o_periodic o = Some 0%Z -> pr_num_vehicles p = Some l /\ pr_num_vehicles_schedule p = []) /\
       (forall T, o_periodic o = Some T -> T <> 0%Z -> pr_num_vehicles p = Some [] /\ pr_num_vehicles_schedule p = l)
   end) /\
  (pr_more_routes p = false <-> o_preassignments o <> [] /\ custs (pr_graph p) = []) /\
  (cf_load_capacity c = None \/ o_pickup_delivery o = true -> pr_num_stops p = cf_num_stops c) /\
  (forall cap, o_pickup_delivery o = false -> pr_max_capacity p = Some cap -> (0 <= cap)%Z ->
     nonneg_demands (pr_copy p) -> (o_distribution_collection o = true -> nonneg_collects (pr_copy p)) ->
     exists m b, pr_num_stops p = Some b /\
       max_items (map (fun q => qtrunc (demand (snd q))) (gnodes (pr_graph p))) cap m /\
       exists m', (if o_distribution_collection o
                   then exists mc, max_items (map (fun q => qtrunc (collect (snd q))) (gnodes (pr_graph p))) cap mc /\ m' = Z.min m mc
                   else m' = m) /\
       b = match cf_num_stops c with Some s => if (s =? 0)%Z then m' else Z.min m' s | None => m' end).
Proof. intros. eapply network_limits; eassumption. Qed.
Print Assumptions C74_limits.

Example C74_hypotheses_met : exists p,
  pre_solve (mkConfig (Some 3%Z) (Some [6%Z]) None [5] (Some [2]) 1)
            (mkOptions true false false true (Some 2%Z) true [[Cust 1; Cust 2]]) raw2 = Ok p /\
  cost_of (pr_copy p) 0 Source (Cust 1) == 15 /\ has_arc (pr_copy p) (Cust 1) (Cust 2) = true /\
  has_arc (pr_graph p) (Cust 1) (Cust 2) = false /\ has_arc (pr_graph p) (Cust 2) (Cust 3) = true /\
  cost_of (pr_graph p) 0 Source Sink == 10000000000 /\ cost_of (pr_copy p) 0 Source Sink == 0 /\
  lower_of (pr_copy p) (Cust 1) == 0 /\ lower_of (pr_graph p) (Cust 1) == 5 /\
  pr_num_vehicles p = Some [] /\ pr_num_vehicles_schedule p = [2].
Proof. eexists. split; [vm_compute; reflexivity|]. vm_compute. repeat split; reflexivity. Qed.
