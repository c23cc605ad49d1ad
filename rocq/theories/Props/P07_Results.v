(** Properties C52-C57: the reported results. *)
From Verif.Base Require Import Prelude Graph.
From Verif.Spec Require Import Routes Network LinProg Inputs Feasible Prep MIP Results.
From Verif.Model Require Import Args Reach Checks Preprocess ClarkeWright Greedy Initial Pricing Post Schedule.
From Verif.Proofs Require Import Deciders PostProofs TimesProofs PostCor ScheduleProofs PostEnd PostWitness Readable.

(** [sp] is networkx' shortest_path; [finds_paths sp]: it returns a shortest path if there is one.
    A column whose arcs are those of the simple route [r] is reported as [r]. *)

(* ---- C52 ---- *)
Theorem C52_node_lists : forall sp h caps K pre cs rts tys rs, finds_paths sp ->
  Forall2 (fun c r => route_shape r /\ forall a, In a (c_arcs c) <-> In a (arcs r)) cs rs ->
  node_lists sp h caps K pre cs = Ok (rts, tys) ->
  exists locked, keeps complete_route pre locked /\
    rts = combine (seq 1 (List.length (rs ++ locked))) (rs ++ locked) /\
    (forall i c, nth_error cs i = Some c -> dget Nat.eqb (S i) tys = Some (c_type c)).
Proof. exact node_lists_spec. Qed.
Print Assumptions C52_node_lists.

Theorem C52_no_error : forall sp h caps K pre cs rs, finds_paths sp ->
  Forall2 (fun c r => route_shape r /\ forall a, In a (c_arcs c) <-> In a (arcs r)) cs rs ->
  (forall r, In r pre -> r <> [] /\ (complete_route r -> knows K h r)) ->
  (forall l, caps = Some l -> l = [] \/ (K <= List.length l)%nat) ->
  exists rts tys, node_lists sp h caps K pre cs = Ok (rts, tys).
Proof. exact node_lists_total. Qed.
Print Assumptions C52_no_error.

Example C52_case : finds_paths nx_path /\
  Forall2 (fun c r => route_shape r /\ forall a, In a (c_arcs c) <-> In a (arcs r)) chosen2 [trip [Cust 1; Cust 2]; trip [Cust 3]] /\
  keeps complete_route locked2 [trip [Cust 4]] /\
  node_lists nx_path net2t (Some [5%Z; 10%Z]) 2 locked2 chosen2 =
    Ok ([(1%nat, trip [Cust 1; Cust 2]); (2%nat, trip [Cust 3]); (3%nat, trip [Cust 4])],
        [(1%nat, 1%nat); (2%nat, 0%nat); (3%nat, 1%nat)]).
Proof. split; [exact nx_path_ok|]. split; [exact shapes2|]. split; [exact keeps2|exact lists2]. Qed.

(* ---- C53 ---- *)
Theorem C53_locked_type : forall h caps K pre sp cs rts tys, node_lists sp h caps K pre cs = Ok (rts, tys) ->
  forall locked i r, keeps complete_route pre locked -> nth_error locked i = Some r ->
    In ((List.length cs + S i)%nat, r) rts /\
    ((exists j, (j < K)%nat /\ carries caps j (node_sum (demand_of h) r) /\
                path_sum (cost_of h j) r < inject_Z 10000000000) ->
     exists k, dget Nat.eqb (List.length cs + S i)%nat tys = Some k /\ cheapest_type h caps K r k).
Proof. exact locked_type_spec. Qed.
Print Assumptions C53_locked_type.

(** Route [trip [Cust 4]] has load 6: type 0 costs 2 but carries 5 only, type 1 costs 18. *)
Example C53_case : nth_error [trip [Cust 4]] 0 = Some (trip [Cust 4]) /\
  carries (Some [5%Z; 10%Z]) 1 (node_sum (demand_of net2t) (trip [Cust 4])) /\
  ~ carries (Some [5%Z; 10%Z]) 0 (node_sum (demand_of net2t) (trip [Cust 4])) /\
  path_sum (cost_of net2t 0) (trip [Cust 4]) == 2 /\ path_sum (cost_of net2t 1) (trip [Cust 4]) == 18.
Proof.
  split; [reflexivity|]. split; [exists 10%Z; split; [reflexivity|vm_compute; discriminate]|].
  split; [intros (c & E & H); injection E as <-; revert H; vm_compute; congruence|]. split; vm_compute; reflexivity.
Qed.

(* ---- C54 ---- *)
Theorem C54_costs : forall s d, best_routes_cost s = Ok d ->
  reports (fun i r q => exists k, dget Nat.eqb i (sv_types s) = Some k /\ q == path_sum (cost_of (sv_copy s) k) r)
    (sv_routes s) d.
Proof. exact cost_ok. Qed.
Print Assumptions C54_costs.

Theorem C54_loads : forall s d, best_routes_load s = Ok d ->
  (~ limited (sv_caps s) \/ sv_both s = true \/ sv_pickup s = true -> d = []) /\
  (limited (sv_caps s) -> sv_both s = false -> sv_pickup s = false ->
     reports (fun _ r q => q == node_sum (demand_of (sv_copy s)) r) (sv_routes s) d).
Proof. exact read_loads. Qed.
Print Assumptions C54_loads.

Theorem C54_durations : forall s d, best_routes_duration s = Ok d ->
  (~ timed (sv_windows s) (sv_duration s) -> d = []) /\
  (timed (sv_windows s) (sv_duration s) ->
     reports (fun _ r q => q == path_sum (time_of (sv_copy s)) r + node_sum (service_of (sv_copy s)) r)
       (sv_routes s) d).
Proof. exact read_durations. Qed.
Print Assumptions C54_durations.

Theorem C54_value : forall s v, best_value s = Ok v ->
  exists d m, best_routes_cost s = Ok d /\
    (sv_span s = false -> m == Qsum (map snd d)) /\
    (sv_span s = true -> In m (map snd d) /\ forall x, In x (map snd d) -> x <= m) /\
    v == m + match sv_drop s with Some p => p * inject_Z (Z.of_nat (List.length (sv_dropped s))) | None => 0 end.
Proof. exact value_ok. Qed.
Print Assumptions C54_value.

(** No error on the routes of a solution: known nodes and arcs, a vehicle type for each. *)
Theorem C54_no_error : forall K s,
  (forall i r, In (i, r) (sv_routes s) ->
     knows K (sv_copy s) r /\ exists k, dget Nat.eqb i (sv_types s) = Some k /\ (k < K)%nat) ->
  (exists d, best_routes_cost s = Ok d) /\ (exists d, best_routes_load s = Ok d) /\
  (exists d, best_routes_duration s = Ok d) /\
  (sv_routes s <> [] \/ sv_span s = false -> exists v, best_value s = Ok v).
Proof. exact results_total. Qed.
Print Assumptions C54_no_error.

Example C54_case :
  (forall i r, In (i, r) (sv_routes (solved2 (Some 50) false [Cust 5])) ->
     knows 2 net2t r /\ exists k, dget Nat.eqb i (sv_types (solved2 (Some 50) false [Cust 5])) = Some k /\ (k < 2)%nat) /\
  best_routes_cost (solved2 (Some 50) false [Cust 5]) = Ok [(1%nat, 28); (2%nat, 24); (3%nat, 18)] /\
  best_routes_load (solved2 (Some 50) false [Cust 5]) = Ok [(1%nat, 7); (2%nat, 5); (3%nat, 6)] /\
  best_routes_duration (solved2 (Some 50) false [Cust 5]) = Ok [(1%nat, 17); (2%nat, 15); (3%nat, 17)] /\
  best_value (solved2 (Some 50) false [Cust 5]) = Ok 120 /\
  best_value (solved2 None true []) = Ok 28.
Proof. exact results2. Qed.

(* ---- C55 ---- *)
Theorem C55_arrival : forall s d, arrival_time s = Ok d ->
  (~ timed (sv_windows s) (sv_duration s) -> d = []) /\
  (timed (sv_windows s) (sv_duration s) -> Forall2 (fun p q => fst q = fst p /\ (route_shape (snd p) ->
     map fst (snd q) = snd p /\ earliest_times (sv_copy s) (snd p) (map snd (snd q)) /\
     hd_error (snd q) = Some (Source, lower_of (sv_copy s) Source))) (sv_routes s) d).
Proof. exact read_arrivals. Qed.
Print Assumptions C55_arrival.

Theorem C55_departure : forall s d, departure_time s = Ok d -> NoDup (map fst (sv_routes s)) ->
  (forall i r, In (i, r) (sv_routes s) -> route_shape r) ->
  exists a, arrival_time s = Ok a /\
    Forall2 (fun x y => fst y = fst x /\ map fst (snd y) = map fst (snd x) /\
      forall v t, In (v, t) (snd y) ->
        exists t', In (v, t') (snd x) /\ t = (if node_eqb v Source then t' else t' + service_of (sv_copy s) v)) a d.
Proof. exact departure_spec. Qed.
Print Assumptions C55_departure.

Theorem C55_no_error : forall K s,
  (forall i r, In (i, r) (sv_routes s) -> knows K (sv_copy s) r /\ route_shape r) ->
  exists d, arrival_time s = Ok d.
Proof. exact arrival_total. Qed.
Print Assumptions C55_no_error.

(** check_arrival_time compares the earliest times with the windows of the preprocessed network: for
    routes in that network it passes exactly when the routes can be driven within the windows given,
    provided that with time windows the direct trips are fastest. *)
Theorem C55_check_arrival_partial : forall c o (g : rgraph) p s d,
  wf g -> In Source (nodes g) -> In Sink (nodes g) ->
  (forall u, ~ In (u, Source) (arc_list g)) -> (forall v, ~ In (Sink, v) (arc_list g)) ->
  cost_lists (cf_vehicle_types c) g ->
  (forall v, In v (custs g) -> In (Source, v) (arc_list g) /\ In (v, Sink) (arc_list g)) ->
  pre_solve c o g = Ok p ->
  sv_graph s = pr_graph p -> sv_copy s = pr_copy p -> sv_windows s = o_time_windows o ->
  (o_time_windows o = true -> direct_is_fastest (pr_copy p) /\ nonneg_services (pr_copy p)) ->
  timed (sv_windows s) (sv_duration s) -> arrival_time s = Ok d ->
  (forall i r, In (i, r) (sv_routes s) -> route_shape r /\ along (arc_list (pr_graph p)) r) ->
  (check_arrival_time s = Ok tt <-> forall i r, In (i, r) (sv_routes s) -> windows_ok (pr_copy p) r).
Proof. exact read_check. Qed.
Print Assumptions C55_check_arrival_partial.

(** Without that proviso the check can fail on a feasible route. *)
Theorem C55_check_arrival_refuted : exists g p r,
  (wf g /\ In Source (nodes g) /\ In Sink (nodes g) /\
   (forall u, ~ In (u, Source) (arc_list g)) /\ (forall v, ~ In (Sink, v) (arc_list g)) /\ cost_lists 1 g /\
   (forall v, In v (custs g) -> In (Source, v) (arc_list g) /\ In (v, Sink) (arc_list g))) /\
  pre_solve cfgt (optt []) g = Ok p /\ nonneg_times (pr_copy p) /\ nonneg_services (pr_copy p) /\
  route_shape r /\ along (arc_list (pr_graph p)) r /\ windows_ok (pr_copy p) r /\
  check_arrival_time (solvedt p [(1%nat, r)]) = Err AssertionError.
Proof. exact check_arrival_wrong. Qed.
Print Assumptions C55_check_arrival_refuted.

(** On a complete preassigned route it always fails: its customers have left the network. *)
Theorem C55_check_locked_refuted : exists g p r,
  (wf g /\ In Source (nodes g) /\ In Sink (nodes g) /\
   (forall u, ~ In (u, Source) (arc_list g)) /\ (forall v, ~ In (Sink, v) (arc_list g)) /\ cost_lists 1 g /\
   (forall v, In v (custs g) -> In (Source, v) (arc_list g) /\ In (v, Sink) (arc_list g))) /\
  pre_solve cfgt (optt [r]) g = Ok p /\ nonneg_times (pr_copy p) /\ nonneg_services (pr_copy p) /\
  direct_is_fastest (pr_copy p) /\
  route_shape r /\ along (arc_list (pr_copy p)) r /\ windows_ok (pr_copy p) r /\
  check_arrival_time (solvedt p [(1%nat, r)]) = Err KeyError.
Proof. exact check_arrival_locked. Qed.
Print Assumptions C55_check_locked_refuted.

(** check_departure_time compares every departure with the opening time in the preprocessed network, and
    with nothing else. *)
Theorem C55_check_departure : forall s d, departure_time s = Ok d ->
  (check_departure_time s = Ok tt <->
   forall i a v t, In (i, a) d -> In (v, t) a -> In v (nodes (sv_graph s)) /\ lower_of (sv_graph s) v <= t).
Proof. exact read_departures. Qed.
Print Assumptions C55_check_departure.

(** It passes whenever check_arrival_time does, unless some service takes negative time. *)
Theorem C55_checks_together : forall s d, departure_time s = Ok d -> NoDup (map fst (sv_routes s)) ->
  (forall i r, In (i, r) (sv_routes s) -> route_shape r) -> nonneg_services (sv_copy s) ->
  check_arrival_time s = Ok tt -> check_departure_time s = Ok tt.
Proof. exact checks_together. Qed.
Print Assumptions C55_checks_together.

Example C55_departure_case : exists p, pre_solve cfgt (optt []) (rawt 3) = Ok p /\ nonneg_services (pr_copy p) /\
  let s := solvedt p [(1%nat, trip [Cust 1; Cust 2])] in
  departure_time s = Ok [(1%nat, [(Source, 0); (Cust 1, 1); (Cust 2, 3); (Sink, 4)])] /\
  check_arrival_time s = Ok tt /\ check_departure_time s = Ok tt.
Proof. exact case_departure. Qed.

Example C55_case : exists p, pre_solve cfgt (optt []) (rawt 3) = Ok p /\ nonneg_times (pr_copy p) /\
  direct_is_fastest (pr_copy p) /\ nonneg_services (pr_copy p) /\
  let s := solvedt p [(1%nat, trip [Cust 1; Cust 2])] in
  timed (sv_windows s) (sv_duration s) /\ route_shape (trip [Cust 1; Cust 2]) /\ along (arc_list (pr_graph p)) (trip [Cust 1; Cust 2]) /\
  arrival_time s = Ok [(1%nat, [(Source, 0); (Cust 1, 1); (Cust 2, 3); (Sink, 4)])] /\ check_arrival_time s = Ok tt /\
  lower_of (pr_graph p) (Cust 2) == 3 /\ lower_of (pr_copy p) (Cust 2) == 0.
Proof. exact caset. Qed.

(* ---- C56 ---- *)
Theorem C56_accumulated : forall s d, node_load s = Ok d -> sv_both s = false ->
  limited (sv_caps s) \/ sv_pickup s = true ->
  Forall2 (fun p q => fst q = fst p /\ (NoDup (snd p) -> map fst (snd q) = snd p /\
    forall p1 v p2, snd p = p1 ++ v :: p2 ->
      exists l, In (v, l) (snd q) /\ l == node_sum (demand_of (sv_copy s)) (p1 ++ [v]))) (sv_routes s) d.
Proof. exact read_node_load. Qed.
Print Assumptions C56_accumulated.

Theorem C56_not_reported : forall s d, node_load s = Ok d ->
  ~ limited (sv_caps s) -> sv_both s = false -> sv_pickup s = false -> d = [].
Proof. exact read_no_load. Qed.
Print Assumptions C56_not_reported.

(** With distribution and collection the number reported when leaving a node is the load plus the part
    of the capacity [c] that the deliveries of the route do not need. *)
Theorem C56_both_partial : forall s d, node_load s = Ok d -> sv_both s = true ->
  Forall2 (fun p q => fst q = fst p /\ (NoDup (snd p) -> map fst (snd q) = snd p /\
    exists k caps c, dget Nat.eqb (fst p) (sv_types s) = Some k /\ sv_caps s = Some caps /\ nth_error caps k = Some c /\
    forall p1 v p2, snd p = p1 ++ v :: p2 -> exists l, In (v, l) (snd q) /\
      l == load_between (sv_copy s) (p1 ++ [v]) p2
           + (inject_Z c - node_sum (demand_of (sv_copy s)) (snd p)))) (sv_routes s) d.
Proof. exact node_load_both. Qed.
Print Assumptions C56_both_partial.

(** So it is the load only if the deliveries fill the vehicle, and can exceed the capacity otherwise. *)
Theorem C56_capacity_refuted : exists s d i r c l v,
  sv_both s = true /\ network 1 (sv_copy s) /\ sv_caps s = Some [c] /\ sv_types s = [(i, 0%nat)] /\
  sv_routes s = [(i, r)] /\ route_shape r /\ along (arc_list (sv_copy s)) r /\
  (forall p1 p2, r = p1 ++ p2 -> 0 <= load_between (sv_copy s) p1 p2 <= inject_Z c) /\
  node_load s = Ok [(i, d)] /\ In (v, l) d /\ inject_Z c < l.
Proof. exact node_load_exceeds. Qed.
Print Assumptions C56_capacity_refuted.

Example C56_case :
  node_load (solved2 None false []) =
    Ok [(1%nat, [(Source, 0); (Cust 1, 3); (Cust 2, 7); (Sink, 7)]); (2%nat, [(Source, 0); (Cust 3, 5); (Sink, 5)]);
        (3%nat, [(Source, 0); (Cust 4, 6); (Sink, 6)])] /\
  node_load (solvedc 4) = Ok [(1%nat, [(Source, 4); (Cust 1, 5); (Cust 2, 3); (Sink, 3)])] /\
  load_between netc [Source; Cust 1] [Cust 2; Sink] == 5.
Proof. vm_compute. auto. Qed.

(* ---- C57 ---- *)
(** Every route on exactly one day of the period, at most [nv] routes of a type on a day, and no
    customer of the preprocessed network with a positive demand twice on a day. *)
Theorem C57_schedule_partial : forall g span routes types nv solver d, wf g -> NoDup (map fst routes) ->
  schedule_routes g span routes types nv solver = Ok d ->
  (forall p, formulate_schedule g span routes types nv = Ok p -> sound_answer p (solver p)) ->
  d = [] \/ exists day, good_days g span routes (fun i => dget Nat.eqb i types) nv day /\ describes routes day d.
Proof. exact schedule_sound. Qed.
Print Assumptions C57_schedule_partial.

(** If such a schedule exists, one is reported, the days being as balanced as possible; if not, none. *)
Theorem C57_best : forall g span routes types nv solver d, wf g -> NoDup (map fst routes) ->
  schedule_routes g span routes types nv solver = Ok d ->
  (forall p, formulate_schedule g span routes types nv = Ok p -> exact_answer p (solver p)) ->
  (forall day', good_days g span routes (fun i => dget Nat.eqb i types) nv day' ->
     exists day, good_days g span routes (fun i => dget Nat.eqb i types) nv day /\ describes routes day d /\
       forall m, spread_within span (map fst routes) day' m -> spread_within span (map fst routes) day m) /\
  ((forall day', ~ good_days g span routes (fun i => dget Nat.eqb i types) nv day') -> d = []).
Proof. exact schedule_exact. Qed.
Print Assumptions C57_best.

Theorem C57_no_error : forall g span routes types nv solver,
  (forall i r, In (i, r) routes -> exists k, dget Nat.eqb i types = Some k) ->
  exists d, schedule_routes g span routes types nv solver = Ok d.
Proof. exact schedule_total. Qed.
Print Assumptions C57_no_error.

(** A customer without demand can be visited twice on the same day. *)
Theorem C57_no_demand_refuted : exists g span routes types nv solver d v i j r r' t,
  wf g /\ NoDup (map fst routes) /\
  (forall p, formulate_schedule g span routes types nv = Ok p -> exact_answer p (solver p)) /\
  schedule_routes g span routes types nv solver = Ok d /\
  In v (custs g) /\ In (i, r) routes /\ In (j, r') routes /\ i <> j /\ In v r /\ In v r' /\
  on_day d i t /\ on_day d j t.
Proof. exact schedule_twice. Qed.
Print Assumptions C57_no_demand_refuted.

Example C57_case : wf (nets 1) /\ NoDup (map fst routess) /\
  (forall p, formulate_schedule (nets 1) 2 routess typess [2] = Ok p -> exact_answer p (assign days1 p)) /\
  schedule_routes (nets 1) 2 routess typess [2] (assign days1) =
    Ok [(0%nat, [1%nat; 3%nat]); (1%nat, [2%nat; 4%nat])] /\
  good_days (nets 1) 2 routess (fun i => dget Nat.eqb i typess) [2] days1.
Proof. exact schedule1. Qed.
