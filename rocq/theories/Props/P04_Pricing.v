(** Properties C23-C37 and C65-C67: reduced costs, pricing graphs and the three pricing algorithms. *)
From Coq Require Import Relations.
From Verif.Base Require Import Prelude Graph.
From Verif.Spec Require Import Routes Network LinProg Pricing MIP Columns Timing Pool.
From Verif.Model Require Import Args Reach Checks Preprocess ClarkeWright Greedy Initial Pricing
  GreedyPricing LPPricing Cspy.
From Verif.Proofs Require Import Deciders PricingProofs LPColumn LPComplete LPCycles Readable GreedyPricingProofs
  CspyProofs PricingCor PoolProofs PricingWitness.
From Verif.Props Require Import Samples.

(** Four customers, an arc from Source to Sink, priced with duals that make 1-2 attractive. *)
Definition net4 : vgraph := mkGraph (gnodes net1) (gedges net1 ++ [mk_arc Source Sink 0 0]).
Definition duals4 : dual_dict := mkDuals [(Cust 1, 15); (Cust 2, 12); (Cust 3, 1); (Cust 4, 1)] (Some [-(2)]) [].
Definition net4p : vgraph := priced duals4 0 net4.
Definition opt4 : options := mkOptions true false true false None false [].
Lemma net4_network : network 1 net4. Proof. apply networkb_ok. vm_compute. reflexivity. Qed.
Lemma net4p_network : network 1 net4p. Proof. apply networkb_ok. vm_compute. reflexivity. Qed.
Lemma duals4_ok : duals_ok 1 duals4.
Proof.
  constructor; cbn.
  - repeat constructor; cbn; intuition discriminate.
  - intros v q [E|[E|[E|[E|[]]]]]; inversion E; subst; split; discriminate.
  - intros l E. injection E as <-. cbn. lia.
Qed.

(* ---- C23 ---- *)
Theorem C23_reduced_cost : forall K g D k,
  network K g -> (k < K)%nat -> duals_ok K D ->
  exists h, add_reduced_cost D k None g = Ok h /\ same_but_weights g h /\
    forall cs, (forall v, In v cs -> v <> Source /\ v <> Sink) -> along (arc_list g) (trip cs) ->
      path_sum (weight_of h) (trip cs) == reduced_cost g D 1 k cs.
Proof. intros K g D k H1 H2 H3. exact (reduced_cost_route K g D k None 1 H1 H2 H3 eq_refl). Qed.
Print Assumptions C23_reduced_cost.

(** When the global span is minimised the costs count as often as the dual of the span of the column. *)
Theorem C23_reduced_cost_span : forall K g D k n q,
  network K g -> (k < K)%nat -> duals_ok K D -> NoDup (map fst (d_span D)) -> In (n, q) (d_span D) ->
  exists h, add_reduced_cost D k (Some n) g = Ok h /\ same_but_weights g h /\
    forall cs, (forall v, In v cs -> v <> Source /\ v <> Sink) -> along (arc_list g) (trip cs) ->
      path_sum (weight_of h) (trip cs) == reduced_cost g D (- q) k cs.
Proof. exact reduced_cost_span. Qed.
Print Assumptions C23_reduced_cost_span.

Example C23_span_case : exists D, duals_ok 1 D /\ NoDup (map fst (d_span D)) /\ In (CNat 1, -(3)) (d_span D) /\
  (exists h, add_reduced_cost D 0 (Some (CNat 1)) net4 = Ok h /\ path_sum (weight_of h) (trip [Cust 1; Cust 2]) == 3 * 23 - 27) /\
  reduced_cost net4 D (- - (3)) 0 [Cust 1; Cust 2] == 3 * 23 - 27.
Proof.
  exists (mkDuals [(Cust 1, 15); (Cust 2, 12); (Cust 3, 1); (Cust 4, 1)] None [(CNat 0, -(1)); (CNat 1, -(3))]). split.
  - constructor; cbn.
    + repeat constructor; cbn; intuition discriminate.
    + intros v q [E|[E|[E|[E|[]]]]]; inversion E; subst; split; discriminate.
    + intros l E. discriminate.
  - split; [repeat constructor; cbn; intuition discriminate|]. split; [right; left; reflexivity|].
    split; [eexists; split; [vm_compute; reflexivity|vm_compute; reflexivity]|vm_compute; reflexivity].
Qed.

Example C23_case : network 1 net4 /\ duals_ok 1 duals4 /\
  reduced_cost net4 duals4 1 0 [Cust 1; Cust 2] == 10 + 2 + 11 - 15 - 12 + 2 /\
  path_sum (weight_of net4p) (trip [Cust 1; Cust 2]) == -(2).
Proof. split; [exact net4_network|]. split; [exact duals4_ok|]. split; vm_compute; reflexivity. Qed.

(* ---- C24 ---- *)
Theorem C24_best_edges_1 : forall K g D k alpha h b,
  network K g -> (k < K)%nat -> remove_edges_1 D k alpha g = Ok (h, b) ->
  part_of h g /\ nodes h = nodes g /\
  (exists L, largest L (map snd (d_nodes D) ++ map snd (d_span D)) /\
     forall u v, In (u, v) (arc_list h) <-> In (u, v) (arc_list g) /\ cost_of g k u v <= alpha * L) /\
  (b = true <-> exists p, walk (arc_list h) Source Sink p).
Proof. exact best_edges_1. Qed.
Print Assumptions C24_best_edges_1.

Theorem C24_best_edges_2 : forall K g ratio h b,
  network K g -> 0 <= ratio -> ratio <= 1 -> remove_edges_2 ratio g = (h, b) ->
  part_of h g /\ nodes h = nodes g /\
  (exists inner kept,
     (NoDup inner /\ forall a, In a inner <-> In a (arc_list g) /\ inner_arc a) /\
     lowest (fun a => weight_of g (fst a) (snd a))
            (Z.to_nat (Qround.Qfloor (ratio * inject_Z (Z.of_nat (List.length inner))))) inner kept /\
     forall a, In a (arc_list h) <-> In a (arc_list g) /\ (inner_arc a -> In a kept)) /\
  (b = true <-> exists p, walk (arc_list h) Source Sink p).
Proof. exact best_edges_2. Qed.
Print Assumptions C24_best_edges_2.

Theorem C24_best_paths : forall g ksp beta h,
  wf g -> (forall w, k_shortest (arc_list g) w beta (ksp w beta)) -> remove_edges_3 ksp beta g = Ok h ->
  part_of h g /\
  exists mx mn ps,
    largest mx (map (fun a => weight_of g (fst a) (snd a)) (edges g)) /\
    smallest mn (map (fun a => weight_of g (fst a) (snd a)) (edges g)) /\
    k_shortest (arc_list g) (fun a => clipped mx mn (weight_of g (fst a) (snd a))) beta ps /\
    (forall a, In a (arc_list h) <-> exists p, In p ps /\ In a (arcs p)) /\
    (forall v, In v (nodes h) <-> exists p, In p ps /\ In v p) /\ ps <> [].
Proof. exact best_paths. Qed.
Print Assumptions C24_best_paths.

(** Whatever the strategy: a route of the pricing graph is a route of the graph, and costs the same. *)
Theorem C24_routes_of_the_graph : forall ksp p K D k g h b,
  network K g -> (k < K)%nat ->
  (forall alpha, p = PEdges2 alpha -> 0 <= alpha /\ alpha <= 1) ->
  (forall beta, p = PPaths beta -> forall w, k_shortest (arc_list g) w beta (ksp w beta)) ->
  pricing_graph ksp p D k g = Ok (h, b) ->
  part_of h g /\ forall r, along (arc_list h) r -> along (arc_list g) r /\
    path_sum (cost_of h k) r == path_sum (cost_of g k) r /\
    path_sum (weight_of h) r == path_sum (weight_of g) r.
Proof. exact pricing_graph_routes. Qed.
Print Assumptions C24_routes_of_the_graph.

Example C24_case :
  (exists h, remove_edges_1 duals4 0 (3 # 10) net4p = Ok (h, true) /\ arc_list h = [(Cust 1, Cust 2); (Cust 2, Cust 1); (Cust 2, Cust 3); (Cust 3, Cust 2); (Cust 3, Cust 4); (Source, Sink)]) /\
  (exists h, remove_edges_2 (3 # 10) net4p = (h, true) /\ List.length (arc_list h) = 10%nat /\ In (Cust 1, Cust 2) (arc_list h)) /\
  (exists h, remove_edges_3 (fun _ _ => [trip [Cust 1; Cust 2]]) 1 net4p = Ok h /\ List.length (arc_list h) = 3%nat).
Proof.
  split; [eexists; split; [vm_compute; reflexivity|vm_compute; reflexivity]|].
  split; [eexists; split; [vm_compute; reflexivity|vm_compute; tauto]|].
  eexists; split; vm_compute; reflexivity.
Qed.

(* ---- C25 ---- *)
(** A column may visit no customer, namely if the arc from Source to Sink has a negative weight. *)
Theorem C25_greedy_columns_partial : forall (h : vgraph) K caps ns dur k,
  network K h -> (k < K)%nat -> (forall l, caps = Some l -> l <> [] -> (k < List.length l)%nat) ->
  demand_of h Source == 0 -> demand_of h Sink == 0 ->
  forall keys, (forall v, In v (custs h) -> In v keys) ->
  forall pool n rnd, exists new more,
    greedy_pricing h caps ns dur k keys pool n rnd = Ok (pool ++ new, more) /\ (more = true <-> new <> []) /\
    forall c, In c new -> exists cs, is_column h k cs c /\ route_shape (trip cs) /\ along (arc_list h) (trip cs) /\
      shortest_path (c_arcs c) Source Sink = Ok (trip cs) /\
      within_load h caps k cs /\
      (forall n, ns = Some n -> (0 < n)%Z -> (Z.of_nat (List.length cs) <= n)%Z) /\
      (cs = [] -> weight_of h Source Sink < 0).
Proof. exact greedy_columns. Qed.
Print Assumptions C25_greedy_columns_partial.

Theorem C25_visits_customer_refuted : exists (g h : vgraph) D caps ns dur keys rnd pool c,
  network 1 g /\ round_trips g /\ duals_ok 1 D /\ add_reduced_cost D 0 None g = Ok h /\
  (forall v, In v (custs h) -> In v keys) /\
  greedy_pricing h caps ns dur 0 keys [] 1 rnd = Ok (pool, true) /\ In c pool /\ c_arcs c = [(Source, Sink)].
Proof. exact greedy_empty_trip. Qed.
Print Assumptions C25_visits_customer_refuted.

Example C25_case : network 1 net4p /\ demand_of net4p Source == 0 /\ demand_of net4p Sink == 0 /\
  exists c d, greedy_pricing net4p (Some [7%Z]) (Some 3%Z) (Some 40%Z) 0 (custs net4p) [] 1 (fun _ _ => 0%nat) =
    Ok ([c; d], true) /\ c_arcs c = arcs (trip [Cust 1; Cust 2]) /\ c_arcs d = arcs (trip [Cust 2; Cust 1]).
Proof.
  split; [exact net4p_network|]. split; [vm_compute; reflexivity|]. split; [vm_compute; reflexivity|].
  eexists. eexists. split; [vm_compute; reflexivity|]. split; vm_compute; reflexivity.
Qed.

(* ---- C26 ---- *)
(** What is checked: the travel time, without the last arc if the route has num_stops customers. *)
Theorem C26_greedy_travel_time_partial : forall (h : vgraph) K caps ns dur k,
  network K h -> (k < K)%nat -> (forall l, caps = Some l -> l <> [] -> (k < List.length l)%nat) ->
  demand_of h Source == 0 -> demand_of h Sink == 0 ->
  forall keys, (forall v, In v (custs h) -> In v keys) ->
  forall pool n rnd new more,
    greedy_pricing h caps ns dur k keys pool n rnd = Ok (pool ++ new, more) ->
    forall c, In c new -> exists cs, is_column h k cs c /\
      forall D, dur = Some D -> D <> 0%Z ->
        (path_sum (time_of h) (trip cs) <= inject_Z D) \/
        (ns = Some (Z.of_nat (List.length cs)) /\ path_sum (time_of h) (Source :: cs) <= inject_Z D).
Proof. exact greedy_times. Qed.
Print Assumptions C26_greedy_travel_time_partial.

(** No service times and no limit on the number of stops: the duration limit holds. *)
Theorem C26_no_service_partial : forall (h : vgraph) K caps dur k,
  network K h -> (k < K)%nat -> (forall l, caps = Some l -> l <> [] -> (k < List.length l)%nat) ->
  demand_of h Source == 0 -> demand_of h Sink == 0 ->
  (forall v, In v (nodes h) -> service_of h v == 0) ->
  forall keys, (forall v, In v (custs h) -> In v keys) ->
  forall pool n rnd new more,
    greedy_pricing h caps None dur k keys pool n rnd = Ok (pool ++ new, more) ->
    forall c, In c new -> exists cs, is_column h k cs c /\ within_duration h dur cs.
Proof. exact greedy_no_service. Qed.
Print Assumptions C26_no_service_partial.

Theorem C26_service_refuted : exists (g h : vgraph) D caps ns dur keys rnd pool c cs,
  network 1 g /\ round_trips g /\ duals_ok 1 D /\ add_reduced_cost D 0 None g = Ok h /\
  (forall v, In v (custs h) -> In v keys /\ within_duration g dur [v]) /\
  greedy_pricing h caps ns dur 0 keys [] 1 rnd = Ok (pool, true) /\ In c pool /\
  is_column g 0 cs c /\ ~ within_duration g dur cs.
Proof. exact greedy_too_long. Qed.
Print Assumptions C26_service_refuted.

Theorem C26_last_arc_refuted : exists (g h : vgraph) D caps ns dur keys rnd pool c cs,
  network 1 g /\ round_trips g /\ duals_ok 1 D /\ add_reduced_cost D 0 None g = Ok h /\
  (forall v, In v (custs h) -> In v keys) /\
  greedy_pricing h caps ns dur 0 keys [] 1 rnd = Ok (pool, true) /\ In c pool /\
  is_column g 0 cs c /\ exists T, dur = Some T /\ inject_Z T < path_sum (time_of g) (trip cs).
Proof. exact greedy_last_arc_time. Qed.
Print Assumptions C26_last_arc_refuted.

(* ---- C67 ---- *)
Theorem C67_negative_partial : forall (h : vgraph) K caps ns dur k,
  network K h -> (k < K)%nat -> (forall l, caps = Some l -> l <> [] -> (k < List.length l)%nat) ->
  demand_of h Source == 0 -> demand_of h Sink == 0 ->
  forall keys, (forall v, In v (custs h) -> In v keys) ->
  forall pool n rnd new more,
    greedy_pricing h caps ns dur k keys pool n rnd = Ok (pool ++ new, more) ->
    forall c, In c new -> exists cs, is_column h k cs c /\
      (path_sum (weight_of h) (trip cs) < 0 \/
       ns = Some (Z.of_nat (List.length cs)) /\ path_sum (weight_of h) (Source :: cs) < 0).
Proof. exact greedy_weights. Qed.
Print Assumptions C67_negative_partial.

Theorem C67_negative_refuted : exists (g h : vgraph) D caps ns dur keys rnd pool c cs,
  network 1 g /\ round_trips g /\ duals_ok 1 D /\ add_reduced_cost D 0 None g = Ok h /\
  (forall v, In v (custs h) -> In v keys) /\
  greedy_pricing h caps ns dur 0 keys [] 1 rnd = Ok (pool, true) /\ In c pool /\
  is_column g 0 cs c /\ 0 < reduced_cost g D 1 0 cs.
Proof. exact greedy_not_negative. Qed.
Print Assumptions C67_negative_refuted.

(* ---- C27 ---- *)
Theorem C27_single_route : forall (h : vgraph) K k caps o ns dur neg p x,
  network K h -> formulate h k caps o ns dur neg = Ok p -> feasible x p ->
  neg || o_pickup_delivery o = true ->
  exists cs, elementary_route h cs /\
    forall u v, In (u, v) (arc_list h) -> (1 # 2 < x (X (u, v)) <-> In (u, v) (arcs (trip cs))).
Proof. exact mip_route. Qed.
Print Assumptions C27_single_route.

(** The column added by the algorithm, for any solver whose answers satisfy the program. *)
Theorem C27_column : forall h K run k caps o ns dur neg tl exact solver keys routes routes1 more,
  network K h -> (k < K)%nat -> (forall v, In v (custs h) -> In v keys) ->
  neg || o_pickup_delivery o = true -> (o_pickup_delivery o = true -> pairs_proper h) ->
  (forall p, sound_answer p (solver p)) ->
  lp_solve h run k caps o ns dur neg tl exact solver keys routes = Ok (routes1, more) ->
  (more = false /\ routes1 = routes) \/
  (more = true /\ run = true /\ exists cs c,
     routes1 = routes ++ [c] /\ c_name c = CNat (S (List.length routes)) /\
     is_column h k cs c /\ drivable h o caps k ns dur cs /\
     shortest_path (c_arcs c) Source Sink = Ok (trip cs) /\
     path_sum (weight_of h) (trip cs) < - (1 # 1000)).
Proof. exact lp_solve_sound. Qed.
Print Assumptions C27_column.

Example C27_case : exists p x, formulate net4p 0 (Some [7%Z]) opt4 (Some 3%Z) (Some 30%Z) true = Ok p /\
  feasible x p /\ value x (p_obj p) == -(2) /\ 1 # 2 < x (X (Cust 1, Cust 2)).
Proof.
  exists (got (mkProgram [] [] []) (formulate net4p 0 (Some [7%Z]) opt4 (Some 3%Z) (Some 30%Z) true)),
         (encode net4p [Cust 1; Cust 2] [0; 5; 7; 14]).
  split; [vm_compute; reflexivity|]. split; [apply feasibleb_ok; vm_compute; reflexivity|].
  split; vm_compute; reflexivity.
Qed.

(* ---- C28 ---- *)
(** Without elementarity constraints the column is a route together with detached circles. *)
Theorem C28_route_and_cycles_partial : forall h K k caps o ns dur neg p x keys routes,
  network K h -> (k < K)%nat -> (forall v, In v (custs h) -> In v keys) ->
  formulate h k caps o ns dur neg = Ok p -> feasible x p ->
  exists c cs ws, lp_new_route h k keys routes x = Ok (routes ++ [c]) /\
    NoDup cs /\ (forall v, In v cs -> v <> Source /\ v <> Sink) /\ along (arc_list h) (trip cs) /\
    (forall w, In w ws -> arcs w <> [] /\ exists u, walk (arc_list h) u u w) /\
    Permutation (c_arcs c) (arcs (trip cs) ++ flat_map arcs ws) /\
    c_type c = k /\
    c_cost c == path_sum (cost_of h k) (trip cs) + Qsum (map (path_sum (cost_of h k)) ws) /\
    value x (p_obj p) == path_sum (weight_of h) (trip cs) + Qsum (map (path_sum (weight_of h)) ws).
Proof. exact general_column. Qed.
Print Assumptions C28_route_and_cycles_partial.

(** If there is no negative cycle, the route alone is at least as good. *)
Theorem C28_route_as_good_partial : forall h K k caps o ns dur neg p x keys routes,
  network K h -> (k < K)%nat -> (forall v, In v (custs h) -> In v keys) ->
  formulate h k caps o ns dur neg = Ok p -> feasible x p -> ~ negative_cycle h ->
  exists c cs, lp_new_route h k keys routes x = Ok (routes ++ [c]) /\
    route_shape (trip cs) /\ along (arc_list h) (trip cs) /\
    (forall a, In a (arcs (trip cs)) -> In a (c_arcs c)) /\
    path_sum (weight_of h) (trip cs) <= value x (p_obj p).
Proof. exact path_as_good. Qed.
Print Assumptions C28_route_as_good_partial.

Theorem C28_single_route_refuted : exists (g h : vgraph) D p a c,
  network 1 g /\ round_trips g /\ duals_ok 1 D /\ add_reduced_cost D 0 None g = Ok h /\
  ~ negative_cycle h /\ formulate h 0 None plain_options None None false = Ok p /\
  exact_answer p a /\
  lp_solve h true 0 None plain_options None None false None true (fun _ => a) (custs g) [] = Ok ([c], true) /\
  (~ exists cs, Permutation (c_arcs c) (arcs (trip cs))) /\
  shortest_path (c_arcs c) Source Sink = Ok [Source; Cust 1; Sink] /\
  In (Cust 2) (c_nodes c).
Proof. exact mip_detached_cycle. Qed.
Print Assumptions C28_single_route_refuted.

(* ---- C29 ---- *)
Theorem C29_limits : forall (h : vgraph) K k caps o ns dur neg p x,
  network K h -> formulate h k caps o ns dur neg = Ok p -> feasible x p ->
  forall cs, elementary_route h cs ->
  (forall u v, In (u, v) (arc_list h) -> (1 # 2 < x (X (u, v)) <-> In (u, v) (arcs (trip cs)))) ->
  within_stops ns cs /\ within_load h caps k cs /\ within_duration h dur cs.
Proof. exact mip_limits. Qed.
Print Assumptions C29_limits.

(* ---- C30 ---- *)
Theorem C30_windows : forall (h : vgraph) K k caps o ns dur neg p x,
  network K h -> formulate h k caps o ns dur neg = Ok p -> feasible x p ->
  forall cs, elementary_route h cs ->
  (forall u v, In (u, v) (arc_list h) -> (1 # 2 < x (X (u, v)) <-> In (u, v) (arcs (trip cs)))) ->
  o_time_windows o = true ->
  lower_of h Source <= upper_of h Source /\
  Forall2 (fun v a => lower_of h v <= a /\ a <= upper_of h v) (cs ++ [Sink])
    (arrivals (time_of h) (service_of h) (lower_of h) (lower_of h Source) Source (cs ++ [Sink])).
Proof. exact mip_windows. Qed.
Print Assumptions C30_windows.

(* ---- C31 ---- *)
Theorem C31_complete_partial : forall h K k caps o ns dur neg p cs,
  network K h -> formulate h k caps o ns dur neg = Ok p -> mip_data h o caps k ->
  drivable h o caps k ns dur cs ->
  exists x, feasible x p /\
    (forall u v, In (u, v) (arc_list h) -> (1 # 2 < x (X (u, v)) <-> In (u, v) (arcs (trip cs)))) /\
    value x (p_obj p) == path_sum (weight_of h) (trip cs).
Proof. exact mip_complete. Qed.
Print Assumptions C31_complete_partial.

Theorem C31_complete_refuted : exists c o (r : rgraph) pr p cs,
  wf r /\ pre_solve c o r = Ok pr /\ network 1 (pr_graph pr) /\
  drivable (pr_graph pr) o None 0 None None cs /\
  formulate (pr_graph pr) 0 None o None None true = Ok p /\
  ~ exists x, feasible x p /\
      forall u v, In (u, v) (arcs (trip cs)) -> 1 # 2 < x (X (u, v)).
Proof. exact mip_loses_route. Qed.
Print Assumptions C31_complete_refuted.

Example C31_case : mip_data net4p opt4 (Some [7%Z]) 0 /\
  drivable net4p opt4 (Some [7%Z]) 0 (Some 3%Z) (Some 30%Z) [Cust 1; Cust 2].
Proof.
  split.
  - constructor; try discriminate.
    + intros _ v Hv. vm_compute in Hv. repeat (destruct Hv as [<-|Hv]; [vm_compute; intuition discriminate|]). destruct Hv.
    + intros _ v Hv. vm_compute in Hv. repeat (destruct Hv as [E|Hv]; [inversion E; subst; vm_compute; discriminate|]). destruct Hv.
    + intros _ u v Hv Hu. vm_compute in Hv.
      repeat (destruct Hv as [E|Hv]; [inversion E; subst; try congruence; vm_compute; discriminate|]). destruct Hv.
    + intros _ v Hv. vm_compute in Hv. repeat (destruct Hv as [<-|Hv]; [vm_compute; intuition discriminate|]). destruct Hv.
  - constructor; try discriminate.
    + constructor; [repeat constructor; cbn; intuition discriminate| |discriminate|apply alongb_iff; vm_compute; reflexivity].
      intros v [<-|[<-|[]]]; split; discriminate.
    + intros n E _. injection E as <-. cbn. lia.
    + intros l c E Ec. injection E as <-. injection Ec as <-. vm_compute. discriminate.
    + intros D E _. injection E as <-. vm_compute. discriminate.
    + intros _. exists [0; 5; 7; 14]. vm_compute. intuition discriminate.
    + intros _ l c E Ec. injection E as <-. injection Ec as <-. intros c1 c2 E.
      destruct c1 as [|a c1]; [cbn in E; subst; vm_compute; discriminate|]. injection E as <- E.
      destruct c1 as [|b c1]; [cbn in E; subst; vm_compute; discriminate|]. injection E as <- E.
      destruct c1; [cbn in E; subst; vm_compute; discriminate|discriminate].
Qed.

(* ---- C32 ---- *)
Theorem C32_requests : forall (h : vgraph) K k caps o ns dur neg p x,
  network K h -> formulate h k caps o ns dur neg = Ok p -> feasible x p ->
  forall cs, elementary_route h cs ->
  (forall u v, In (u, v) (arc_list h) -> (1 # 2 < x (X (u, v)) <-> In (u, v) (arcs (trip cs)))) ->
  forall l c, o_pickup_delivery o = true -> caps = Some l -> nth_error l k = Some c ->
  pairs_proper h -> pairs_ok h (inject_Z c) cs.
Proof. exact mip_pairs. Qed.
Print Assumptions C32_requests.

Example C32_case : exists p x, formulate netp 0 (Some [5%Z]) optp None None true = Ok p /\ feasible x p /\
  1 # 2 < x (X (Cust 1, Cust 2)) /\ pair_of netp (Cust 1) (Cust 2).
Proof.
  exists (got (mkProgram [] [] []) (formulate netp 0 (Some [5%Z]) optp None None true)), (encode netp [Cust 1; Cust 2] []).
  split; [vm_compute; reflexivity|]. split; [apply feasibleb_ok; vm_compute; reflexivity|].
  split; [vm_compute; reflexivity|]. eexists. split; vm_compute; reflexivity.
Qed.

(* ---- C33 ---- *)
Theorem C33_both_ways : forall (h : vgraph) K k caps o ns dur neg p x,
  network K h -> formulate h k caps o ns dur neg = Ok p -> feasible x p ->
  forall cs, elementary_route h cs ->
  (forall u v, In (u, v) (arc_list h) -> (1 # 2 < x (X (u, v)) <-> In (u, v) (arcs (trip cs)))) ->
  forall l c, o_distribution_collection o = true -> caps = Some l -> nth_error l k = Some c ->
  both_fit h (inject_Z c) cs.
Proof. exact mip_both. Qed.
Print Assumptions C33_both_ways.

(* ---- C34 ---- *)
Theorem C34_resources : forall h, wf h -> forall tw sdc q, along (arc_list h) (Source :: q) ->
  exists l, path_label (ref_fwd h tw sdc) (Source :: q) = Ok l /\ measures h tw sdc q l.
Proof. exact fwd_measures. Qed.
Print Assumptions C34_resources.

Theorem C34_accepted_routes : forall h K o k caps ns dur m,
  network K h -> limits h o k caps ns dur = Ok m -> demand_of h Sink == 0 ->
  forall cs, o_time_windows o = true \/ o_distribution_collection o = true \/ o_pickup_delivery o = true ->
  resource_feasible h m (extension h o caps dur) (trip cs) ->
  within_stops ns cs /\ within_load h caps k cs /\ within_duration h dur cs /\
  (o_time_windows o = true -> depot_ready h -> cs <> [] -> (forall v, In v cs -> v <> Source /\ v <> Sink) ->
   within_windows h cs) /\
  (o_distribution_collection o = true ->
   forall l c, caps = Some l -> nth_error l k = Some c -> both_fit h (inject_Z c) cs).
Proof. exact read_custom. Qed.
Print Assumptions C34_accepted_routes.

(** The column added by the algorithm, for any labelling algorithm that returns resource feasible
    paths. *)
Theorem C34_column : forall (g h : vgraph) K k caps o ns dur alg keys,
  network K h -> (k < K)%nat -> (forall v, In v (custs h) -> In v keys) -> sound_labelling h alg ->
  forall run elementary m pool, edges g <> [] -> limits h o k caps ns dur = Ok m ->
  exists r, cspy_solve g h k caps o ns dur alg keys run elementary pool = Ok r /\
    (r = (pool, false) \/
     exists p c, run = true /\ r = (pool ++ [c], true) /\
       (elementary = true \/ o_distribution_collection o = true -> NoDup p) /\
       resource_feasible h m (extension h o caps dur) p /\ path_sum (weight_of h) p < - (1 # 1000) /\
       c_path c = Some p /\ c_type c = k /\
       (NoDup (c_arcs c) /\ forall a, In a (c_arcs c) <-> In a (arcs p)) /\
       c_cost c == Qsum (map (fun a => cost_of h k (fst a) (snd a)) (c_arcs c)) /\
       (NoDup p -> c_name c = CElem (S (List.length pool)) /\
          exists cs, p = trip cs /\ route_shape (trip cs) /\ along (arc_list h) (trip cs) /\ is_column h k cs c) /\
       (~ NoDup p -> c_name c = CNonElem (S (List.length pool))) /\
       forall c', In c' pool -> column_edges c' <> column_edges c).
Proof. exact cspy_columns. Qed.
Print Assumptions C34_column.

Example C34_case : exists m l,
  limits net4p opt4 0 (Some [7%Z]) (Some 3%Z) None = Ok m /\ o_time_windows opt4 = true /\
  path_label (extension net4p opt4 (Some [7%Z]) None) (trip [Cust 1; Cust 2]) = Ok l /\
  l_time l == 14 /\ l_load l == 7 /\ l_deliver l == 7 /\ depot_ready net4p.
Proof.
  eexists. eexists. split; [vm_compute; reflexivity|]. split; [reflexivity|]. split; [vm_compute; reflexivity|].
  split; [vm_compute; reflexivity|]. split; [vm_compute; reflexivity|]. split; [vm_compute; reflexivity|].
  split; [vm_compute; discriminate|]. intros v _ _. left. vm_compute. discriminate.
Qed.

(* ---- C35 ---- *)
Theorem C35_custom_resources_partial : forall h K o k caps ns dur m,
  network K h -> limits h o k caps ns dur = Ok m -> demand_of h Sink == 0 ->
  forall cs, o_time_windows o = true \/ o_distribution_collection o = true \/ o_pickup_delivery o = true ->
  resource_feasible h m (extension h o caps dur) (trip cs) ->
  within_duration h dur cs.
Proof. exact read_custom_duration. Qed.
Print Assumptions C35_custom_resources_partial.

Theorem C35_travel_time_partial : forall h K o k caps ns dur m,
  network K h -> limits h o k caps ns dur = Ok m ->
  forall cs, o_time_windows o = false -> o_distribution_collection o = false -> o_pickup_delivery o = false ->
  resource_feasible h m (extension h o caps dur) (trip cs) ->
  within_stops ns cs /\ within_load h caps k cs /\
  (forall D, dur = Some D -> D <> 0%Z -> path_sum (time_of h) (trip cs) <= inject_Z D).
Proof. exact read_default. Qed.
Print Assumptions C35_travel_time_partial.

Theorem C35_service_refuted : exists (h : vgraph) dur m cs,
  network 1 h /\ round_trips h /\ limits h plain_options 0 None (Some 3%Z) dur = Ok m /\
  elementary_route h cs /\ resource_feasible h m (extension h plain_options None dur) (trip cs) /\
  ~ within_duration h dur cs.
Proof. exact labelling_too_long. Qed.
Print Assumptions C35_service_refuted.

(* ---- C36 ---- *)
Theorem C36_no_route_excluded_partial : forall h K o k caps ns dur m,
  network K h -> limits h o k caps ns dur = Ok m -> labelling_data h o caps ns dur ->
  forall cs, drivable h o caps k ns dur cs ->
  resource_feasible h m (extension h o caps dur) (trip cs).
Proof. exact labelling_complete. Qed.
Print Assumptions C36_no_route_excluded_partial.

Theorem C36_no_route_excluded_refuted : exists (h : vgraph) m cs,
  network 1 h /\ round_trips h /\ limits h plain_options 0 None None None = Ok m /\
  drivable h plain_options None 0 None None cs /\
  ~ resource_feasible h m (extension h plain_options None None) (trip cs).
Proof. exact labelling_loses_route. Qed.
Print Assumptions C36_no_route_excluded_refuted.

Example C36_case : labelling_data net4p opt4 (Some [7%Z]) (Some 3%Z) None /\
  exists m, limits net4p opt4 0 (Some [7%Z]) (Some 3%Z) None = Ok m.
Proof.
  split; [|eexists; vm_compute; reflexivity]. constructor.
  - exists 3%Z. split; [reflexivity|discriminate].
  - split; vm_compute; reflexivity.
  - intros v Hv. vm_compute in Hv. repeat (destruct Hv as [<-|Hv]; [vm_compute; intuition discriminate|]). destruct Hv.
  - split; [|split].
    + intros u v Hv. vm_compute in Hv. repeat (destruct Hv as [E|Hv]; [inversion E; subst; vm_compute; discriminate|]). destruct Hv.
    + intros v Hv. vm_compute in Hv. repeat (destruct Hv as [<-|Hv]; [vm_compute; discriminate|]). destruct Hv.
    + vm_compute. discriminate.
  - reflexivity.
  - discriminate.
  - intros _. eauto.
Qed.

(* ---- C37 ---- *)
Theorem C37_names_distinct : forall o mixed caps dur ns perms given g rs pool0 pool,
  initialize o mixed caps dur ns perms given g = Ok (rs, pool0) ->
  clos_refl_trans _ pricing_step pool0 pool ->
  extends pool0 pool /\ numbered pool /\ NoDup (map c_name pool).
Proof. exact pool_history. Qed.
Print Assumptions C37_names_distinct.

Theorem C37_append_only : forall pool pool1, pricing_step pool pool1 ->
  extends pool pool1 /\ (numbered pool -> numbered pool1).
Proof. exact pool_step_grows. Qed.
Print Assumptions C37_append_only.

Example C37_case : exists rs pool0 pool,
  initialize plain_options false (Some [7%Z]) None None (fun _ l => l) [[Source; Cust 1; Sink]; [Source; Cust 2; Sink]; [Source; Cust 3; Sink]; [Source; Cust 4; Sink]] net4 = Ok (rs, pool0) /\
  pricing_step pool0 pool /\ map c_name pool = [CNat 1; CNat 2; CNat 3; CNat 4; CNat 5; CNat 6].
Proof.
  eexists. eexists. eexists. split; [vm_compute; reflexivity|].
  split.
  - apply (by_greedy net4p 0 (Some [7%Z]) (Some 3%Z) None (custs net4p) 1 (fun _ _ => 0%nat) _ _ true).
    vm_compute. reflexivity.
  - reflexivity.
Qed.

(* ---- C65 ---- *)
Theorem C65_best_paths_partial : forall g ksp beta mx mn,
  wf g -> (forall w, k_shortest (arc_list g) w beta (ksp w beta)) -> (0 < beta)%nat ->
  In Source (nodes g) -> In Sink (nodes g) ->
  (exists p, walk (arc_list g) Source Sink p) ->
  largest mx (map (fun a => weight_of g (fst a) (snd a)) (edges g)) ->
  smallest mn (map (fun a => weight_of g (fst a) (snd a)) (edges g)) ->
  (exists h, remove_edges_3 ksp beta g = Ok h) /\ mn < mx \/
  remove_edges_3 ksp beta g = Err ZeroDivisionError /\ mx == mn.
Proof. exact best_paths_total. Qed.
Print Assumptions C65_best_paths_partial.

Theorem C65_best_paths_refuted : exists (g h : vgraph) D,
  network 1 g /\ round_trips g /\ duals_ok 1 D /\ add_reduced_cost D 0 None g = Ok h /\
  reduced_cost g D 1 0 [Cust 1] == 0 /\
  forall ksp beta, remove_edges_3 ksp beta h = Err ZeroDivisionError.
Proof. exact best_paths_crash. Qed.
Print Assumptions C65_best_paths_refuted.

(* ---- C66 ---- *)
Theorem C66_mip_can_be_built_partial : forall (h : vgraph) k caps o ns dur neg,
  In Source (nodes h) -> In Sink (nodes h) ->
  (forall l, caps = Some l -> l <> [] -> (k < List.length l)%nat) ->
  (o_pickup_delivery o = true \/ o_distribution_collection o = true -> exists l, caps = Some l /\ l <> []) ->
  (o_pickup_delivery o = true -> forall v d, pair_of h v d -> In d (nodes h)) ->
  wf h ->
  exists p, formulate h k caps o ns dur neg = Ok p.
Proof. exact formulate_total. Qed.
Print Assumptions C66_mip_can_be_built_partial.

Theorem C66_best_paths_requests_refuted : exists (g h h1 : vgraph) D beta ps mx mn p,
  network 1 g /\ round_trips g /\ duals_ok 1 D /\ add_reduced_cost D 0 None g = Ok h /\
  pairs_proper h /\ (forall v d, pair_of h v d -> In d (nodes h)) /\
  largest mx (map (fun a => weight_of h (fst a) (snd a)) (edges h)) /\
  smallest mn (map (fun a => weight_of h (fst a) (snd a)) (edges h)) /\
  k_shortest (arc_list h) (fun a => clipped mx mn (weight_of h (fst a) (snd a))) beta ps /\
  remove_edges_3 (fun _ _ => ps) beta h = Ok h1 /\
  formulate h 0 (Some [5%Z]) optp None None true = Ok p /\
  formulate h1 0 (Some [5%Z]) optp None None true = Err NetworkXError.
Proof. exact best_paths_breaks_requests. Qed.
Print Assumptions C66_best_paths_requests_refuted.
