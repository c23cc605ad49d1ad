(** Properties C14-C22, C62-C64, C75-C77: the construction heuristics and the initial columns. *)
From Verif.Base Require Import Prelude Graph.
From Verif.Spec Require Import Routes Network Inputs Feasible Prep Heuristics Savings.
From Verif.Model Require Import Args Checks Preprocess ClarkeWright Greedy Initial.
From Verif.Proofs Require Import Deciders HeurCor SavingsMax InitExact Readable.
From Verif.Props Require Import Samples.

(** The network of the sample with the empty route allowed, as preprocessing leaves it. *)
Definition net3 : vgraph := mkGraph (gnodes net1) (gedges net1 ++ [mk_arc Source Sink 0 0]).
Lemma net3_network : network 1 net3. Proof. apply networkb_ok. vm_compute. reflexivity. Qed.
Lemma net3_round : round_trips net3. Proof. apply round_tripsb_ok. vm_compute. reflexivity. Qed.
Lemma net3_symmetric : symmetric_times net3.
Proof.
  split.
  - intros v Hv. simpl in Hv. destruct Hv as [<-|[<-|[<-|[<-|[]]]]]; vm_compute; reflexivity.
  - intros u v Hu Hv. simpl in Hu, Hv.
    destruct Hu as [<-|[<-|[<-|[<-|[]]]]], Hv as [<-|[<-|[<-|[<-|[]]]]]; intros H1 H2;
      vm_compute; try reflexivity; exfalso; simpl in H1, H2; intuition discriminate.
Qed.

Example heuristics_hypotheses_met :
  network 1 net3 /\ round_trips net3 /\ In (Source, Sink) (arc_list net3) /\ symmetric_times net3 /\
  (forall v, In v (custs net3) -> demand_of net3 v <= 8) /\
  (forall v, In v (custs net3) -> path_sum (time_of net3) [Source; v; Sink] + service_of net3 v <= 20) /\
  clarke_wright net3 (Some [8%Z]) (Some 20%Z) (Some 2%Z) 1 (fun l => l) =
    Ok ([[Source; Cust 1; Cust 2; Sink]; [Source; Cust 3; Cust 4; Sink]], 52) /\
  greedy_heuristic net3 (Some [8%Z]) (Some 2%Z) (Some 20%Z) =
    Ok ([[Source; Cust 1; Cust 2; Sink]; [Source; Cust 3; Cust 4; Sink]], 52).
Proof.
  split; [apply net3_network|]. split; [apply net3_round|]. split; [simpl; tauto|].
  split; [apply net3_symmetric|].
  split; [intros v Hv; simpl in Hv; destruct Hv as [<-|[<-|[<-|[<-|[]]]]]; vm_compute; discriminate|].
  split; [intros v Hv; simpl in Hv; destruct Hv as [<-|[<-|[<-|[<-|[]]]]]; vm_compute; discriminate|].
  split; vm_compute; reflexivity.
Qed.

(* ---- C14 ---- *)
Theorem C14_every_customer_once : forall (g : vgraph) K caps dur st,
  network K g -> (1 <= K)%nat -> round_trips g -> caps <> Some [] ->
  forall alpha perm, (forall l, Permutation l (perm l)) ->
  exists rs q, clarke_wright g caps dur st alpha perm = Ok (rs, q) /\
    each_once (custs g) rs /\ only_visits (custs g) rs /\
    forall p, In p rs -> route_shape p /\ along (arc_list g) p /\ stops p <> [].
Proof. exact cw_visits. Qed.
Print Assumptions C14_every_customer_once.

(* ---- C15 ---- *)
Theorem C15_capacity_and_stops : forall (g : vgraph) K caps dur st,
  network K g -> (1 <= K)%nat -> round_trips g -> caps <> Some [] ->
  forall alpha perm, (forall l, Permutation l (perm l)) ->
  forall rs q, clarke_wright g caps dur st alpha perm = Ok (rs, q) ->
  forall p, In p rs ->
    (forall c l, caps = Some (c :: l) -> c <> 0%Z ->
       (forall v, In v (custs g) -> demand_of g v <= inject_Z c) ->
       node_sum (demand_of g) (stops p) <= inject_Z c) /\
    (forall n, st = Some n -> (1 <= n)%Z -> (Z.of_nat (List.length (stops p)) <= n)%Z).
Proof. exact cw_limits. Qed.
Print Assumptions C15_capacity_and_stops.

(* ---- C16 ---- *)
(** Holds when travel times are symmetric and round trips fit. *)
Theorem C16_duration_partial : forall (g : vgraph) K caps dur st,
  network K g -> (1 <= K)%nat -> round_trips g -> caps <> Some [] ->
  forall alpha perm, (forall l, Permutation l (perm l)) ->
  forall rs q D, clarke_wright g caps dur st alpha perm = Ok (rs, q) ->
  limit dur D -> symmetric_times g ->
  (forall v, In v (custs g) -> path_sum (time_of g) [Source; v; Sink] + service_of g v <= inject_Z D) ->
  forall p, In p rs -> path_sum (time_of g) p + node_sum (service_of g) (stops p) <= inject_Z D.
Proof. exact cw_duration. Qed.
Print Assumptions C16_duration_partial.

(** Fails in general: a customer is put in front of a route with the travel time of the opposite
    direction. Both round trips take 2, the returned route takes 102, the limit is 50. *)
Definition net16 : vgraph :=
  mkGraph [(Source, mk_node 0 0 0 0); (Cust 1, mk_node 1 0 0 0); (Cust 2, mk_node 1 0 0 0); (Sink, mk_node 0 0 0 0)]
          [mk_arc Source (Cust 1) 9 1; mk_arc Source (Cust 2) 9 1;
           mk_arc (Cust 1) (Cust 2) 1 100; mk_arc (Cust 2) (Cust 1) 5 1;
           mk_arc (Cust 1) Sink 9 1; mk_arc (Cust 2) Sink 9 1; mk_arc Source Sink 0 0].
Theorem C16_duration_refuted : exists g rs q p,
  network 1 g /\ round_trips g /\
  (forall v, In v (custs g) -> path_sum (time_of g) [Source; v; Sink] + service_of g v <= 50) /\
  clarke_wright g None (Some 50%Z) None 1 (fun l => l) = Ok (rs, q) /\
  In p rs /\ 50 < path_sum (time_of g) p + node_sum (service_of g) (stops p).
Proof.
  exists net16, [[Source; Cust 1; Cust 2; Sink]], 19, [Source; Cust 1; Cust 2; Sink].
  split; [apply networkb_ok; vm_compute; reflexivity|]. split; [apply round_tripsb_ok; vm_compute; reflexivity|].
  split; [intros v Hv; simpl in Hv; destruct Hv as [<-|[<-|[]]]; vm_compute; discriminate|].
  split; [vm_compute; reflexivity|]. split; [simpl; auto|vm_compute; reflexivity].
Qed.
Print Assumptions C16_duration_refuted.

(* ---- C17 ---- *)
Theorem C17_value : forall (g : vgraph) K caps dur st,
  network K g -> (1 <= K)%nat -> round_trips g -> caps <> Some [] ->
  forall alpha perm, (forall l, Permutation l (perm l)) ->
  forall rs q, clarke_wright g caps dur st alpha perm = Ok (rs, q) -> q == plan_cost g 0 rs.
Proof. exact cw_value. Qed.
Print Assumptions C17_value.

(* ---- C62 ---- *)
Theorem C62_not_worse_than_round_trips : forall (g : vgraph) K caps dur st,
  network K g -> (1 <= K)%nat -> round_trips g -> caps <> Some [] ->
  forall alpha perm, (forall l, Permutation l (perm l)) ->
  forall rs q, clarke_wright g caps dur st alpha perm = Ok (rs, q) ->
  no_detour (cost_of g 0) (arc_list g) ->
  q <= plan_cost g 0 (map (fun v => [Source; v; Sink]) (custs g)).
Proof. exact cw_not_worse. Qed.
Print Assumptions C62_not_worse_than_round_trips.

Example C62_hypothesis_met : no_detour (cost_of net3 0) (arc_list net3).
Proof.
  intros i j H H1 H2 H3 H4. simpl in H.
  repeat (destruct H as [H|H]; [inversion H; subst; try congruence; vm_compute; discriminate|]). destruct H.
Qed.

(* ---- C64 ---- *)
Theorem C64_savings_order : forall (g : vgraph) alpha l,
  network 1 g -> round_trips g -> ordered_edges g alpha = Ok l ->
  (forall i j, In (i, j) l <-> In (i, j) (arc_list g) /\ In i (custs g) /\ In j (custs g)) /\ NoDup l /\
  (forall l1 i j l2 i' j' l3, l = l1 ++ (i, j) :: l2 ++ (i', j') :: l3 ->
     cost_of g 0 i' Sink + cost_of g 0 Source j' - alpha * cost_of g 0 i' j'
     <= cost_of g 0 i Sink + cost_of g 0 Source j - alpha * cost_of g 0 i j).
Proof. exact savings_order. Qed.
Print Assumptions C64_savings_order.

Example C64_case : exists l, ordered_edges net3 1 = Ok ((Cust 3, Cust 4) :: l) /\ List.length l = 5%nat.
Proof. eexists. split; vm_compute; reflexivity. Qed.

(* ---- C75 ---- *)
(** The heuristic is the savings procedure: it starts with a round trip per customer and goes once
    through the arcs between customers, by decreasing saving, merging trips whenever possible. *)
Theorem C75_savings_procedure : forall (g : vgraph) K caps dur st alpha perm,
  network K g -> (1 <= K)%nat -> round_trips g -> caps <> Some [] ->
  (forall D, limit dur D -> symmetric_times g) -> (forall l, Permutation l (perm l)) ->
  exists rs q l R, clarke_wright g caps dur st alpha perm = Ok (rs, q) /\
    by_saving g alpha l /\ merge_run g (first_vehicle caps dur st) l (round_trips_only g) R /\
    Permutation rs (map (fun cs => Source :: cs ++ [Sink]) R).
Proof. exact cw_is_savings. Qed.
Print Assumptions C75_savings_procedure.

Theorem C75_heuristic_only : forall (g : vgraph) o mixed caps dur st perm,
  (forall rs types, solve_with_clarke_wright o mixed caps dur st perm g = Ok (rs, types) ->
     exists l q, clarke_wright g caps dur st 1 perm = Ok (l, q) /\
       List.length rs = List.length l /\ List.length types = List.length l /\
       forall i p, nth_error l i = Some p -> nth_error rs i = Some (i, p) /\ nth_error types i = Some (i, 0%nat)) /\
  (~ (o_time_windows o = false /\ o_pickup_delivery o = false /\ o_distribution_collection o = false /\
      mixed = false /\ (o_periodic o = None \/ o_periodic o = Some 0%Z)) ->
   solve_with_clarke_wright o mixed caps dur st perm g = Err ValueError).
Proof. exact clarke_wright_only. Qed.
Print Assumptions C75_heuristic_only.

Example C75_case :
  (forall D, limit (Some 20%Z) D -> symmetric_times net3) /\
  solve_with_clarke_wright (mkOptions false false false false None true []) false (Some [8%Z]) (Some 20%Z) (Some 2%Z)
    (fun l => l) net3 =
  Ok ([(0%nat, [Source; Cust 1; Cust 2; Sink]); (1%nat, [Source; Cust 3; Cust 4; Sink])], [(0%nat, 0%nat); (1%nat, 0%nat)]).
Proof. split; [intros; apply net3_symmetric|vm_compute; reflexivity]. Qed.

(* ---- C76 ---- *)
(** When it ends, no customer left alone could be served after the last, or before the first,
    customer of another trip. *)
Theorem C76_no_merge_left : forall (g : vgraph) K caps dur st alpha perm rs q,
  network K g -> (1 <= K)%nat -> round_trips g -> caps <> Some [] ->
  (forall D, limit dur D -> symmetric_times g /\ shorter_without g) ->
  (forall v, In v (custs g) -> 0 <= demand_of g v) -> (forall l, Permutation l (perm l)) ->
  clarke_wright g caps dur st alpha perm = Ok (rs, q) ->
  forall i j a, In (i, j) (arc_list g) -> i <> j ->
  (In [Source; j; Sink] rs -> In (Source :: (a ++ [i]) ++ [Sink]) rs ->
     ~ fits g (first_vehicle caps dur st) (a ++ [i; j])) /\
  (In (j, i) (arc_list g) -> In [Source; i; Sink] rs -> In (Source :: (j :: a) ++ [Sink]) rs ->
     ~ fits g (first_vehicle caps dur st) (i :: j :: a)).
Proof. exact cw_maximal. Qed.
Print Assumptions C76_no_merge_left.

Example C76_hypotheses_met :
  shorter_without net3 /\ (forall v, In v (custs net3) -> 0 <= demand_of net3 v) /\
  clarke_wright net3 (Some [11%Z]) (Some 30%Z) (Some 3%Z) 1 (fun l => l) =
    Ok ([[Source; Cust 1; Sink]; [Source; Cust 2; Cust 3; Cust 4; Sink]], 51).
Proof.
  split; [|split].
  - intros u v H Hu Hv. simpl in H.
    repeat (destruct H as [H|H]; [inversion H; subst; try (simpl in Hu, Hv; intuition discriminate); vm_compute; split; discriminate|]). destruct H.
  - intros v Hv. simpl in Hv. destruct Hv as [<-|[<-|[<-|[<-|[]]]]]; vm_compute; discriminate.
  - vm_compute. reflexivity.
Qed.

(* ---- C18 ---- *)
Theorem C18_disjoint_simple_routes : forall (g : vgraph) K caps dur st,
  network K g -> (1 <= K)%nat -> round_trips g -> caps <> Some [] -> In (Source, Sink) (arc_list g) ->
  exists rs q, greedy_heuristic g caps st dur = Ok (rs, q) /\
    (forall p, In p rs -> route_shape p /\ along (arc_list g) p) /\
    (forall v, In v (custs g) -> (visits v rs <= 1)%nat) /\ only_visits (custs g) rs /\
    (forall v, In v (custs g) -> trip_fits g (first_vehicle caps dur st) [v] -> visits v rs = 1%nat) /\
    ((forall v, In v (custs g) -> trip_fits g (first_vehicle caps dur st) [v]) ->
       forall p, In p rs -> stops p <> []).
Proof. exact greedy_routes. Qed.
Print Assumptions C18_disjoint_simple_routes.

(* ---- C19 ---- *)
Theorem C19_limits_and_value : forall (g : vgraph) K caps dur st,
  network K g -> (1 <= K)%nat -> round_trips g -> caps <> Some [] -> In (Source, Sink) (arc_list g) ->
  forall rs q, greedy_heuristic g caps st dur = Ok (rs, q) ->
  q == plan_cost g 0 rs /\
  forall p, In p rs ->
    (stops p <> [] -> trip_fits g (first_vehicle caps dur st) (stops p)) /\
    (forall n, st = Some n -> (1 <= n)%Z -> (Z.of_nat (List.length (stops p)) <= n)%Z).
Proof. exact greedy_limits. Qed.
Print Assumptions C19_limits_and_value.

(* ---- C63 ---- *)
Theorem C63_nearest_neighbour : forall (g : vgraph) K caps dur st,
  network K g -> (1 <= K)%nat -> round_trips g -> caps <> Some [] -> In (Source, Sink) (arc_list g) ->
  forall rs q, greedy_heuristic g caps st dur = Ok (rs, q) ->
  forall rs1 p rs2, rs = rs1 ++ p :: rs2 ->
  nearest_rule g (first_vehicle caps dur st) (unvisited g rs1) (stops p).
Proof. exact greedy_nearest. Qed.
Print Assumptions C63_nearest_neighbour.

(* ---- C20 ---- *)
Theorem C20_round_trips : forall g, wf g ->
  each_once (custs g) (round_trip_routes g) /\
  List.length (round_trip_routes g) = List.length (custs g) /\
  forall r, In r (round_trip_routes g) <-> exists v, In v (custs g) /\ r = [Source; v; Sink].
Proof. exact round_trip_ok. Qed.
Print Assumptions C20_round_trips.

Theorem C20_fallback : forall o mixed caps dur st perms g,
  o_time_windows o = true \/ o_distribution_collection o = true \/ mixed = true \/
  (exists z, o_periodic o = Some z /\ z <> 0%Z) -> o_pickup_delivery o = false ->
  get_initial_solution o mixed caps dur st perms g = Ok (round_trip_routes g).
Proof. exact read_fallback. Qed.
Print Assumptions C20_fallback.

Example C20_case :
  o_time_windows (mkOptions true false false false None true []) = true /\
  round_trip_routes net3 = [[Source; Cust 1; Sink]; [Source; Cust 2; Sink]; [Source; Cust 3; Sink]; [Source; Cust 4; Sink]].
Proof. split; reflexivity. Qed.

(* ---- C21 ---- *)
(** The cost is the one of vehicle type 0, whatever the type of the column. *)
Theorem C21_columns_partial : forall (g : vgraph) K caps rs,
  network K g -> (1 <= K)%nat ->
  (forall r, In r rs -> along (arc_list g) r /\ (2 <= List.length r)%nat) ->
  (exists cs, convert_initial_routes g caps rs = Ok cs /\ List.length cs = List.length rs /\
     forall i r, nth_error rs i = Some r -> exists c, nth_error cs i = Some c /\
       c_name c = CNat (S i) /\
       (forall v, In v (c_nodes c) <-> In v r) /\ NoDup (c_nodes c) /\
       (forall a, In a (c_arcs c) <-> In a (arcs r)) /\
       c_cost c == path_sum (cost_of g 0) r /\
       first_fitting caps (node_sum (demand_of g) r) (c_type c)) \/
  (convert_initial_routes g caps rs = Err ValueError /\
     exists r, In r rs /\ none_fits caps (node_sum (demand_of g) r)).
Proof. exact convert_ok. Qed.
Print Assumptions C21_columns_partial.

Theorem C21_no_type_raises : forall (g : vgraph) K caps rs,
  network K g -> (1 <= K)%nat ->
  (forall r, In r rs -> along (arc_list g) r /\ (2 <= List.length r)%nat) ->
  (convert_initial_routes g caps rs = Err ValueError <->
   exists r, In r rs /\ none_fits caps (node_sum (demand_of g) r)).
Proof. exact convert_raises. Qed.
Print Assumptions C21_no_type_raises.

Definition net21 : vgraph :=
  mkGraph [(Source, mk_node 0 0 0 0); (Cust 1, mk_node 7 0 0 0); (Sink, mk_node 0 0 0 0)]
          [((Source, Cust 1), mkE [1; 50] 0 0); ((Cust 1, Sink), mkE [1; 50] 0 0)].
Theorem C21_cost_of_type_refuted : exists g rs cs c r,
  network 2 g /\ (forall r, In r rs -> route_shape r /\ along (arc_list g) r) /\
  convert_initial_routes g (Some [5; 10]%Z) rs = Ok cs /\ nth_error rs 0 = Some r /\ nth_error cs 0 = Some c /\
  c_type c = 1%nat /\ ~ c_cost c == path_sum (cost_of g 1) r.
Proof.
  exists net21, [[Source; Cust 1; Sink]]. eexists. eexists. exists [Source; Cust 1; Sink].
  split; [apply networkb_ok; vm_compute; reflexivity|].
  split. { intros r [<-|[]]. split; [apply route_shapeb_ok; vm_compute; reflexivity|apply alongb_iff; vm_compute; reflexivity]. }
  split; [vm_compute; reflexivity|]. split; [reflexivity|]. split; [reflexivity|]. split; [reflexivity|].
  vm_compute. discriminate.
Qed.
Print Assumptions C21_cost_of_type_refuted.

(* ---- C22 ---- *)
(** Without time windows, pickup and delivery, collection, several vehicle types and periods, the
    initial solution can be computed, covers every customer, and its routes respect the capacity
    and the stop limit, and the duration limit if times are symmetric and round trips fit. *)
Theorem C22_initial_routes_partial : forall (g : vgraph) K caps dur st perms o mixed,
  network K g -> (1 <= K)%nat -> round_trips g -> In (Source, Sink) (arc_list g) -> caps <> Some [] ->
  (forall x l, Permutation l (perms x l)) ->
  o_time_windows o = false -> o_pickup_delivery o = false -> o_distribution_collection o = false ->
  mixed = false -> truthy (o_periodic o) = false ->
  exists rs, get_initial_solution o mixed caps dur st perms g = Ok rs /\
    (forall v, In v (custs g) -> exists r, In r rs /\ In v r) /\
    forall p, In p rs ->
    route_shape p /\ along (arc_list g) p /\ (forall v, In v (stops p) -> In v (custs g)) /\
    (forall c l, caps = Some (c :: l) -> (0 < c)%Z ->
       (forall v, In v (custs g) -> demand_of g v <= inject_Z c) ->
       node_sum (demand_of g) (stops p) <= inject_Z c) /\
    (forall n, st = Some n -> (1 <= n)%Z -> (Z.of_nat (List.length (stops p)) <= n)%Z) /\
    (forall D, limit dur D -> symmetric_times g ->
       (forall v, In v (custs g) ->
          path_sum (time_of g) [Source; v; Sink] + service_of g v <= inject_Z D) ->
       stops p <> [] -> path_sum (time_of g) p + node_sum (service_of g) (stops p) <= inject_Z D).
Proof. exact plain_initial. Qed.
Print Assumptions C22_initial_routes_partial.

Example C22_case : exists rs,
  get_initial_solution (mkOptions false false false false None true []) false (Some [8%Z]) (Some 20%Z) (Some 2%Z)
    (fun _ l => l) net3 = Ok rs /\ List.length rs = 40%nat.
Proof. eexists. split; vm_compute; reflexivity. Qed.

(** Only single arcs are checked against the windows, the first one before the windows are
    strengthened: the round trip to customer 1 arrives there at 50, leaves at 70 and arrives at the
    depot at 110, which closes at 100, and yet becomes an initial column. *)
Definition raw22 (collect : option Q) (t1 ser t2 : Q) (up : option Q) : rgraph :=
  mkGraph [(Cust 1, mkNR (Some 1) collect (Some ser) None up None None false);
           (Source, mkNR None None None None None None None false);
           (Sink, mkNR None None None None up None None false)]
          [((Source, Cust 1), mkER (Some (Vec [1])) (Some t1)); ((Cust 1, Sink), mkER (Some (Vec [1])) (Some t2))].

Theorem C22_time_windows_refuted : exists g c o p rs cs r,
  wf g /\ o_time_windows o = true /\ pre_solve c o g = Ok p /\
  initialize o false (cf_load_capacity c) (cf_duration c) (pr_num_stops p) (fun _ l => l) [] (pr_graph p) = Ok (rs, cs) /\
  In r rs /\
  ~ tw_feasible (time_of (pr_copy p)) (service_of (pr_copy p)) (lower_of (pr_copy p)) (upper_of (pr_copy p)) r.
Proof.
  exists (raw22 None 50 20 40 (Some 100)), (mkConfig None None None [] None 1), (mkOptions true false false false None true []).
  eexists. eexists. eexists. exists [Source; Cust 1; Sink].
  split; [apply wfb_ok; vm_compute; reflexivity|]. split; [reflexivity|].
  split; [vm_compute; reflexivity|]. split; [vm_compute; reflexivity|]. split; [left; reflexivity|].
  intros (T & HT). destruct T as [|a [|b [|x [|y T]]]]; cbn [timetable] in HT; try tauto.
  destruct HT as (A1 & A2 & A3 & B1 & B2 & B3 & C1 & C2).
  match type of A3 with context[time_of ?h Source (Cust 1)] =>
    change (lower_of h Source) with 0 in A1; change (service_of h Source) with 0 in A3;
    change (time_of h Source (Cust 1)) with 50 in A3; change (service_of h (Cust 1)) with 20 in B3;
    change (time_of h (Cust 1) Sink) with 40 in B3; change (upper_of h Sink) with 100 in C2
  end. lra.
Qed.
Print Assumptions C22_time_windows_refuted.

(** Collected quantities are not checked: 100 units are picked up by a vehicle of capacity 10. *)
Theorem C22_collection_refuted : exists g c o p rs cs r,
  wf g /\ o_distribution_collection o = true /\ cf_load_capacity c = Some [10%Z] /\ pre_solve c o g = Ok p /\
  initialize o false (cf_load_capacity c) (cf_duration c) (pr_num_stops p) (fun _ l => l) [] (pr_graph p) = Ok (rs, cs) /\
  In r rs /\ 10 < node_sum (collect_of (pr_copy p)) r.
Proof.
  exists (raw22 (Some 100) 0 0 0 None), (mkConfig None (Some [10%Z]) None [] None 1), (mkOptions false false true false None true []).
  eexists. eexists. eexists. exists [Source; Cust 1; Sink].
  split; [apply wfb_ok; vm_compute; reflexivity|]. split; [reflexivity|]. split; [reflexivity|].
  split; [vm_compute; reflexivity|]. split; [vm_compute; reflexivity|]. split; [left; reflexivity|].
  vm_compute. reflexivity.
Qed.
Print Assumptions C22_collection_refuted.

(* ---- C77 ---- *)
(** Initial routes given by the user are taken as they are, if and only if they lead from Source to
    Sink along existing arcs, leave out no customer and each of them fits some vehicle. *)
Theorem C77_given_routes : forall (g : vgraph) K o mixed caps dur st perms given,
  network K g -> (1 <= K)%nat -> given <> [] ->
  (forall rs cs, initialize o mixed caps dur st perms given g = Ok (rs, cs) -> rs = given) /\
  ((exists out, initialize o mixed caps dur st perms given g = Ok out) <->
   (forall r, In r given -> exists p, r = Source :: p ++ [Sink]) /\
   (forall v, In v (custs g) -> exists r, In r given /\ In v r) /\
   (forall r, In r given -> along (arc_list g) r) /\
   (forall r, In r given -> ~ none_fits caps (node_sum (demand_of g) r))).
Proof. exact initialize_given. Qed.
Print Assumptions C77_given_routes.

(** Without initial routes, those of the automatic solution are used. *)
Theorem C77_automatic : forall o mixed caps dur st perms given g rs cs,
  initialize o mixed caps dur st perms given g = Ok (rs, cs) ->
  convert_initial_routes g caps rs = Ok cs /\
  (given = [] -> get_initial_solution o mixed caps dur st perms g = Ok rs).
Proof. exact initialize_parts. Qed.
Print Assumptions C77_automatic.

Theorem C77_columns : forall (g : vgraph) K o mixed caps dur st perms given rs cs,
  network K g -> (1 <= K)%nat ->
  initialize o mixed caps dur st perms given g = Ok (rs, cs) ->
  (forall r, In r rs -> along (arc_list g) r /\ (2 <= List.length r)%nat) ->
  List.length cs = List.length rs /\
  forall i r, nth_error rs i = Some r -> exists c, nth_error cs i = Some c /\
    c_name c = CNat (S i) /\
    (forall v, In v (c_nodes c) <-> In v r) /\ NoDup (c_nodes c) /\
    (forall a, In a (c_arcs c) <-> In a (arcs r)) /\
    c_cost c == path_sum (cost_of g 0) r /\
    first_fitting caps (node_sum (demand_of g) r) (c_type c).
Proof. exact initialize_columns. Qed.
Print Assumptions C77_columns.

(** Plain problems: the routes of Clarke & Wright for the parameters 0.1, 0.2, ..., 1.9, then the
    greedy ones. *)
Theorem C77_plain : forall o mixed caps dur st perms g rs,
  o_time_windows o = false -> o_pickup_delivery o = false -> o_distribution_collection o = false ->
  mixed = false -> o_periodic o = None \/ o_periodic o = Some 0%Z ->
  get_initial_solution o mixed caps dur st perms g = Ok rs ->
  exists f last q,
    (forall x, (1 <= x <= 19)%nat ->
       exists q, clarke_wright g caps dur st (Z.of_nat x # 10) (perms x) = Ok (f x, q)) /\
    greedy_heuristic g caps st dur = Ok (last, q) /\
    rs = List.concat (map f (seq 1 19)) ++ last.
Proof. exact initial_plain. Qed.
Print Assumptions C77_plain.

(** Pickup and delivery: one route per request; with time windows they must exist. *)
Theorem C77_pickups : forall o mixed caps dur st perms g,
  wf g -> o_pickup_delivery o = true ->
  (forall rs, get_initial_solution o mixed caps dur st perms g = Ok rs ->
     NoDup rs /\
     forall r, In r rs <-> exists v dat d, node_data g v = Some dat /\ request dat = Some d /\ r = [Source; v; d; Sink]) /\
  ((exists rs, get_initial_solution o mixed caps dur st perms g = Ok rs) <->
   (o_time_windows o = true -> forall v dat d, node_data g v = Some dat -> request dat = Some d ->
      In (Source, v) (arc_list g) /\ In (v, d) (arc_list g) /\ In (d, Sink) (arc_list g))).
Proof. exact initial_pickups. Qed.
Print Assumptions C77_pickups.

Example C77_cases :
  (exists cs, initialize (mkOptions false false false false None true []) false (Some [8%Z]) None None (fun _ l => l)
     [[Source; Cust 1; Cust 2; Sink]; [Source; Cust 3; Cust 4; Sink]] net3 =
     Ok ([[Source; Cust 1; Cust 2; Sink]; [Source; Cust 3; Cust 4; Sink]], cs)) /\
  initialize (mkOptions false false false false None true []) false (Some [8%Z]) None None (fun _ l => l)
     [[Source; Cust 1; Cust 2; Sink]] net3 = Err KeyError.
Proof. split; [eexists|]; vm_compute; reflexivity. Qed.
