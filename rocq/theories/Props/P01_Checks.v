(** Properties C01-C05: what is accepted, what is rejected, and with which exception. *)
From Verif.Base Require Import Prelude Graph.
From Verif.Spec Require Import Routes Network Inputs Feasible Prep.
From Verif.Model Require Import Args Reach Checks.
From Verif.Proofs Require Import ChecksProofs FeasProofs ArgsExact.
From Verif.Props Require Import Samples.

(* ---- C01 ---- *)
Theorem C01_accepts_exactly : forall g : rgraph, wf g ->
  ((exists g', check_vrp g = Ok g') <-> accepted_graph g).
Proof. exact check_vrp_accepts. Qed.
Print Assumptions C01_accepts_exactly.

Theorem C01_only_completes : forall g g' : rgraph, wf g -> check_vrp g = Ok g' ->
  completion g g' /\ wf g'.
Proof. exact check_vrp_effect. Qed.
Print Assumptions C01_only_completes.

Theorem C01_exception_class : forall (g : rgraph) e, wf g -> check_vrp g = Err e ->
  (~ In Source (nodes g) /\ e = KeyError) \/
  (In Source (nodes g) /\
   (~ In Sink (nodes g) \/
    (exists u, In (u, Source) (arc_list g)) \/
    (exists v, In (Sink, v) (arc_list g)) \/
    ~ (exists p, walk (arc_list g ++ depot_arcs g) Source Sink p)) /\
   e = NetworkXError) \/
  ((exists u v d, arc_data g u v = Some d /\ r_cost d = None) /\ e = KeyError).
Proof. exact check_vrp_error. Qed.
Print Assumptions C01_exception_class.

Example C01_hypotheses_met : wf raw1 /\ accepted_graph raw1 /\
  exists g', check_vrp raw1 = Ok g' /\
    arc_data g' (Cust 3) Sink = Some (mkER (Some (Scalar (inject_Z 10000000000))) None) /\
    arc_data raw1 (Cust 3) Sink = None.
Proof.
  split; [exact raw1_wf|]. split; [exact raw1_accepted|].
  eexists. split; [vm_compute; reflexivity|]. split; vm_compute; reflexivity.
Qed.

(* ---- C02 ---- *)
Theorem C02_accepts_exactly : forall (a : rargs) (g : rgraph),
  wf g -> costed g -> arc_list g <> [] ->
  ((exists r, prepare_args a g = Ok r) <-> accepted_args a g).
Proof. exact prepare_args_accepts. Qed.
Print Assumptions C02_accepts_exactly.

Theorem C02_exception_class : forall (a : rargs) (g : rgraph) e,
  wf g -> costed g -> prepare_args a g = Err e ->
  (e = TypeError /\ (bad_number_type a \/ scalar_in_mixed_fleet a g)) \/
  (e = ValueError /\ (unknown_strategy a \/ dimension_mismatch a g)).
Proof. exact prepare_args_error. Qed.
Print Assumptions C02_exception_class.

(** Scalar costs become one-element lists for a single vehicle type; nothing else changes. *)
Theorem C02_only_wraps_costs : forall (a : rargs) (g : rgraph) r,
  wf g -> prepare_args a g = Ok r ->
  gnodes (snd r) = gnodes g /\ arc_list (snd r) = arc_list g /\
  (a_mixed_fleet a = true -> snd r = g) /\
  (a_mixed_fleet a = false -> forall u v,
     arc_data (snd r) u v =
     option_map (fun e => match r_cost e with
                          | Some (Scalar q) => mkER (Some (Vec [q])) (r_time e)
                          | _ => e
                          end) (arc_data g u v)).
Proof. exact prepare_args_effect. Qed.
Print Assumptions C02_only_wraps_costs.

(** Effect on the arguments: for a single vehicle type numbers become one-element lists; for a mixed
    fleet nothing changes and the number of types is the length of the first list given. *)
Theorem C02_arguments_effect : forall (a a' : rargs) (g g' : rgraph) types,
  prepare_args a g = Ok (a', types, g') ->
  a_num_stops a' = a_num_stops a /\ a_duration a' = a_duration a /\
  a_mixed_fleet a' = a_mixed_fleet a /\ a_strategy a' = a_strategy a /\
  (a_mixed_fleet a = true -> a' = a /\ forall K, types = Some K <-> fleet_size a K) /\
  (a_mixed_fleet a = false -> types = Some 1%nat /\
     wrapped (a_load_capacity a) (a_load_capacity a') /\ wrapped (a_fixed_cost a) (a_fixed_cost a') /\
     wrapped (a_num_vehicles a) (a_num_vehicles a')).
Proof. intros a a' g g' types. exact (prepare_args_args a g a' types g'). Qed.
Print Assumptions C02_arguments_effect.

Definition args1 : rargs :=
  mkArgs (PNum (PInt 3)) (PNum (PInt 10)) (PNum (PInt 64)) PNone (PList []) false "BestEdges1".
Example C02_hypotheses_met : wf raw1 /\ costed raw1 /\ arc_list raw1 <> [] /\ accepted_args args1 raw1.
Proof.
  split; [exact raw1_wf|]. split; [exact raw1_costed|]. split; [discriminate|].
  apply (C02_accepts_exactly args1 raw1 raw1_wf raw1_costed); [discriminate|].
  eexists. vm_compute. reflexivity.
Qed.

(* ---- C03 ---- *)
Theorem C03_passes_iff : forall K caps dur (g : vgraph),
  network K g -> round_trips g -> nonneg_times g ->
  (check_feasibility caps dur g = Ok tt <->
   (forall v, In v (nodes g) -> fits_some caps (demand_of g v)) /\
   (forall D v, limit dur D -> In v (custs g) -> reachable_within g v (inject_Z D))).
Proof. exact check_feasibility_ok. Qed.
Print Assumptions C03_passes_iff.

Theorem C03_no_false_alarm : forall K caps dur (g : vgraph) e,
  network K g -> round_trips g -> nonneg_times g -> nonneg_services g -> nonneg_demands g ->
  check_feasibility caps dur g = Err e ->
  e = ValueError /\ exists v, In v (nodes g) /\
    forall r, route_shape r -> along (arc_list g) r -> In v r ->
      ~ fits_some caps (node_sum (demand_of g) r) \/
      exists D, limit dur D /\ inject_Z D < duration_of (time_of g) (service_of g) r.
Proof. exact check_feasibility_no_false_alarm. Qed.
Print Assumptions C03_no_false_alarm.

Example C03_hypotheses_met :
  network 1 net1 /\ round_trips net1 /\ nonneg_times net1 /\ nonneg_services net1 /\ nonneg_demands net1 /\
  check_feasibility (Some [10%Z]) (Some 20%Z) net1 = Ok tt /\
  check_feasibility (Some [4%Z]) (Some 20%Z) net1 = Err ValueError /\
  check_feasibility (Some [10%Z]) (Some 13%Z) net1 = Err ValueError.
Proof.
  repeat (split; [first [exact net1_network | exact net1_round | exact net1_times
    | exact net1_services | exact net1_demands | vm_compute; reflexivity]|]).
  vm_compute. reflexivity.
Qed.

(* ---- C04 ---- *)
Theorem C04_accepts_exactly : forall routes (g : vgraph),
  check_initial_routes routes g = Ok tt <->
  (forall r, In r routes -> exists p, r = Source :: p ++ [Sink]) /\
  (forall v, In v (custs g) -> exists r, In r routes /\ In v r) /\
  (forall r, In r routes -> along (arc_list g) r).
Proof. exact check_initial_routes_ok. Qed.
Print Assumptions C04_accepts_exactly.

Theorem C04_exception_class : forall routes (g : vgraph) e,
  check_initial_routes routes g = Err e ->
  (e = IndexError /\ In [] routes) \/
  (e = ValueError /\ exists r, In r routes /\ r <> [] /\ ~ (exists p, r = Source :: p ++ [Sink])) \/
  (e = KeyError /\ ((exists v, In v (custs g) /\ forall r, In r routes -> ~ In v r) \/
                   (exists r, In r routes /\ ~ along (arc_list g) r))).
Proof. exact check_initial_routes_err. Qed.
Print Assumptions C04_exception_class.

Example C04_both_outcomes :
  check_initial_routes [[Source; Cust 1; Cust 2; Cust 3; Sink]; [Source; Cust 4; Sink]] net1 = Ok tt /\
  check_initial_routes [[Source; Cust 1; Cust 2; Cust 3; Sink]] net1 = Err KeyError /\
  check_initial_routes [[Source; Cust 1; Cust 3; Sink]; [Source; Cust 2; Sink]; [Source; Cust 4; Sink]] net1
    = Err KeyError /\
  check_initial_routes [[Cust 1; Cust 2; Cust 3; Sink]] net1 = Err ValueError.
Proof. vm_compute. repeat split; reflexivity. Qed.

(* ---- C05 ---- *)
Theorem C05_preassignments : forall routes (g : vgraph),
  check_preassignments routes g = Ok tt <-> forall r, In r routes -> along (arc_list g) r.
Proof. exact check_preassignments_ok. Qed.
Print Assumptions C05_preassignments.

Theorem C05_preassignments_exception : forall routes (g : vgraph) e,
  check_preassignments routes g = Err e -> e = ValueError.
Proof. exact check_preassignments_err. Qed.
Print Assumptions C05_preassignments_exception.

Theorem C05_heuristic_only : forall tw pd sdc mixed periodic,
  check_clarke_wright_compatibility tw pd sdc mixed periodic = Ok tt <->
  tw = false /\ pd = false /\ sdc = false /\ mixed = false /\ (periodic = None \/ periodic = Some 0%Z).
Proof. exact check_compat_ok. Qed.
Print Assumptions C05_heuristic_only.

Theorem C05_heuristic_only_exception : forall tw pd sdc mixed periodic e,
  check_clarke_wright_compatibility tw pd sdc mixed periodic = Err e -> e = ValueError.
Proof. exact check_compat_err. Qed.
Print Assumptions C05_heuristic_only_exception.

Theorem C05_pickup_delivery : forall cspy pd (g : vgraph), wf g ->
  (check_consistency cspy pd g = Ok tt <->
   (pd = true -> cspy = false /\ exists v d w, node_data g v = Some d /\ request d = Some w)).
Proof. exact check_consistency_ok. Qed.
Print Assumptions C05_pickup_delivery.

Theorem C05_pickup_delivery_exception : forall cspy pd (g : vgraph) e,
  check_consistency cspy pd g = Err e ->
  pd = true /\ ((e = NotImplementedError /\ cspy = true) \/ (e = KeyError /\ cspy = false)).
Proof. exact check_consistency_err. Qed.
Print Assumptions C05_pickup_delivery_exception.

Theorem C05_periodic_fleet_per_day : forall P nv, P <> 0%Z -> nv <> [] ->
  check_periodic_num_vehicles (Some P) nv = ([], nv).
Proof. exact check_periodic_both. Qed.
Print Assumptions C05_periodic_fleet_per_day.

Theorem C05_fleet_otherwise : forall P nv, P = None \/ P = Some 0%Z \/ nv = [] ->
  check_periodic_num_vehicles P nv = (nv, []).
Proof. exact check_periodic_one. Qed.
Print Assumptions C05_fleet_otherwise.

(** Requests are checked against the pruned network when there are time windows. *)
Theorem C05_request_arcs : forall (g : vgraph) es,
  check_pickup_delivery_time_windows g es = Ok tt <->
  forall u v, In (u, v) es -> In (u, v) (arc_list g).
Proof. exact check_pdtw_ok. Qed.
Print Assumptions C05_request_arcs.

Example C05_both_outcomes :
  check_preassignments [[Cust 1; Cust 2]] net1 = Ok tt /\
  check_preassignments [[Cust 1; Cust 3]] net1 = Err ValueError /\
  check_consistency true true net1 = Err NotImplementedError /\
  check_consistency false true net1 = Err KeyError /\
  check_consistency true false net1 = Ok tt /\
  check_clarke_wright_compatibility false false false false (Some 2%Z) = Err ValueError /\
  check_clarke_wright_compatibility false false false false None = Ok tt.
Proof. vm_compute. repeat split; reflexivity. Qed.
