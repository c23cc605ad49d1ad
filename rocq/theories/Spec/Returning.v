(** Plain problems for which a plan is known to exist, and solvers that give up. *)
From Verif.Base Require Import Prelude Graph.
From Verif.Spec Require Import Routes Network Inputs LinProg MIP Plans Variants.
From Verif.Model Require Import Args ColGen Solve.

(** A plain problem, asked to be solved from scratch with one of the strategies that only leave out
    arcs: the checks accept it, one vehicle type, no time windows, requests, periods or span (the
    other options of the constructor are false), and if the vehicles are counted, either there is one
    for every customer, or customers may be dropped; no vehicle has to be used. *)
Record plain_problem (sa : solve_args) (g : rgraph) (a : rargs) (drop : option Q) (all : bool) (per : option Z) : Prop := {
  pp_wf : wf g;
  pp_one : a_mixed_fleet a = false /\ forall x y l, a_load_capacity a <> PList (x :: y :: l);
  pp_costs : no_empty_costs g;
  pp_demands : nonneg_user_demands g;
  pp_times : forall u w, 0 <= user_time g u w;
  pp_aux : forall u r, node_data g u = Some r -> r_aux_depot r = false;
  pp_custs : custs g <> [];
  pp_per : truthy per = false;
  pp_call : sa_pre sa = [] /\ sa_initial sa = [] /\ sa_dive sa = false /\ sa_heuristic sa = false;
  pp_strategy : sa_strategy sa = "Exact"%string \/ sa_strategy sa = "BestEdges1"%string \/ sa_strategy sa = "BestEdges2"%string;
  pp_number : forall x, a_num_vehicles a = PNum x -> ~ num_val x == 0;
  pp_fleet : forall k n, number_of a k n -> all = false /\ 0 <= n /\
    (inject_Z (Z.of_nat (List.length (custs g))) <= n \/ exists q, drop = Some q /\ ~ q == 0);
  pp_accept : acceptable g a (sa_strategy sa)
}.

(** A plain problem and a plan of the user's own: every customer is on a route given as initial_routes,
    these routes go along arcs and keep the limits, and some of them ([rs]), with the customers
    [dropped] left out, are a plan for the vehicles there are. *)
Record own_plan (sa : solve_args) (g : rgraph) (a : rargs) (drop : option Q) (all : bool) (per : option Z)
  (rs : list (list node)) (dropped : list node) : Prop := {
  op_wf : wf g;
  op_one : a_mixed_fleet a = false /\ forall x y l, a_load_capacity a <> PList (x :: y :: l);
  op_costs : no_empty_costs g;
  op_demands : nonneg_user_demands g;
  op_times : forall u w, 0 <= user_time g u w;
  op_aux : forall u r, node_data g u = Some r -> r_aux_depot r = false;
  op_custs : custs g <> [];
  op_per : truthy per = false;
  op_call : sa_pre sa = [] /\ sa_dive sa = false /\ sa_heuristic sa = false;
  op_strategy : sa_strategy sa = "Exact"%string \/ sa_strategy sa = "BestEdges1"%string \/ sa_strategy sa = "BestEdges2"%string;
  op_number : forall x, a_num_vehicles a = PNum x -> ~ num_val x == 0;
  op_accept : acceptable g a (sa_strategy sa);
  op_given : sa_initial sa <> [];
  op_routes : forall r, In r (sa_initial sa) -> route_shape r /\ stops r <> [] /\
    along (arc_list g ++ depot_arcs g) r /\ respects g a false false false 0 r;
  op_covers : forall u, In u (custs g) -> exists r, In r (sa_initial sa) /\ In u r;
  op_plan : starting_plan g a false drop all (sa_initial sa) rs dropped
}.

(** The solver of the master problem does not solve some program although it has a solution and its
    objective is bounded. *)
Definition gives_up (E : env) : Prop := exists n q x b,
  feasible x q /\ (forall y, feasible y q -> b <= value y (p_obj q)) /\ a_status (e_master E n q) <> Optimal.
