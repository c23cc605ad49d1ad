(** A plan of routes for a problem, in terms of the graph and the arguments given by the user. *)
From Verif.Base Require Import Prelude Graph.
From Verif.Spec Require Import Routes Network Inputs.
From Verif.Model Require Import Args.

(** The user's figures; what is missing counts as 0. *)
Definition or_zero (o : option Q) : Q := match o with Some x => x | None => 0 end.
Definition user_demand (g : rgraph) (v : node) : Q :=
  match node_data g v with Some r => or_zero (r_demand r) | None => 0 end.
Definition user_service (g : rgraph) (v : node) : Q :=
  match node_data g v with Some r => or_zero (r_service r) | None => 0 end.
Definition user_time (g : rgraph) (u v : node) : Q :=
  match arc_data g u v with Some e => or_zero (r_time e) | None => 0 end.

(** The cost of an arc for vehicle type [k]; a missing arc between the depot and a customer is
    added by the constructor at cost 1e10. *)
Definition user_cost (g : rgraph) (k : nat) (u v : node) : Q :=
  match arc_data g u v with
  | Some e => match r_cost e with Some (Scalar q) => q | Some (Vec l) => nth k l 0 | None => 0 end
  | None => if mem_arc (u, v) (depot_arcs g) then inject_Z 10000000000 else 0
  end.

(** No arc has an empty list of costs. *)
Definition no_empty_costs (g : rgraph) : Prop :=
  forall u v e, arc_data g u v = Some e -> r_cost e <> Some (Vec []).

(** The limits the user asked for, of one vehicle type; 0 means no limit. *)
Definition stop_limit (a : rargs) (n : Z) : Prop := a_num_stops a = PNum (PInt n) /\ n <> 0%Z.
Definition time_limit (a : rargs) (D : Z) : Prop := a_duration a = PNum (PInt D) /\ D <> 0%Z.
Definition capacity_limit (a : rargs) (c : Z) : Prop :=
  (a_load_capacity a = PNum (PInt c) /\ c <> 0%Z) \/ a_load_capacity a = PList [PInt c].
(** The fixed cost of a vehicle. *)
Definition fixed_price (a : rargs) : Q :=
  match a_fixed_cost a with
  | PNum n | PList (n :: _) => num_val n
  | PNone | PList [] => 0
  end.

Definition nonneg_user_demands (g : rgraph) : Prop := forall v, 0 <= user_demand g v.

(** The routes visit every customer exactly once and nothing else, along arcs of the graph (the
    added depot arcs included), and no vehicle stays at the depot. *)
Record serves (g : rgraph) (rs : list (list node)) : Prop := {
  sv_once : each_once (custs g) rs;
  sv_only : only_visits (custs g) rs;
  sv_along : forall r, In r rs -> route_shape r /\ along (arc_list g ++ depot_arcs g) r /\ stops r <> []
}.

Record within_limits (g : rgraph) (a : rargs) (r : list node) : Prop := {
  wl_load : forall c, capacity_limit a c -> node_sum (user_demand g) (stops r) <= inject_Z c;
  wl_stops : forall n, stop_limit a n -> (Z.of_nat (List.length (stops r)) <= n)%Z
}.

Definition within_time (g : rgraph) (a : rargs) (r : list node) : Prop :=
  forall D, time_limit a D ->
    path_sum (user_time g) r + node_sum (user_service g) (stops r) <= inject_Z D.

(** The cost of a plan of identical vehicles: arcs travelled plus the fixed cost of each vehicle. *)
Definition plan_price (g : rgraph) (a : rargs) (rs : list (list node)) : Q :=
  Qsum (map (fun r => path_sum (user_cost g 0) r + fixed_price a) rs).

(** Some vehicle can carry [q]; no capacity means no limit. *)
Definition some_vehicle_carries (a : rargs) (q : Q) : Prop :=
  match a_load_capacity a with
  | PNone | PList [] => True
  | PNum n => num_val n == 0 \/ q <= num_val n
  | PList l => exists n, In n l /\ q <= num_val n
  end.

(** Customer [u] can be reached and left within [D], service not counted. *)
Definition reached_within (g : rgraph) (u : node) (D : Z) : Prop :=
  exists p1 p2, walk (arc_list g ++ depot_arcs g) Source u p1 /\ walk (arc_list g ++ depot_arcs g) u Sink p2 /\
    path_sum (user_time g) p1 + path_sum (user_time g) p2 <= inject_Z D.

(** The arguments with the pricing strategy given to solve(). *)
Definition with_strategy (a : rargs) (s : string) : rargs :=
  mkArgs (a_num_stops a) (a_load_capacity a) (a_duration a) (a_fixed_cost a) (a_num_vehicles a)
         (a_mixed_fleet a) s.

(** A problem with one vehicle type that can be given to solve() with pricing strategy [s]. *)
Record acceptable (g : rgraph) (a : rargs) (s : string) : Prop := {
  ac_graph : accepted_graph g;
  ac_args : accepted_args (with_strategy a s) g;
  ac_capacity : a_load_capacity a <> PList [];
  ac_carry : forall u, In u (custs g) -> some_vehicle_carries a (user_demand g u);
  ac_reach : forall D u, time_limit a D -> In u (custs g) -> reached_within g u D
}.
