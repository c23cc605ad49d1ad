(** What the pricing problem should describe: the routes a vehicle of a given type can drive. *)
From Verif.Base Require Import Prelude Graph.
From Verif.Spec Require Import Routes Network LinProg.
From Verif.Model Require Import Args Preprocess.

(** The route through the customers [cs]. *)
Definition trip (cs : list node) : list node := Source :: cs ++ [Sink].

(** [cs] are distinct customers, at least one, and the route through them uses arcs of [h]. *)
Record elementary_route (h : vgraph) (cs : list node) : Prop := {
  er_NoDup : NoDup cs;
  er_custs : forall v, In v cs -> v <> Source /\ v <> Sink;
  er_some : cs <> [];
  er_along : along (arc_list h) (trip cs)
}.

(** Limits; [None] and 0 (for the capacities: the empty list) mean that there is no limit. *)
Definition within_stops (ns : option Z) (cs : list node) : Prop :=
  forall n, ns = Some n -> n <> 0%Z -> (Z.of_nat (List.length cs) <= n)%Z.
Definition within_load (h : vgraph) (caps : option (list Z)) (k : nat) (cs : list node) : Prop :=
  forall l c, caps = Some l -> nth_error l k = Some c ->
    node_sum (demand_of h) (cs ++ [Sink]) <= inject_Z c.
Definition within_duration (h : vgraph) (dur : option Z) (cs : list node) : Prop :=
  forall D, dur = Some D -> D <> 0%Z ->
    path_sum (time_of h) (trip cs) + node_sum (service_of h) (Source :: cs) <= inject_Z D.

(** All windows can be met on the route. *)
Definition within_windows (h : vgraph) (cs : list node) : Prop :=
  tw_feasible (time_of h) (service_of h) (lower_of h) (upper_of h) (trip cs).

(** Pickups and deliveries: [v] is a pickup with delivery [d]. *)
Definition pair_of (h : vgraph) (v d : node) : Prop :=
  exists n, node_data h v = Some n /\ request n = Some d.
(** A pickup and its delivery are on the same route, the pickup first; the load is always
    between 0 and the capacity and 0 at the end. *)
Record pairs_ok (h : vgraph) (cap : Q) (cs : list node) : Prop := {
  po_together : forall v d, pair_of h v d -> (In v cs <-> In d cs);
  po_before : forall v d, pair_of h v d -> In v cs -> before v d cs;
  po_loads : loads_within (demand_of h) cap (cs ++ [Sink]);
  po_empty : node_sum (demand_of h) (cs ++ [Sink]) == 0
}.

(** Simultaneous distribution and collection: wherever the vehicle drives, between the customers
    [c1] and the customers [c2], what it has collected plus what it still has to deliver fits. *)
Definition both_fit (h : vgraph) (cap : Q) (cs : list node) : Prop :=
  forall c1 c2, cs = c1 ++ c2 ->
    node_sum (collect_of h) c1 + node_sum (demand_of h) c2 <= cap.

(** A route respecting everything that is switched on. *)
Record drivable (h : vgraph) (o : options) (caps : option (list Z)) (k : nat) (ns dur : option Z)
    (cs : list node) : Prop := {
  dr_route : elementary_route h cs;
  dr_stops : within_stops ns cs;
  dr_load : within_load h caps k cs;
  dr_duration : within_duration h dur cs;
  dr_windows : o_time_windows o = true -> within_windows h cs;
  dr_pairs : o_pickup_delivery o = true ->
    forall l c, caps = Some l -> nth_error l k = Some c -> pairs_ok h (inject_Z c) cs;
  dr_both : o_distribution_collection o = true ->
    forall l c, caps = Some l -> nth_error l k = Some c -> both_fit h (inject_Z c) cs
}.

(** A closed walk of negative weight. *)
Definition negative_cycle (g : vgraph) : Prop :=
  exists u p, walk (arc_list g) u u p /\ path_sum (weight_of g) p < 0.

(** Pickups and their deliveries are different customers. *)
Definition pairs_proper (h : vgraph) : Prop :=
  forall v d, pair_of h v d -> v <> d /\ v <> Source /\ v <> Sink /\ d <> Source /\ d <> Sink.

(** Sizes of the data for which the constants of the MIP are large enough: on no arc can the
    service be later than the closing of the depot allows, no demand exceeds the capacity, and
    goods are not negative. *)
Record mip_data (h : vgraph) (o : options) (caps : option (list Z)) (k : nat) : Prop := {
  md_windows : o_time_windows o = true -> forall v, In v (nodes h) -> 0 <= lower_of h v /\ lower_of h v <= upper_of h v;
  md_start : o_time_windows o = true -> forall v, In (Source, v) (arc_list h) ->
    lower_of h Source + service_of h Source + time_of h Source v <= upper_of h Sink + lower_of h v;
  md_bigM : o_time_windows o = true -> forall u v, In (u, v) (arc_list h) -> u <> Source ->
    upper_of h u + service_of h u + time_of h u v <= upper_of h Sink + lower_of h v;
  md_pairs : o_pickup_delivery o = true -> pairs_proper h;
  md_sizes : o_pickup_delivery o = true -> forall l c v, caps = Some l -> nth_error l k = Some c -> In v (nodes h) ->
    - inject_Z c <= demand_of h v /\ demand_of h v <= inject_Z c;
  md_goods : o_distribution_collection o = true -> forall v, In v (custs h) -> 0 <= demand_of h v /\ 0 <= collect_of h v
}.

(** An answer to a pricing problem in which the code sees no column: none exists, or the best has
    a reduced cost of at least -0.001. *)
Definition nothing_found {V} (a : answer V) : Prop :=
  a_status a = Infeasible \/ forall q, a_objective a = Some q -> - (1 # 1000) <= q.
