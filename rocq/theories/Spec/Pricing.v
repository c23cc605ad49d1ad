(** Reduced costs, and what the pricing graphs should be. *)
From Verif.Base Require Import Prelude Graph.
From Verif.Spec Require Import Routes Network.
From Verif.Model Require Import Initial Pricing.

(** The dual value of a customer, and of the bound on the number of vehicles of type [k]
    (0 if there is none). *)
Definition dual_of (D : dual_dict) (v : node) : Q :=
  match assoc_node v (d_nodes D) with Some q => q | None => 0 end.
Definition fleet_dual (D : dual_dict) (k : nat) : Q :=
  match d_fleet D with Some l => nth k l 0 | None => 0 end.

(** Duals as a dictionary: at most one value per customer, none for a depot, and if the fleet is
    bounded a value for each of the [K] vehicle types. *)
Record duals_ok (K : nat) (D : dual_dict) : Prop := {
  do_keys : NoDup (map fst (d_nodes D));
  do_custs : forall v q, In (v, q) (d_nodes D) -> v <> Source /\ v <> Sink;
  do_fleet : forall l, d_fleet D = Some l -> (K <= List.length l)%nat
}.

(** Reduced cost of the route through the customers [cs] with a vehicle of type [k], where the
    cost of the route is counted [scale] times (1, unless the global span is minimised). *)
Definition reduced_cost (g : vgraph) (D : dual_dict) (scale : Q) (k : nat) (cs : list node) : Q :=
  scale * path_sum (cost_of g k) (Source :: cs ++ [Sink]) - node_sum (dual_of D) cs - fleet_dual D k.

(** The networks differ at most in the pricing weights of the arcs. *)
Definition same_but_weights (g g1 : vgraph) : Prop :=
  gnodes g1 = gnodes g /\ arc_list g1 = arc_list g /\
  forall u v e1, arc_data g1 u v = Some e1 ->
    exists e, arc_data g u v = Some e /\ ecost e1 = ecost e /\ etime e1 = etime e.

(** [h] is a part of [g]: its nodes and arcs are nodes and arcs of [g] with the same data. *)
Record part_of (h g : vgraph) : Prop := {
  part_wf : wf h;
  part_nodes : forall v d, node_data h v = Some d -> node_data g v = Some d;
  part_arcs : forall u v e, arc_data h u v = Some e -> arc_data g u v = Some e
}.

(** [L] is the largest of a list of numbers; the smallest. *)
Definition largest (L : Q) (l : list Q) : Prop := In L l /\ forall x, In x l -> x <= L.
Definition smallest (m : Q) (l : list Q) : Prop := In m l /\ forall x, In x l -> m <= x.

(** Arcs between two customers. *)
Definition inner_arc (a : arc) : Prop := fst a <> Source /\ snd a <> Sink.

(** [kept] are [n] arcs of lowest weight among [l]. *)
Definition lowest (w : arc -> Q) (n : nat) (l kept : list arc) : Prop :=
  NoDup kept /\ List.length kept = n /\ (forall a, In a kept -> In a l) /\
  forall a b, In a kept -> In b l -> ~ In b kept -> w a <= w b.

(** Weights mapped linearly onto [-1, 1] (smallest [mn], largest [mx]), negative ones replaced
    by 0. *)
Definition clipped (mx mn w : Q) : Q := Qmax 0 (((2 # 1) * w - mx - mn) / (mx - mn)).

(** Simple paths from Source to Sink, and a list of the [n] shortest ones (all if there are
    fewer). *)
Definition simple_path (A : list arc) (p : list node) : Prop :=
  walk A Source Sink p /\ NoDup p.
Record k_shortest (A : list arc) (w : arc -> Q) (n : nat) (ps : list (list node)) : Prop := {
  ks_paths : forall p, In p ps -> simple_path A p;
  ks_NoDup : NoDup ps;
  ks_length : (List.length ps <= n)%nat;
  ks_best : forall q, simple_path A q -> ~ In q ps ->
    List.length ps = n /\
    forall p, In p ps -> Qsum (map w (arcs p)) <= Qsum (map w (arcs q))
}.
