(** Readings of a network used in statements: total functions from the attribute dictionaries
    (0 where an attribute or arc is absent). *)
From Verif.Base Require Import Prelude Graph.
From Verif.Spec Require Import Routes.

(** Node attributes after default values were filled in. *)
Record ndata := mkN {
  demand : Q; collect : Q; service : Q; lower : Q; upper : Q; freq : Z;
  request : option node;       (* "request" attribute: delivery node of a pickup *)
  is_aux_depot : bool          (* "depot_from" or "depot_to" present *)
}.

(** Arc attributes after formatting: one cost per vehicle type, travel time, and the pricing
    weight ("weight", meaningful once pricing has set it). *)
Record edata := mkE { ecost : list Q; etime : Q; eweight : Q }.

Definition vgraph := graph ndata edata.

Definition dflt_n : ndata := mkN 0 0 0 0 0 1 None false.

Definition nd (g : vgraph) (v : node) : ndata :=
  match node_data g v with Some d => d | None => dflt_n end.
Definition demand_of (g : vgraph) v := demand (nd g v).
Definition collect_of (g : vgraph) v := collect (nd g v).
Definition service_of (g : vgraph) v := service (nd g v).
Definition lower_of (g : vgraph) v := lower (nd g v).
Definition upper_of (g : vgraph) v := upper (nd g v).
Definition cost_of (g : vgraph) (k : nat) (u v : node) : Q :=
  match arc_data g u v with Some e => nth k (ecost e) 0 | None => 0 end.
Definition time_of (g : vgraph) (u v : node) : Q :=
  match arc_data g u v with Some e => etime e | None => 0 end.
Definition weight_of (g : vgraph) (u v : node) : Q :=
  match arc_data g u v with Some e => eweight e | None => 0 end.

(** A network the solver works on: both depots, nothing enters Source, nothing leaves Sink,
    every customer can be reached from Source and can reach Sink directly, and every arc has a
    cost for each of the [K] vehicle types. *)
Record network (K : nat) (g : vgraph) : Prop := {
  net_wf : wf g;
  net_source : In Source (nodes g);
  net_sink : In Sink (nodes g);
  net_no_in : forall u, ~ In (u, Source) (arc_list g);
  net_no_out : forall v, ~ In (Sink, v) (arc_list g);
  net_costs : forall u v e, arc_data g u v = Some e -> (K <= length (ecost e))%nat
}.

(** Every customer has its two depot arcs. *)
Definition round_trips (g : vgraph) : Prop :=
  forall v, In v (custs g) -> In (Source, v) (arc_list g) /\ In (v, Sink) (arc_list g).

(** A plan for network [g]: routes of the network that visit every customer exactly once; and its
    cost when vehicle type [k] is used throughout. *)
Definition plan (g : vgraph) (rs : list (list node)) : Prop :=
  each_once (custs g) rs /\ forall r, In r rs -> route_shape r /\ along (arc_list g) r.
Definition plan_cost (g : vgraph) (k : nat) (rs : list (list node)) : Q :=
  Qsum (map (path_sum (cost_of g k)) rs).
