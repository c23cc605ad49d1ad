(** What is done with the answers of the labelling algorithm. *)
From Verif.Base Require Import Prelude Graph.
From Verif.Spec Require Import Routes Network MIP Columns Timing.
From Verif.Model Require Import Initial Cspy.

(** The edges of a column as networkx lists them: node after node, in the order in which the nodes
    were added. *)
Definition listing (c : column) : list arc :=
  flat_map (fun v => filter (fun a => node_eqb (fst a) v) (c_arcs c)) (c_nodes c).
(** The column [c] cannot be told from a column of the pool. *)
Definition listed (pool : list column) (c : column) : Prop :=
  exists c', In c' pool /\ listing c' = listing c.

(** The answer [a] is the path [p], of reduced cost less than -0.001. *)
Definition improving (a : option (Q * list node)) (p : list node) : Prop :=
  exists q, a = Some (q, p) /\ q < - (1 # 1000).

(** [c] is the column made of the path [p] in network [h] for vehicle type [k], the pool having [n]
    columns. *)
Record found_column (h : vgraph) (k n : nat) (p : list node) (c : column) : Prop := {
  fc_path : c_path c = Some p;
  fc_type : c_type c = k;
  fc_arcs : NoDup (c_arcs c) /\ forall a, In a (c_arcs c) <-> In a (arcs p);
  fc_cost : c_cost c == Qsum (map (fun a => cost_of h k (fst a) (snd a)) (c_arcs c));
  fc_elem : NoDup p -> c_name c = CElem (S n) /\ listing c = arcs p /\
    exists cs, p = trip cs /\ route_shape (trip cs) /\ along (arc_list h) (trip cs) /\ is_column h k cs c;
  fc_nonelem : ~ NoDup p -> c_name c = CNonElem (S n);
  fc_tag : c_tag c = None
}.

(** The result [r] (the pool, and whether a column was added) after the answer [a]: a new improving
    path is added; if it is in the pool already, [next] applies; without an improving path nothing
    is added. *)
Definition after (h : vgraph) (k : nat) (pool : list column) (a : option (Q * list node))
    (next : list column * bool -> Prop) (r : list column * bool) : Prop :=
  (exists p c, improving a p /\ found_column h k (List.length pool) p c /\ ~ listed pool c /\ r = (pool ++ [c], true)) \/
  (exists p c, improving a p /\ found_column h k (List.length pool) p c /\ listed pool c /\ next r) \/
  ((forall p, ~ improving a p) /\ r = (pool, false)).

(** The smallest weight of an arc. *)
Definition least_weight (g : vgraph) (t : Q) : Prop :=
  (exists u v, In (u, v) (arc_list g) /\ t = weight_of g u v) /\
  forall u v, In (u, v) (arc_list g) -> t <= weight_of g u v.

(** The answers [ans] of the algorithm, asked for paths without repeated nodes if [e], are exact: at
    least as good as every path within the limits [m], or not worse than the threshold at which the
    algorithm may stop. *)
Definition exact_labelling (h : vgraph) (m : label) (ref : label -> arc -> res label) (e : bool)
    (ans : bool -> option Q -> option (Q * list node)) : Prop :=
  forall thr p, resource_feasible h m ref p -> (e = true -> NoDup p) ->
    exists q p', ans e thr = Some (q, p') /\
      (q <= path_sum (weight_of h) p \/ exists t, thr = Some t /\ q <= t).
