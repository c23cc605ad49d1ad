(** What an acceptable input is. Refers only to the user's raw data. *)
From Verif.Base Require Import Prelude Graph.
From Verif.Spec Require Import Routes Network.
From Verif.Model Require Import Args.

(** The depot arcs every customer must have. *)
Definition depot_arcs (g : rgraph) : list arc :=
  flat_map (fun v => [(Source, v); (v, Sink)]) (custs g).

(** A graph the constructor accepts. *)
Record accepted_graph (g : rgraph) : Prop := {
  ag_source : In Source (nodes g);
  ag_sink : In Sink (nodes g);
  ag_no_in : forall u, ~ In (u, Source) (arc_list g);
  ag_no_out : forall v, ~ In (Sink, v) (arc_list g);
  ag_connected : exists p, walk (arc_list g ++ depot_arcs g) Source Sink p;
  ag_costs : forall u v e, arc_data g u v = Some e -> r_cost e <> None
}.

(** [g'] is [g] with the missing depot arcs added at cost 1e10 and nothing else changed. *)
Definition completion (g g' : rgraph) : Prop :=
  gnodes g' = gnodes g /\
  forall u v,
    arc_data g' u v =
    match arc_data g u v with
    | Some e => Some e
    | None => if mem_arc (u, v) (depot_arcs g)
              then Some (mkER (Some (Scalar (inject_Z 10000000000))) None)
              else None
    end.

(** Every arc has a cost. *)
Definition costed (g : rgraph) : Prop := forall u v e, arc_data g u v = Some e -> r_cost e <> None.

(** Argument values solve() accepts (after scalars are wrapped for a single vehicle type). *)
Definition pos_int (v : pyval) : Prop := exists z, v = PNum (PInt z) /\ (0 < z)%Z.
(** What counts as "not given": None, a zero, an empty list. *)
Definition falsy (v : pyval) : Prop :=
  match v with PNone => True | PNum n => num_val n == 0 | PList l => l = [] end.
Definition pos_int_list (v : pyval) : Prop :=
  exists l, v = PList l /\ forall n, In n l -> exists z, n = PInt z /\ (0 < z)%Z.

(** Lists that are present have the same length. *)
Definition same_dimension (a b : pyval) : Prop :=
  falsy a \/ falsy b \/ exists la lb, a = PList la /\ b = PList lb /\ List.length la = List.length lb.

(** Number of vehicle types announced by a mixed fleet: the length of the first of
    load_capacity, fixed_cost, num_vehicles that is given. *)
Inductive fleet_size (a : rargs) : nat -> Prop :=
| fs_capacity l : a_load_capacity a = PList l -> l <> [] -> fleet_size a (List.length l)
| fs_fixed l : falsy (a_load_capacity a) -> a_fixed_cost a = PList l -> l <> [] ->
    fleet_size a (List.length l)
| fs_vehicles l : falsy (a_load_capacity a) -> falsy (a_fixed_cost a) ->
    a_num_vehicles a = PList l -> l <> [] -> fleet_size a (List.length l).

Record accepted_args (a : rargs) (g : rgraph) : Prop := {
  aa_stops : falsy (a_num_stops a) \/ pos_int (a_num_stops a);
  aa_capacity : falsy (a_load_capacity a) \/ pos_int_list (a_load_capacity a) \/
                (a_mixed_fleet a = false /\ pos_int (a_load_capacity a));
  aa_duration : falsy (a_duration a) \/ pos_int (a_duration a);
  aa_strategy : In (a_strategy a) ["Exact"; "BestEdges1"; "BestEdges2"; "BestPaths"; "Hyper"];
  aa_fleet : a_mixed_fleet a = true ->
    same_dimension (a_load_capacity a) (a_num_vehicles a) /\
    same_dimension (a_load_capacity a) (a_fixed_cost a) /\
    same_dimension (a_num_vehicles a) (a_fixed_cost a) /\
    exists K, fleet_size a K /\
      forall u v e, arc_data g u v = Some e -> exists l, r_cost e = Some (Vec l) /\ List.length l = K
}.

(** The reasons for a TypeError. *)
Definition bad_number_type (a : rargs) : Prop :=
  ~ (falsy (a_num_stops a) \/ pos_int (a_num_stops a)) \/
  ~ (falsy (a_load_capacity a) \/ pos_int_list (a_load_capacity a) \/
     (a_mixed_fleet a = false /\ pos_int (a_load_capacity a))) \/
  ~ (falsy (a_duration a) \/ pos_int (a_duration a)).
Definition scalar_in_mixed_fleet (a : rargs) (g : rgraph) : Prop :=
  a_mixed_fleet a = true /\
  ((exists v n, In v [a_load_capacity a; a_fixed_cost a; a_num_vehicles a] /\ v = PNum n /\ ~ falsy v)
   \/ exists u v e q, arc_data g u v = Some e /\ r_cost e = Some (Scalar q)).
(** The reasons for a ValueError. *)
Definition unknown_strategy (a : rargs) : Prop :=
  ~ In (a_strategy a) ["Exact"; "BestEdges1"; "BestEdges2"; "BestPaths"; "Hyper"].
Definition dimension_mismatch (a : rargs) (g : rgraph) : Prop :=
  a_mixed_fleet a = true /\
  ((exists x y lx ly, In x [a_load_capacity a; a_num_vehicles a] /\
      In y [a_num_vehicles a; a_fixed_cost a] /\ x = PList lx /\ y = PList ly /\
      lx <> [] /\ ly <> [] /\ List.length lx <> List.length ly)
   \/ exists u v e l, arc_data g u v = Some e /\ r_cost e = Some (Vec l) /\ ~ fleet_size a (List.length l)).
