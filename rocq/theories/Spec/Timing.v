(** Times on a route, and what the labelling algorithm is asked to do. *)
From Verif.Base Require Import Prelude Graph.
From Verif.Spec Require Import Routes Network.
From Verif.Model Require Import Args Preprocess Cspy.

(** Service begins as early as possible: after [t] at [u], at the nodes [q] one after the other;
    the vehicle waits for the opening of a window. *)
Fixpoint arrivals (time : node -> node -> Q) (service lower : node -> Q) (t : Q) (u : node) (q : list node) : list Q :=
  match q with
  | [] => []
  | v :: r => let t1 := Qmax (t + service u + time u v) (lower v) in
              t1 :: arrivals time service lower t1 v r
  end.

(** [L] is the largest load when goods are both delivered and collected: what has been collected at
    the nodes [c1] plus what is still to be delivered to the nodes [c2]. *)
Definition peak (demand collect : node -> Q) (q : list node) (L : Q) : Prop :=
  (exists c1 c2, q = c1 ++ c2 /\ L == node_sum collect c1 + node_sum demand c2) /\
  forall c1 c2, q = c1 ++ c2 -> node_sum collect c1 + node_sum demand c2 <= L.

(** Resource consumptions compared one by one. *)
Record label_le (a b : label) : Prop := {
  ll_stops : l_stops a <= l_stops b;
  ll_load : l_load a <= l_load b;
  ll_time : l_time a <= l_time b;
  ll_window : l_window a <= l_window b;
  ll_collect : l_collect a <= l_collect b;
  ll_deliver : l_deliver a <= l_deliver b
}.

(** A path from Source to Sink whose consumption is at most [m] along the way (and, at the end, at
    least that of the empty path). *)
Record resource_feasible (h : vgraph) (m : label) (ref : label -> arc -> res label) (p : list node) : Prop := {
  rf_walk : walk (arc_list h) Source Sink p;
  rf_max : forall p1 p2 l, p = p1 ++ p2 -> p1 <> [] -> path_label ref p1 = Ok l -> label_le l m;
  rf_min : forall l, path_label ref p = Ok l -> label_le zero_label l
}.

(** cspy returns a resource feasible path (without repeated nodes if asked to) and its cost. *)
Definition sound_labelling (h : vgraph)
    (alg : label -> (label -> arc -> res label) -> bool -> option Q -> option (Q * list node)) : Prop :=
  forall m ref e thr q p, alg m ref e thr = Some (q, p) ->
    resource_feasible h m ref p /\ q == path_sum (weight_of h) p /\ (e = true -> NoDup p).

(** The resources [l] measure the path from Source through the nodes [q]. *)
Record measures (h : vgraph) (tw sdc : bool) (q : list node) (l : label) : Prop := {
  me_stops : l_stops l == inject_Z (Z.of_nat (List.length q));
  me_load : l_load l == node_sum (demand_of h) q;
  me_time : l_time l == last (arrivals (time_of h) (service_of h) (lower_of h) 0 Source q) 0;
  me_window : tw = true -> q <> [] ->
    (l_window l <= 0 <->
     last (arrivals (time_of h) (service_of h) (lower_of h) 0 Source q) 0 <= upper_of h (last q Source));
  me_no_window : tw = false -> l_window l == 0;
  me_both : sdc = true ->
    l_collect l == node_sum (collect_of h) q /\ peak (demand_of h) (collect_of h) q (l_deliver l);
  me_one : sdc = false -> l_collect l == 0 /\ l_deliver l == 0
}.

(** The Source opens early enough, or the first customers open late enough. *)
Definition depot_ready (h : vgraph) : Prop :=
  lower_of h Source <= upper_of h Source /\
  forall v, In (Source, v) (arc_list h) -> v <> Sink ->
    lower_of h Source <= 0 \/ lower_of h Source + service_of h Source + time_of h Source v <= lower_of h v.

(** Data for which the limits handed to the labelling algorithm are not too strict: the number of
    stops is limited, nothing is negative, and, for the clock: with time windows there is no
    duration limit; without them nobody waits, and services take no time unless there is a duration
    limit. *)
Record labelling_data (h : vgraph) (o : options) (caps : option (list Z)) (ns dur : option Z) : Prop := {
  ld_stops : exists n, ns = Some n /\ n <> 0%Z;
  ld_sink : demand_of h Sink == 0 /\ collect_of h Sink == 0;
  ld_goods : forall v, In v (nodes h) -> 0 <= demand_of h v /\ 0 <= collect_of h v;
  ld_times : (forall u v, In (u, v) (arc_list h) -> 0 <= time_of h u v) /\
             (forall v, In v (nodes h) -> 0 <= service_of h v) /\ 0 <= lower_of h Source;
  ld_windows : o_time_windows o = true -> truthy dur = false;
  ld_clock : o_time_windows o = false -> custom_ref o = true ->
    (forall v, In v (nodes h) -> lower_of h v <= 0) /\
    (truthy dur = true \/ forall v, In v (nodes h) -> service_of h v == 0);
  ld_both : o_distribution_collection o = true -> exists c l, caps = Some (c :: l)
}.
