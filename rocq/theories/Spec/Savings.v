(** The savings procedure of Clarke and Wright, on plain lists of customers.
    A trip is the list of its customers in the order they are visited. *)
From Verif.Base Require Import Prelude Graph.
From Verif.Spec Require Import Routes Network Heuristics.

(** Capacity, duration and number of stops of the trip Source - [cs] - Sink. *)
Definition fits (g : vgraph) (w : vehicle) (cs : list node) : Prop :=
  trip_fits g w cs /\
  forall n, v_stops w = Some n -> n <> 0%Z -> (Z.of_nat (List.length cs) <= n)%Z.

(** [j] is alone on its trip, another trip ends with [i], and [j] can be visited after [i]. *)
Definition appendable (g : vgraph) (w : vehicle) (R : list (list node)) (i j : node) : Prop :=
  exists a R', Permutation R ([j] :: (a ++ [i]) :: R') /\ fits g w (a ++ [i; j]).

(** [i] is alone on its trip, another trip starts with [j], and [i] can be visited before [j].
    The heuristic looks at such a merge only if one can also drive from [j] to [i]. *)
Definition prependable (g : vgraph) (w : vehicle) (R : list (list node)) (i j : node) : Prop :=
  In (j, i) (arc_list g) /\
  exists a R', Permutation R ([i] :: (j :: a) :: R') /\ fits g w (i :: j :: a).

(** One arc: append if possible, otherwise prepend if possible, otherwise do nothing. Trips are
    not ordered. *)
Inductive merge_step (g : vgraph) (w : vehicle) : arc -> list (list node) -> list (list node) -> Prop :=
| ms_append i j a R R' R2 :
    Permutation R ([j] :: (a ++ [i]) :: R') -> fits g w (a ++ [i; j]) ->
    Permutation R2 ((a ++ [i; j]) :: R') -> merge_step g w (i, j) R R2
| ms_prepend i j a R R' R2 :
    ~ appendable g w R i j -> In (j, i) (arc_list g) ->
    Permutation R ([i] :: (j :: a) :: R') -> fits g w (i :: j :: a) ->
    Permutation R2 ((i :: j :: a) :: R') -> merge_step g w (i, j) R R2
| ms_skip i j R R2 :
    ~ appendable g w R i j -> ~ prependable g w R i j -> Permutation R R2 -> merge_step g w (i, j) R R2.

(** The arcs [l] one after the other. *)
Inductive merge_run (g : vgraph) (w : vehicle) : list arc -> list (list node) -> list (list node) -> Prop :=
| mr_nil R R2 : Permutation R R2 -> merge_run g w [] R R2
| mr_cons a l R R1 R2 : merge_step g w a R R1 -> merge_run g w l R1 R2 -> merge_run g w (a :: l) R R2.

(** What is saved by driving from [i] to [j] instead of returning to the depot in between. *)
Definition saved (g : vgraph) (alpha : Q) (a : arc) : Q :=
  cost_of g 0 (fst a) Sink + cost_of g 0 Source (snd a) - alpha * cost_of g 0 (fst a) (snd a).

(** [l] lists the arcs between customers, each once, by decreasing saving. *)
Definition by_saving (g : vgraph) (alpha : Q) (l : list arc) : Prop :=
  NoDup l /\
  (forall i j, In (i, j) l <-> In (i, j) (arc_list g) /\ In i (custs g) /\ In j (custs g)) /\
  (forall l1 a l2 b l3, l = l1 ++ a :: l2 ++ b :: l3 -> saved g alpha b <= saved g alpha a).

(** Every customer on a trip of their own. *)
Definition round_trips_only (g : vgraph) : list (list node) := map (fun v => [v]) (custs g).

(** Leaving out the first or the last customer of a trip does not make it longer. *)
Definition shorter_without (g : vgraph) : Prop :=
  forall u v, In (u, v) (arc_list g) -> In u (custs g) -> In v (custs g) ->
    time_of g Source v <= time_of g Source u + service_of g u + time_of g u v /\
    time_of g u Sink <= time_of g u v + service_of g v + time_of g v Sink.
