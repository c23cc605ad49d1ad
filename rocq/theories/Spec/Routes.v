(** What the words "route", "load", "duration", "visited exactly once", "time window feasible"
    mean. Nothing here refers to the code. *)
From Verif.Base Require Import Prelude Graph.

(** Consecutive pairs of a node list. *)
Fixpoint arcs (p : list node) : list arc :=
  match p with
  | u :: ((v :: _) as t) => (u, v) :: arcs t
  | _ => []
  end.

(** A route: from Source through pairwise distinct customers to Sink. *)
Definition route_shape (r : list node) : Prop :=
  exists cs, r = Source :: cs ++ [Sink] /\ NoDup cs /\
             (forall v, In v cs -> v <> Source /\ v <> Sink).

(** All consecutive pairs are arcs of the network. *)
Definition along (A : list arc) (p : list node) : Prop :=
  forall u v, In (u, v) (arcs p) -> In (u, v) A.

(** Customers visited by a route, in order. *)
Definition stops (r : list node) : list node := filter is_cust r.

(** Sum of a quantity over consecutive pairs, over nodes. *)
Definition path_sum (w : node -> node -> Q) (p : list node) : Q :=
  Qsum (map (fun a => w (fst a) (snd a)) (arcs p)).
Definition node_sum (w : node -> Q) (p : list node) : Q := Qsum (map w p).

(** Travel time plus service time at all nodes. *)
Definition duration_of (time : node -> node -> Q) (service : node -> Q) (r : list node) : Q :=
  path_sum time r + node_sum service r.

(** How often customer [v] is visited by a set of routes. *)
Fixpoint visits (v : node) (rs : list (list node)) : nat :=
  match rs with
  | [] => 0
  | r :: t => count_occ node_eq_dec r v + visits v t
  end.

Definition each_once (cs : list node) (rs : list (list node)) : Prop :=
  forall v, In v cs -> visits v rs = 1%nat.

(** Only customers of [cs] are visited. *)
Definition only_visits (cs : list node) (rs : list (list node)) : Prop :=
  forall r v, In r rs -> In v r -> v <> Source -> v <> Sink -> In v cs.

(** [T] gives a start of service for every node of [p], leaving enough time for service and
    travel between consecutive nodes, within every window. *)
Fixpoint timetable (time : node -> node -> Q) (service lower upper : node -> Q)
    (p : list node) (T : list Q) : Prop :=
  match p, T with
  | [], [] => True
  | [u], [t] => lower u <= t /\ t <= upper u
  | u :: ((v :: _) as p'), t :: ((t' :: _) as T') =>
      lower u <= t /\ t <= upper u /\ t + service u + time u v <= t' /\
      timetable time service lower upper p' T'
  | _, _ => False
  end.

Definition tw_feasible time service lower upper p : Prop :=
  exists T, timetable time service lower upper p T.

(** Load on the vehicle after each node when every node adds [d v] (pickups positive,
    deliveries negative). *)
Fixpoint running_loads (d : node -> Q) (acc : Q) (p : list node) : list Q :=
  match p with
  | [] => []
  | v :: t => (acc + d v) :: running_loads d (acc + d v) t
  end.

Definition loads_within (d : node -> Q) (cap : Q) (p : list node) : Prop :=
  forall l, In l (running_loads d 0 p) -> 0 <= l /\ l <= cap.

(** Pickup [a] strictly before delivery [b] on [p]. *)
Definition before (a b : node) (p : list node) : Prop :=
  exists p1 p2 p3, p = p1 ++ a :: p2 ++ b :: p3.

(** Simultaneous distribution and collection: on every arc of the route the goods still to be
    delivered plus the goods already collected fit in the vehicle. *)
Definition sdc_feasible (demand collect : node -> Q) (cap : Q) (p : list node) : Prop :=
  forall p1 p2, p = p1 ++ p2 -> p1 <> [] -> p2 <> [] ->
    node_sum collect p1 + node_sum demand p2 <= cap.

(* ------------------------------------------------------------------ *)
(** Walks between two nodes. *)
Inductive walk (A : list arc) : node -> node -> list node -> Prop :=
| walk_one u : walk A u u [u]
| walk_cons u v w p : In (u, v) A -> walk A v w p -> walk A u w (u :: p).
