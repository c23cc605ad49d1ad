(** What the reported results should be, in terms of routes and networks. *)
From Verif.Base Require Import Prelude Graph.
From Verif.Spec Require Import Routes Network Prep.

(** [sp] answers correctly: a walk from Source to Sink with as few arcs as possible, if there is one. *)
Definition finds_paths (sp : list node -> list arc -> option (list node)) : Prop :=
  forall ns es,
    match sp ns es with
    | Some p => walk es Source Sink p /\ forall q, walk es Source Sink q -> (List.length p <= List.length q)%nat
    | None => ~ exists p, walk es Source Sink p
    end.

(** [l'] are the members of [l] with property [P], in order. *)
Inductive keeps {A} (P : A -> Prop) : list A -> list A -> Prop :=
| keeps_nil : keeps P [] []
| keeps_yes x l l' : P x -> keeps P l l' -> keeps P (x :: l) (x :: l')
| keeps_no x l l' : ~ P x -> keeps P l l' -> keeps P (x :: l) l'.

(** A dictionary [d] of numbers reports for every route the number [f]. *)
Definition reports {I} (f : nat -> I -> Q -> Prop) (routes : list (nat * I)) (d : list (nat * Q)) : Prop :=
  Forall2 (fun p q => fst q = fst p /\ f (fst p) (snd p) (snd q)) routes d.

(** A vehicle of type [j] can carry [load]; no capacities means no limit. *)
Definition carries (caps : option (list Z)) (j : nat) (load : Q) : Prop :=
  match caps with
  | None | Some [] => True
  | Some l => exists c, nth_error l j = Some c /\ load <= inject_Z c
  end.

(** Capacities are given. *)
Definition limited (caps : option (list Z)) : Prop := exists c l, caps = Some (c :: l).
(** Times matter: there are time windows or a duration. *)
Definition timed (windows : bool) (duration : option Z) : Prop :=
  windows = true \/ exists D, duration = Some D /\ D <> 0%Z.

(** [k] is the first one of least cost among the [K] vehicle types that can carry route [r]. *)
Record cheapest_type (h : vgraph) (caps : option (list Z)) (K : nat) (r : list node) (k : nat) : Prop := {
  ct_type : (k < K)%nat;
  ct_carries : carries caps k (node_sum (demand_of h) r);
  ct_least : forall j, (j < K)%nat -> carries caps j (node_sum (demand_of h) r) ->
    path_sum (cost_of h k) r <= path_sum (cost_of h j) r /\
    ((j < k)%nat -> path_sum (cost_of h k) r < path_sum (cost_of h j) r)
}.

(** [T] gives a time for every node of [p], not before its opening, leaving enough time for service
    and travel between consecutive nodes. *)
Fixpoint unhurried (time : node -> node -> Q) (service lower : node -> Q) (p : list node) (T : list Q) : Prop :=
  match p, T with
  | [], [] => True
  | [u], [t] => lower u <= t
  | u :: ((v :: _) as p'), t :: ((t' :: _) as T') =>
      lower u <= t /\ t + service u + time u v <= t' /\ unhurried time service lower p' T'
  | _, _ => False
  end.

(** [T] is the earliest such list of times. *)
Definition earliest_times (h : vgraph) (r : list node) (T : list Q) : Prop :=
  unhurried (time_of h) (service_of h) (lower_of h) r T /\
  forall T', unhurried (time_of h) (service_of h) (lower_of h) r T' -> Forall2 Qle T T'.

(** [h] knows the nodes and the arcs of route [r], and has [K] costs for each of the arcs. *)
Definition knows (K : nat) (h : vgraph) (r : list node) : Prop :=
  (forall v, In v r -> In v (nodes h)) /\ along (arc_list h) r /\
  (forall u v e, arc_data h u v = Some e -> (K <= List.length (ecost e))%nat).

(** The load of the vehicle when it leaves the last node of [p1], [p2] being still ahead: what it
    has collected plus what it still has to deliver. *)
Definition load_between (h : vgraph) (p1 p2 : list node) : Q :=
  node_sum (collect_of h) p1 + node_sum (demand_of h) p2.

(* ------------------------------------------------------------------ *)
(** Schedules: for every day the routes driven on it. *)

Definition on_day (d : list (nat * list nat)) (r t : nat) : Prop := exists l, In (t, l) d /\ In r l.

(** Number of routes among [rs] driven on day [t] by a schedule that assigns route [r] to [day r]. *)
Definition load_on (rs : list nat) (day : nat -> nat) (t : nat) : nat :=
  List.length (filter (fun r => (day r =? t)%nat) rs).

(** [day] assigns a day of the period to every route such that no customer with a demand is visited
    twice a day and the number [nv] of vehicles of each type suffices every day. *)
Record good_days (g : vgraph) (span : Z) (routes : list (nat * list node)) (type : nat -> option nat)
    (nv : list Q) (day : nat -> nat) : Prop := {
  gd_period : forall i r, In (i, r) routes -> (Z.of_nat (day i) < span)%Z;
  gd_once : forall v i j r r', In v (nodes g) -> 0 < demand_of g v ->
    In (i, r) routes -> In (j, r') routes -> In v r -> In v r' -> day i = day j -> i = j;
  gd_fleet : forall k n t, nth_error nv k = Some n -> (Z.of_nat t < span)%Z ->
    inject_Z (Z.of_nat (load_on (filter (fun i => match type i with Some j => (j =? k)%nat | None => false end)
                                        (map fst routes)) day t)) <= n
}.

(** [d] is the schedule described by [day]. *)
Definition describes (routes : list (nat * list node)) (day : nat -> nat) (d : list (nat * list nat)) : Prop :=
  NoDup (map fst d) /\
  (forall t l, In (t, l) d -> l = filter (fun r => (day r =? t)%nat) (map fst routes) /\ l <> []) /\
  (forall i r, In (i, r) routes -> on_day d i (day i)).

(** Difference between the busiest and the quietest day is at most [m]. *)
Definition spread_within (span : Z) (rs : list nat) (day : nat -> nat) (m : Q) : Prop :=
  forall t t', (Z.of_nat t < span)%Z -> (Z.of_nat t' < span)%Z ->
    inject_Z (Z.of_nat (load_on rs day t)) - inject_Z (Z.of_nat (load_on rs day t')) <= m.
