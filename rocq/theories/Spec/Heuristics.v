(** Conditions under which the heuristics keep their promises. *)
From Verif.Base Require Import Prelude Graph.
From Verif.Spec Require Import Routes Network.

(** Travel times do not depend on the direction, the Source and the Sink being the same place. *)
Definition symmetric_times (g : vgraph) : Prop :=
  (forall v, In v (custs g) -> time_of g v Sink == time_of g Source v) /\
  (forall u v, In u (custs g) -> In v (custs g) -> In (u, v) (arc_list g) -> In (v, u) (arc_list g) ->
     time_of g v u == time_of g u v).

(** Going directly between two customers costs no more than returning to the depot in between. *)
Definition no_detour (cost : node -> node -> Q) (A : list arc) : Prop :=
  forall i j, In (i, j) A -> i <> Source -> i <> Sink -> j <> Source -> j <> Sink ->
    cost i j <= cost i Sink + cost Source j.

(** Limits of one vehicle: capacity, duration, number of stops ([None] and 0 mean no limit). *)
Record vehicle := mkVehicle { v_cap : option Z; v_dur : option Z; v_stops : option Z }.

(** The trip Source - [cs] - Sink respects the capacity and the duration limit. *)
Definition trip_fits (g : vgraph) (w : vehicle) (cs : list node) : Prop :=
  (forall c, v_cap w = Some c -> c <> 0%Z -> node_sum (demand_of g) cs <= inject_Z c) /\
  (forall D, v_dur w = Some D -> D <> 0%Z ->
     path_sum (time_of g) (Source :: cs ++ [Sink]) + node_sum (service_of g) cs <= inject_Z D).

(** After [a] (starting at Source) the vehicle can go on to the waiting customer [v]. *)
Definition can_go_on (g : vgraph) (w : vehicle) (waiting : list node) (a : list node) (v : node) : Prop :=
  In v waiting /\ ~ In v a /\ In (last (Source :: a) Source, v) (arc_list g) /\ trip_fits g w (a ++ [v]).

(** Nearest neighbour rule: every customer of [cs] is a closest one among those that the vehicle
    can go on to, and the vehicle returns only when it can go on to nobody or has made the maximal
    number of stops. *)
Definition nearest_rule (g : vgraph) (w : vehicle) (waiting cs : list node) : Prop :=
  (forall a v b, cs = a ++ v :: b ->
     can_go_on g w waiting a v /\
     forall x, can_go_on g w waiting a x ->
       cost_of g 0 (last (Source :: a) Source) v <= cost_of g 0 (last (Source :: a) Source) x) /\
  (v_stops w = Some (Z.of_nat (List.length cs)) /\ cs <> [] \/
   forall x, ~ can_go_on g w waiting cs x).

(** The limits used by the heuristics: the capacity is that of the first vehicle type. *)
Definition first_vehicle (caps : option (list Z)) (dur st : option Z) : vehicle :=
  mkVehicle (match caps with Some (c :: _) => Some c | _ => None end) dur st.

(** Customers not visited by the given routes. *)
Definition unvisited (g : vgraph) (rs : list (list node)) : list node :=
  filter (fun v => (visits v rs =? 0)%nat) (custs g).

(** [k] is the first vehicle type that can carry [load]; without capacities it is type 0. *)
Definition first_fitting (caps : option (list Z)) (load : Q) (k : nat) : Prop :=
  match caps with
  | None | Some [] => k = 0%nat
  | Some l =>
      (exists c, nth_error l k = Some c /\ load <= inject_Z c) /\
      forall j c, (j < k)%nat -> nth_error l j = Some c -> inject_Z c < load
  end.

(** No vehicle type can carry [load]. *)
Definition none_fits (caps : option (list Z)) (load : Q) : Prop :=
  exists c l, caps = Some (c :: l) /\ forall x, In x (c :: l) -> inject_Z x < load.
