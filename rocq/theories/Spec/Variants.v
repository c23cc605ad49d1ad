(** Time windows, pickups with deliveries, distribution with collection and several vehicle types,
    in terms of the graph and the arguments given by the user. *)
From Verif.Base Require Import Prelude Graph.
From Verif.Spec Require Import Routes Network Inputs Plans.
From Verif.Model Require Import Args.

(** More of the user's figures. A missing closing time counts as 0, as everywhere; only at Sink
    does 0 mean that none is given, and then it is [T]. *)
Definition user_collect (g : rgraph) (v : node) : Q :=
  match node_data g v with Some r => or_zero (r_collect r) | None => 0 end.
Definition user_lower (g : rgraph) (v : node) : Q :=
  match node_data g v with Some r => or_zero (r_lower r) | None => 0 end.
Definition user_upper (g : rgraph) (T : Q) (v : node) : Q :=
  match node_data g v with
  | Some r => if node_eqb v Sink && Qeq_bool (or_zero (r_upper r)) 0 then T else or_zero (r_upper r)
  | None => 0
  end.

(** What is picked up at [v] is delivered at [d]. *)
Definition user_pair (g : rgraph) (v d : node) : Prop :=
  exists r, node_data g v = Some r /\ r_request r = Some d.

(** The capacity, the fixed cost and the number of the vehicles of type [k]. *)
Definition capacity_of (a : rargs) (k : nat) (c : Z) : Prop :=
  (a_load_capacity a = PNum (PInt c) /\ c <> 0%Z /\ k = 0%nat) \/
  exists l, a_load_capacity a = PList l /\ nth_error l k = Some (PInt c).
Definition price_of (a : rargs) (k : nat) : Q :=
  match a_fixed_cost a with
  | PNone => 0
  | PNum n => num_val n
  | PList l => nth k (map num_val l) 0
  end.
Definition number_of (a : rargs) (k : nat) (n : Q) : Prop :=
  (exists x, a_num_vehicles a = PNum x /\ ~ num_val x == 0 /\ k = 0%nat /\ n = num_val x) \/
  exists l x, a_num_vehicles a = PList l /\ nth_error l k = Some x /\ n = num_val x.

(** [k] is the first vehicle type that can carry [q]; without capacities it is type 0. *)
Definition first_carrier (a : rargs) (q : Q) (k : nat) : Prop :=
  match a_load_capacity a with
  | PNone | PNum _ | PList [] => k = 0%nat
  | PList l =>
      (exists n, nth_error l k = Some n /\ q <= num_val n) /\
      forall j n, (j < k)%nat -> nth_error l j = Some n -> num_val n < q
  end.

(** Route [r] can be driven by a vehicle of type [k]: with time windows ([w]) there is a timetable;
    with pickups and deliveries ([pd]) a pickup and its delivery are together, in this order, and
    the load is never negative or too much, and nothing is left; with distribution and collection
    ([both]), wherever the vehicle is, what was collected and what is to be delivered fits. *)
Record respects (g : rgraph) (a : rargs) (w pd both : bool) (k : nat) (r : list node) : Prop := {
  rs_load : forall c, capacity_of a k c -> node_sum (user_demand g) (stops r) <= inject_Z c;
  rs_stops : forall n, stop_limit a n -> (Z.of_nat (List.length (stops r)) <= n)%Z;
  rs_time : within_time g a r;
  rs_windows : w = true -> exists T,
    tw_feasible (user_time g) (user_service g) (user_lower g) (user_upper g T) r;
  rs_together : pd = true -> forall v d, user_pair g v d -> (In v r <-> In d r);
  rs_before : pd = true -> forall v d, user_pair g v d -> In v r -> before v d r;
  rs_loads : pd = true -> forall c, capacity_of a k c ->
    loads_within (user_demand g) (inject_Z c) (stops r) /\ node_sum (user_demand g) (stops r) == 0;
  rs_both : both = true -> forall c, capacity_of a k c -> forall c1 c2, stops r = c1 ++ c2 ->
    node_sum (user_collect g) c1 + node_sum (user_demand g) c2 <= inject_Z c
}.

(** The routes that serve a single customer, with pickups and deliveries a single pair. *)
Definition alone (g : rgraph) (pd : bool) (r : list node) : Prop :=
  if pd then exists v d, user_pair g v d /\ r = [Source; v; d; Sink]
  else exists u, In u (custs g) /\ r = [Source; u; Sink].

(** The routes the search starts from: those given by the user, else the routes that serve a
    single customer. *)
Definition first_route (given : list (list node)) (g : rgraph) (pd : bool) (r : list node) : Prop :=
  match given with [] => alone g pd r | _ :: _ => In r given end.

(** Every customer belongs to exactly one pair, the two of a pair differ, and what is picked up is
    what is delivered. *)
Record proper_pairs (g : rgraph) : Prop := {
  pp_custs : forall v d, user_pair g v d -> In v (custs g) /\ In d (custs g);
  pp_roles : forall v d d', user_pair g v d -> ~ user_pair g d d';
  pp_one : forall v v' d, user_pair g v d -> user_pair g v' d -> v = v';
  pp_all : forall u, In u (custs g) -> exists x, user_pair g u x \/ user_pair g x u;
  pp_goods : forall v d, user_pair g v d -> 0 < user_demand g v /\ user_demand g d == - user_demand g v
}.

(** The cost of routes with the vehicle type of each. *)
Definition fleet_price (g : rgraph) (a : rargs) (rs : list (nat * list node)) : Q :=
  Qsum (map (fun x => path_sum (user_cost g (fst x)) (snd x) + price_of a (fst x)) rs).

(** To serve a customer and go on to another takes time. *)
Definition takes_time (g : rgraph) : Prop := forall u v, In u (custs g) -> In v (custs g) -> In (u, v) (arc_list g) ->
  0 < user_service g u + user_time g u v.

(** The depot's window is not empty; it opens at 0 or before, or nothing has to be done there first. *)
Definition opens_well (g : rgraph) : Prop := user_lower g Source <= user_upper g 0 Source /\
  (user_lower g Source <= 0 \/ user_service g Source <= 0).

(** Every route visits somebody. *)
Definition nobody_idle (routes : list (nat * list node)) : Prop :=
  forall i r, In (i, r) routes -> stops r <> [].

(** A plan: [routes] are named from 1, [ks] are the vehicle types of the routes in this order as
    [types] says, the routes that visit somebody can be driven, every customer is on exactly one
    route or in [dropped], and there are not more routes of a type than vehicles (exactly as many if
    [all]). *)
Record planned (g : rgraph) (a : rargs) (w pd both : bool) (drop : option Q) (all : bool)
  (routes : list (nat * list node)) (types : nat -> option nat) (dropped : list node) (ks : list nat) : Prop := {
  pl_length : List.length ks = List.length routes;
  pl_names : map fst routes = seq 1 (List.length routes);
  pl_types : forall i k, nth_error ks i = Some k -> types (S i) = Some k;
  pl_routes : Forall2 (fun k r => route_shape r /\
                (stops r <> [] -> along (arc_list g ++ depot_arcs g) r /\ respects g a w pd both k r)) ks (map snd routes);
  pl_once : forall u, In u (custs g) ->
    (visits u (map snd routes) = 1%nat /\ ~ In u dropped) \/ (visits u (map snd routes) = 0%nat /\ In u dropped);
  pl_only : only_visits (custs g) (map snd routes);
  pl_dropped : NoDup dropped /\ (forall u, In u dropped -> In u (custs g)) /\ (truthyQ drop = false -> dropped = []);
  pl_fleet : custs g <> [] -> forall k n, number_of a k n ->
    inject_Z (Z.of_nat (count_occ Nat.eq_dec ks k)) <= n /\
    (all = true -> inject_Z (Z.of_nat (count_occ Nat.eq_dec ks k)) == n)
}.

(** What the plan costs, with the penalties for dropped customers. *)
Definition plan_cost (g : rgraph) (a : rargs) (drop : option Q) (ks : list nat)
  (routes : list (nat * list node)) (dropped : list node) : Q :=
  fleet_price g a (combine ks (map snd routes)) +
  match drop with Some x => x * inject_Z (Z.of_nat (List.length dropped)) | None => 0 end.

(** What a route costs when all vehicles are alike, and the dearest route of a list (0 if none costs
    anything). *)
Definition route_price (g : rgraph) (a : rargs) (r : list node) : Q :=
  path_sum (user_cost g 0) r + price_of a 0.
Definition dearest (g : rgraph) (a : rargs) (rs : list (list node)) : Q :=
  fold_right (fun r s => if Qltb s (route_price g a r) then route_price g a r else s) 0 rs.

(** At most 74 routes to start from: given ones, or one for each node. *)
Definition few_first (given : list (list node)) (g : rgraph) : Prop :=
  match given with [] => (List.length (nodes g) <= 74)%nat | _ :: _ => (List.length given <= 74)%nat end.

(** The routes [rs] with the customers [dropped] left out are a selection of routes the search
    starts from: nobody is visited twice or both visited and dropped, and there are vehicles for them. *)
Record starting_plan (g : rgraph) (a : rargs) (pd : bool) (drop : option Q) (all : bool)
  (given : list (list node)) (rs : list (list node)) (dropped : list node) : Prop := {
  st_first : forall r, In r rs -> first_route given g pd r;
  st_visits : forall u, In u (custs g) ->
    (visits u rs = 1%nat /\ ~ In u dropped) \/ (visits u rs = 0%nat /\ In u dropped);
  st_dropped : NoDup dropped /\ (forall u, In u dropped -> In u (custs g)) /\ (truthyQ drop = false -> dropped = []);
  st_fleet : forall k n, number_of a k n ->
    inject_Z (Z.of_nat (if (k =? 0)%nat then List.length rs else 0)) <= n /\
    (all = true -> inject_Z (Z.of_nat (if (k =? 0)%nat then List.length rs else 0)) == n)
}.
