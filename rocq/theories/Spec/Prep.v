(** What preprocessing is expected to do, in terms of the user's data. *)
From Verif.Base Require Import Prelude Graph.
From Verif.Spec Require Import Routes Network Inputs Feasible.
From Verif.Model Require Import Args.

(** Cost the user gave arc (u, v) for vehicle type [k]. *)
Definition raw_cost (g : rgraph) (k : nat) (u v : node) : Q :=
  match arc_data g u v with
  | Some e => match r_cost e with Some (Vec l) => nth k l 0 | _ => 0 end
  | None => 0
  end.

(** Every arc has one cost per vehicle type. *)
Definition cost_lists (K : nat) (g : rgraph) : Prop :=
  forall u v e, arc_data g u v = Some e -> exists l, r_cost e = Some (Vec l) /\ (K <= List.length l)%nat.

(** Value of an attribute, or its default. *)
Definition given_or {A} (o : option A) (d x : A) : Prop :=
  match o with Some y => x = y | None => x = d end.

(** [d] are the attributes of node [v] after defaults were filled in for the user's [r];
    the upper bound of Sink is treated separately when it is missing or zero. *)
Definition filled (v : node) (r : nraw) (d : ndata) : Prop :=
  (forall x, given_or (r_demand r) 0 x -> demand d = if is_depot v && Qltb 0 x then 0 else x) /\
  given_or (r_collect r) 0 (collect d) /\
  given_or (r_service r) 0 (service d) /\
  given_or (r_lower r) 0 (lower d) /\
  (v <> Sink \/ (exists x, r_upper r = Some x /\ ~ x == 0) -> given_or (r_upper r) 0 (upper d)) /\
  given_or (r_freq r) 1%Z (freq d) /\
  request d = r_request r /\
  is_aux_depot d = r_aux_depot r.

(** [e'] are the attributes of an arc after the default travel time was filled in. *)
Definition filled_arc (e : eraw) (e' : edata) : Prop :=
  (exists l, r_cost e = Some (Vec l) /\ ecost e' = l) /\ given_or (r_time e) 0 (etime e').

(** Sub-lists (as multisets of positions) of a list of weights: what a knapsack chooses from. *)
Inductive chosen : list Z -> list Z -> Prop :=
| chosen_nil : chosen [] []
| chosen_skip w l c : chosen l c -> chosen (w :: l) c
| chosen_take w l c : chosen l c -> chosen (w :: l) (w :: c).

Definition zsum (l : list Z) : Z := fold_right Z.add 0%Z l.

(** [m] is the largest number of items whose weights fit in [cap]. *)
Definition max_items (weights : list Z) (cap m : Z) : Prop :=
  (exists c, chosen weights c /\ (zsum c <= cap)%Z /\ Z.of_nat (List.length c) = m) /\
  (forall c, chosen weights c -> (zsum c <= cap)%Z -> (Z.of_nat (List.length c) <= m)%Z).

(** Going directly is never slower than going through another node and serving it. *)
Definition direct_is_fastest (g : vgraph) : Prop :=
  (forall u v, In (u, v) (arc_list g) -> u <> Source -> v <> Sink ->
     time_of g Source v <= time_of g Source u + service_of g u + time_of g u v) /\
  (forall u v, In (u, v) (arc_list g) -> u <> Source -> v <> Sink ->
     time_of g u Sink <= service_of g u + time_of g u v + time_of g v Sink).

(** Two networks that differ at most in the time windows. *)
Definition same_but_windows (g g' : vgraph) : Prop :=
  nodes g' = nodes g /\
  (forall v, demand_of g' v = demand_of g v /\ collect_of g' v = collect_of g v /\
             service_of g' v = service_of g v) /\
  (forall u v, In (u, v) (arc_list g') -> arc_data g' u v = arc_data g u v).

Definition windows_ok (g : vgraph) (r : list node) : Prop :=
  tw_feasible (time_of g) (service_of g) (lower_of g) (upper_of g) r.

(** The windows strengthened by the direct trips from Source and to Sink. *)
Definition tight_lower (g : vgraph) (v : node) : Q :=
  if is_depot v then lower_of g v
  else pymax2 (lower_of g v) (lower_of g Source + time_of g Source v).
Definition tight_upper (g : vgraph) (v : node) : Q :=
  if is_depot v then upper_of g v
  else pymin2 (upper_of g v) (upper_of g Sink - time_of g v Sink).

(** An arc that cannot be used even when leaving as early as possible. *)
Definition too_late (time : node -> node -> Q) (service low up : node -> Q) (u v : node) : Prop :=
  up v < low u + time u v + service u.

(** Node [v] is inside a complete preassigned route; arc (u, v) is in a partial one. *)
Definition complete_route (r : list node) : Prop := exists p, r = Source :: p ++ [Sink].
Definition locked_away (routes : list (list node)) (v : node) : Prop :=
  exists p, In (Source :: p ++ [Sink]) routes /\ In v p.
Definition locked_arc (routes : list (list node)) (a : arc) : Prop :=
  exists r, In r routes /\ ~ complete_route r /\ In a (arcs r).

(** What "fits the fleet" means for a route: nothing without capacities, total load for deliveries,
    running load for pickup and delivery. *)
Definition load_fits (c : config) (pd : bool) (h : vgraph) (r : list node) : Prop :=
  forall caps, cf_load_capacity c = Some caps ->
    exists cap, In cap caps /\
      if pd then loads_within (demand_of h) (inject_Z cap) r
      else nonneg_demands h /\ node_sum (demand_of h) r <= inject_Z cap.

(** Some vehicle type can carry the demands of the two ends of an arc. *)
Definition pair_fits (c : config) (h : vgraph) (u v : node) : Prop :=
  forall caps, cf_load_capacity c = Some caps ->
    exists cap, In cap caps /\ demand_of h u + demand_of h v <= inject_Z cap.

(** A single value given for a single vehicle type becomes a one-element list; nothing else changes. *)
Inductive wrapped : pyval -> pyval -> Prop :=
| wrapped_number n : ~ num_val n == 0 -> wrapped (PNum n) (PList [n])
| wrapped_list l : wrapped (PList l) (PList l)
| wrapped_not_given v : falsy v -> wrapped v v.
