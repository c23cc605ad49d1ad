(** vrp.py _pre_solve and the preprocessing functions it calls; preprocessing.py. *)
From Verif.Base Require Import Prelude Graph.
From Verif.Spec Require Import Routes Network.
From Verif.Model Require Import Args Reach Checks.

(* ------------------------------------------------------------------ *)
(** ** Python sequence indexing *)

(** [l[i]] for an integer [i], negative indices counting from the end (preprocessing.py 43-51) *)
Definition py_get {A} (l : list A) (i : Z) : res A :=
  let n := Z.of_nat (List.length l) in
  if (0 <=? i)%Z && (i <? n)%Z then of_opt IndexError (nth_error l (Z.to_nat i))
  else if (i <? 0)%Z && (- n <=? i)%Z then of_opt IndexError (nth_error l (Z.to_nat (n + i)))
  else Err IndexError.

(** [l[k] = f(l[k])] for a natural index (vrp.py 1003, 1013) *)
Definition upd_at {A} (f : A -> A) (k : nat) (l : list A) : res (list A) :=
  match nth_error l k with
  | Some x => Ok (set_nth k (f x) l)
  | None => Err IndexError
  end.

(** Update of every arc by a function that may raise. The loops modelled with it update each arc
    at most once, from that arc's own data, so the order of the updates does not matter
    (vrp.py 1001-1003, 1011-1013) *)
Definition map_arcsM {N E E'} (f : arc -> E -> res E') (g : graph N E) : res (graph N E') :=
  let* l := mapM (fun p => let* e := f (fst p) (snd p) in Ok (fst p, e)) (gedges g) in
  Ok (mkGraph (gnodes g) l).

(* ------------------------------------------------------------------ *)
(** ** Costs and attributes *)

(** vrp.py 1012-1013: the inner loop for one arc; a non-list cost cannot be indexed *)
Definition add_fixed_cost_arc (K : nat) (fixed : list Q) (e : eraw) : res eraw :=
  match r_cost e with
  | None => Err KeyError
  | Some (Scalar _) => Err TypeError
  | Some (Vec l) =>
      let* l' := foldM (fun l k =>
                   let* c := of_opt IndexError (nth_error fixed k) in
                   upd_at (fun x => x + c) k l) (seq 0 K) l in
      Ok (mkER (Some (Vec l')) (r_time e))
  end.

(** vrp.py 1009-1013 _add_fixed_costs: all arcs (Source, v), v in successors("Source") *)
Definition add_fixed_costs (K : nat) (fixed : list Q) (g : rgraph) : res rgraph :=
  map_arcsM (fun a e => if mem_arc a (map (fun v => (Source, v)) (succs g Source))
                        then add_fixed_cost_arc K fixed e else Ok e) g.

(** vrp.py 1071-1091: one node. "request", "depot_from"/"depot_to" are kept as they are. *)
Definition default {A} (o : option A) (d : A) : A := match o with Some x => x | None => d end.

(** vrp.py 1071-1091 *)
Definition zero_node (v : node) (r : nraw) : ndata :=
  let dem := default (r_demand r) 0 in
  mkN (if is_depot v && Qltb 0 dem then 0 else dem)
      (default (r_collect r) 0) (default (r_service r) 0)
      (default (r_lower r) 0) (default (r_upper r) 0)
      (default (r_freq r) 1%Z) (r_request r) (r_aux_depot r).

(** vrp.py 1068-1091 _set_zero_attributes *)
Definition set_zero_attributes (g : rgraph) : graph ndata eraw :=
  mkGraph (map (fun p => (fst p, zero_node (fst p) (snd p))) (gnodes g)) (gedges g).

(** vrp.py 1118-1119: the dummy arc *)
Definition add_source_sink (K : nat) (g : graph ndata eraw) : graph ndata eraw :=
  if has_arc g Source Sink then g
  else add_new_arc Source Sink (mkER (Some (Vec (repeat 0 K))) None) g.

(** vrp.py 1093-1098 _set_time_to_zero_if_missing. The model also turns the raw arc attributes
    into [edata] here; every cost is a list at this point (a scalar would be a TypeError at its
    first use as a list). *)
Definition zero_arc (e : eraw) : res edata :=
  match r_cost e with
  | Some (Vec l) => Ok (mkE l (default (r_time e) 0) 0)
  | Some (Scalar _) => Err TypeError
  | None => Err KeyError
  end.
(** vrp.py 1093-1098 *)
Definition set_time_to_zero (g : graph ndata eraw) : res vgraph :=
  map_arcsM (fun _ e => zero_arc e) g.

(** vrp.py 1100-1109 _readjust_sink_time_windows *)
Definition set_upper (q : Q) (d : ndata) : ndata :=
  mkN (demand d) (collect d) (service d) (lower d) q (freq d) (request d) (is_aux_depot d).
(** vrp.py 1100-1109 *)
Definition set_lower (q : Q) (d : ndata) : ndata :=
  mkN (demand d) (collect d) (service d) q (upper d) (freq d) (request d) (is_aux_depot d).

(** vrp.py 1100-1109 *)
Definition readjust_sink (g : vgraph) : res vgraph :=
  let* s := get_node g Sink in
  if Qeq_bool (upper s) 0 then
    let* l := mapM (fun u => let* d := get_node g u in
                             let* e := get_arc g u Sink in
                             Ok (upper d + service d + etime e)) (preds g Sink) in
    let* m := pymax l in
    Ok (map_nodes (fun v d => if node_eqb v Sink then set_upper m d else d) g)
  else Ok g.

(** vrp.py 1111-1128 _update_dummy_attributes: the returned graph is both G and the copy _H. *)
Definition update_dummy_attributes (K : nat) (g : rgraph) : res vgraph :=
  let* g1 := set_time_to_zero (add_source_sink K (set_zero_attributes g)) in
  readjust_sink g1.

(* ------------------------------------------------------------------ *)
(** ** Locking *)

(** vrp.py 1000-1002: cost[k] = 0 for k in range(vehicle_types) *)
Definition zero_cost (K : nat) (e : edata) : res edata :=
  let* l := foldM (fun l k => upd_at (fun _ => 0) k l) (seq 0 K) (ecost e) in
  Ok (mkE l (etime e) (eweight e)).

(** vrp.py 1002-1003 *)
Definition zero_arc_cost (K : nat) (g : vgraph) (a : arc) : res vgraph :=
  let* e := get_arc g (fst a) (snd a) in
  let* e' := zero_cost K e in
  Ok (map_arcs (fun b x => if arc_eqb b a then e' else x) g).

(** [route[1:-1]] *)
Definition inner (r : list node) : list node := removelast (tl r).

(** [route[0] == "Source" and route[-1] == "Sink"] *)
Definition is_complete (r : list node) : res bool :=
  let* f := first_node r in
  if node_eqb f Source then (let* l := last_node r in Ok (node_eqb l Sink)) else Ok false.

(** vrp.py 992-1002: one preassigned route *)
Definition lock_route (K : nat) (g : vgraph) (r : list node) : res vgraph :=
  let* c := is_complete r in
  if c then Ok (remove_nodes (inner r) g)
  else foldM (zero_arc_cost K) (arcs r) g.

(** vrp.py 985-1007 _lock: new graph, and whether column generation is still needed
    (_more_routes, which was True before). *)
Definition lock (K : nat) (routes : list (list node)) (g : vgraph) : res (vgraph * bool) :=
  let* g' := foldM (lock_route K) routes g in
  Ok (g', negb (Nat.eqb (List.length (nodes g')) 2)).

(* ------------------------------------------------------------------ *)
(** ** Pruning *)

(** vrp.py 1015-1023 *)
Definition remove_infeasible_arcs_capacities (cap : Z) (g : vgraph) : res vgraph :=
  let* bad := foldM (fun acc a =>
      let* di := get_node g (fst a) in
      let* dj := get_node g (snd a) in
      Ok (if Qltb (inject_Z cap) (demand di + demand dj) then acc ++ [a] else acc)) (edges g) [] in
  Ok (remove_arcs bad g).

(** vrp.py 1035-1047: strengthening of the windows of one node *)
Definition strengthen_node (g : vgraph) (v : node) : res vgraph :=
  if is_depot v then Ok g else
  let* d := get_node g v in
  let* s := get_node g Source in
  let* e1 := get_arc g Source v in
  let lo := pymax2 (lower d) (lower s + etime e1) in
  let* t := get_node g Sink in
  let* e2 := get_arc g v Sink in
  let up := pymin2 (upper d) (upper t - etime e2) in
  Ok (map_nodes (fun w x => if node_eqb w v then set_upper up (set_lower lo x) else x) g).

(** vrp.py 1027-1047: one iteration of the loop over the arcs *)
Definition tw_step (st : vgraph * list arc) (a : arc) : res (vgraph * list arc) :=
  let '(g, bad) := st in
  let* e := get_arc g (fst a) (snd a) in
  let* di := get_node g (fst a) in
  let* dj := get_node g (snd a) in
  let bad' := if Qltb (upper dj) (lower di + etime e + service di) then bad ++ [a] else bad in
  let* g' := foldM strengthen_node (nodes g) g in
  Ok (g', bad').

(** vrp.py 1025-1048 *)
Definition remove_infeasible_arcs_time_windows (g : vgraph) : res vgraph :=
  let* st := foldM tw_step (edges g) (g, []) in
  Ok (remove_arcs (snd st) (fst st)).

(** vrp.py 1050-1066 _prune_graph: (_max_capacity, pruned graph). [max([])] raises ValueError. *)
Definition prune_graph (load_capacity : option (list Z)) (time_windows : bool) (g : vgraph)
  : res (option Z * vgraph) :=
  let* mc := match load_capacity with
             | Some l => let* m := zmax l in Ok (Some m)
             | None => Ok None
             end in
  let* g1 := match mc with
             | Some m => remove_infeasible_arcs_capacities m g
             | None => Ok g
             end in
  let* g2 := if time_windows then remove_infeasible_arcs_time_windows g1 else Ok g1 in
  Ok (mc, g2).

(* ------------------------------------------------------------------ *)
(** ** Stop bound *)

(** preprocessing.py 38-50: [sol] is the table; entry (i, j) is written once. The table [added]
    is never read and is left out. *)
Definition tab := list (list Z).
(** preprocessing.py 38-50, reading the table *)
Definition tab_get (sol : tab) (i j : Z) : res Z :=
  let* row := py_get sol i in py_get row j.
(** preprocessing.py 38-50, writing the table *)
Definition tab_set (sol : tab) (i j : nat) (x : Z) : tab :=
  match nth_error sol i with
  | Some row => set_nth i (set_nth j x row) sol
  | None => sol
  end.

(** preprocessing.py 38-50 *)
Definition knap_step (w : Z) (i : nat) (sol : tab) (j : nat) : res tab :=
  let iz := Z.of_nat i in
  let jz := Z.of_nat j in
  if (jz <? w)%Z then
    let* x := tab_get sol (iz - 1) jz in Ok (tab_set sol i j x)
  else
    let* a := tab_get sol (iz - 1) (jz - w) in
    let* b := tab_get sol (iz - 1) jz in
    if (b <? 1 + a)%Z then Ok (tab_set sol i j (1 + a))
    else let* x := tab_get sol (iz - 1) jz in Ok (tab_set sol i j x).

(** preprocessing.py 27-51; [capacity] is a positive integer *)
Definition knapsack (weights : list Z) (capacity : nat) : res Z :=
  let n := List.length weights in
  let sol0 := repeat (repeat 0%Z (S capacity)) n in
  let* sol := foldM (fun sol i =>
      let* w := of_opt IndexError (nth_error weights i) in
      foldM (knap_step w i) (seq 0 (S capacity)) sol) (seq 0 n) sol0 in
  tab_get sol (Z.of_nat n - 1) (Z.of_nat capacity).

(** preprocessing.py 1-24 *)
Definition num_stops_upper_bound (g : vgraph) (max_capacity : Z) (num_stops : option Z)
    (distribution_collection : bool) : res Z :=
  let* m1 := knapsack (map (fun p => qtrunc (demand (snd p))) (gnodes g)) (Z.to_nat max_capacity) in
  let* m := (if distribution_collection then
               let* m2 := knapsack (map (fun p => qtrunc (collect (snd p))) (gnodes g))
                                   (Z.to_nat max_capacity) in
               Ok (Z.min m1 m2)
             else Ok m1) in
  match num_stops with
  | Some s => if (s =? 0)%Z then Ok m else Ok (Z.min m s)
  | None => Ok m
  end.

(* ------------------------------------------------------------------ *)
(** ** _pre_solve *)

(** Options of the constructor and of solve() (vrp.py 82-98, 153-167) used from here on. *)
Record options := mkOptions {
  o_time_windows : bool;
  o_pickup_delivery : bool;
  o_distribution_collection : bool;
  o_use_all_vehicles : bool;
  o_periodic : option Z;
  o_cspy : bool;
  o_preassignments : list (list node)
}.

(** What _pre_solve leaves in the object (vrp.py 428-483) *)
Record prepared := mkPrepared {
  pr_graph : vgraph;                 (* G *)
  pr_copy : vgraph;                  (* _H *)
  pr_num_stops : option Z;           (* num_stops *)
  pr_max_capacity : option Z;        (* _max_capacity *)
  pr_num_vehicles : option (list Q); (* num_vehicles *)
  pr_num_vehicles_schedule : list Q; (* _num_vehicles_schedule *)
  pr_more_routes : bool              (* _more_routes *)
}.

(** vrp.py 480-483 *)
Definition penalise_empty (g : vgraph) : res vgraph :=
  let* e := get_arc g Source Sink in
  Ok (map_arcs (fun a x => if arc_eqb a (Source, Sink)
                           then mkE (repeat big_cost (List.length (ecost e))) (etime x) (eweight x)
                           else x) g).

(** [check_periodic_num_vehicles] on a falsy scalar returns it unchanged
    (vrp.py 464-466, checks.py 241-256) *)
Definition split_vehicles (periodic : option Z) (nv : option (list Q)) : option (list Q) * list Q :=
  match nv with
  | Some l => let '(a, b) := check_periodic_num_vehicles periodic l in (Some a, b)
  | None => (None, [])
  end.

(** vrp.py 448-483: _pre_solve after check_arguments *)
Definition pre_solve (c : config) (o : options) (g : rgraph) : res prepared :=
  let K := cf_vehicle_types c in
  let* g1 := (if nonempty (cf_fixed_cost c) then add_fixed_costs K (cf_fixed_cost c) g else Ok g) in
  let* h := update_dummy_attributes K g1 in
  let* _ := check_consistency (o_cspy o) (o_pickup_delivery o) h in
  let* _ := check_feasibility (cf_load_capacity c) (cf_duration c) h in
  let '(nv, nvs) := split_vehicles (o_periodic o) (cf_num_vehicles c) in
  let* gl := (if nonempty (o_preassignments o) then
                let* _ := check_preassignments (o_preassignments o) h in
                lock K (o_preassignments o) h
              else Ok (h, true)) in
  let '(g2, more) := gl in
  let* pg := prune_graph (cf_load_capacity c) (o_time_windows o) g2 in
  let '(mc, g3) := pg in
  let* ns := match mc with
             | Some m =>
                 if o_pickup_delivery o then Ok (cf_num_stops c)
                 else let* b := num_stops_upper_bound g3 m (cf_num_stops c) (o_distribution_collection o) in
                      Ok (Some b)
             | None => Ok (cf_num_stops c)
             end in
  let* g4 := (if o_use_all_vehicles o then penalise_empty g3 else Ok g3) in
  Ok (mkPrepared g4 h ns mc nv nvs more).
