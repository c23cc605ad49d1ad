(** vrpy/checks.py, and vrp.py _format and _define_vehicle_types. *)
From Verif.Base Require Import Prelude Graph.
From Verif.Spec Require Import Routes Network.
From Verif.Model Require Import Args Reach.

(* ------------------------------------------------------------------ *)
(** checks.py 94-98, the body of the loop of check_vrp for one depot name.
    [G.predecessors("Source")] and [G.successors("Sink")] raise NetworkXError when the node is
    not in the graph. *)
Definition check_depot (g : rgraph) (v : node) : res unit :=
  let* _ := raise_if (negb (mem v (nodes g))) KeyError in            (* 91-92 *)
  let* _ := raise_if (negb (mem Source (nodes g))) NetworkXError in  (* 94: Source missing *)
  let* _ := raise_if (nonempty (preds g Source)) NetworkXError in    (* 94-95 *)
  let* _ := raise_if (negb (mem Sink (nodes g))) NetworkXError in    (* 97: Sink missing *)
  raise_if (nonempty (succs g Sink)) NetworkXError.                  (* 97-98 *)

(** checks.py 101-108, the cost 1e10 of an added edge *)
Definition big_cost : Q := inject_Z 10000000000.  (* 1e10 *)

(** checks.py 101-108: one iteration of the completion loop *)
Definition complete_node (g : rgraph) (v : node) : rgraph :=
  if is_depot v then g else
  let g1 := if mem v (succs g Source) then g
            else add_new_arc Source v (mkER (Some (Scalar big_cost)) None) g in
  if mem v (preds g1 Sink) then g1
  else add_new_arc v Sink (mkER (Some (Scalar big_cost)) None) g1.

(** checks.py 83-115. The [isinstance(G, DiGraph)] test (87-88) is not modelled: the argument
    is a graph by typing. *)
Definition check_vrp (g : rgraph) : res rgraph :=
  let* _ := check_depot g Source in
  let* _ := check_depot g Sink in
  let g' := fold_left complete_node (nodes g) g in
  let* _ := raise_if (negb (has_path g' Source Sink)) NetworkXError in
  let* _ := iterM (fun a =>
      let* e := get_arc g' (fst a) (snd a) in
      raise_if (match r_cost e with None => true | Some _ => false end) KeyError) (edges g') in
  Ok g'.

(* ------------------------------------------------------------------ *)
(** vrp.py 1160-1170 _format (only called when mixed_fleet is false). The cost attribute is
    present on every arc after check_vrp; [None] would be a KeyError. *)
Definition format_cost (e : eraw) : eraw :=
  match r_cost e with
  | Some (Scalar q) => mkER (Some (Vec [q])) (r_time e)
  | _ => e
  end.

(** vrp.py 1163-1170, one argument: a bare number becomes a list of one *)
Definition format_val (v : pyval) : pyval :=
  if py_truthy v then match v with PNum n => PList [n] | _ => v end else v.

(** vrp.py 1160-1170 *)
Definition format (a : rargs) (g : rgraph) : rargs * rgraph :=
  (mkArgs (a_num_stops a) (format_val (a_load_capacity a)) (a_duration a)
          (format_val (a_fixed_cost a)) (format_val (a_num_vehicles a))
          (a_mixed_fleet a) (a_strategy a),
   map_arcs (fun _ e => format_cost e) g).

(** vrp.py 1172-1182 _define_vehicle_types, 430-433. [None]: no attribute gives a number. *)
Definition define_vehicle_types (a : rargs) : res (option nat) :=
  if py_truthy (a_load_capacity a) then let* n := py_len (a_load_capacity a) in Ok (Some n)
  else if py_truthy (a_fixed_cost a) then let* n := py_len (a_fixed_cost a) in Ok (Some n)
  else if py_truthy (a_num_vehicles a) then let* n := py_len (a_num_vehicles a) in Ok (Some n)
  else Ok None.

(* ------------------------------------------------------------------ *)
(** checks.py 26 and 30: not an int or not positive *)
Definition bad_pos_int (v : pyval) : bool :=   (* not isinstance(x, int) or x <= 0 *)
  match v with
  | PNum (PInt z) => (z <=? 0)%Z
  | _ => true
  end.
(** checks.py 32: not an int or negative *)
Definition bad_nonneg_int (v : pyval) : bool :=  (* not isinstance(x, int) or x < 0 *)
  match v with
  | PNum (PInt z) => (z <? 0)%Z
  | _ => true
  end.

(** checks.py 34 *)
Definition strategies : list string := ["Exact"; "BestEdges1"; "BestEdges2"; "BestPaths"; "Hyper"].

(** [for value in load_capacity]: a number is not iterable (checks.py 29) *)
Definition py_items (v : pyval) : res (list pynum) :=
  match v with PList l => Ok l | _ => Err TypeError end.

(** [a and b and len(a) != len(b)] raises ValueError (checks.py 41-52) *)
Definition check_same_len (a b : pyval) : res unit :=
  if py_truthy a && py_truthy b then
    let* n := py_len a in
    let* m := py_len b in
    raise_if (negb (Nat.eqb n m)) ValueError
  else Ok tt.

(** checks.py 53-62 *)
Definition check_cost_vector (types : option nat) (e : eraw) : res unit :=
  match r_cost e with
  | None => Err KeyError
  | Some (Scalar _) => Err TypeError
  | Some (Vec l) =>
      raise_if (match types with Some n => negb (Nat.eqb (List.length l) n) | None => true end) ValueError
  end.

(** checks.py 11-65. The use_all_vehicles branch (63-65) only logs. *)
Definition check_arguments (a : rargs) (types : option nat) (g : rgraph) : res unit :=
  let* _ := raise_if (py_truthy (a_num_stops a) && bad_pos_int (a_num_stops a)) TypeError in
  let* _ := (if py_truthy (a_load_capacity a) then
               let* l := py_items (a_load_capacity a) in
               iterM (fun n => raise_if (bad_pos_int (PNum n)) TypeError) l
             else Ok tt) in
  let* _ := raise_if (py_truthy (a_duration a) && bad_nonneg_int (a_duration a)) TypeError in
  let* _ := raise_if (negb (existsb (String.eqb (a_strategy a)) strategies)) ValueError in
  if a_mixed_fleet a then
    let* _ := check_same_len (a_load_capacity a) (a_num_vehicles a) in
    let* _ := check_same_len (a_load_capacity a) (a_fixed_cost a) in
    let* _ := check_same_len (a_num_vehicles a) (a_fixed_cost a) in
    iterM (fun x => let* e := get_arc g (fst x) (snd x) in check_cost_vector types e) (edges g)
  else Ok tt.

(** vrp.py 246-250, 430-447: formatting, number of vehicle types, argument check. *)
Definition prepare_args (a : rargs) (g : rgraph) : res (rargs * option nat * rgraph) :=
  let '(a1, g1) := if a_mixed_fleet a then (a, g) else format a g in
  let* types := (if a_mixed_fleet a then define_vehicle_types a1 else Ok (Some 1%nat)) in
  let* _ := check_arguments a1 types g1 in
  Ok (a1, types, g1).

(* ------------------------------------------------------------------ *)
(** checks.py 68-80; [periodic] is tested for truth. *)
Definition check_clarke_wright_compatibility
    (time_windows pickup_delivery distribution_collection mixed_fleet : bool)
    (periodic : option Z) : res unit :=
  raise_if (time_windows || pickup_delivery || distribution_collection || mixed_fleet
            || truthy periodic) ValueError.

(** [route[0]] and [route[-1]], IndexError on an empty list (checks.py 128) *)
Definition first_node (r : list node) : res node :=
  match r with [] => Err IndexError | v :: _ => Ok v end.
(** checks.py 128, the last element of an initial route; IndexError if it is empty *)
Definition last_node (r : list node) : res node :=
  match r with [] => Err IndexError | v :: _ => Ok (last r v) end.

(** checks.py 118-148, after the graph was completed and formatted (the cost test at 147-148
    cannot fail: every arc has a cost list). *)
Definition check_initial_routes (routes : list (list node)) (g : vgraph) : res unit :=
  let* _ := iterM (fun r =>
      let* f := first_node r in
      if negb (node_eqb f Source) then Err ValueError else
      let* l := last_node r in
      raise_if (negb (node_eqb l Sink)) ValueError) routes in
  let* _ := iterM (fun v =>
      if is_depot v then Ok tt
      else raise_if (negb (existsb (mem v) routes)) KeyError) (nodes g) in
  iterM (fun r => iterM (fun a => raise_if (negb (has_arc g (fst a) (snd a))) KeyError) (arcs r)) routes.

(** checks.py 151-165 *)
Definition check_preassignments (routes : list (list node)) (g : vgraph) : res unit :=
  iterM (fun r => iterM (fun a => raise_if (negb (has_arc g (fst a) (snd a))) ValueError) (arcs r)) routes.

(** checks.py 168-187. The assignment at 181 is to a local name and has no effect. *)
Definition check_consistency (cspy pickup_delivery : bool) (g : vgraph) : res unit :=
  let* _ := raise_if (cspy && pickup_delivery) NotImplementedError in
  if pickup_delivery then
    raise_if (negb (existsb (fun p => match request (snd p) with Some _ => true | None => false end)
                            (gnodes g))) KeyError
  else Ok tt.

(** checks.py 190-215 *)
Definition time_arcs (g : vgraph) : list (arc * Q) :=
  map (fun p => (fst p, etime (snd p))) (gedges g).

(** checks.py 190-215 *)
Definition check_feasibility (load_capacity : option (list Z)) (duration : option Z) (g : vgraph) : res unit :=
  let* _ := match load_capacity with
            | Some (c :: l) =>
                iterM (fun p =>
                  let* m := zmax (c :: l) in
                  raise_if (Qltb (inject_Z m) (demand (snd p))) ValueError) (gnodes g)
            | _ => Ok tt
            end in
  if truthy duration then
    iterM (fun v =>
      if is_depot v then Ok tt else
      let* d1 := shortest_path_length (nodes g) (time_arcs g) Source v in
      let* d2 := shortest_path_length (nodes g) (time_arcs g) v Sink in
      raise_if (match duration with Some D => Qltb (inject_Z D) (d2 + d1) | None => false end)
               ValueError) (nodes g)
  else Ok tt.

(** checks.py 232-238 *)
Definition check_pickup_delivery_time_windows (g : vgraph) (edges : list arc) : res unit :=
  iterM (fun a => raise_if (negb (has_arc g (fst a) (snd a))) ValueError) edges.

(** checks.py 241-256: (num_vehicles, num_vehicles_schedule) *)
Definition check_periodic_num_vehicles (periodic : option Z) (num_vehicles : list Q)
  : list Q * list Q :=
  if truthy periodic && nonempty num_vehicles then ([], num_vehicles) else (num_vehicles, []).
