(** vrp.py: turning the selected columns into node lists, and the result properties. *)
From Verif.Base Require Import Prelude Graph.
From Verif.Spec Require Import Routes Network.
From Verif.Model Require Import Args Reach Checks Preprocess ClarkeWright Greedy Initial Pricing.

(* ------------------------------------------------------------------ *)
(** ** Dictionaries: association lists in insertion order *)

(** [d[k]] (vrp.py 283-409) *)
Fixpoint dget {K V} (eqb : K -> K -> bool) (k : K) (d : list (K * V)) : option V :=
  match d with
  | [] => None
  | (j, x) :: t => if eqb j k then Some x else dget eqb k t
  end.
(** [d[k] = x]: a key keeps its place (vrp.py 283-409) *)
Fixpoint dset {K V} (eqb : K -> K -> bool) (k : K) (x : V) (d : list (K * V)) : list (K * V) :=
  match d with
  | [] => [(k, x)]
  | (j, y) :: t => if eqb j k then (j, x) :: t else (j, y) :: dset eqb k x t
  end.

(* ------------------------------------------------------------------ *)
(** ** Sums along a route *)

(** vrp.py 290, 1149: sum of cost[k] over the arcs of a route, in _H *)
Definition route_cost (h : vgraph) (k : nat) (r : list node) : res Q :=
  let* l := mapM (arc_cost h k) (arcs r) in Ok (pysum l).
(** vrp.py 304-306, 1150: sum of the demands of its nodes *)
Definition route_load (h : vgraph) (r : list node) : res Q :=
  let* l := mapM (fun v => let* d := get_node h v in Ok (demand d)) r in Ok (pysum l).
(** vrp.py 349-354: travel times, then service times *)
Definition route_duration (h : vgraph) (r : list node) : res Q :=
  let* l := mapM (fun a => let* e := get_arc h (fst a) (snd a) in Ok (etime e)) (arcs r) in
  let* m := mapM (fun v => let* d := get_node h v in Ok (service d)) r in
  Ok (pysum l + pysum m).

(* ------------------------------------------------------------------ *)
(** ** vrp.py 1130-1158 _best_routes_as_node_lists *)

(** vrp.py 1146-1157: one vehicle type of the search for the type of a locked route; the state is
    best_cost and the type stored so far. [None] and the empty list of capacities test false. *)
Definition type_step (h : vgraph) (caps : option (list Z)) (r : list node)
    (s : Q * option nat) (k : nat) : res (Q * option nat) :=
  let* q := route_cost h k r in
  let* l := route_load h r in
  if Qltb q (fst s) then
    match caps with
    | Some ((_ :: _) as cl) =>
        let* c := of_opt IndexError (nth_error cl k) in
        if Qle_bool l (inject_Z c) then Ok (q, Some k) else Ok s
    | _ => Ok (q, Some k)
    end
  else Ok s.

(** vrp.py 1143-1157: [None] means that no type is stored *)
Definition locked_type (h : vgraph) (caps : option (list Z)) (K : nat) (r : list node) : res (option nat) :=
  let* s := foldM (type_step h caps r) (seq 0 K) (big_cost, None) in Ok (snd s).

(** [shortest_path(route, "Source", "Sink")] is networkx; [sp] maps the nodes and arcs of a column
    to the answer, [None] when networkx raises (NodeNotFound or NetworkXNoPath) (vrp.py 1136) *)
Definition path_oracle := list node -> list arc -> option (list node).

(** vrp.py 1135-1139: the selected columns, numbered from [id] *)
Fixpoint column_lists (sp : path_oracle) (id : nat) (cs : list column)
  : res (list (nat * list node) * list (nat * nat)) :=
  match cs with
  | [] => Ok ([], [])
  | c :: t =>
      let* p := of_opt NetworkXError (sp (c_nodes c) (c_arcs c)) in
      let* r := column_lists sp (S id) t in
      Ok ((id, p) :: fst r, (id, c_type c) :: snd r)
  end.

(** vrp.py 1141-1158: the complete preassigned routes, numbered from [id] *)
Fixpoint locked_lists (h : vgraph) (caps : option (list Z)) (K : nat) (id : nat) (rs : list (list node))
  : res (list (nat * list node) * list (nat * nat)) :=
  match rs with
  | [] => Ok ([], [])
  | r :: t =>
      let* c := is_complete r in
      if c then
        let* k := locked_type h caps K r in
        let* x := locked_lists h caps K (S id) t in
        Ok ((id, r) :: fst x, match k with Some k => (id, k) :: snd x | None => snd x end)
      else locked_lists h caps K id t
  end.

(** vrp.py 1130-1158: (_best_routes, _best_routes_vehicle_type) *)
Definition node_lists (sp : path_oracle) (h : vgraph) (caps : option (list Z)) (K : nat)
    (pre : list (list node)) (cs : list column) : res (list (nat * list node) * list (nat * nat)) :=
  let* a := column_lists sp 1 cs in
  let* b := locked_lists h caps K (S (List.length cs)) pre in
  Ok (fst a ++ fst b, snd a ++ snd b).

(* ------------------------------------------------------------------ *)
(** ** vrp.py 264-426: the result properties *)

(** What the properties read from the object after solve() (vrp.py 264-426, 1186-1204) *)
Record solved := mkSolved {
  sv_graph : vgraph;                    (* G *)
  sv_copy : vgraph;                     (* _H *)
  sv_caps : option (list Z);            (* load_capacity *)
  sv_duration : option Z;               (* duration *)
  sv_windows : bool;                    (* time_windows *)
  sv_pickup : bool;                     (* pickup_delivery *)
  sv_both : bool;                       (* distribution_collection *)
  sv_drop : option Q;                   (* drop_penalty *)
  sv_span : bool;                       (* minimize_global_span *)
  sv_routes : list (nat * list node);   (* _best_routes *)
  sv_types : list (nat * nat);          (* _best_routes_vehicle_type *)
  sv_dropped : list node                (* _dropped_nodes *)
}.

(** a property computed for every route; the ids of the routes are distinct
    (vrp.py 287, 303, 325, 367, 399) *)
Definition per_route {V} (s : solved) (f : nat -> list node -> res V) : res (list (nat * V)) :=
  mapM (fun p => let* x := f (fst p) (snd p) in Ok (fst p, x)) (sv_routes s).

(** [self._best_routes_vehicle_type[i]] (vrp.py 289, 329) *)
Definition type_of (s : solved) (i : nat) : res nat := of_opt KeyError (dget Nat.eqb i (sv_types s)).

(** vrp.py 283-291 *)
Definition best_routes_cost (s : solved) : res (list (nat * Q)) :=
  per_route s (fun i r => let* k := type_of s i in route_cost (sv_copy s) k r).

(** vrp.py 264-274; [max] of no values raises ValueError *)
Definition best_value (s : solved) : res Q :=
  let* c := best_routes_cost s in
  let* v := (if sv_span s then pymax (map snd c) else Ok (pysum (map snd c))) in
  match sv_drop s with
  | Some p => if truthyQ (sv_drop s) then Ok (v + p * inject_Z (Z.of_nat (List.length (sv_dropped s)))) else Ok v
  | None => Ok v
  end.

(** vrp.py 298, 320: truth value of load_capacity *)
Definition has_caps (caps : option (list Z)) : bool :=
  match caps with Some l => nonempty l | None => false end.

(** vrp.py 293-307 *)
Definition best_routes_load (s : solved) : res (list (nat * Q)) :=
  if negb (has_caps (sv_caps s)) || sv_both s || sv_pickup s then Ok []
  else per_route s (fun _ r => route_load (sv_copy s) r).

(** vrp.py 329-338: one node of a route; the state is load[i] and amount *)
Definition load_step (s : solved) (st : list (node * Q) * Q) (v : node) : res (list (node * Q) * Q) :=
  let* d := get_node (sv_copy s) v in
  let a1 := snd st + demand d in
  let a2 := if sv_both s then a1 + (collect d - (2 # 1) * demand d) else a1 in
  Ok (dset node_eqb v a2 (fst st), a2).

(** vrp.py 309-339; load_capacity[k] of a load_capacity that is None raises TypeError *)
Definition node_load (s : solved) : res (list (nat * list (node * Q))) :=
  if negb (has_caps (sv_caps s)) && negb (sv_pickup s) && negb (sv_both s) then Ok []
  else per_route s (fun i r =>
         let* start := (if sv_both s then
                          let* k := type_of s i in
                          match sv_caps s with
                          | None => Err TypeError
                          | Some l => let* c := of_opt IndexError (nth_error l k) in Ok (0 + inject_Z c)
                          end
                        else Ok 0) in
         let* st := foldM (load_step s) r ([], start) in Ok (fst st)).

(** [not self.duration and not self.time_windows] (vrp.py 345, 365, 397) *)
Definition no_times (s : solved) : bool := negb (truthy (sv_duration s)) && negb (sv_windows s).

(** vrp.py 341-356 *)
Definition best_routes_duration (s : solved) : res (list (nat * Q)) :=
  if no_times s then Ok [] else per_route s (fun _ r => route_duration (sv_copy s) r).

(** vrp.py 371-379: one arc of a route *)
Definition arrival_step (h : vgraph) (d : list (node * Q)) (a : arc) : res (list (node * Q)) :=
  let* t := of_opt KeyError (dget node_eqb (fst a) d) in
  let* dt := get_node h (fst a) in
  let* e := get_arc h (fst a) (snd a) in
  let* dh := get_node h (snd a) in
  Ok (dset node_eqb (snd a) (pymax2 (t + service dt + etime e) (lower dh)) d).

(** vrp.py 358-380 *)
Definition arrival_time (s : solved) : res (list (nat * list (node * Q))) :=
  if no_times s then Ok []
  else per_route s (fun _ r =>
         let* src := get_node (sv_copy s) Source in
         foldM (arrival_step (sv_copy s)) (arcs r) [(Source, lower src)]).

(** vrp.py 382-387 *)
Definition check_arrival_time (s : solved) : res unit :=
  let* d := arrival_time s in
  iterM (fun p => iterM (fun q =>
           let* n := get_node (sv_graph s) (fst q) in
           let* _ := raise_if (negb (Qle_bool (lower n) (snd q))) AssertionError in
           raise_if (negb (Qle_bool (snd q) (upper n))) AssertionError) (snd p)) d.

(** vrp.py 404-408: one arc; [arr] is arrival[i] *)
Definition departure_step (h : vgraph) (arr d : list (node * Q)) (a : arc) : res (list (node * Q)) :=
  let* t := of_opt KeyError (dget node_eqb (snd a) arr) in
  let* dh := get_node h (snd a) in
  Ok (dset node_eqb (snd a) (t + service dh) d).

(** vrp.py 389-409 *)
Definition departure_time (s : solved) : res (list (nat * list (node * Q))) :=
  let* arr := arrival_time s in
  if no_times s then Ok []
  else per_route s (fun i r =>
         let* src := get_node (sv_copy s) Source in
         let* a := of_opt KeyError (dget Nat.eqb i arr) in
         foldM (departure_step (sv_copy s) a) (arcs r) [(Source, lower src)]).

(** vrp.py 411-418 *)
Definition check_departure_time (s : solved) : res unit :=
  let* d := departure_time s in
  iterM (fun p => iterM (fun q =>
           let* n := get_node (sv_graph s) (fst q) in
           raise_if (negb (Qle_bool (lower n) (snd q))) AssertionError) (snd p)) d.
