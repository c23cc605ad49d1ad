(** clarke_wright.py: the savings heuristic and the round trips. *)
From Verif.Base Require Import Prelude Graph.
From Verif.Spec Require Import Routes Network.
From Verif.Model Require Import Args Reach Checks Preprocess.

(* ------------------------------------------------------------------ *)
(** ** The graph copy *)

(** clarke_wright.py 219-223 (and greedy.py 139-143) _format_cost: the first cost of every list;
    the scalar is kept as a one-element list. *)
Definition first_costs (g : vgraph) : res vgraph :=
  map_arcsM (fun _ e => let* c := of_opt IndexError (nth_error (ecost e) 0) in
                        Ok (mkE [c] (etime e) (eweight e))) g.

(** [self.G.edges[u, v]["cost"]] on that copy (clarke_wright.py 219-223) *)
Definition scost (g : vgraph) (u v : node) : res Q :=
  let* e := get_arc g u v in of_opt IndexError (nth_error (ecost e) 0).
(** clarke_wright.py 75-79, 145-150, 176-181: the time of an arc *)
Definition stime (g : vgraph) (u v : node) : res Q :=
  let* e := get_arc g u v in Ok (etime e).

(** clarke_wright.py 45-48 (and greedy.py 24-28): the capacity is a list or None here *)
Definition first_capacity (load_capacity : option (list Z)) : res (option Z) :=
  match load_capacity with
  | None => Ok None
  | Some l => let* c := of_opt IndexError (nth_error l 0) in Ok (Some c)
  end.

(** Limits of one heuristic: self.load_capacity, self.duration, self.num_stops (clarke_wright.py 45-50) *)
Record limits := mkLimits { l_cap : option Z; l_dur : option Z; l_stops : option Z }.

(** [x > limit] for a limit that is not None; only called after the limit tested true
    (clarke_wright.py 159-189) *)
Definition over (x : Q) (o : option Z) : bool :=
  match o with Some z => Qltb (inject_Z z) x | None => false end.

(* ------------------------------------------------------------------ *)
(** ** Route objects *)

(** A route is a mutable DiGraph with graph attributes "cost", "load", "time" (clarke_wright.py
    68-79). The last two exist only if the capacity, resp. the duration, tests true, and are read
    only in that case; the model keeps 0 otherwise. *)
Record croute := mkCR { cr_nodes : list node; cr_arcs : list arc;
                        cr_cost : Q; cr_load : Q; cr_time : Q }.

(** networkx add_node / add_edge: nothing is duplicated (clarke_wright.py 69, 120, 131) *)
Definition add_node1 (v : node) (l : list node) : list node := if mem v l then l else l ++ [v].
(** networkx DiGraph.add_edge on a route: clarke_wright.py 69, 120, 131 *)
Definition add_arc1 (a : arc) (r : croute) : croute :=
  mkCR (add_node1 (snd a) (add_node1 (fst a) (cr_nodes r)))
       (if mem_arc a (cr_arcs r) then cr_arcs r else cr_arcs r ++ [a])
       (cr_cost r) (cr_load r) (cr_time r).
(** networkx.add_path(route, p), p with at least two nodes (clarke_wright.py 69, 120, 131) *)
Definition add_path (p : list node) (r : croute) : croute :=
  fold_left (fun r a => add_arc1 a r) (arcs p) r.
(** route.remove_edge(u, v) (clarke_wright.py 121, 132) *)
Definition remove_edge (a : arc) (r : croute) : res croute :=
  if mem_arc a (cr_arcs r)
  then Ok (mkCR (cr_nodes r) (filter (fun b => negb (arc_eqb b a)) (cr_arcs r))
                (cr_cost r) (cr_load r) (cr_time r))
  else Err NetworkXError.

(** clarke_wright.py 123-127, 134-138, addition to route.graph["cost"] *)
Definition add_cost (c : Q) (r : croute) : croute :=
  mkCR (cr_nodes r) (cr_arcs r) (cr_cost r + c) (cr_load r) (cr_time r).
(** clarke_wright.py 141-142, addition to route.graph["load"] *)
Definition add_load (c : Q) (r : croute) : croute :=
  mkCR (cr_nodes r) (cr_arcs r) (cr_cost r) (cr_load r + c) (cr_time r).
(** clarke_wright.py 144-150, addition to route.graph["time"] *)
Definition add_time (c : Q) (r : croute) : croute :=
  mkCR (cr_nodes r) (cr_arcs r) (cr_cost r) (cr_load r) (cr_time r + c).

(** The object: the route objects that were ever created ([cw_heap], an object is its index), the
    dictionary _route from customers to objects, and _processed_nodes (clarke_wright.py 29-31) *)
Record cw := mkCW { cw_heap : list croute; cw_route : list (node * nat); cw_done : list node }.

(** [self._route[v]] (clarke_wright.py 70, 156) *)
Definition route_id (s : cw) (v : node) : res nat := of_opt KeyError (assoc_node v (cw_route s)).
(** clarke_wright.py 117, 161: self._route[v]; KeyError if absent *)
Definition route_of (s : cw) (v : node) : res croute :=
  let* h := route_id s v in of_opt KeyError (nth_error (cw_heap s) h).

(** [d[v] = h] (clarke_wright.py 70, 156) *)
Fixpoint dict_set {A} (v : node) (h : A) (d : list (node * A)) : list (node * A) :=
  match d with
  | [] => [(v, h)]
  | (w, k) :: t => if node_eqb w v then (w, h) :: t else (w, k) :: dict_set v h t
  end.

(* ------------------------------------------------------------------ *)
Section ClarkeWright.
  Variable g : vgraph.       (* self.G *)
  Variable lim : limits.
  Variable alpha : Q.

  (** clarke_wright.py 62-79: one customer *)
  Definition cw_init_node (s : cw) (v : node) : res cw :=
    if is_depot v then Ok s else
    let* c1 := scost g Source v in
    let* c2 := scost g v Sink in
    let r := add_path [Source; v; Sink] (mkCR [] [] (c1 + c2) 0 0) in
    let* r := (if truthy (l_cap lim) then
                 let* d := get_node g v in
                 Ok (mkCR (cr_nodes r) (cr_arcs r) (cr_cost r) (demand d) (cr_time r))
               else Ok r) in
    let* r := (if truthy (l_dur lim) then
                 let* d := get_node g v in
                 let* t1 := stime g Source v in
                 let* t2 := stime g v Sink in
                 Ok (mkCR (cr_nodes r) (cr_arcs r) (cr_cost r) (cr_load r) (service d + t1 + t2))
               else Ok r) in
    Ok (mkCW (cw_heap s ++ [r]) (dict_set v (List.length (cw_heap s)) (cw_route s)) (cw_done s)).

  (** clarke_wright.py 60-79 _initialize_routes *)
  Definition cw_init : res cw := foldM cw_init_node (nodes g) (mkCW [] [] []).

  (** clarke_wright.py 90-95: the saving of one arc *)
  Definition saving (i j : node) : res Q :=
    let* c1 := scost g i Sink in
    let* c2 := scost g Source j in
    let* c := scost g i j in
    Ok (c1 + c2 - alpha * c).

  (** clarke_wright.py 88-106 _get_savings: _ordered_edges *)
  Definition cw_savings : res (list (arc * Q)) :=
    mapM (fun a => let* s := saving (fst a) (snd a) in Ok (a, s))
         (filter (fun a => negb (node_eqb (fst a) Source) && negb (node_eqb (snd a) Sink)) (edges g)).
  (** clarke_wright.py 88-106 *)
  Definition ordered_edges : res (list arc) :=
    let* l := cw_savings in Ok (map fst (sorted_desc snd l)).

  (** clarke_wright.py 176-180 (and 146-149): the time tracked for adding [new] to the route of
      [old] *)
  Definition extra_time (old new : node) : res Q :=
    let* t1 := stime g old new in
    let* t2 := stime g new Sink in
    let* d := get_node g new in
    let* t3 := stime g old Sink in
    Ok (t1 + t2 + service d - t3).

  (** clarke_wright.py 159-189 _constraints_met *)
  Definition cw_constraints (s : cw) (old new : node) : res bool :=
    let* r := route_of s old in
    if mem new (cr_nodes r) then Ok false else
    let* full := (if truthy (l_cap lim) then
                    let* d := get_node g new in Ok (over (cr_load r + demand d) (l_cap lim))
                  else Ok false) in
    if (full : bool) then Ok false else
    let* late := (if truthy (l_dur lim) then
                    let* x := extra_time old new in Ok (over (cr_time r + x) (l_dur lim))
                  else Ok false) in
    if (late : bool) then Ok false else
    if truthy (l_stops lim) &&
       over (inject_Z (Z.of_nat (List.length (cr_nodes r)) - 2 + 1)) (l_stops lim)
    then Ok false else Ok true.

  (** clarke_wright.py 108-157 _merge_route; [to_sink] is depot == "Sink" *)
  Definition cw_merge (s : cw) (old new : node) (to_sink : bool) : res cw :=
    let* h := route_id s old in
    let* r := of_opt KeyError (nth_error (cw_heap s) h) in
    let* r := (if to_sink then
                 let r := add_path [old; new; Sink] r in
                 let* r := remove_edge (old, Sink) r in
                 let* c1 := scost g old new in
                 let* c2 := scost g new Sink in
                 let* c3 := scost g old Sink in
                 Ok (add_cost (c1 + c2 - c3) r)
               else
                 let r := add_path [Source; new; old] r in
                 let* r := remove_edge (Source, old) r in
                 let* c1 := scost g new old in
                 let* c2 := scost g Source new in
                 let* c3 := scost g Source old in
                 Ok (add_cost (c1 + c2 - c3) r)) in
    let* r := (if truthy (l_cap lim) then
                 let* d := get_node g new in Ok (add_load (demand d) r)
               else Ok r) in
    let* r := (if truthy (l_dur lim) then
                 let* x := extra_time old new in Ok (add_time x r)
               else Ok r) in
    let don := cw_done s ++ [new] in
    let don := if mem old don then don else don ++ [old] in
    Ok (mkCW (set_nth h r (cw_heap s)) (dict_set new h (cw_route s)) don).

  (** clarke_wright.py 202-206 and 210-216: [and] stops at the first false operand *)
  Definition can_append (s : cw) (i j : node) : res bool :=
    if mem j (cw_done s) then Ok false else
    let* ok := cw_constraints s i j in
    if (ok : bool) then (let* r := route_of s i in Ok (mem_arc (i, Sink) (cr_arcs r))) else Ok false.
  (** clarke_wright.py 210-216 *)
  Definition can_prepend (s : cw) (i j : node) : res bool :=
    if negb (has_arc g j i) then Ok false else
    if mem i (cw_done s) then Ok false else
    let* ok := cw_constraints s j i in
    if (ok : bool) then (let* r := route_of s j in Ok (mem_arc (Source, j) (cr_arcs r))) else Ok false.

  (** clarke_wright.py 191-217 _process_edge *)
  Definition process_edge (s : cw) (a : arc) : res cw :=
    let '(i, j) := a in
    let* app := can_append s i j in
    if (app : bool) then cw_merge s i j true else
    let* pre := can_prepend s i j in
    if (pre : bool) then cw_merge s j i false else Ok s.

  (** clarke_wright.py 84: the set of route objects, as a list in the order of first appearance.
      [perm] is the order in which CPython iterates over the set. *)
  Definition live_routes (s : cw) : list nat := nodup Nat.eq_dec (map snd (cw_route s)).

  (** clarke_wright.py 84-86: one route *)
  Definition collect_route (s : cw) (acc : list (list node) * Q) (h : nat)
    : res (list (list node) * Q) :=
    let* r := of_opt KeyError (nth_error (cw_heap s) h) in
    let* p := shortest_path (cr_arcs r) Source Sink in
    Ok (fst acc ++ [p], snd acc + cr_cost r).

  (** clarke_wright.py 81-86 _update_routes: (best_routes, best_value) *)
  Definition cw_collect (perm : list nat -> list nat) (s : cw) : res (list (list node) * Q) :=
    foldM (collect_route s) (perm (live_routes s)) ([], 0).

  (** clarke_wright.py 52-58 run *)
  Definition cw_run (perm : list nat -> list nat) : res (list (list node) * Q) :=
    let* s := cw_init in
    let* l := ordered_edges in
    let* s := foldM process_edge l s in
    cw_collect perm s.
End ClarkeWright.

(** clarke_wright.py 15-58: constructor and run *)
Definition clarke_wright (g : vgraph) (load_capacity : option (list Z)) (duration num_stops : option Z)
    (alpha : Q) (perm : list nat -> list nat) : res (list (list node) * Q) :=
  let* g1 := first_costs g in
  let* c := first_capacity load_capacity in
  cw_run g1 (mkLimits c duration num_stops) alpha perm.

(** clarke_wright.py 246-249 _RoundTrip.run *)
Definition round_trip_routes (g : vgraph) : list (list node) :=
  flat_map (fun v => if is_depot v then [] else [[Source; v; Sink]]) (nodes g).
