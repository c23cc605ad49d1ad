(** subproblem_lp.py: the pricing problem as a mixed integer program. *)
From Verif.Base Require Import Prelude Graph.
From Verif.Spec Require Import Routes Network LinProg.
From Verif.Model Require Import Args Reach Checks Preprocess ClarkeWright Greedy Initial Pricing.

(** The LpVariables: x, t, y, load and, for distribution and collection, unload and load (per arc)
    (subproblem_lp.py 23, 171, 233, 282, 314-328) *)
Inductive pvar :=
| X (a : arc) | Time (v : node) | Rank (v : node) | Load (v : node)
| Unload (a : arc) | Collected (a : arc).

(** [None] or a missing vehicle type cannot be subscripted (subproblem_lp.py 206, 286) *)
Definition capacity_at (caps : option (list Z)) (k : nat) : res Q :=
  match caps with
  | None => Err TypeError
  | Some l => let* c := of_opt IndexError (nth_error l k) in Ok (inject_Z c)
  end.

Section Formulate.
  Variable h : vgraph.                  (* sub_G *)
  Variable k : nat.                     (* vehicle_type *)
  Variable caps : option (list Z).

  (** subproblem_lp.py 104-130, the sum of the arc variables of a list *)
  Definition sum_x (l : list arc) : list (Q * pvar) := map (fun a => (1, X a)) l.
  (** subproblem_lp.py 104-130, in_edges *)
  Definition in_arcs (v : node) : list arc := map (fun i => (i, v)) (preds h v).
  (** subproblem_lp.py 104-130, out_edges *)
  Definition out_arcs (v : node) : list arc := map (fun j => (v, j)) (succs h v).
  (** subproblem_lp.py 104-130, subtraction of linear expressions *)
  Definition minus (e : list (Q * pvar)) : list (Q * pvar) := map (fun t => (- fst t, snd t)) e.

  (** subproblem_lp.py 98-103 *)
  Definition reduced_cost_terms : list (Q * pvar) :=
    map (fun a => (weight_of h (fst a) (snd a), X a)) (edges h).

  (** subproblem_lp.py 104-113 *)
  Definition flow_rows : list (row pvar) :=
    map (fun v => mkRow (sum_x (in_arcs v) ++ minus (sum_x (out_arcs v))) EQ 0) (custs h).

  (** subproblem_lp.py 115-130; successors and predecessors of a missing depot raise *)
  Definition depot_rows : res (list (row pvar)) :=
    let* _ := raise_if (negb (mem Source (nodes h))) NetworkXError in
    let* _ := raise_if (negb (mem Sink (nodes h))) NetworkXError in
    Ok [mkRow (sum_x (out_arcs Source)) EQ 1;
        mkRow (sum_x (in_arcs Sink)) EQ 1;
        mkRow (sum_x (edges h)) GE 2].

  (** subproblem_lp.py 167-186: t[i] + service + time <= t[j] + M * (1 - x[i, j]) *)
  Definition time_rows : list (row pvar) :=
    let M := upper_of h Sink in
    map (fun a => let '(i, j) := a in
           mkRow [(1, Time i); (- (1), Time j); (M, X a)] LE
                 (M - service_of h i - time_of h i j)) (edges h)
    ++ flat_map (fun v => [mkRow [(1, Time v)] LE (upper_of h v);
                           mkRow [(1, Time v)] GE (lower_of h v)]) (nodes h).
  (** subproblem_lp.py 171-173 *)
  Definition time_vars : list (pvar * bounds) :=
    map (fun v => (Time v, mkBounds (Some 0) None false)) (nodes h).

  (** subproblem_lp.py 188-195 *)
  Definition stop_rows (n : Z) : list (row pvar) := [mkRow (sum_x (edges h)) LE (inject_Z (n + 1))].

  (** subproblem_lp.py 197-208 *)
  Definition load_rows : res (list (row pvar)) :=
    let* c := capacity_at caps k in
    Ok [mkRow (map (fun a => (demand_of h (snd a), X a)) (edges h)) LE c].

  (** subproblem_lp.py 210-225 *)
  Definition duration_rows (D : Z) : list (row pvar) :=
    [mkRow (map (fun a => (time_of h (fst a) (snd a) + service_of h (fst a), X a)) (edges h)) LE (inject_Z D)].

  (** subproblem_lp.py 227-250: y[i] + 1 <= y[j] + M * (1 - x[i, j]) *)
  Definition size : Q := inject_Z (Z.of_nat (List.length (nodes h))).
  (** subproblem_lp.py 227-250 *)
  Definition rank_rows : list (row pvar) :=
    map (fun a => let '(i, j) := a in
           mkRow [(1, Rank i); (- (1), Rank j); (size, X a)] LE (size - 1)) (edges h)
    ++ [mkRow [(1, Rank Source)] EQ 0]
    ++ map (fun v => mkRow [(1, Rank v); (- (1), Rank Sink)] LE 0)
           (filter (fun v => negb (node_eqb v Sink)) (nodes h)).
  (** subproblem_lp.py 227-250 *)
  Definition rank_vars : list (pvar * bounds) :=
    map (fun v => (Rank v, mkBounds (Some 0) (Some size) true)) (nodes h).

  (** subproblem_lp.py 260-279: one node with a "request"; an unknown delivery node raises *)
  Definition request_rows : res (list (row pvar)) :=
    foldM (fun acc p =>
      match request (snd p) with
      | None => Ok acc
      | Some d =>
          let v := fst p in
          let* _ := raise_if (negb (mem d (nodes h))) NetworkXError in
          Ok (acc ++ [mkRow (sum_x (out_arcs v) ++ minus (sum_x (out_arcs d))) EQ 0;
                      mkRow [(1, Rank v); (- (1), Rank d)] LE 0])
      end) (gnodes h) [].

  (** subproblem_lp.py 281-305: load[i] + demand <= load[j] + M * (1 - x[i, j]) and conversely *)
  Definition pickup_rows (M : Q) : list (row pvar) :=
    flat_map (fun a => let '(i, j) := a in
      [mkRow [(1, Load i); (- (1), Load j); (M, X a)] LE (M - demand_of h j);
       mkRow [(1, Load i); (- (1), Load j); (- M, X a)] GE (- M - demand_of h j)]) (edges h)
    ++ [mkRow [(1, Load Source)] EQ 0; mkRow [(1, Load Sink)] EQ 0].
  (** subproblem_lp.py 282-288 *)
  Definition pickup_vars (M : Q) : list (pvar * bounds) :=
    map (fun v => (Load v, mkBounds (Some 0) (Some M) false)) (nodes h).

  (** subproblem_lp.py 307-370 *)
  Definition sdc_rows (c : Q) : list (row pvar) :=
    let sum (f : arc -> pvar) (l : list arc) := map (fun a => (1, f a)) l in
    let used (q : Q) (v : node) := map (fun a => (q, X a)) (in_arcs v) in
    map (fun v => mkRow (used (demand_of h v) v ++ minus (sum Unload (in_arcs v)) ++ sum Unload (out_arcs v)) EQ 0)
        (custs h)
    ++ map (fun v => mkRow (used (collect_of h v) v ++ minus (sum Collected (out_arcs v)) ++ sum Collected (in_arcs v)) EQ 0)
        (custs h)
    ++ map (fun a => mkRow [(1, Collected a); (1, Unload a); (- c, X a)] LE 0) (edges h).
  (** subproblem_lp.py 314-328 *)
  Definition sdc_vars (c : Q) : list (pvar * bounds) :=
    map (fun a => (Unload a, mkBounds (Some 0) (Some c) false)) (edges h)
    ++ map (fun a => (Collected a, mkBounds (Some 0) (Some c) false)) (edges h).

  (** subproblem_lp.py 23 and 96-149 _formulate. [neg] is negative_edge_cycle(self.G).
      Simplification: the order of the rows is not that of the code. *)
  Definition formulate (o : options) (num_stops duration : option Z) (neg : bool) : res (program pvar) :=
    let* depot := depot_rows in
    let* loads := match caps with Some (_ :: _) => load_rows | _ => Ok [] end in
    let* reqs := (if o_pickup_delivery o
                  then let* r := request_rows in
                       let* M := capacity_at caps k in
                       Ok (r ++ pickup_rows M, pickup_vars M)
                  else Ok ([], [])) in
    let* sdc := (if o_distribution_collection o
                 then let* c := capacity_at caps k in Ok (sdc_rows c, sdc_vars c)
                 else Ok ([], [])) in
    let ranks := neg || o_pickup_delivery o in
    Ok (mkProgram reduced_cost_terms
          (flow_rows ++ depot
           ++ (if o_time_windows o then time_rows else [])
           ++ (match num_stops with Some n => if (n =? 0)%Z then [] else stop_rows n | None => [] end)
           ++ loads
           ++ (match duration with Some D => if (D =? 0)%Z then [] else duration_rows D | None => [] end)
           ++ (if ranks then rank_rows else [])
           ++ fst reqs ++ fst sdc)
          (map (fun a => (X a, mkBounds (Some 0) (Some 1) true)) (edges h)
           ++ (if o_time_windows o then time_vars else [])
           ++ (if ranks then rank_vars else [])
           ++ snd reqs ++ snd sdc)).

  (** subproblem_lp.py 151-165 _update_prob *)
  Definition update_prob (p : program pvar) : program pvar :=
    mkProgram [] (p_rows p ++ [mkRow reduced_cost_terms LE (- (1))]) (p_vars p).

  (** subproblem_lp.py 54-74 _add_new_route; the debug message calls shortest_path *)
  Definition lp_new_route (keys : list node) (routes : list column) (x : pvar -> Q) : res (list column) :=
    let chosen := filter (fun a => Qltb (1 # 2) (x (X a))) (edges h) in
    let* q := foldM (fun q a =>
                let* c := arc_cost h k a in
                let* _ := raise_if (negb (node_eqb (fst a) Source) && negb (mem (fst a) keys)) KeyError in
                Ok (q + c)) chosen 0 in
    let '(ns, es) := digraph_of chosen in
    let* _ := shortest_path es Source Sink in
    Ok (routes ++ [mkCol (CNat (S (List.length routes))) ns es None q k None]).
End Formulate.

(** subproblem_lp.py 27-52 solve; [solver] answers the program it is given *)
Definition lp_solve (h : vgraph) (run_subsolve : bool) (k : nat) (caps : option (list Z)) (o : options)
    (num_stops duration : option Z) (neg : bool) (time_limit : option Q) (exact : bool)
    (solver : program pvar -> answer pvar) (keys : list node) (routes : list column)
  : res (list column * bool) :=
  if negb run_subsolve then Ok (routes, false) else
  if truthyQ time_limit && match time_limit with Some t => Qle_bool t 0 | None => false end
  then Ok (routes, false) else
  let* p := formulate h k caps o num_stops duration neg in
  let a := solver (if exact then p else update_prob h p) in
  if (match a_objective a with
      | Some q => Qltb q (- (1 # 1000)) && negb (status_eqb (a_status a) Infeasible)
      | None => false
      end)
     || (negb exact && status_eqb (a_status a) Optimal)
  then let* routes1 := lp_new_route h k keys routes (a_value a) in Ok (routes1, true)
  else Ok (routes, false).
