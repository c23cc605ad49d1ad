(** vrp.py: the initial solution and its conversion to columns. *)
From Verif.Base Require Import Prelude Graph.
From Verif.Spec Require Import Routes Network.
From Verif.Model Require Import Args Reach Checks Preprocess ClarkeWright Greedy.

(* ------------------------------------------------------------------ *)
(** ** Columns *)

(** Names of columns: an integer (vrp.py 957, subproblem_lp.py 55-58, subproblem_greedy.py 154-157)
    or the strings "<n>_elem" / "<n>_non-elem" (subproblem_cspy.py 322-337). *)
Inductive cname := CNat (n : nat) | CElem (n : nat) | CNonElem (n : nat).

(** A column is a DiGraph with graph attributes "name", "cost", "vehicle_type" and, depending on
    its origin, "path" (subproblem_cspy.py 322-337) and "heuristic" (vrp.py 603; the model keeps
    the index of the strategy). The "cost" attributes of its edges are never read and left out. *)
Record column := mkCol {
  c_name : cname;
  c_nodes : list node;
  c_arcs : list arc;
  c_path : option (list node);
  c_cost : Q;
  c_type : nat;
  c_tag : option nat
}.

(** networkx: the graph with the edges [l] added in this order to an empty graph (vrp.py 961) *)
Definition add_edge2 (s : list node * list arc) (a : arc) : list node * list arc :=
  (add_node1 (snd a) (add_node1 (fst a) (fst s)),
   if mem_arc a (snd s) then snd s else snd s ++ [a]).
(** vrp.py 955-963, the DiGraph of an initial route *)
Definition digraph_of (l : list arc) : list node * list arc := fold_left add_edge2 l ([], []).

(* ------------------------------------------------------------------ *)
(** ** vrp.py 948-983 _convert_initial_routes_to_digraphs *)

(** vrp.py 958-963 *)
Definition initial_cost (g : vgraph) (r : list node) : res Q :=
  foldM (fun q a => let* c := scost g (fst a) (snd a) in Ok (q + c)) (arcs r) 0.

(** vrp.py 964-977; [None] and the empty list test false *)
Fixpoint first_type_from (g : vgraph) (r : list node) (k : nat) (caps : list Z) : res (option nat) :=
  match caps with
  | [] => Ok None
  | c :: t =>
      let* ds := mapM (fun v => let* d := get_node g v in Ok (demand d)) r in
      if Qle_bool (pysum ds) (inject_Z c) then Ok (Some k) else first_type_from g r (S k) t
  end.
(** vrp.py 964-977 *)
Definition initial_type (g : vgraph) (caps : option (list Z)) (r : list node) : res nat :=
  match caps with
  | Some ((_ :: _) as l) =>
      let* k := first_type_from g r 0 l in of_opt ValueError k
  | _ => Ok 0%nat
  end.

(** one iteration of the loop 955-983, routes_with_node left out (see [covered]) *)
Definition initial_column (g : vgraph) (caps : option (list Z)) (id : nat) (r : list node) : res column :=
  let* q := initial_cost g r in
  let* k := initial_type g caps r in
  let '(ns, es) := digraph_of (arcs r) in
  Ok (mkCol (CNat id) ns es None q k None).

(** vrp.py 948-983, from a given route number on *)
Fixpoint convert_from (g : vgraph) (caps : option (list Z)) (id : nat) (rs : list (list node))
  : res (list column) :=
  match rs with
  | [] => Ok []
  | r :: t =>
      let* c := initial_column g caps id r in
      let* cs := convert_from g caps (S id) t in
      Ok (c :: cs)
  end.
(** vrp.py 948-983 *)
Definition convert_initial_routes (g : vgraph) (caps : option (list Z)) (rs : list (list node))
  : res (list column) := convert_from g caps 1 rs.

(** vrp.py 979-983: the keys of routes_with_node *)
Definition covered (rs : list (list node)) : list node := flat_map inner rs.

(* ------------------------------------------------------------------ *)
(** ** vrp.py 877-946 _get_initial_solution *)

(** vrp.py 894-907: Clarke & Wright for alpha = 0.1, ..., 1.9; the [x]-th run enumerates its set
    of routes in the order [perms x] *)
Definition cw_runs (g : vgraph) (caps : option (list Z)) (dur ns : option Z)
    (perms : nat -> list nat -> list nat) : res (list (list node)) :=
  foldM (fun acc x =>
           let* r := clarke_wright g caps dur ns (Z.of_nat x # 10) (perms x) in
           Ok (acc ++ fst r)) (seq 1 19) [].

(** vrp.py 929-940 *)
Definition pickup_routes (g : vgraph) (time_windows : bool) : res (list (list node)) :=
  foldM (fun acc p =>
           match request (snd p) with
           | None => Ok acc
           | Some d =>
               let r := [Source; fst p; d; Sink] in
               let* _ := (if time_windows then check_pickup_delivery_time_windows g (arcs r) else Ok tt) in
               Ok (acc ++ [r])
           end) (gnodes g) [].

(** the test at vrp.py 885-891 (and, negated, checks.py 68-80) *)
Definition plain (o : options) (mixed : bool) : bool :=
  negb (o_time_windows o) && negb (o_pickup_delivery o) && negb (o_distribution_collection o)
  && negb mixed && negb (truthy (o_periodic o)).

(** vrp.py 877-946 *)
Definition get_initial_solution (o : options) (mixed : bool) (caps : option (list Z)) (dur ns : option Z)
    (perms : nat -> list nat -> list nat) (g : vgraph) : res (list (list node)) :=
  if plain o mixed then
    let* rs := cw_runs g caps dur ns perms in
    let* gr := greedy_heuristic g caps ns dur in
    Ok (rs ++ fst gr)
  else if o_pickup_delivery o then pickup_routes g (o_time_windows o)
  else Ok (round_trip_routes g).

(** vrp.py 485-494: the initial routes and their columns; [given] are the initial_routes *)
Definition initialize (o : options) (mixed : bool) (caps : option (list Z)) (dur ns : option Z)
    (perms : nat -> list nat -> list nat) (given : list (list node)) (g : vgraph)
  : res (list (list node) * list column) :=
  let* rs := (if nonempty given then let* _ := check_initial_routes given g in Ok given
              else get_initial_solution o mixed caps dur ns perms g) in
  let* cs := convert_initial_routes g caps rs in
  Ok (rs, cs).

(** vrp.py 849-873: routes numbered from 0, vehicle type 0 for each *)
Definition solve_with_clarke_wright (o : options) (mixed : bool) (caps : option (list Z))
    (dur ns : option Z) (perm : list nat -> list nat) (g : vgraph)
  : res (list (nat * list node) * list (nat * nat)) :=
  let* _ := check_clarke_wright_compatibility (o_time_windows o) (o_pickup_delivery o)
              (o_distribution_collection o) mixed (o_periodic o) in
  let* r := clarke_wright g caps dur ns 1 perm in
  let n := List.length (fst r) in
  Ok (combine (seq 0 n) (fst r), map (fun k => (k, 0%nat)) (seq 0 n)).
