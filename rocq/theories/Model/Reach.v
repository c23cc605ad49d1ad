(** The networkx path algorithms the code calls, on arc lists. *)
From Verif.Base Require Import Prelude Graph.

(** networkx.has_path: nodes reachable in at most [n] arcs.
    Simplification: networkx runs a bidirectional breadth-first search; only the answer is
    modelled (checks.py 110, subproblem.py 160, 186) *)
Fixpoint reach (A : list arc) (n : nat) (S : list node) : list node :=
  match n with
  | O => S
  | Datatypes.S m =>
      reach A m (nodup node_eq_dec
        (S ++ flat_map (fun u => map snd (filter (fun a => node_eqb (fst a) u) A)) S))
  end.

(** has_path(G, s, t): raises NodeNotFound when [s] or [t] is not a node; all call sites pass
    nodes of the graph (checks.py 110, subproblem.py 160, 186) *)
Definition has_path {N E} (g : graph N E) (s t : node) : bool :=
  mem t (reach (arc_list g) (List.length (nodes g)) [s]).

(** networkx.shortest_path_length(G, s, t, weight): minimum over walks with at most [n] arcs,
    all targets at once. Simplification: networkx runs Dijkstra, which returns the same value
    for non-negative weights; negative weights are outside the model (checks.py 205-210) *)
Definition omin (a b : option Q) : option Q :=
  match a, b with
  | Some x, Some y => Some (pymin2 x y)
  | Some x, None => Some x
  | None, o => o
  end.

(** networkx shortest paths, checks.py 205-210 *)
Definition dlookup (v : node) (D : list (node * option Q)) : option Q :=
  match assoc_node v D with Some o => o | None => None end.

(** networkx shortest paths, checks.py 205-210 *)
Definition relax (A : list (arc * Q)) (D : list (node * option Q)) : list (node * option Q) :=
  map (fun p =>
    (fst p,
     fold_left (fun acc a =>
       if node_eqb (snd (fst a)) (fst p)
       then omin acc (option_map (fun d => d + snd a) (dlookup (fst (fst a)) D))
       else acc) A (snd p))) D.

(** networkx shortest paths, checks.py 205-210 *)
Fixpoint relax_n (A : list (arc * Q)) (n : nat) (D : list (node * option Q)) :=
  match n with O => D | S m => relax A (relax_n A m D) end.

(** networkx shortest paths, checks.py 205-210 *)
Definition dist_table (V : list node) (A : list (arc * Q)) (s : node) : list (node * option Q) :=
  relax_n A (List.length V) (map (fun v => (v, if node_eqb v s then Some 0 else None)) V).

(** NetworkXNoPath is a subclass of NetworkXException (checks.py 205-210) *)
Definition shortest_path_length (V : list node) (A : list (arc * Q)) (s t : node) : res Q :=
  of_opt NetworkXError (dlookup t (dist_table V A s)).

(** networkx.shortest_path(G, s, t) (unweighted): a walk with the fewest arcs.
    Simplification: which of several shortest walks is returned is not modelled faithfully; the
    code calls it on graphs made of the arcs of one route (clarke_wright.py 84-86) *)
Fixpoint walks_to (A : list arc) (n : nat) (s t : node) : list (list node) :=
  match n with
  | O => if node_eqb s t then [[s]] else []
  | S m => flat_map (fun a => if node_eqb (fst a) s
                              then map (cons s) (walks_to A m (snd a) t) else []) A
  end.

(** networkx shortest_path, clarke_wright.py 84-86, subproblem_lp.py 71 *)
Fixpoint shortest_from (A : list arc) (fuel n : nat) (s t : node) : res (list node) :=
  match walks_to A n s t with
  | p :: _ => Ok p
  | [] => match fuel with
          | O => Err NetworkXError
          | S f => shortest_from A f (S n) s t
          end
  end.

(** networkx shortest_path, clarke_wright.py 84-86, subproblem_lp.py 71 *)
Definition shortest_path (A : list arc) (s t : node) : res (list node) :=
  shortest_from A (List.length A) 0 s t.
