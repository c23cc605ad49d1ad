(** subproblem.py: reduced costs and the graphs on which the pricing problems are solved. *)
From Verif.Base Require Import Prelude Graph.
From Verif.Spec Require Import Routes Network.
From Verif.Model Require Import Args Reach Checks Preprocess ClarkeWright Greedy Initial.

(** subproblem.py 121-132, 151, equality of keys of duals *)
Definition cname_eqb (a b : cname) : bool :=
  match a, b with
  | CNat n, CNat m => (n =? m)%nat
  | CElem n, CElem m => (n =? m)%nat
  | CNonElem n, CNonElem m => (n =? m)%nat
  | _, _ => false
  end.

(** The dict of dual values (master_solve_pulp.py 78-122): one entry per covered customer; under
    "upper_bound_vehicles" one value per vehicle type, absent when the fleet is not bounded; and
    one entry "makespan_<name>" per column when the global span is minimised.
    Simplification: the three kinds of keys are kept in three fields. *)
Record dual_dict := mkDuals {
  d_nodes : list (node * Q);
  d_fleet : option (list Q);
  d_span : list (cname * Q)
}.

(** subproblem.py 117-132, reading duals *)
Fixpoint assoc_name {V} (n : cname) (l : list (cname * V)) : option V :=
  match l with
  | [] => None
  | (m, d) :: t => if cname_eqb m n then Some d else assoc_name n t
  end.

(** subproblem.py 119-127, one arc; [route] is the name of self.route *)
Definition reduced_weight (D : dual_dict) (k : nat) (route : option cname) (a : arc) (e : edata) : res Q :=
  let* c := of_opt IndexError (nth_error (ecost e) k) in
  let* w := match route with
            | None => Ok c
            | Some n => let* m := of_opt KeyError (assoc_name n (d_span D)) in Ok (c * - m)
            end in
  Ok (fold_left (fun w p => if node_eqb (fst a) (fst p) then w - snd p else w) (d_nodes D) w).

(** subproblem.py 117-132, assignment of the weight *)
Definition set_weight (e : edata) (w : Q) : edata := mkE (ecost e) (etime e) w.

(** subproblem.py 117-132 add_reduced_cost_attribute; the graph of the VRP object is updated *)
Definition add_reduced_cost (D : dual_dict) (k : nat) (route : option cname) (g : vgraph) : res vgraph :=
  let* g1 := map_arcsM (fun a e => let* w := reduced_weight D k route a e in Ok (set_weight e w)) g in
  match d_fleet D with
  | None => Ok g1
  | Some l =>
      let* _ := raise_if (negb (mem Source (nodes g1))) NetworkXError in
      map_arcsM (fun a e =>
        if node_eqb (fst a) Source
        then let* m := of_opt KeyError (nth_error l k) in Ok (set_weight e (eweight e - m))
        else Ok e) g1
  end.

(** subproblem.py 159-163, 185-189: NetworkXException is caught *)
Definition connected (h : vgraph) : bool :=
  mem Source (nodes h) && mem Sink (nodes h) && has_path h Source Sink.

(** the cost of an arc for vehicle type [k] (subproblem.py 120, 155) *)
Definition arc_cost (g : vgraph) (k : nat) (a : arc) : res Q :=
  let* e := get_arc g (fst a) (snd a) in of_opt IndexError (nth_error (ecost e) k).

(** subproblem.py 141-163 remove_edges_1: sub_G and run_subsolve *)
Definition remove_edges_1 (D : dual_dict) (k : nat) (alpha : Q) (g : vgraph) : res (vgraph * bool) :=
  let* largest := pymax (map snd (d_nodes D) ++ map snd (d_span D)) in
  let* out := foldM (fun acc a =>
                let* c := arc_cost g k a in
                Ok (if Qltb (alpha * largest) c then acc ++ [a] else acc)) (edges g) [] in
  let h := remove_arcs out g in
  Ok (h, connected h).

(** subproblem.py 165-189 remove_edges_2; [ratio] is not negative at any call *)
Definition remove_edges_2 (ratio : Q) (g : vgraph) : vgraph * bool :=
  let inner_arcs := filter (fun a => negb (node_eqb (fst a) Source) && negb (node_eqb (snd a) Sink)) (edges g) in
  let sorted := sorted_asc (fun a => weight_of g (fst a) (snd a)) inner_arcs in
  let limit := Z.to_nat (qtrunc (ratio * inject_Z (Z.of_nat (List.length sorted)))) in
  let h := remove_arcs (skipn limit sorted) g in
  (h, connected h).

(** subproblem.py 200-207: the normalised weight of an arc *)
Definition pos_weight (mx mn w : Q) : Q := pymax2 0 ((- mx - mn + (2 # 1) * w) / (mx - mn)).

(** networkx: G.edge_subgraph(arcs).copy() (subproblem.py 224) *)
Definition edge_subgraph (keep : list arc) (g : vgraph) : vgraph :=
  mkGraph (filter (fun p => mem (fst p) (map fst keep ++ map snd keep)) (gnodes g))
          (filter (fun p => mem_arc (fst p) keep) (gedges g)).

(** subproblem.py 191-224 remove_edges_3. [ksp w n] stands for
    [islice(shortest_simple_paths(G, "Source", "Sink", weight=w), n)]; networkx raises if a
    depot is missing or there is no path. The attribute "pos_weight" is read nowhere else and not
    stored in the model. *)
Definition remove_edges_3 (ksp : (arc -> Q) -> nat -> list (list node)) (beta : nat) (g : vgraph) : res vgraph :=
  let ws := map (fun a => weight_of g (fst a) (snd a)) (edges g) in
  let* mx := pymax ws in
  let* mn := pymin ws in
  let* _ := raise_if (Qeq_bool (mx - mn) 0) ZeroDivisionError in
  let* _ := raise_if (negb (connected g)) NetworkXError in
  let ps := ksp (fun a => pos_weight mx mn (weight_of g (fst a) (snd a))) beta in
  let* _ := raise_if (negb (nonempty ps)) ValueError in
  Ok (edge_subgraph (flat_map arcs ps) g).

(** pricing_strategy with its pricing_parameter (subproblem.py 101-115) *)
Inductive pricing := PExact | PEdges1 (alpha : Q) | PEdges2 (ratio : Q) | PPaths (beta : nat).

(** subproblem.py 101-115: sub_G and run_subsolve *)
Definition pricing_graph (ksp : (arc -> Q) -> nat -> list (list node)) (p : pricing)
    (D : dual_dict) (k : nat) (g : vgraph) : res (vgraph * bool) :=
  match p with
  | PEdges1 alpha => remove_edges_1 D k alpha g
  | PEdges2 ratio => Ok (remove_edges_2 ratio g)
  | PPaths beta => let* h := remove_edges_3 ksp beta g in Ok (h, true)
  | PExact => Ok (g, true)
  end.
