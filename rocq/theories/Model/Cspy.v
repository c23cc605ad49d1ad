(** subproblem_cspy.py: pricing by labelling. The labelling algorithm itself (cspy's
    BiDirectional) is an argument of the model. *)
From Verif.Base Require Import Prelude Graph.
From Verif.Spec Require Import Routes Network.
From Verif.Model Require Import Args Reach Checks Preprocess ClarkeWright Greedy Initial Pricing.

(** The list of six resources: stops/mono, load, time, time windows, collect, deliver
    (subproblem_cspy.py 39-72, 168-181) *)
Record label := mkLabel { l_stops : Q; l_load : Q; l_time : Q; l_window : Q; l_collect : Q; l_deliver : Q }.
(** subproblem_cspy.py 168-169 min_res, and the resources of the empty path *)
Definition zero_label : label := mkLabel 0 0 0 0 0 0.

Section Labels.
  Variable h : vgraph.      (* sub_G *)

  (** subproblem_cspy.py 39-72 REF_fwd *)
  Definition ref_fwd (time_windows distribution_collection : bool) (l : label) (a : arc) : res label :=
    let '(i, j) := a in
    let* dj := get_node h j in
    let* di := get_node h i in
    let* e := get_arc h i j in
    let t := pymax2 (l_time l + service di + etime e) (lower dj) in
    let w := if negb time_windows || Qle_bool t (upper dj) then 0 else 1 in
    let c := if distribution_collection then l_collect l + collect dj else l_collect l in
    let d := if distribution_collection then pymax2 (l_deliver l + demand dj) c else l_deliver l in
    Ok (mkLabel (l_stops l + 1) (l_load l + demand dj) t w c d).

  (** cspy's own resource extension: the "res_cost" of the arc is added. res_cost is set at
      subproblem_cspy.py 183-184, 343-350, 352-357, 359-361 and 363-367. *)
  Definition ref_default (caps : option (list Z)) (dur : option Z) (l : label) (a : arc) : res label :=
    let '(i, j) := a in
    let* dj := get_node h j in
    let* e := get_arc h i j in
    Ok (mkLabel (l_stops l + 1)
          (l_load l + match caps with Some (_ :: _) => demand dj | _ => 0 end)
          (l_time l + if truthy dur then etime e else 0)
          (l_window l) (l_collect l) (l_deliver l)).

  (** subproblem_cspy.py 369-381 get_REF: whether the custom functions are used *)
  Definition custom_ref (o : options) : bool :=
    o_time_windows o || o_distribution_collection o || o_pickup_delivery o.
  (** subproblem_cspy.py 369-381 *)
  Definition extension (o : options) (caps : option (list Z)) (dur : option Z) : label -> arc -> res label :=
    if custom_ref o then ref_fwd (o_time_windows o) (o_distribution_collection o)
    else ref_default caps dur.
  (** subproblem_cspy.py 215-223: direction is "forward" (otherwise "both"). REF_bwd and REF_join
      (74-143) are only called by cspy in direction "both"; they are not modelled. *)
  Definition forward_only (o : options) : bool :=
    o_time_windows o || o_pickup_delivery o || o_distribution_collection o.

  (** the resources of a path (subproblem_cspy.py 39-72) *)
  Definition path_label (ref : label -> arc -> res label) (p : list node) : res label :=
    foldM ref (arcs p) zero_label.

  (** subproblem_cspy.py 170-181: max_res in the constructor *)
  Definition initial_limits : label :=
    let total := pysum (map (fun p => demand (snd p)) (gnodes h)) in
    mkLabel (inject_Z (Z.of_nat (List.length (nodes h)) / 2)%Z)
            total (pysum (map (fun a => time_of h (fst a) (snd a)) (edges h))) 1 total total.

  (** subproblem_cspy.py 292-320 formulate: max_res *)
  Definition limits (o : options) (k : nat) (caps : option (list Z)) (ns dur : option Z) : res label :=
    let m := initial_limits in
    let stops := match ns with
                 | Some n => if (n =? 0)%Z then l_stops m else inject_Z n + 1
                 | None => l_stops m
                 end in
    let* load := match caps with
                 | Some ((_ :: _) as l) => let* c := of_opt IndexError (nth_error l k) in Ok (inject_Z c)
                 | _ => Ok (l_load m)
                 end in
    let time1 := match dur with
                 | Some D => if (D =? 0)%Z then l_time m else inject_Z D
                 | None => l_time m
                 end in
    let* tw := (if o_time_windows o then
                  let* s := get_node h Sink in
                  let* _ := mapM (fun v => let* d := get_node h v in
                                           let* e := get_arc h v Sink in
                                           Ok (upper d + service d + etime e)) (preds h Sink) in
                  let* _ := raise_if (negb (nonempty (preds h Sink))) ValueError in
                  Ok (if truthy dur then time1 else 1 + upper s, 0)
                else Ok (time1, l_window m)) in
    let* both := match caps with
                 | Some ((_ :: _) as l) =>
                     if o_distribution_collection o
                     then let* c := of_opt IndexError (nth_error l k) in Ok (inject_Z c, inject_Z c)
                     else Ok (l_collect m, l_deliver m)
                 | _ => Ok (l_collect m, l_deliver m)
                 end in
    let* _ := raise_if (o_pickup_delivery o) IndexError in
    Ok (mkLabel stops load (fst tw) (snd tw) (fst both) (snd both)).
End Labels.

(** list(r.edges()): by tail in the order of the nodes, then in the order of insertion
    (subproblem_cspy.py 273, 327) *)
Definition column_edges (c : column) : list arc :=
  flat_map (fun v => filter (fun a => node_eqb (fst a) v) (c_arcs c)) (c_nodes c).

(** subproblem_cspy.py 273, comparison of two edge lists *)
Fixpoint arcs_eqb (l1 l2 : list arc) : bool :=
  match l1, l2 with
  | [], [] => true
  | a :: t1, b :: t2 => arc_eqb a b && arcs_eqb t1 t2
  | _, _ => false
  end.

(** len(set(path)) == len(path) (subproblem_cspy.py 324) *)
Fixpoint no_repeat (p : list node) : bool :=
  match p with [] => true | v :: t => negb (mem v t) && no_repeat t end.

(** subproblem_cspy.py 322-337 create_new_route *)
Definition cspy_new_route (h : vgraph) (k : nat) (keys : list node) (routes : list column) (path : list node)
  : res column :=
  let n := S (List.length routes) in
  let '(ns, es) := digraph_of (arcs path) in
  let* q := foldM (fun q a =>
              let* c := arc_cost h k a in
              let* _ := raise_if (negb (node_eqb (fst a) Source) && negb (mem (fst a) keys)) KeyError in
              Ok (q + c)) es 0 in
  Ok (mkCol (if no_repeat path then CElem n else CNonElem n) ns es (Some path) q k None).

(** subproblem_cspy.py 196-290 solve. [alg limits ref elementary threshold] is the cost and the path
    found by cspy, [None] if there is none. [g] is self.G. A subproblem object is used for one call
    of solve only, so that _avg_path_len is 1 (its initial value) when the threshold is computed.
    The labels of the log messages are left out. *)
Section CspySolve.
  Variables (g h : vgraph) (k : nat) (caps : option (list Z)) (o : options) (ns dur : option Z).
  Variable alg : label -> (label -> arc -> res label) -> bool -> option Q -> option (Q * list node).
  Variable keys : list node.

  (** 229-233 *)
  Definition passes (elementary : bool) : list bool :=
    if negb (o_distribution_collection o) && negb elementary then [false; true] else [true].

  (** the loop 234-289 *)
  Fixpoint cspy_loop (m : label) (routes : list column) (s : list bool) : res (list column * bool) :=
    match s with
    | [] => Ok (routes, false)
    | e :: t =>
        let* thr := (if e then let* q := pymin (map (fun a => weight_of g (fst a) (snd a)) (edges g)) in Ok (Some q)
                     else Ok None) in
        match alg m (extension h o caps dur) e thr with
        | Some (cost, path) =>
            if Qltb cost (- (1 # 1000)) then
              let* c := cspy_new_route h k keys routes path in
              if existsb (fun r => arcs_eqb (column_edges c) (column_edges r)) routes
              then cspy_loop m routes t
              else Ok (routes ++ [c], true)
            else Ok (routes, false)
        | None => Ok (routes, false)
        end
    end.

  (** subproblem_cspy.py 196-290 *)
  Definition cspy_solve (run_subsolve elementary : bool) (routes : list column) : res (list column * bool) :=
    if negb run_subsolve then Ok (routes, false) else
    let* m := limits h o k caps ns dur in
    cspy_loop m routes (passes elementary).
End CspySolve.
