(** subproblem_greedy.py: randomised greedy pricing. *)
From Verif.Base Require Import Prelude Graph.
From Verif.Spec Require Import Routes Network.
From Verif.Model Require Import Args Reach Checks Preprocess ClarkeWright Greedy Initial Pricing.

(** [if v] for a node name: 0 is the only falsy name in the model *)
Definition node_truthy (v : node) : bool := negb (node_eqb v (Cust 0)).

(** _current_path, _load, _time, _stops, _weight (subproblem_greedy.py 25-29, 58) *)
Record pstate := mkPS { ps_path : list node; ps_load : Q; ps_time : Q; ps_stops : Z; ps_weight : Q }.

Section GreedyPricing.
  Variable h : vgraph.                 (* sub_G *)
  Variable caps : option (list Z).
  Variable num_stops duration : option Z.
  Variable k : nat.                    (* vehicle_type *)

  (** time and weight of the arc between the end of the path and a new node (subproblem_greedy.py 66, 102) *)
  Definition ends (forward : bool) (u v : node) : arc := if forward then (u, v) else (v, u).
  (** subproblem_greedy.py 127, 140, 180-191: time of the arc taken *)
  Definition arc_time (a : arc) : res Q := let* e := get_arc h (fst a) (snd a) in Ok (etime e).
  (** subproblem_greedy.py 71, 107, 126, 139: weight of the arc taken *)
  Definition arc_weight (a : arc) : res Q := let* e := get_arc h (fst a) (snd a) in Ok (eweight e).

  (** subproblem_greedy.py 173-178 *)
  Definition p_check_capacity (s : pstate) (l : list Z) (v : node) : res bool :=
    let* d := get_node h v in
    let* c := of_opt IndexError (nth_error l k) in
    Ok (Qle_bool (ps_load s + demand d) (inject_Z c)).
  (** subproblem_greedy.py 180-191 *)
  Definition p_check_duration (s : pstate) (forward : bool) (D : Z) (u v : node) : res bool :=
    let* t := arc_time (ends forward u v) in
    Ok (Qle_bool (ps_time s + t) (inject_Z D)).
  (** subproblem_greedy.py 82-91, 169-171 *)
  Definition p_constraints (s : pstate) (forward : bool) (u v : node) : res bool :=
    if mem v (ps_path s) || (node_eqb u Source && node_eqb v Sink) then Ok false else
    let* ok1 := match caps with
                | Some ((_ :: _) as l) => p_check_capacity s l v
                | _ => Ok true
                end in
    if negb ok1 then Ok false else
    let* ok2 := match duration with
                | Some D => if (D =? 0)%Z then Ok true else p_check_duration s forward D u v
                | None => Ok true
                end in
    if negb ok2 then Ok false else Ok true.

  (** _current_path[-1] and _current_path[0] *)
  Definition path_end (forward : bool) (p : list node) : res node :=
    if forward then last_node p else of_opt IndexError (nth_error p 0).

  (** subproblem_greedy.py 65-80 and 101-116: [None] when the path cannot be extended;
      [pick] is the index drawn by random.choice *)
  Definition p_extend (s : pstate) (forward : bool) (pick : nat) : res (option node) :=
    let* u := path_end forward (ps_path s) in
    let* out := foldM (fun acc v =>
        let* ok := p_constraints s forward u v in
        if ok then let* w := arc_weight (ends forward u v) in Ok (acc ++ [(v, w)])
        else Ok acc) (if forward then succs h u else preds h u) [] in
    let pool := firstn 5 (map fst (sorted_asc snd out)) in
    match pool with
    | [] => Ok None
    | x :: _ => Ok (Some (nth (pick mod List.length pool) pool x))
    end.

  (** the two names of the depot at which a search ends, and from which it cannot leave
      (subproblem_greedy.py 129-150) *)
  Definition goal (forward : bool) : node := if forward then Sink else Source.

  (** subproblem_greedy.py 118-151 _update for a new node that is truthy: the state, whether
      _new_node is still truthy, and the value returned *)
  Definition p_update (s : pstate) (forward : bool) (v : node) : res (pstate * bool * bool) :=
    let* u := path_end forward (ps_path s) in
    let* d := get_node h v in
    let* w := arc_weight (ends forward u v) in
    let* t := arc_time (ends forward u v) in
    let path := if forward then ps_path s ++ [v] else v :: ps_path s in
    let s1 := mkPS path (ps_load s + demand d) (ps_time s + t) (ps_stops s + 1)%Z (ps_weight s + w) in
    if (match num_stops with Some n => (ps_stops s1 =? n)%Z | None => false end)
       && negb (node_eqb v (goal forward))
    then
      if forward then
        if mem v (preds h Sink)
        then Ok (mkPS (path ++ [Sink]) (ps_load s1) (ps_time s1) (ps_stops s1) (ps_weight s1), true, false)
        else Ok (s1, false, false)
      else
        if mem v (succs h Sink)
        then Ok (mkPS (Source :: path) (ps_load s1) (ps_time s1) (ps_stops s1) (ps_weight s1), true, false)
        else Ok (s1, false, false)
    else Ok (s1, true, negb (node_eqb v (goal forward))).

  (** subproblem_greedy.py 58-63 and 94-99: the state and the truth value of _new_node at the end;
      [pick i] is the [i]-th index drawn *)
  Fixpoint p_loop (fuel : nat) (s : pstate) (forward : bool) (pick : nat -> nat) : res (pstate * bool) :=
    match fuel with
    | O => Err OutOfFuel
    | S f =>
        let* nv := p_extend s forward (pick 0%nat) in
        match nv with
        | None => Ok (s, false)
        | Some v =>
            if negb (node_truthy v) then Ok (s, false) else
            let* r := p_update s forward v in
            let '(s1, new, extend) := r in
            if extend then p_loop f s1 forward (fun i => pick (S i)) else Ok (s1, new)
        end
    end.

  (** subproblem_greedy.py 52-63 forwards, 93-99 backwards *)
  Definition p_run (forward : bool) (pick : nat -> nat) : res (pstate * bool) :=
    p_loop (S (List.length (nodes h))) (mkPS [if forward then Source else Sink] 0 0 0 0) forward pick.

  (** subproblem_greedy.py 153-167 _add_new_route; [keys] are the keys of routes_with_node *)
  Definition p_new_route (keys : list node) (routes : list column) (path : list node) : res (list column) :=
    let '(ns, es) := digraph_of (arcs path) in
    let* q := foldM (fun q a =>
                let* c := arc_cost h k a in
                let* _ := raise_if (negb (node_eqb (fst a) Source) && negb (mem (fst a) keys)) KeyError in
                Ok (q + c)) es 0 in
    Ok (routes ++ [mkCol (CNat (S (List.length routes))) ns es None q k None]).

  (** subproblem_greedy.py 31-50 solve: [n] forward searches then [n] backward searches *)
  Definition p_attempt (keys : list node) (forward : bool) (s : list column * bool) (pick : nat -> nat)
    : res (list column * bool) :=
    let* r := p_run forward pick in
    if snd r && Qltb (ps_weight (fst r)) 0
    then let* routes := p_new_route keys (fst s) (ps_path (fst r)) in Ok (routes, true)
    else Ok s.

  (** subproblem_greedy.py 31-50 *)
  Definition greedy_pricing (keys : list node) (routes : list column) (n : nat) (rnd : nat -> nat -> nat)
    : res (list column * bool) :=
    let* s := foldM (p_attempt keys true) (map rnd (seq 0 n)) (routes, false) in
    foldM (p_attempt keys false) (map rnd (seq n n)) s.
End GreedyPricing.
