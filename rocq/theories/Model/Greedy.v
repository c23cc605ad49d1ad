(** greedy.py: the greedy initial heuristic. *)
From Verif.Base Require Import Prelude Graph.
From Verif.Spec Require Import Routes Network.
From Verif.Model Require Import Args Reach Checks Preprocess ClarkeWright.

(** [l.remove(v)]: the first occurrence, ValueError if there is none (greedy.py 97) *)
Fixpoint list_remove (v : node) (l : list node) : res (list node) :=
  match l with
  | [] => Err ValueError
  | w :: t => if node_eqb w v then Ok t else let* t' := list_remove v t in Ok (w :: t')
  end.

(** The fields of the object that change: _unprocessed_nodes, _best_value, _current_path
    ([None] is Python's None), _load, _stops, _time (greedy.py 16-32, 45-47) *)
Record gstate := mkGS {
  gs_todo : list node; gs_value : Q; gs_path : option (list node);
  gs_load : Q; gs_stops : Z; gs_time : Q
}.

Section Greedy.
  Variable g : vgraph.      (* self.G *)
  Variable lim : limits.

  (** greedy.py 123-125 *)
  Definition g_check_capacity (s : gstate) (v : node) : res bool :=
    let* d := get_node g v in Ok (negb (over (gs_load s + demand d) (l_cap lim))).
  (** greedy.py 127-137; [u] is the last node of the path *)
  Definition g_check_duration (s : gstate) (u v : node) : res bool :=
    let* back := (if node_eqb v Sink then Ok 0 else stime g v Sink) in
    let* d := get_node g v in
    let* t := stime g u v in
    Ok (negb (over (gs_time s + service d + t + back) (l_dur lim))).
  (** greedy.py 80-89, 119-121 *)
  Definition g_constraints (s : gstate) (path : list node) (u v : node) : res bool :=
    if mem v path || (node_eqb u Source && node_eqb v Sink) then Ok false else
    let* ok1 := (if truthy (l_cap lim) then g_check_capacity s v else Ok true) in
    if negb ok1 then Ok false else
    let* ok2 := (if truthy (l_dur lim) then g_check_duration s u v else Ok true) in
    if negb ok2 then Ok false else Ok true.

  (** greedy.py 66-78 _get_next_node; indexing None is a TypeError *)
  Definition g_next (s : gstate) : res node :=
    match gs_path s with
    | None => Err TypeError
    | Some path =>
        let* u := last_node path in
        let* out := foldM (fun acc v =>
            let* ok := g_constraints s path u v in
            if ok && mem v (gs_todo s)
            then let* c := scost g u v in Ok (acc ++ [(v, c)])
            else Ok acc) (succs g u) [] in
        match sorted_asc snd out with
        | [] => Ok Sink
        | (v, _) :: _ => Ok v
        end
    end.

  (** greedy.py 91-112 _update: the new state and the final value of _new_node *)
  Definition g_update (s : gstate) (v : node) : res (gstate * node) :=
    match gs_path s with
    | None => Err TypeError
    | Some path =>
        let* d := get_node g v in
        let* u := last_node path in
        let* todo := (if is_depot v then Ok (gs_todo s) else list_remove v (gs_todo s)) in
        let* c := scost g u v in
        let* t := stime g u v in
        let s1 := mkGS todo (gs_value s + c) (Some (path ++ [v])) (gs_load s + demand d)
                       (gs_stops s + 1)%Z (gs_time s + (t + service d)) in
        if (match l_stops lim with Some n => (gs_stops s1 =? n)%Z | None => false end)
           && negb (node_eqb v Sink)
        then
          if has_arc g v Sink then
            let* c' := scost g v Sink in
            Ok (mkGS todo (gs_value s1 + c') (Some (path ++ [v] ++ [Sink])) (gs_load s1)
                     (gs_stops s1) (gs_time s1), Sink)
          else
            Ok (mkGS todo (gs_value s1 + big_cost) None (gs_load s1) (gs_stops s1) (gs_time s1), v)
        else Ok (s1, v)
    end.

  (** greedy.py 60-64: the loop of _run_forward *)
  Fixpoint g_forward (fuel : nat) (s : gstate) : res gstate :=
    match fuel with
    | O => Err OutOfFuel
    | S f =>
        let* v := g_next s in
        let* sv := g_update s v in
        if node_eqb (snd sv) Sink then Ok (fst sv) else g_forward f (fst sv)
    end.

  (** greedy.py 42-51 run; the result is (_best_routes, final state) *)
  Definition is_source_sink (p : option (list node)) : bool :=
    match p with
    | Some [Source; Sink] => true
    | _ => false
    end.

  (** greedy.py 42-51 *)
  Fixpoint g_run (fuel : nat) (routes : list (list node)) (s : gstate) : res (list (list node) * gstate) :=
    match gs_todo s with
    | [] => Ok (routes, s)
    | _ :: _ =>
        match fuel with
        | O => Err OutOfFuel
        | S f =>
            let* s1 := g_forward (2 + List.length (gs_todo s))
                                 (mkGS (gs_todo s) (gs_value s) (Some [Source]) 0 0 0) in
            let routes1 := match gs_path s1 with
                           | Some ((_ :: _) as p) => routes ++ [p]
                           | _ => routes
                           end in
            if is_source_sink (gs_path s1) then Ok (routes1, s1) else g_run f routes1 s1
        end
    end.
End Greedy.

(** greedy.py 16-51: constructor and run: (best_routes, best_value) *)
Definition greedy_heuristic (g : vgraph) (load_capacity : option (list Z)) (num_stops duration : option Z)
  : res (list (list node) * Q) :=
  let* g1 := first_costs g in
  let* c := first_capacity load_capacity in
  let todo := custs g1 in
  let* rs := g_run g1 (mkLimits c duration num_stops) (S (List.length todo)) []
                   (mkGS todo 0 None 0 0 0) in
  Ok (fst rs, gs_value (snd rs)).
