(** vrp.py 508-779: column generation. *)
From Verif.Base Require Import Prelude Graph.
From Verif.Spec Require Import Routes Network LinProg.
From Verif.Model Require Import Args Reach Checks Preprocess ClarkeWright Greedy Initial Pricing
  GreedyPricing LPPricing Cspy Master Dive Hyper.

(* ------------------------------------------------------------------ *)
(** ** What is outside: the clock, the solvers, random numbers, cspy, networkx *)

(** Everything the code asks for while it runs. The first argument of each function is the number
    of questions asked before, so that nothing is assumed about two answers being alike
    (vrp.py 762-779, master_solve_pulp.py 205-235, restricted_master_heuristics.py 32-92, vrp.py 575-599, hyper_heuristic.py 117-133) *)
Record env := mkEnv {
  e_clock : nat -> Q;                                       (* time() *)
  e_master : nat -> program mvar -> answer mvar;            (* the solver on the master problem *)
  e_duals : nat -> mrow -> Q;                               (* the attribute pi of its constraints *)
  e_dive : nat -> nat -> program mvar -> answer mvar;       (* the solver during a dive *)
  e_order : nat -> list mvar -> list mvar;                  (* pulp: variables sorted by name *)
  e_pricer : nat -> option Q -> program pvar -> answer pvar; (* the solver on a pricing problem, within a time limit *)
  e_negative : nat -> vgraph -> bool;                       (* networkx.negative_edge_cycle of the weighted network *)
  e_paths : nat -> (arc -> Q) -> nat -> list (list node);   (* networkx.shortest_simple_paths *)
  e_label : nat -> option Q -> vgraph -> label -> (label -> arc -> res label) -> bool -> option Q -> option (Q * list node); (* cspy *)
  e_random : nat -> nat -> nat -> nat;                      (* random.choice in the greedy pricing *)
  e_choice : nat -> nat;                                    (* random_state.choice *)
  e_ucb : nat -> nat -> Q                                   (* sqrt(2 log n / i) *)
}.

(* ------------------------------------------------------------------ *)
(** ** Parameters and state *)

(** Attributes of the VRP object that do not change during column generation. [cg_strategy] is
    None for "Hyper"; checks.py 34-39 admits no other names. [cg_keys] are the keys of
    _routes_with_node. *)
Record cgconfig := mkCG {
  cg_strategy : option strat;
  cg_cspy : bool;
  cg_elementary : bool;
  cg_greedy : bool;
  cg_max_iter : option Z;
  cg_run_exact : Z;
  cg_time_limit : option Q;
  cg_start : Q;
  cg_types : nat;
  cg_caps : option (list Z);
  cg_stops : option Z;
  cg_duration : option Z;
  cg_options : options;
  cg_master : moptions;
  cg_keys : list node
}.

(** The attributes that change. _routes, self.routes and masterproblem.routes are one list object
    as soon as a pricing problem was solved: [s_pool]. [s_values] are the values of the variables
    of the master problem after its last solution; variables created since then have none, and the
    model gives them 0 (master_solve_pulp.py 128, 160 treat both alike). [s_fixed] are the
    variables fixed by diving. [s_tick] counts the questions to [env]. *)
Record state := mkSt {
  s_graph : vgraph;
  s_pool : list column;
  s_master : master;
  s_values : mvar -> Q;
  s_fixed : list mvar;
  s_diving : diving;
  s_dive : bool;
  s_iter : nat;
  s_noimp : nat;
  s_more : bool;
  s_bounds : list (option Q);
  s_hyper : option hyper;
  s_tick : nat
}.

(** one more call to the outside (vrp.py 551-599, 762-779) has been made; bookkeeping of the model *)
Definition tick (s : state) : state :=
  mkSt (s_graph s) (s_pool s) (s_master s) (s_values s) (s_fixed s) (s_diving s) (s_dive s) (s_iter s)
       (s_noimp s) (s_more s) (s_bounds s) (s_hyper s) (S (s_tick s)).
(** vrp.py 576, 587-599, 674, assignment to self._more_routes *)
Definition set_more (b : bool) (s : state) : state :=
  mkSt (s_graph s) (s_pool s) (s_master s) (s_values s) (s_fixed s) (s_diving s) (s_dive s) (s_iter s)
       (s_noimp s) b (s_bounds s) (s_hyper s) (s_tick s).
(** vrp.py 576, 674, assignment to self.routes *)
Definition set_pool (g : vgraph) (pool : list column) (b : bool) (s : state) : state :=
  mkSt g pool (s_master s) (s_values s) (s_fixed s) (s_diving s) (s_dive s) (s_iter s)
       (s_noimp s) b (s_bounds s) (s_hyper s) (s_tick s).
(** vrp.py 551, 557, 584, 604, the state of self.masterproblem *)
Definition set_master (pool : list column) (m : master) (s : state) : state :=
  mkSt (s_graph s) pool m (s_values s) (s_fixed s) (s_diving s) (s_dive s) (s_iter s)
       (s_noimp s) (s_more s) (s_bounds s) (s_hyper s) (s_tick s).
(** vrp.py 555, 607, 740-744, 752-760, the state of self.hyper_heuristic *)
Definition set_hyper (h : option hyper) (s : state) : state :=
  mkSt (s_graph s) (s_pool s) (s_master s) (s_values s) (s_fixed s) (s_diving s) (s_dive s) (s_iter s)
       (s_noimp s) (s_more s) (s_bounds s) h (s_tick s).
(** vrp.py 611-614, 737, assignment to self._no_improvement *)
Definition set_noimp (n : nat) (s : state) : state :=
  mkSt (s_graph s) (s_pool s) (s_master s) (s_values s) (s_fixed s) (s_diving s) (s_dive s) (s_iter s)
       n (s_more s) (s_bounds s) (s_hyper s) (s_tick s).
(** vrp.py 551-559, 520-526, the values the solver left in the variables *)
Definition set_solution (x : mvar -> Q) (fixed : list mvar) (d : diving) (s : state) : state :=
  mkSt (s_graph s) (s_pool s) (s_master s) x fixed d (s_dive s) (s_iter s)
       (s_noimp s) (s_more s) (s_bounds s) (s_hyper s) (s_tick s).
(** vrp.py 610-616, assignment to self._iteration and self._lower_bound *)
Definition set_progress (i n : nat) (b : list (option Q)) (s : state) : state :=
  mkSt (s_graph s) (s_pool s) (s_master s) (s_values s) (s_fixed s) (s_diving s) (s_dive s) i
       n (s_more s) b (s_hyper s) (s_tick s).

(** The index of a strategy in the attribute "heuristic" of a column; 4 is "Other". *)
Definition tag_of (s : strat) : nat :=
  match s with BestPaths => 0 | BestEdges1 => 1 | BestEdges2 => 2 | Exact => 3 end.
(** vrp.py 603, r.graph["heuristic"] = strategy *)
Definition set_tag (t : nat) (c : column) : column :=
  mkCol (c_name c) (c_nodes c) (c_arcs c) (c_path c) (c_cost c) (c_type c) (Some t).

Section ColGen.
  Variable E : env.
  Variable C : cgconfig.

  (** The values of the variables after a solution of the master problem [m] (master_solve_pulp.py 127) *)
  Definition values_of (m : master) (a : answer mvar) : mvar -> Q :=
    fun v => if mem_var v (map mc_var (ms_cols m)) then a_value a v else 0.

  (** vrp.py 762-779 _get_time_remaining, [t] being time() *)
  Definition time_remaining (mip : bool) (t : Q) : option Q :=
    match cg_time_limit C with
    | Some l =>
        if Qeq_bool l 0 then None else
        let r := l - (t - cg_start C) in
        if mip then Some (pymax2 (5 # 1) r) else if Qltb 0 r then Some r else Some 0
    | None => None
    end.
  (** vrp.py 773, time() *)
  Definition now (s : state) : Q := e_clock E (s_tick s).

  (* ---------------------------------------------------------------- *)
  (** ** The pricing problems *)

  (** subproblem_cspy.py 252 *)
  Definition cspy_limit (tl : option Q) : option Q :=
    match tl with Some t => if Qeq_bool t 0 then None else Some (t - (1 # 2)) | None => None end.

  (** vrp.py 781-847 _def_subproblem followed by solve(self._get_time_remaining()), as in
      667-679, 687-699, 706-718 and 726-727; [route] is the name of the route, if any *)
  Definition subproblem (D : dual_dict) (k : nat) (route : option cname) (p : pricing) (s : state)
    : res (state * bool) :=
    let* g := add_reduced_cost D k route (s_graph s) in
    let* hr := pricing_graph (e_paths E (s_tick s)) p D k g in
    let s1 := tick s in
    let tl := time_remaining false (now s1) in
    let s2 := tick s1 in
    let n := s_tick s2 in
    let* r := (if cg_cspy C
               then cspy_solve g (fst hr) k (cg_caps C) (cg_options C) (cg_stops C) (cg_duration C)
                               (e_label E n (cspy_limit tl) (fst hr)) (cg_keys C) (snd hr) (cg_elementary C) (s_pool s)
               else lp_solve (fst hr) (snd hr) k (cg_caps C) (cg_options C) (cg_stops C) (cg_duration C)
                             (e_negative E n g) tl true (e_pricer E n tl) (cg_keys C) (s_pool s)) in
    Ok (tick (set_pool g (fst r) (snd r) s2), snd r).

  (** the loops 666-683, 686-703, 706-724: the first parameter that gives a column; the [else]
      branch sets _more_routes but the value returned is that of the last attempt *)
  Fixpoint attempts (D : dual_dict) (k : nat) (route : option cname) (ps : list pricing) (s : state)
    : res (state * bool) :=
    match ps with
    | [] => Ok (set_more true s, false)
    | p :: t =>
        let* r := subproblem D k route p s in
        if snd r then Ok r else attempts D k route t (fst r)
    end.

  (** vrp.py 664-728 *)
  Definition parameters (p : strat) : list pricing :=
    match p with
    | BestPaths => [PPaths 3; PPaths 5; PPaths 7; PPaths 9]
    | BestEdges1 => [PEdges1 (3 # 10); PEdges1 (5 # 10); PEdges1 (7 # 10); PEdges1 (9 # 10)]
    | BestEdges2 => [PEdges2 (1 # 10); PEdges2 (2 # 10); PEdges2 (3 # 10)]
    | Exact => []
    end.
  (** vrp.py 664-728 *)
  Definition attempt (D : dual_dict) (k : nat) (route : option cname) (p : strat) (s : state) : res (state * bool) :=
    match p with
    | Exact => subproblem D k route PExact s
    | _ => attempts D k route (parameters p) s
    end.

  (** vrp.py 618-662 _solve_subproblem_with_heuristic *)
  Definition solve_subproblem (p : strat) (D : dual_dict) (k : nat) (route : option cname) (s : state)
    : res (state * bool) :=
    match cg_strategy C with
    | None => attempt D k route p s
    | Some _ =>
        match p with
        | Exact => attempt D k route Exact s
        | _ => let* r := attempt D k route p s in
               if snd r then Ok r else attempt D k route Exact (fst r)
        end
    end.

  (** vrp.py 592-601: the routes present when the loop starts, until a column is found *)
  Fixpoint per_route (p : strat) (D : dual_dict) (k : nat) (routes : list cname) (s : state) : res (state * bool) :=
    match routes with
    | [] => Ok (s, false)
    | n :: t =>
        let* r := solve_subproblem p D k (Some n) s in
        if snd r then Ok r else per_route p D k t (fst r)
    end.

  (** vrp.py 568-583: the randomised greedy pricing, where it applies *)
  Definition greedy_applies : bool :=
    cg_greedy C && negb (o_time_windows (cg_options C)) && negb (o_distribution_collection (cg_options C))
    && negb (o_pickup_delivery (cg_options C)) && negb (mo_span (cg_master C)).
  (** vrp.py 568-584 *)
  Definition greedy_step (D : dual_dict) (k : nat) (s : state) : res state :=
    if greedy_applies then
      let* g := add_reduced_cost D k None (s_graph s) in
      let* r := greedy_pricing g (cg_caps C) (cg_stops C) (cg_duration C) k (cg_keys C) (s_pool s) 20
                               (e_random E (s_tick s)) in
      let s1 := tick (set_pool g (fst r) (snd r) s) in
      if snd r then
        let* m := foldM (fun m c => if has_variable m (c_name c) then Ok m else update (cg_master C) m c)
                        (fst r) (s_master s1) in
        Ok (set_master (s_pool s1) m s1)
      else Ok s1
    else Ok s.

  (** vrp.py 602-604: the last column gets its tag and enters the master problem *)
  Definition tag_last (t : nat) (pool : list column) : list column :=
    match rev pool with [] => [] | c :: r => rev r ++ [set_tag t c] end.
  (** vrp.py 602-605 *)
  Definition adopt (p : strat) (s : state) : res state :=
    let pool := tag_last (tag_of p) (s_pool s) in
    let* c := of_opt IndexError (nth_error (rev pool) 0) in
    let* m := update (cg_master C) (s_master s) c in
    Ok (set_master pool m s).

  (** vrp.py 566-607: the loop over the vehicle types *)
  Fixpoint vehicles (p : strat) (D : dual_dict) (ks : list nat) (s : state) : res state :=
    match ks with
    | [] => Ok s
    | k :: t =>
        let* s1 := greedy_step D k s in
        let s2 := set_more false s1 in
        let* r := (if mo_span (cg_master C)
                   then per_route p D k (map c_name (s_pool s2)) s2
                   else solve_subproblem p D k None s2) in
        let s3 := set_more (snd r) (fst r) in
        if snd r then adopt p s3
        else
          let* s4 := match cg_strategy C with
                     | None => let* h := of_opt AttributeError (s_hyper s3) in
                               Ok (tick (set_hyper (Some (set_end (now s3) h)) s3))
                     | Some _ => Ok s3
                     end in
          vehicles p D t s4
    end.

  (* ---------------------------------------------------------------- *)
  (** ** The choice of the pricing strategy *)

  (** master_solve_pulp.py 149-165 get_heuristic_distribution: the pool with its tags, and the
      numbers of active columns *)
  Definition active (x : mvar -> Q) (c : column) : bool := Qltb 0 (x (Y (c_name c))).
  (** master_solve_pulp.py 161-162 *)
  Definition tag_other (x : mvar -> Q) (c : column) : column :=
    if active x c then match c_tag c with None => set_tag 4 c | Some _ => c end else c.
  (** master_solve_pulp.py 163 *)
  Definition has_tag (t : nat) (c : column) : bool :=
    match c_tag c with Some t' => (t' =? t)%nat | None => false end.
  (** master_solve_pulp.py 149-165 *)
  Definition heuristic_distribution (m : master) (x : mvar -> Q) (pool : list column)
    : res (list column * per nat * nat) :=
    let* _ := iterM (fun c => raise_if (negb (has_variable m (c_name c))) KeyError) pool in
    let pool1 := map (tag_other x) pool in
    let act := filter (active x) pool1 in
    let count t := List.length (filter (has_tag t) act) in
    Ok (pool1, tab (fun s => count (tag_of s)), List.length act).

  (** vrp.py 752-760 _update_hyper_heuristic *)
  Definition update_hyper (cost : option Q) (s : state) : res state :=
    let* r := heuristic_distribution (s_master s) (s_values s) (s_pool s) in
    let '(pool, counts, total) := r in
    let s1 := set_master pool (s_master s) s in
    let* h := of_opt AttributeError (s_hyper s) in
    let* h1 := current_performance (e_ucb E) cost (s_more s1) counts total (now s1) h in
    let s2 := tick s1 in
    let* h2 := update_parameters h1 in
    Ok (set_hyper (Some h2) s2).

  (** vrp.py 730-750 _get_next_pricing_strategy *)
  Definition next_strategy (cost : option Q) (s : state) : res (state * strat) :=
    if (Z.of_nat (s_noimp s) =? cg_run_exact C)%Z then Ok (s, Exact) else
    match cg_strategy C with
    | Some p => Ok (s, p)
    | None =>
        let s1 := set_noimp (s_iter s) s in
        if (s_iter s =? 0)%nat then
          let* h := of_opt AttributeError (s_hyper s1) in
          Ok (tick (set_hyper (Some (init cost (now s1) h)) s1), BestPaths)
        else
          let* s2 := update_hyper cost s1 in
          let* h := of_opt AttributeError (s_hyper s2) in
          let '(h1, p) := pick_heuristic (e_choice E (s_tick s2)) h in
          Ok (tick (set_hyper (Some h1) s2), p)
    end.

  (* ---------------------------------------------------------------- *)
  (** ** The loop *)

  (** vrp.py 549-560: the relaxed master problem is solved. The time remaining is only handed to
      the solver. *)
  Definition solve_relaxed (s : state) : res (state * dual_dict * option Q) :=
    let s1 := tick s in
    let n := s_tick s1 in
    if s_dive s1 then
      let* r := solve_and_dive (s_graph s1) (cg_master C) (s_pool s1) (e_master E n) (e_master E (S n))
                  (e_dive E n) (e_order E n) (e_duals E n) (s_master s1) (s_fixed s1) (s_diving s1) in
      let '(d, fixed, D, a) := r in
      let s2 := set_solution (values_of (s_master s1) a) fixed d (tick (tick s1)) in
      match s_hyper s2 with
      | Some h => Ok (tick (set_hyper (Some (init (a_objective a) (now s2) h)) s2), D, a_objective a)
      | None => Ok (s2, D, a_objective a)
      end
    else
      let* r := solve_master (s_graph s1) (cg_master C) true (s_pool s1) (e_master E n) (e_duals E n) (s_master s1) in
      let '(m, D, q) := r in
      Ok (tick (set_solution (values_of m (e_master E n (program_of m))) (s_fixed s1) (s_diving s1) s1), D, q).

  (** vrp.py 611 *)
  Definition same_cost (a b : option Q) : bool :=
    match a, b with Some p, Some q => Qeq_bool p q | None, None => true | _, _ => false end.

  (** vrp.py 609-616 *)
  Definition progress (cost : option Q) (s : state) : res state :=
    let i := S (s_iter s) in
    let* same := (if (1 <? i)%nat
                  then let* b := of_opt IndexError (nth_error (rev (s_bounds s)) 0) in Ok (same_cost cost b)
                  else Ok false) in
    Ok (set_progress i (if same then S (s_noimp s) else 0%nat)
                     (if s_dive s then s_bounds s else s_bounds s ++ [cost]) s).

  (** vrp.py 547-616 _find_columns *)
  Definition find_columns (s : state) : res state :=
    let* r := solve_relaxed s in
    let '(s1, D, cost) := r in
    let* r2 := next_strategy cost s1 in
    let* s3 := vehicles (snd r2) D (seq 0 (cg_types C)) (fst r2) in
    progress cost s3.

  (** vrp.py 535-539: time is up. The clock is read twice. *)
  Definition time_up (s : state) : bool :=
    match time_remaining false (now s), time_remaining false (now (tick s)) with
    | Some _, Some r => Qeq_bool r 0
    | _, _ => false
    end.

  (** vrp.py 540-545: too many iterations *)
  Definition limit_reached (s : state) : bool :=
    (1000 <? Z.of_nat (s_noimp s))%Z ||
    match cg_max_iter C with
    | Some m => negb (m =? 0)%Z && (m <=? Z.of_nat (s_iter s))%Z
    | None => false
    end.

  (** vrp.py 530-545 _column_generation *)
  Fixpoint column_generation (fuel : nat) (s : state) : res state :=
    if negb (s_more s) then Ok s else
    match fuel with
    | O => Err OutOfFuel
    | S f =>
        let* s1 := find_columns s in
        let s2 := tick (tick s1) in
        if time_up s1 then Ok s2 else
        if limit_reached s2 then Ok s2 else column_generation f s2
    end.

  (** vrp.py 511-514: diving starts after column generation *)
  Definition start_dive (s : state) : state :=
    mkSt (s_graph s) (s_pool s) (s_master s) (s_values s) (s_fixed s) (s_diving s) true (s_iter s)
         (s_noimp s) true (s_bounds s) (s_hyper s) (s_tick s).
  (** vrp.py 509-513 *)
  Definition generate_and_dive (fuel fuel2 : nat) (s : state) : res state :=
    let* s1 := column_generation fuel s in column_generation fuel2 (start_dive s1).

  (** vrp.py 515-526: the total cost, the chosen columns and the dropped customers; None when no
      customer is left, in which case the attributes keep their initial values (143-147) *)
  Definition conclude (dive : bool) (s : state) : res (option (Q * list column * list node)) :=
    let n := s_tick s in
    if dive then
      let* r := get_total_cost_and_routes (cg_master C) (s_master s) (s_values s)
                  (a_objective (e_master E n (fixing (s_fixed s) (program_of (s_master s))))) (s_pool s) in
      Ok (Some r)
    else if (2 <? List.length (gnodes (s_graph s)))%nat then
      let* r := solve_master (s_graph s) (cg_master C) false (s_pool s) (e_master E (S n)) (e_duals E (S n)) (s_master s) in
      let m := fst (fst r) in
      let* t := get_total_cost_and_routes (cg_master C) m (a_value (e_master E (S n) (program_of m)))
                  (a_objective (e_master E (S (S n)) (program_of m))) (s_pool s) in
      Ok (Some t)
    else Ok None.
  (** vrp.py 508-526 _solve, without _post_process *)
  Definition solve_columns (fuel fuel2 : nat) (dive : bool) (s : state)
    : res (state * option (Q * list column * list node)) :=
    let* s1 := (if dive then generate_and_dive fuel fuel2 s else column_generation fuel s) in
    let* r := conclude dive s1 in
    Ok (s1, r).
End ColGen.
