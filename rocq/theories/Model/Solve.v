(** vrp.py 82-258, 485-528, 849-873, 1186-1204: the VRP object and solve(). *)
From Verif.Base Require Import Prelude Graph.
From Verif.Spec Require Import Routes Network LinProg.
From Verif.Model Require Import Args Reach Checks Preprocess ClarkeWright Greedy Initial Pricing
  GreedyPricing LPPricing Cspy Master Dive Hyper ColGen Post Schedule.

(* ------------------------------------------------------------------ *)
(** ** From arguments to the values the preprocessing works with *)

(** num_stops and duration after check_arguments: an integer, or a falsy value. A falsy number is
    0, None and the empty list are no value. *)
Definition int_arg (v : pyval) : option Z :=
  match v with
  | PNum (PInt z) => Some z
  | PNum (PFloat _) => Some 0%Z
  | _ => None
  end.
(** load_capacity after check_arguments: a list of integers, or a falsy value (vrp.py 430-447) *)
Definition int_of (n : pynum) : Z := match n with PInt z => z | PFloat q => Qnum q end.
(** vrp.py 430-447, load_capacity *)
Definition caps_arg (v : pyval) : option (list Z) :=
  match v with PList l => Some (map int_of l) | _ => None end.
(** fixed_cost: after formatting a list, or a falsy value (vrp.py 430-447) *)
Definition fixed_arg (v : pyval) : list Q :=
  match v with PList l => map num_val l | _ => [] end.
(** num_vehicles: after formatting a list, or a falsy number (on which len raises TypeError)
    (vrp.py 430-447) *)
Definition fleet_arg (v : pyval) : option (list Q) :=
  match v with PList l => Some (map num_val l) | _ => None end.

(** vrp.py 430-447 *)
Definition config_of (a : rargs) (K : nat) : config :=
  mkConfig (int_arg (a_num_stops a)) (caps_arg (a_load_capacity a)) (int_arg (a_duration a))
           (fixed_arg (a_fixed_cost a)) (fleet_arg (a_num_vehicles a)) K.

(** checks.py 34-39 admits these five names; None stands for "Hyper" *)
Definition strategy_of (s : string) : option strat :=
  if String.eqb s "Exact" then Some Exact
  else if String.eqb s "BestEdges1" then Some BestEdges1
  else if String.eqb s "BestEdges2" then Some BestEdges2
  else if String.eqb s "BestPaths" then Some BestPaths
  else None.

(* ------------------------------------------------------------------ *)
(** ** The object *)

(** vrp.py 82-151: the attributes that solve() reads before writing them, that is, those through
    which a problem or an earlier call can have an influence. [v_tabu] is the list of columns that
    diving may not fix: a mutable default argument shared by all problems of the process.
    comp_time, _solver and the other attributes are written before they are read. *)
Record vrp := mkVrp {
  v_graph : rgraph;                      (* G *)
  v_args : rargs;                        (* num_stops, load_capacity, duration, fixed_cost, num_vehicles, mixed_fleet, _pricing_strategy *)
  v_windows : bool;                      (* time_windows *)
  v_pickup : bool;                       (* pickup_delivery *)
  v_both : bool;                         (* distribution_collection *)
  v_drop : option Q;                     (* drop_penalty *)
  v_all : bool;                          (* use_all_vehicles *)
  v_periodic : option Z;                 (* periodic *)
  v_span : bool;                         (* minimize_global_span *)
  v_initial : list (list node);          (* _initial_routes *)
  v_pre : list (list node);              (* _preassignments *)
  v_iter : nat;                          (* _iteration *)
  v_noimp : nat;                         (* _no_improvement *)
  v_bounds : list (option Q);            (* _lower_bound *)
  v_hyper : option hyper;                (* hyper_heuristic *)
  v_chosen : list column;                (* _best_routes_as_graphs *)
  v_dropped : list node;                 (* _dropped_nodes *)
  v_tabu : list mvar
}.

(** vrp.py 82-151: the constructor; [num_vehicles] None is replaced by the empty list (109) *)
Definition create (g : rgraph) (a : rargs) (windows pickup both : bool) (drop : option Q) (all : bool)
    (periodic : option Z) (span : bool) (tabu : list mvar) : res vrp :=
  let a1 := mkArgs (a_num_stops a) (a_load_capacity a) (a_duration a) (a_fixed_cost a)
              (match a_num_vehicles a with PNone => PList [] | n => n end) (a_mixed_fleet a) (a_strategy a) in
  let* g1 := check_vrp g in
  Ok (mkVrp g1 a1 windows pickup both drop all periodic span [] [] 0 0 [] None [] [] tabu).

(** vrp.py 153-167: the arguments of solve(); [solver] is part of the outside *)
Record solve_args := mkSA {
  sa_initial : list (list node);         (* None and [] are alike *)
  sa_pre : list (list node);
  sa_strategy : string;
  sa_cspy : bool;
  sa_elementary : bool;
  sa_time_limit : option Q;
  sa_dive : bool;
  sa_greedy : bool;
  sa_max_iter : option Z;
  sa_run_exact : Z;
  sa_heuristic : bool
}.

(** What the code asks for during one call of solve(), besides column generation: in which order
    sets are enumerated (Clarke & Wright, [x_perms 10] for alpha = 1), the paths of networkx, and
    the solver on the scheduling problem. [x_start] is time() at 241. *)
Record outside := mkOut {
  x_env : env;
  x_start : Q;
  x_perms : nat -> list nat -> list nat;
  x_path : path_oracle;
  x_days : program svar -> answer svar
}.

(** What solve() leaves in the object for the user, besides what the result properties read
    (vrp.py 228-245) *)
Record outcome := mkOutcome {
  out_solved : solved;
  out_value : option Q;                            (* _best_value *)
  out_schedule : option (list (nat * list nat))    (* schedule *)
}.

(** The graph after preprocessing, as input of the next call: every attribute is present. The
    attribute "weight" is left out; it is written before it is read (vrp.py 428-483) *)
Definition raw_node (d : ndata) : nraw :=
  mkNR (Some (demand d)) (Some (collect d)) (Some (service d)) (Some (lower d)) (Some (upper d))
       (Some (freq d)) (request d) (is_aux_depot d).
(** vrp.py 428-483: the edge as the next call will read it *)
Definition raw_arc (e : edata) : eraw := mkER (Some (Vec (ecost e))) (Some (etime e)).
(** vrp.py 428-483: the graph as the next call will read it *)
Definition raw_of (g : vgraph) : rgraph :=
  mkGraph (map (fun p => (fst p, raw_node (snd p))) (gnodes g))
          (map (fun p => (fst p, raw_arc (snd p))) (gedges g)).

(** vrp.py 455-461, 474-479: num_stops and num_vehicles are overwritten by the preprocessing *)
Definition args_after (a : rargs) (pickup : bool) (periodic : option Z) (p : prepared) : rargs :=
  mkArgs (match pr_max_capacity p, pr_num_stops p with
          | Some _, Some b => if pickup then a_num_stops a else PNum (PInt b)
          | _, _ => a_num_stops a
          end)
         (a_load_capacity a) (a_duration a) (a_fixed_cost a)
         (if truthy periodic && py_truthy (a_num_vehicles a) then PList [] else a_num_vehicles a)
         (a_mixed_fleet a) (a_strategy a).

(** vrp.py 228-245: the attributes set when solve() is called *)
Definition set_strategy (s : string) (a : rargs) : rargs :=
  mkArgs (a_num_stops a) (a_load_capacity a) (a_duration a) (a_fixed_cost a) (a_num_vehicles a)
         (a_mixed_fleet a) s.
(** vrp.py 242-245, "if x: self.y = x" *)
Definition nonempty_or {A} (l d : list A) : list A := if nonempty l then l else d.

(** vrp.py 99-114, 428-483: the options as presolving reads them *)
Definition options_of (v : vrp) (sa : solve_args) : options :=
  mkOptions (v_windows v) (v_pickup v) (v_both v) (v_all v) (v_periodic v) (sa_cspy sa)
            (nonempty_or (sa_pre sa) (v_pre v)).
(** vrp.py 485-506 *)
Definition moptions_of (v : vrp) (nv : option (list Q)) : moptions :=
  mkMO (v_drop v) nv (v_all v) (truthy (v_periodic v)) (v_span v).

(** vrp.py 228-250, 428-483: everything before the initial solution: the arguments after formatting,
    the number of vehicle types, and what _pre_solve leaves *)
Definition prepare (v : vrp) (sa : solve_args) : res (rargs * nat * prepared) :=
  let* r := prepare_args (set_strategy (sa_strategy sa) (v_args v)) (v_graph v) in
  let '(a, types, g) := r in
  let* K := of_opt TypeError types in
  let* p := pre_solve (config_of a K) (options_of v sa) g in
  Ok (a, K, p).

(** What column generation reads: the attributes set at 228-241 and the prepared problem. *)
Definition cg_of (X : outside) (v : vrp) (sa : solve_args) (a : rargs) (K : nat) (p : prepared)
    (keys : list node) : cgconfig :=
  mkCG (strategy_of (sa_strategy sa)) (sa_cspy sa)
       (if sa_dive sa then true else sa_elementary sa) (sa_greedy sa) (sa_max_iter sa) (sa_run_exact sa)
       (sa_time_limit sa) (x_start X) K (caps_arg (a_load_capacity a)) (pr_num_stops p)
       (int_arg (a_duration a)) (options_of v sa) (moptions_of v (pr_num_vehicles p)) keys.

(** vrp.py 485-506 _initialize, and the state in which column generation starts; a new object of
    the master problem has not dived yet (master_solve_pulp.py 20-36). _dive is False (235). *)
Definition start (v : vrp) (sa : solve_args) (C : cgconfig) (p : prepared) (pool : list column) : res state :=
  let* m := Master.formulate (pr_graph p) (cg_master C) pool in
  Ok (mkSt (pr_graph p) pool m (fun _ => 0) [] (mkDive 0 0 (v_tabu v)) false (v_iter v) (v_noimp v)
           (pr_more_routes p) (v_bounds v)
           (match cg_strategy C with None => Some new_hyper | Some _ => v_hyper v end) 0).

(** vrp.py 1186-1204 _post_process: dropped customers (masterproblem.dropped_nodes exists only
    after get_total_cost_and_routes), node lists, schedule *)
Definition post_process (X : outside) (v : vrp) (a : rargs) (K : nat) (p : prepared)
    (pre : list (list node)) (chosen : list column) (dropped : option (list node)) (g : vgraph)
  : res (list (nat * list node) * list (nat * nat) * list node * option (list (nat * list nat))) :=
  let* dr := (if truthyQ (v_drop v) then of_opt AttributeError dropped else Ok (v_dropped v)) in
  let* nl := node_lists (x_path X) (pr_copy p) (caps_arg (a_load_capacity a)) K pre chosen in
  let* sch := (if truthy (v_periodic v) then
                 let* s := of_opt TypeError (v_periodic v) in
                 let* d := schedule_routes g s (fst nl) (snd nl) (pr_num_vehicles_schedule p) (x_days X) in
                 Ok (Some d)
               else Ok None) in
  Ok (fst nl, snd nl, dr, sch).

(** vrp.py 264-426, 1186-1204: the attributes the results are read from *)
Definition solved_of (v : vrp) (a : rargs) (p : prepared) (g : vgraph) (routes : list (nat * list node))
    (types : list (nat * nat)) (dropped : list node) : solved :=
  mkSolved g (pr_copy p) (caps_arg (a_load_capacity a)) (int_arg (a_duration a)) (v_windows v)
           (v_pickup v) (v_both v) (v_drop v) (v_span v) routes types dropped.

(** vrp.py 153-258 solve(): the object afterwards and the results. Calls that raise an exception
    also change the object; the model does not say how. *)
Definition solve (X : outside) (fuel fuel2 : nat) (sa : solve_args) (v : vrp) : res (vrp * outcome) :=
  let pre := nonempty_or (sa_pre sa) (v_pre v) in
  let ini := nonempty_or (sa_initial sa) (v_initial v) in
  let* r := prepare v sa in
  let '(a, K, p) := r in
  let caps := caps_arg (a_load_capacity a) in
  let dur := int_arg (a_duration a) in
  let o := options_of v sa in
  let mixed := a_mixed_fleet a in
  let after g iter noimp bounds hyp chosen dropped tabu :=
    mkVrp (raw_of g) (args_after a (v_pickup v) (v_periodic v) p) (v_windows v) (v_pickup v) (v_both v)
          (v_drop v) (v_all v) (v_periodic v) (v_span v) ini pre iter noimp bounds hyp chosen dropped tabu in
  if sa_heuristic sa then
    let* r := solve_with_clarke_wright o mixed caps dur (pr_num_stops p) (x_perms X 10) (pr_graph p) in
    let hyp := match strategy_of (sa_strategy sa) with None => Some new_hyper | Some _ => v_hyper v end in
    Ok (after (pr_graph p) (v_iter v) (v_noimp v) (v_bounds v) hyp (v_chosen v) (v_dropped v) (v_tabu v),
        mkOutcome (solved_of v a p (pr_graph p) (fst r) (snd r) (v_dropped v)) None None)
  else
    let* ic := initialize o mixed caps dur (pr_num_stops p) (x_perms X) ini (pr_graph p) in
    let C := cg_of X v sa a K p (covered (fst ic)) in
    let* s := start v sa C p (snd ic) in
    let* e := solve_columns (x_env X) C fuel fuel2 (sa_dive sa) s in
    let s1 := fst e in
    let chosen := match snd e with Some t => snd (fst t) | None => v_chosen v end in
    let dropped := match snd e with Some t => Some (snd t) | None => None end in
    let* pp := post_process X v a K p pre chosen dropped (s_graph s1) in
    let '(routes, types, dr, sch) := pp in
    Ok (after (s_graph s1) (s_iter s1) (s_noimp s1) (s_bounds s1) (s_hyper s1) chosen dr (dv_tabu (s_diving s1)),
        mkOutcome (solved_of v a p (s_graph s1) routes types dr)
                  (match snd e with Some t => Some (fst (fst t)) | None => None end) sch).
