(** Runs of column generation. *)
From Verif.Base Require Import Prelude Graph.
From Verif.Spec Require Import Routes Network LinProg Pricing MIP Master.
From Verif.Model Require Import Args Preprocess Initial Pricing GreedyPricing LPPricing Cspy Master Dive Hyper ColGen.
From Coq Require Import Qabs.

(** A problem on the network [g] before column generation: the columns are those of the initial
    solution, and nothing was counted, fixed or measured yet. (The list of columns that diving may
    not fix can be non-empty: all problems of a process share it.) *)
Record fresh (C : cgconfig) (g : vgraph) (s : state) : Prop := {
  fs_pool : exists mixed perms given rs,
    initialize (cg_options C) mixed (cg_caps C) (cg_duration C) (cg_stops C) perms given g = Ok (rs, s_pool s);
  fs_master : Master.formulate g (cg_master C) (s_pool s) = Ok (s_master s);
  fs_graph : s_graph s = g;
  fs_fixed : s_fixed s = [];
  fs_diving : dv_depth (s_diving s) = 0%nat /\ dv_level (s_diving s) = 0%nat;
  fs_dive : s_dive s = false;
  fs_iter : s_iter s = 0%nat;
  fs_noimp : s_noimp s = 0%nat;
  fs_more : s_more s = true;
  fs_bounds : s_bounds s = [];
  fs_hyper : s_hyper s = match cg_strategy C with None => Some new_hyper | Some _ => None end
}.

(** [run n s s']: from state [s], column generation makes [n] iterations and ends in [s']: because
    the last iteration found no column, or because the time or the iterations are used up. *)
Inductive run (E : env) (C : cgconfig) : nat -> state -> state -> Prop :=
| run_end s : s_more s = false -> run E C 0 s s
| run_limit s s1 : s_more s = true -> find_columns E C s = Ok s1 ->
    time_up E C s1 = true \/ limit_reached C s1 = true -> run E C 1 s (tick (tick s1))
| run_next n s s1 s2 : s_more s = true -> find_columns E C s = Ok s1 ->
    time_up E C s1 = false -> limit_reached C s1 = false ->
    run E C n (tick (tick s1)) s2 -> run E C (S n) s s2.

(** In a run from [s], an iteration starts in state [st]. *)
Inductive starts (E : env) (C : cgconfig) (s : state) : state -> Prop :=
| starts_first : s_more s = true -> starts E C s s
| starts_next st s1 : starts E C s st -> find_columns E C st = Ok s1 ->
    time_up E C s1 = false -> limit_reached C s1 = false -> s_more s1 = true ->
    starts E C s (tick (tick s1)).

(** The iterations of a whole run, with or without a dive after column generation. *)
Inductive iteration (E : env) (C : cgconfig) (s : state) : state -> Prop :=
| it_generation st : starts E C s st -> iteration E C s st
| it_dive f s1 st : column_generation E C f s = Ok s1 -> starts E C (start_dive s1) st -> iteration E C s st.

(** In the end state [s'] a limit is reached: the time is up, or there were too many iterations
    without progress, or too many iterations. *)
Inductive stopped (E : env) (C : cgconfig) (s' : state) : Prop :=
| by_time l n : cg_time_limit C = Some l -> ~ l == 0 -> s_tick s' = S n -> l <= e_clock E n - cg_start C -> stopped E C s'
| by_stagnation : (1000 < Z.of_nat (s_noimp s'))%Z -> stopped E C s'
| by_iterations m : cg_max_iter C = Some m -> m <> 0%Z -> (m <= Z.of_nat (s_iter s'))%Z -> stopped E C s'.

(** The columns are the same up to the strategy that found them. *)
Definition untag (c : column) : column :=
  mkCol (c_name c) (c_nodes c) (c_arcs c) (c_path c) (c_cost c) (c_type c) None.
Definition same_columns (l l' : list column) : Prop := map untag l = map untag l'.

(** The greedy search is only used when asked for, and never with windows, pickups, collection or a
    global span. *)
Definition greedy_allowed (C : cgconfig) : Prop :=
  cg_greedy C = true /\ o_time_windows (cg_options C) = false /\ o_pickup_delivery (cg_options C) = false /\
  o_distribution_collection (cg_options C) = false /\ mo_span (cg_master C) = false.

(** One pricing problem is solved on the network [g] with the limits of [C]: for some vehicle type,
    some dual values and some strategy, within the time remaining when the clock was read. *)
Inductive priced (E : env) (C : cgconfig) (g : vgraph) (pool pool1 : list column) : Prop :=
| p_problem D k route p n h hr more : (k < cg_types C)%nat ->
    add_reduced_cost D k route g = Ok h -> pricing_graph (e_paths E n) p D k h = Ok hr ->
    (let tl := time_remaining C false (e_clock E (S n)) in
     if cg_cspy C
     then cspy_solve h (fst hr) k (cg_caps C) (cg_options C) (cg_stops C) (cg_duration C)
            (e_label E (S (S n)) (cspy_limit tl) (fst hr)) (cg_keys C) (snd hr) (cg_elementary C) pool
     else lp_solve (fst hr) (snd hr) k (cg_caps C) (cg_options C) (cg_stops C) (cg_duration C)
            (e_negative E (S (S n)) h) tl true
            (e_pricer E (S (S n)) tl) (cg_keys C) pool) = Ok (pool1, more) ->
    priced E C g pool pool1
| p_greedy D k h n more : (k < cg_types C)%nat -> greedy_allowed C ->
    add_reduced_cost D k None g = Ok h ->
    greedy_pricing h (cg_caps C) (cg_stops C) (cg_duration C) k (cg_keys C) pool 20 (e_random E n) = Ok (pool1, more) ->
    priced E C g pool pool1.

(** The pool grows by pricing; the columns may get tags. *)
Inductive grown (E : env) (C : cgconfig) (g : vgraph) (pool : list column) : list column -> Prop :=
| g_start : grown E C g pool pool
| g_priced p1 p2 : grown E C g pool p1 -> priced E C g p1 p2 -> grown E C g pool p2
| g_tagged p1 p2 : grown E C g pool p1 -> same_columns p2 p1 -> grown E C g pool p2.

(** The exact pricing problem of vehicle type [k] (for the route named [route], if any) was solved
    on the network [g] for the dual values [D], and found no column to add to [pool]. *)
Definition exact_failed (E : env) (C : cgconfig) (g : vgraph) (D : dual_dict) (k : nat)
    (route : option cname) (pool : list column) : Prop :=
  exists h n, add_reduced_cost D k route g = Ok h /\
    let tl := time_remaining C false (e_clock E n) in
    if cg_cspy C
    then cspy_solve h h k (cg_caps C) (cg_options C) (cg_stops C) (cg_duration C)
           (e_label E (S n) (cspy_limit tl) h) (cg_keys C) true (cg_elementary C) pool = Ok (pool, false)
    else exists p, LPPricing.formulate h k (cg_caps C) (cg_options C) (cg_stops C) (cg_duration C)
           (e_negative E (S n) h) = Ok p /\ nothing_found (e_pricer E (S n) tl p).

(** ... for every vehicle type, and for every route when the global span is minimised, while the
    pool grew from [old] to [new]. *)
Definition exact_failed_for_all (E : env) (C : cgconfig) (g : vgraph) (D : dual_dict) (old new : list column) : Prop :=
  forall k, (k < cg_types C)%nat -> exists pool, grown E C g old pool /\ grown E C g pool new /\
    if mo_span (cg_master C)
    then forall n, In n (map c_name pool) -> exact_failed E C g D k (Some n) pool
    else exact_failed E C g D k None pool.

(** Diving: [d] is the distance of [q] to the nearest integer. *)
Definition distance_to_integers (q d : Q) : Prop :=
  (exists z, d == Qabs (q - inject_Z z)) /\ forall z, d <= Qabs (q - inject_Z z).

(** Which variables a dive may fix: a variable of the problem, no integer, not forbidden. *)
Record candidate (x : mvar -> Q) (vars tabu : list mvar) (v : mvar) : Prop := {
  cd_in : In v vars;
  cd_fractional : ~ whole (x v);
  cd_tabu : ~ In v tabu
}.

(** [v] is a candidate nearest to an integer. *)
Definition nearest (x : mvar -> Q) (vars tabu : list mvar) (v : mvar) : Prop :=
  candidate x vars tabu v /\
  forall w d e, candidate x vars tabu w -> distance_to_integers (x v) d -> distance_to_integers (x w) e -> d <= e.

(** The arcs chosen by the assignment [x] of a pricing problem on [h] are those of one route. *)
Definition one_route (h : vgraph) (x : pvar -> Q) : Prop :=
  exists cs, elementary_route h cs /\
    forall u v, In (u, v) (arc_list h) -> (1 # 2 < x (X (u, v)) <-> In (u, v) (arcs (trip cs))).

(** When no negative cycle is found, the pricing problem on a part [h] of the network does not
    exclude circles detached from the route. This says that the solver's answers do not contain
    them nevertheless, as far as columns are made of them. *)
Definition no_circles (E : env) : Prop :=
  forall n tl g h k caps o ns dur p, part_of h g -> e_negative E n g = false ->
    LPPricing.formulate h k caps o ns dur false = Ok p ->
    let a := e_pricer E n tl p in
    feasible (a_value a) p -> value (a_value a) (p_obj p) < - (1 # 1000) -> one_route h (a_value a).

(** How long the value of the relaxation has not changed: [stagnant l n] says that in the list [l]
    of values, the latest first, the first value is repeated exactly [n] more times before another
    value comes. *)
Inductive same_value : option Q -> option Q -> Prop :=
| same_none : same_value None None
| same_some p q : p == q -> same_value (Some p) (Some q).
Inductive stagnant : list (option Q) -> nat -> Prop :=
| st_none : stagnant [] 0
| st_one a : stagnant [a] 0
| st_same a b l n : same_value a b -> stagnant (b :: l) n -> stagnant (a :: b :: l) (S n)
| st_new a b l : ~ same_value a b -> stagnant (a :: b :: l) 0.
