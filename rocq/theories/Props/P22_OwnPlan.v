(** Property C109: starting from a plan of one's own, solve() returns. *)
From Verif.Base Require Import Prelude Graph.
From Verif.Spec Require Import Routes Network Inputs Feasible LinProg MIP Timing Results Run Plans Variants Returning.
From Verif.Model Require Import Args Master ColGen Post Schedule Solve.
From Verif.Proofs Require Import LabelWitness ReturnsGiven ReturnsGivenWitness.

(* ---- C109 ---- *)
(** A plain problem and routes of the user's own, among them a plan: the object is created, and solve()
    with the labelling algorithm returns, unless the solver of the master problem gives up on a program
    that has a bounded optimum; what it returns costs no more than the plan.  The number of vehicles may
    be as small as the plan allows, and all of them may have to be used.  Missing: given routes that
    cover the customers but are no plan (C109_refuted), and what is missing from C106. *)
Theorem C109_labelling_partial : forall sa g a drop all per tabu rs dropped,
  own_plan sa g a drop all per rs dropped -> sa_cspy sa = true ->
  exists v N, create g a false false false drop all per false tabu = Ok v /\
  forall X f f2, (N <= f)%nat -> (N <= f2)%nat ->
    (forall n q, sound_answer q (e_master (x_env X) n q)) ->
    (forall n tl h, sound_labelling h (e_label (x_env X) n tl h)) -> finds_paths (x_path X) ->
    gives_up (x_env X) \/ exists v' out, solve X f f2 sa v = Ok (v', out) /\
      (sa_greedy sa = false -> 0 <= user_service g Source -> (forall D, time_limit a D -> forall u, user_service g u == 0) ->
       (forall n q, right_answer q (e_master (x_env X) n q)) ->
       (all = true -> nobody_idle (sv_routes (out_solved out))) ->
       exists q, best_value (out_solved out) = Ok q /\
         q <= Qsum (map (route_price g a) rs) + match drop with Some x => x * inject_Z (Z.of_nat (List.length dropped)) | None => 0 end).
Proof. exact own_labelling. Qed.
Print Assumptions C109_labelling_partial.

(** The same with the MIP pricing problems, when no cost is negative (C90). *)
Theorem C109_mip_partial : forall sa g a drop all per tabu rs dropped,
  own_plan sa g a drop all per rs dropped -> sa_cspy sa = false ->
  (forall k u t, 0 <= user_cost g k u t) -> (forall k, 0 <= price_of a k) ->
  exists v N, create g a false false false drop all per false tabu = Ok v /\
  forall X f f2, (N <= f)%nat ->
    (forall n q, sound_answer q (e_master (x_env X) n q) /\
       (a_status (e_master (x_env X) n q) = Optimal -> a_objective (e_master (x_env X) n q) <> None /\
        forall y, feasible y q -> value (a_value (e_master (x_env X) n q)) (p_obj q) <= value y (p_obj q))) ->
    (forall n tl q, sound_answer q (e_pricer (x_env X) n tl q)) -> no_circles (x_env X) -> finds_paths (x_path X) ->
    gives_up (x_env X) \/ exists v' out, solve X f f2 sa v = Ok (v', out) /\
      (sa_greedy sa = false -> 0 <= user_service g Source -> (forall n q, right_answer q (e_master (x_env X) n q)) ->
       (all = true -> nobody_idle (sv_routes (out_solved out))) ->
       exists q, best_value (out_solved out) = Ok q /\
         q <= Qsum (map (route_price g a) rs) + match drop with Some x => x * inject_Z (Z.of_nat (List.length dropped)) | None => 0 end).
Proof. exact own_mip. Qed.
Print Assumptions C109_mip_partial.

(** Two round trips are given (38); the labelling algorithm finds a route that visits both customers
    (19).  With MIP pricing that finds nothing the given plan comes back. *)
Example C109_labelling_case : own_plan sa_h (raw7 0) args7 None false None (sa_initial sa_h) [] /\ sa_cspy sa_h = true /\
  (forall n q, right_answer q (e_master (x_env X_h) n q)) /\
  (forall n tl h, sound_labelling h (e_label (x_env X_h) n tl h)) /\ finds_paths (x_path X_h) /\
  Qsum (map (route_price (raw7 0) args7) (sa_initial sa_h)) == 38 /\
  exists v v' out, create (raw7 0) args7 false false false None false None false [] = Ok v /\
    solve X_h 9 9 sa_h v = Ok (v', out) /\ sv_routes (out_solved out) = [(1%nat, trip [Cust 2; Cust 1])] /\
    best_value (out_solved out) = Ok 19.
Proof. exact own_labelling_case. Qed.
Example C109_mip_case : exists X, own_plan sa_i (raw7 0) args7 None false None (sa_initial sa_i) [] /\ sa_cspy sa_i = false /\
  (forall k u t, 0 <= user_cost (raw7 0) k u t) /\ (forall k, 0 <= price_of args7 k) /\
  (forall n q, right_answer q (e_master (x_env X) n q) /\
     (a_status (e_master (x_env X) n q) = Optimal -> a_objective (e_master (x_env X) n q) <> None /\
      forall y, feasible y q -> value (a_value (e_master (x_env X) n q)) (p_obj q) <= value y (p_obj q))) /\
  (forall n tl q, sound_answer q (e_pricer (x_env X) n tl q)) /\ no_circles (x_env X) /\ finds_paths (x_path X) /\
  exists v v' out, create (raw7 0) args7 false false false None false None false [] = Ok v /\
    solve X 9 9 sa_i v = Ok (v', out) /\ sv_routes (out_solved out) = [(1%nat, trip [Cust 1]); (2%nat, trip [Cust 2])] /\
    best_value (out_solved out) = Ok 38.
Proof. exact own_mip_case. Qed.

(** Three customers, at most two stops, and the routes 1-2 and 2-3 to start from.  The relaxed master
    problem covers the customers, so it is solved by both routes; at its dual values no route at all
    improves, and the search ends.  The last master problem visits everybody exactly once, has no
    solution and no artificial variables: solve() raises an exception.  So it does, or does not end,
    with any solver, although the problem is plain and by C106 solved without initial routes. *)
Theorem C109_refuted : exists X g a given v,
  let sa rs := mkSA rs [] "Exact" true true None false false None 1 false in
  let with_master M := let E := x_env X in
    mkOut (mkEnv (e_clock E) M (e_duals E) (e_dive E) (e_order E) (e_pricer E) (e_negative E) (e_paths E) (e_label E)
                 (e_random E) (e_choice E) (e_ucb E)) (x_start X) (x_perms X) (x_path X) (x_days X) in
  plain_problem (sa []) g a None false None /\
  (forall r, In r given -> route_shape r /\ stops r <> [] /\ along (arc_list g ++ depot_arcs g) r /\ respects g a false false false 0 r) /\
  (forall u, In u (custs g) -> exists r, In r given /\ In u r) /\
  (forall n q, right_answer q (e_master (x_env X) n q)) /\
  (forall n tl h, sound_labelling h (e_label (x_env X) n tl h)) /\ finds_paths (x_path X) /\
  (forall n r, route_shape r -> along (arc_list g ++ depot_arcs g) r -> respects g a false false false 0 r ->
     node_sum (fun u => e_duals (x_env X) n (Visit u)) (stops r) <= path_sum (user_cost g 0) r) /\
  create g a false false false None false None false [] = Ok v /\
  solve X 9 9 (sa given) v = Err GenericException /\
  (forall M, (forall n q, sound_answer q (M n q)) -> forall f f2 r, solve (with_master M) f f2 (sa given) v <> Ok r).
Proof. exact overlap_raises. Qed.
Print Assumptions C109_refuted.
