(** Properties C89, C90: solve() ends. *)
From Verif.Base Require Import Prelude Graph.
From Verif.Spec Require Import Routes Network Inputs Feasible LinProg MIP Plans Variants.
From Verif.Model Require Import Args Initial ColGen Post Schedule Solve.
From Verif.Proofs Require Import LabelEnds LabelWitness EndsWitness MipSolve MipCase MipRuns.

(* ---- C89 ---- *)
(** With the labelling algorithm (the default) solve() ends, for every object and all arguments,
    with or without diving, max_iter and time_limit: there is a number of iterations, determined by
    the object and the arguments alone, after which neither loop of column generation runs on, and
    giving the loops more iterations changes nothing.  Nothing is assumed of the master solver, the
    labelling algorithm, the clock and the random numbers. *)
Theorem C89_ends : forall v sa, sa_cspy sa = true ->
  exists N, forall X f f2, (N <= f)%nat -> (N <= f2)%nat ->
    solve X f f2 sa v = solve X N N sa v /\ solve X f f2 sa v <> Err OutOfFuel.
Proof. exact solve_ends. Qed.
Print Assumptions C89_ends.

(** Calls without limits on iterations or time, with and without diving: a bound that is too small
    is reported as such, and with enough iterations a plan is returned. *)
Example C89_case : sa_cspy sa7 = true /\ sa_max_iter sa7 = None /\ sa_time_limit sa7 = None /\ sa_cspy dive7 = true /\
  sa_dive dive7 = true /\ sa_max_iter dive7 = None /\ sa_time_limit dive7 = None /\
  exists v, create (raw7 0) args7 false false false None false None false [] = Ok v /\
    solve X7 2 2 sa7 v = Err OutOfFuel /\ solve X7 1 1 dive7 v = Err OutOfFuel /\
    (exists v' out, solve X7 3 3 sa7 v = Ok (v', out) /\ v_iter v' = 3%nat /\
       sv_routes (out_solved out) = [(1%nat, [Source; Cust 1; Cust 2; Sink])]) /\
    (exists v' out, solve X7 2 2 dive7 v = Ok (v', out) /\ v_iter v' = 3%nat /\
       sv_routes (out_solved out) = [(1%nat, [Source; Cust 2; Cust 1; Sink])]).
Proof. exact ends_case. Qed.

(* ---- C90 ---- *)
(** The same with the MIP pricing problems, when no cost is negative and the master problem is
    solved to optimality whenever the solver says so; whatever the pricing solver answers.  Missing:
    negative costs (see C90_refuted), preassignments, diving, a global span. *)
Theorem C90_ends_mip_partial : forall (g : rgraph) a w pd both drop all periodic tabu sa v,
  wf g -> (a_mixed_fleet a = false -> no_empty_costs g) ->
  (forall k u t, 0 <= user_cost g k u t) -> (forall k, 0 <= price_of a k) ->
  sa_pre sa = [] -> sa_cspy sa = false -> sa_dive sa = false ->
  create g a w pd both drop all periodic false tabu = Ok v ->
  exists N, forall X f f2, (N <= f)%nat ->
    (forall n q, sound_answer q (e_master (x_env X) n q) /\
       (a_status (e_master (x_env X) n q) = Optimal -> a_objective (e_master (x_env X) n q) <> None /\
        forall y, feasible y q -> value (a_value (e_master (x_env X) n q)) (p_obj q) <= value y (p_obj q))) ->
    solve X f f2 sa v = solve X N N sa v /\ solve X f f2 sa v <> Err OutOfFuel.
Proof. exact mip_user. Qed.
Print Assumptions C90_ends_mip_partial.

(** A call without limits that needs two iterations. *)
Example C90_case : wf rawe /\ (a_mixed_fleet argse = false -> no_empty_costs rawe) /\
  (forall k u t, 0 <= user_cost rawe k u t) /\ (forall k, 0 <= price_of argse k) /\
  (forall n q, sound_answer q (e_master (x_env Xe) n q) /\
     (a_status (e_master (x_env Xe) n q) = Optimal -> a_objective (e_master (x_env Xe) n q) <> None /\
      forall y, feasible y q -> value (a_value (e_master (x_env Xe) n q)) (p_obj q) <= value y (p_obj q))) /\
  exists v, create rawe argse false false false None false None false [] = Ok v /\
    solve Xe 1 1 sae v = Err OutOfFuel /\
    exists v' out, solve Xe 2 2 sae v = Ok (v', out) /\ v_iter v' = 2%nat /\
      sv_routes (out_solved out) = [(1%nat, [Source; Cust 1; Cust 2; Sink])] /\ best_value (out_solved out) = Ok 28.
Proof. exact mip_case. Qed.

(** Every answer of the solvers is optimal, no limit is set, and the same route is found again and
    again: no number of iterations is enough. *)
Theorem C90_refuted : exists X sa g a v, wf g /\ acceptable g a (sa_strategy sa) /\ sa_pre sa = [] /\ sa_initial sa = [] /\
  sa_cspy sa = false /\ sa_dive sa = false /\ sa_max_iter sa = None /\ sa_time_limit sa = None /\
  (forall x l, Permutation l (x_perms X x l)) /\
  (forall n q, sound_answer q (e_master (x_env X) n q) /\
     (a_status (e_master (x_env X) n q) = Optimal -> a_objective (e_master (x_env X) n q) <> None /\
      forall y, feasible y q -> value (a_value (e_master (x_env X) n q)) (p_obj q) <= value y (p_obj q))) /\
  (forall n tl q, sound_answer q (e_pricer (x_env X) n tl q) /\
     (a_status (e_pricer (x_env X) n tl q) = Optimal -> forall y, feasible y q ->
      value (a_value (e_pricer (x_env X) n tl q)) (p_obj q) <= value y (p_obj q))) /\
  create g a false false false None false None false [] = Ok v /\
  forall f f2, solve X f f2 sa v = Err OutOfFuel.
Proof. exact never_ends. Qed.
Print Assumptions C90_refuted.
