(** Property C106: solve() returns a plan. *)
From Verif.Base Require Import Prelude Graph.
From Verif.Spec Require Import Routes Network Inputs Feasible LinProg MIP Timing Results Run Plans Variants Returning.
From Verif.Model Require Import Args ColGen Post Schedule Solve.
From Verif.Proofs Require Import LabelWitness PlainWitness ReturnsUser ReturnsWitness.

(* ---- C106 ---- *)
(** Plain problems that the checks accept, with enough vehicles: the object is created, and solve()
    with the labelling algorithm (the default) returns, unless the solver of the master problem gives
    up on a program that has a bounded optimum.  None of the errors the code can raise or run into on
    the way comes up: keys, attributes, indices, types, networkx, infinite loops.  Greedy pricing,
    limits on time and iterations and all other arguments are as the user likes.  Missing: BestPaths
    and Hyper (C106_refuted), the other kinds of problems, preassigned routes, diving; for given routes
    see C109. *)
Theorem C106_labelling_partial : forall sa g a drop all per tabu,
  plain_problem sa g a drop all per -> sa_cspy sa = true ->
  exists v N, create g a false false false drop all per false tabu = Ok v /\
  forall X f f2, (N <= f)%nat -> (N <= f2)%nat -> (forall x l, Permutation l (x_perms X x l)) ->
    (forall n q, sound_answer q (e_master (x_env X) n q)) ->
    (forall n tl h, sound_labelling h (e_label (x_env X) n tl h)) -> finds_paths (x_path X) ->
    gives_up (x_env X) \/ exists v' out, solve X f f2 sa v = Ok (v', out).
Proof. exact returns_labelling. Qed.
Print Assumptions C106_labelling_partial.

(** The same with the MIP pricing problems, when no cost is negative (C90). *)
Theorem C106_mip_partial : forall sa g a drop all per tabu,
  plain_problem sa g a drop all per -> sa_cspy sa = false ->
  (forall k u t, 0 <= user_cost g k u t) -> (forall k, 0 <= price_of a k) ->
  exists v N, create g a false false false drop all per false tabu = Ok v /\
  forall X f f2, (N <= f)%nat -> (forall x l, Permutation l (x_perms X x l)) ->
    (forall n q, sound_answer q (e_master (x_env X) n q) /\
       (a_status (e_master (x_env X) n q) = Optimal -> a_objective (e_master (x_env X) n q) <> None /\
        forall y, feasible y q -> value (a_value (e_master (x_env X) n q)) (p_obj q) <= value y (p_obj q))) ->
    (forall n tl q, sound_answer q (e_pricer (x_env X) n tl q)) -> no_circles (x_env X) -> finds_paths (x_path X) ->
    gives_up (x_env X) \/ exists v' out, solve X f f2 sa v = Ok (v', out).
Proof. exact returns_mip. Qed.
Print Assumptions C106_mip_partial.

(** With any costs: a plan is returned if the iterations do not go on for ever. *)
Theorem C106_any_partial : forall sa g a drop all per tabu, plain_problem sa g a drop all per ->
  exists v, create g a false false false drop all per false tabu = Ok v /\
  forall X fuel fuel2, (forall x l, Permutation l (x_perms X x l)) ->
    (forall n q, sound_answer q (e_master (x_env X) n q)) ->
    (sa_cspy sa = false -> (forall n tl q, sound_answer q (e_pricer (x_env X) n tl q)) /\ no_circles (x_env X)) ->
    (sa_cspy sa = true -> forall n tl h, sound_labelling h (e_label (x_env X) n tl h)) ->
    finds_paths (x_path X) ->
    gives_up (x_env X) \/ solve X fuel fuel2 sa v = Err OutOfFuel \/ exists v' out, solve X fuel fuel2 sa v = Ok (v', out).
Proof. exact returns_user. Qed.
Print Assumptions C106_any_partial.

(** A call with labelling whose first column visits a customer twice, and a call with MIP pricing,
    three vehicles and four customers that may be dropped. *)
Example C106_labelling_case : plain_problem sa7 (raw7 0) args7 None false None /\ sa_cspy sa7 = true /\
  (forall x l, Permutation l (x_perms X7 x l)) /\ (forall n q, sound_answer q (e_master (x_env X7) n q)) /\
  (forall n tl h, sound_labelling h (e_label (x_env X7) n tl h)) /\ finds_paths (x_path X7) /\
  exists v v' out, create (raw7 0) args7 false false false None false None false [] = Ok v /\
    solve X7 9 9 sa7 v = Ok (v', out) /\ sv_routes (out_solved out) = [(1%nat, trip [Cust 1; Cust 2])].
Proof. exact returns_labelling_case. Qed.
Example C106_mip_case : exists X, plain_problem sa_p raw_p args_p (Some 50) false None /\ sa_cspy sa_p = false /\
  (forall k u t, 0 <= user_cost raw_p k u t) /\ (forall k, 0 <= price_of args_p k) /\
  (forall x l, Permutation l (x_perms X x l)) /\
  (forall n q, sound_answer q (e_master (x_env X) n q) /\
     (a_status (e_master (x_env X) n q) = Optimal -> a_objective (e_master (x_env X) n q) <> None /\
      forall y, feasible y q -> value (a_value (e_master (x_env X) n q)) (p_obj q) <= value y (p_obj q))) /\
  (forall n tl q, sound_answer q (e_pricer (x_env X) n tl q)) /\ no_circles (x_env X) /\ finds_paths (x_path X) /\
  exists v v' out, create raw_p args_p false false false (Some 50) false None false [] = Ok v /\
    solve X 9 9 sa_p v = Ok (v', out) /\
    sv_routes (out_solved out) = [(1%nat, [Source; Cust 1; Cust 2; Sink]); (2%nat, [Source; Cust 3; Cust 4; Sink])].
Proof. exact returns_mip_case. Qed.

(** One customer; driving there costs nothing.  After the first master problem all arcs have the same
    reduced cost, and the strategy BestPaths, which is also the first one that Hyper tries, divides by
    the difference between the largest and the smallest.  "Exact" solves the same problem. *)
Theorem C106_refuted : exists X g a v, let sa s := mkSA [] [] s true true None false false None 1 false in
  plain_problem (sa "Exact"%string) g a None false None /\ acceptable g a "BestPaths" /\ acceptable g a "Hyper" /\
  (forall x l, Permutation l (x_perms X x l)) /\ (forall n q, right_answer q (e_master (x_env X) n q)) /\
  (forall n tl h, sound_labelling h (e_label (x_env X) n tl h)) /\ finds_paths (x_path X) /\
  create g a false false false None false None false [] = Ok v /\
  (forall f f2, solve X (S f) f2 (sa "BestPaths"%string) v = Err ZeroDivisionError) /\
  (forall f f2, solve X (S f) f2 (sa "Hyper"%string) v = Err ZeroDivisionError) /\
  exists v' out, solve X 9 9 (sa "Exact"%string) v = Ok (v', out) /\ sv_routes (out_solved out) = [(1%nat, [Source; Cust 1; Sink])] /\
    best_value (out_solved out) = Ok 10.
Proof. exact paths_raise. Qed.
Print Assumptions C106_refuted.
