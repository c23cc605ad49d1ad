(** Properties C110 and C111: the limits of a call. *)
From Verif.Base Require Import Prelude Graph.
From Verif.Spec Require Import Routes Network Inputs LinProg MIP Timing Results Returning Limits.
From Verif.Model Require Import Args Pricing LPPricing Cspy ColGen Post Solve.
From Verif.Proofs Require Import LabelWitness ReturnsGivenWitness Limits LimitsWitness.

(* ---- C110 ---- *)
(** A time limit of 0 and a limit of 0 iterations are no limits, each of them beside any value of
    the other argument: the call does exactly what it does without it, whatever it does. *)
Theorem C110_zero : forall X f f2 sa v tl mi z, z == 0 ->
  solve X f f2 (with_limits (Some z) mi sa) v = solve X f f2 (with_limits None mi sa) v /\
  solve X f f2 (with_limits tl (Some 0%Z) sa) v = solve X f f2 (with_limits tl None sa) v.
Proof. exact zero_limits. Qed.
Print Assumptions C110_zero.

(** Limits that the call without limits keeps change nothing: neither the results nor the object.
    The clock never reaches the time limit, the solvers do not answer differently because of the
    limit they are given (the answers of the solver on the master problem and on the scheduling
    problem do not depend on it in the model), and the iterations, counted over all calls on the
    object, are at most max_iter. *)
Theorem C110_generous : forall X f f2 sa v tl mi v' out,
  (forall l, tl = Some l -> ~ l == 0 -> time_blind (x_env X) /\ forall n, e_clock (x_env X) n - x_start X < l) ->
  (forall m, mi = Some m -> m <> 0%Z -> (Z.of_nat (v_iter v') <= m)%Z) ->
  solve X f f2 (with_limits None None sa) v = Ok (v', out) ->
  solve X f f2 (with_limits tl mi sa) v = Ok (v', out).
Proof. exact generous_limits. Qed.
Print Assumptions C110_generous.

(** Two iterations: the limit 2 changes nothing, the limit 1 does. *)
Example C110_case : time_blind (x_env X_h) /\ (forall n, e_clock (x_env X_h) n - x_start X_h < 60) /\
  exists v v' out, create (raw7 0) args7 false false false None false None false [] = Ok v /\
    solve X_h 9 9 (with_limits None None sa_h) v = Ok (v', out) /\ v_iter v' = 2%nat /\
    sv_routes (out_solved out) = [(1%nat, trip [Cust 2; Cust 1])] /\
    solve X_h 9 9 (with_limits (Some 60) (Some 2%Z) sa_h) v = Ok (v', out) /\
    exists v1 out1, solve X_h 9 9 (with_limits (Some 60) (Some 1%Z) sa_h) v = Ok (v1, out1) /\ v_iter v1 = 1%nat.
Proof. exact limits_case. Qed.

(* ---- C111 ---- *)
(** With a time limit [l], the searches for routes run within it: what they would answer with more
    time than [l], or without a limit, has no influence on the call.  This holds for MIP pricing;
    for the labelling algorithm it holds if the clock does not reach the limit.  Missing: the
    labelling algorithm started when the time is up (C111_refuted). *)
Theorem C111_partial : forall X pr la pr' la' f f2 sa v l, sa_time_limit sa = Some l -> ~ l == 0 ->
  (forall n t, t <= l -> pr n (Some t) = pr' n (Some t) /\ la n (Some t) = la' n (Some t)) ->
  (forall n, x_start X <= e_clock (x_env X) n) ->
  sa_cspy sa = false /\ 0 <= l \/ (forall n, e_clock (x_env X) n - x_start X < l) ->
  solve (with_searches X pr la) f f2 sa v = solve (with_searches X pr' la') f f2 sa v.
Proof. exact in_time. Qed.
Print Assumptions C111_partial.

(** A labelling algorithm that finds the good route only without a limit.  One second of 60 has
    passed: it finds nothing, like one that never finds anything.  Without a limit it finds it. *)
Example C111_case : (forall n, x_start (late 1) <= e_clock (x_env (late 1)) n) /\ (forall n, e_clock (x_env (late 1)) n - x_start (late 1) < 60) /\
  (forall n t, slow [trip [Cust 2; Cust 1]] n (Some t) = slow [] n (Some t)) /\
  in_vain 1 [trip [Cust 2; Cust 1]] (Some 60) = Ok 38 /\ in_vain 1 [] (Some 60) = Ok 38 /\
  in_vain 1 [trip [Cust 2; Cust 1]] None = Ok 19.
Proof. exact search_in_time. Qed.

(** The limit is 60 seconds, and 100 have passed when the search starts.  The remaining time is 0, and
    a limit of 0 is handed on as no limit: two labelling algorithms that differ only when they have no
    limit give different results. *)
Theorem C111_refuted : exists X pr la la' sa v,
  create (raw7 0) args7 false false false None false None false [] = Ok v /\
  sa_time_limit sa = Some 60 /\ x_start X == 0 /\ (forall n, e_clock (x_env X) n == 100) /\
  (forall n q, right_answer q (e_master (x_env X) n q)) /\ finds_paths (x_path X) /\
  (forall n tl h, sound_labelling h (la n tl h) /\ sound_labelling h (la' n tl h)) /\
  (forall n t, la n (Some t) = la' n (Some t)) /\
  exists v1 out1 v2 out2, solve (with_searches X pr la) 9 9 sa v = Ok (v1, out1) /\ best_value (out_solved out1) = Ok 19 /\
    solve (with_searches X pr la') 9 9 sa v = Ok (v2, out2) /\ best_value (out_solved out2) = Ok 38.
Proof. exact search_unlimited. Qed.
Print Assumptions C111_refuted.
