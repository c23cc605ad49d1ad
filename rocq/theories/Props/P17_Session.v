(** Properties C103 and C104: calls of solve() that follow each other. *)
From Verif.Base Require Import Prelude Graph.
From Verif.Spec Require Import Routes Network Inputs Feasible LinProg Pricing MIP Run Results Plans Variants Periodic Session.
From Verif.Model Require Import Args Initial LPPricing Cspy Master ColGen Post Schedule Solve.
From Verif.Proofs Require Import Isolation AgainFleet SessionWitness.

(* ---- C103 ---- *)
(** Missing: the case in which this call and an earlier one dive; then it is false, see below. Calls that raised are not
    among the earlier ones. *)
Theorem C103_isolated_partial : forall X fuel fuel2 sa (g : rgraph) a w pd both drop all per span dived tabu v0 v,
  session dived tabu -> dived = false \/ sa_dive sa = false ->
  create g a w pd both drop all per span [] = Ok v0 -> create g a w pd both drop all per span tabu = Ok v ->
  results (solve X fuel fuel2 sa v) = results (solve X fuel fuel2 sa v0).
Proof. exact isolated. Qed.
Print Assumptions C103_isolated_partial.

(** What a call leaves behind for all other problems: a diving call bars at most four more columns, none of them barred
    before, and nothing is ever admitted again. *)
Theorem C103_bars_partial : forall X fuel fuel2 sa v v' out, solve X fuel fuel2 sa v = Ok (v', out) ->
  exists new, v_tabu v' = v_tabu v ++ new /\ NoDup new /\ (forall y, In y new -> ~ In y (v_tabu v)) /\
    (List.length new <= 4)%nat /\ (sa_dive sa = false \/ sa_heuristic sa = true -> new = []).
Proof. exact solve_longer. Qed.
Print Assumptions C103_bars_partial.

(** The same problem, solved with the same arguments and the same correct solvers, in a new process and after three diving
    calls on other objects: the first time everybody is visited once, the second time twice and at a higher cost. *)
Theorem C103_refuted : exists X sa g a tabu v0 v0' out0 v v' out,
  wf g /\ acceptable g a (sa_strategy sa) /\ sa_pre sa = [] /\ sa_cspy sa = false /\ sa_heuristic sa = false /\
  sa_greedy sa = false /\ sa_time_limit sa = None /\ sa_max_iter sa = None /\
  (forall n q, right_answer q (e_master (x_env X) n q)) /\ (forall n i q, right_answer q (e_dive (x_env X) n i q)) /\
  (forall n tl q, right_answer q (e_pricer (x_env X) n tl q)) /\
  (forall n h, e_negative (x_env X) n h = false -> ~ negative_cycle h) /\ finds_paths (x_path X) /\
  session true tabu /\
  create g a false false false None false None false [] = Ok v0 /\ solve X 3 3 sa v0 = Ok (v0', out0) /\
  create g a false false false None false None false tabu = Ok v /\ solve X 3 3 sa v = Ok (v', out) /\
  best_value (out_solved out0) = Ok 18 /\ best_value (out_solved out) = Ok 30 /\
  forall u, In u (custs g) -> visits u (map snd (sv_routes (out_solved out0))) = 1%nat /\ visits u (map snd (sv_routes (out_solved out))) = 2%nat.
Proof. exact influenced. Qed.
Print Assumptions C103_refuted.

Example C103_case : exists X sa g a tabu v0 v v' out, session true tabu /\ tabu <> [] /\ sa_dive sa = false /\
  create g a false false false None false None false [] = Ok v0 /\
  create g a false false false None false None false tabu = Ok v /\ solve X 3 3 sa v = Ok (v', out) /\
  v_tabu v' = tabu /\ best_value (out_solved out) = Ok 18.
Proof. exact isolated_case. Qed.

(* ---- C104 ---- *)
(** Missing: the property itself for periodic problems, for which it is false: after the first call there is no limit left. *)
Theorem C104_limits_partial : forall X fuel fuel2 sa v v' out, solve X fuel fuel2 sa v = Ok (v', out) ->
  (truthy (v_periodic v) = false -> forall k n, number_of (v_args v') k n <-> number_of (v_args v) k n) /\
  (truthy (v_periodic v) = true -> forall k n, ~ number_of (v_args v') k n).
Proof. exact number_after. Qed.
Print Assumptions C104_limits_partial.

(** One day, one vehicle, two routes. The first call finds no schedule, the second one lets two vehicles drive on that day. *)
Theorem C104_refuted : exists X sa g a period v v1 out1 v2 out2,
  wf g /\ acceptable g a (sa_strategy sa) /\ sa_pre sa = [] /\ sa_initial sa = [] /\ sa_cspy sa = false /\ sa_dive sa = false /\
  sa_heuristic sa = false /\ sa_greedy sa = false /\ sa_time_limit sa = None /\ sa_max_iter sa = None /\
  (forall n q, right_answer q (e_master (x_env X) n q)) /\ (forall n tl q, right_answer q (e_pricer (x_env X) n tl q)) /\
  (forall n h, e_negative (x_env X) n h = false -> ~ negative_cycle h) /\ (forall q, right_answer q (x_days X q)) /\
  finds_paths (x_path X) /\
  create g a false false false None false (Some period) false [] = Ok v /\
  solve X 9 9 sa v = Ok (v1, out1) /\ solve X 9 9 sa v1 = Ok (v2, out2) /\
  number_of a 0 1 /\ out_schedule out1 = Some [] /\
  sv_routes (out_solved out2) = [(1%nat, [Source; Cust 1; Sink]); (2%nat, [Source; Cust 2; Sink])] /\
  out_schedule out2 = Some [(0%nat, [1%nat; 2%nat])] /\
  forall day, ~ good_week g a period (sv_routes (out_solved out2)) (fun i => dget Nat.eqb i (sv_types (out_solved out2))) day.
Proof. exact vehicles_twice. Qed.
Print Assumptions C104_refuted.

(** A periodic problem with one vehicle is solved: the number of vehicles is gone afterwards. *)
Example C104_case : exists X sa g a v v' out,
  create g a false false false None false (Some 1%Z) false [] = Ok v /\ solve X 9 9 sa v = Ok (v', out) /\
  number_of (v_args v) 0 1 /\ a_num_vehicles (v_args v') = PList [].
Proof. exact lost_case. Qed.
