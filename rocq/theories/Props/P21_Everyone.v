(** Property C108: all customers on preassigned routes. *)
From Verif.Base Require Import Prelude Graph.
From Verif.Spec Require Import Routes Network Inputs Feasible LinProg MIP Timing Master Run Results Plans Variants Locked.
From Verif.Model Require Import Args Initial LPPricing Cspy Master ColGen Post Schedule Solve.
From Verif.Proofs Require Import LockedAll LockedAllWitness.

(* ---- C108 ---- *)
(** For a new object and whatever the solvers answer. If the call succeeds there is no drop penalty: with one, it always raises.
    Missing: objects that were solved before and drop penalties (false, see below), diving, and the value for several vehicle
    types. *)
Theorem C108_plan_partial : forall X fuel fuel2 sa (g : rgraph) a w pd both drop all per span tabu v v' out,
  wf g -> (a_mixed_fleet a = false -> no_empty_costs g) ->
  sa_pre sa <> [] -> all_complete (sa_pre sa) -> (forall u, In u (custs g) -> In u (riders (sa_pre sa))) ->
  sa_heuristic sa = false -> sa_dive sa = false ->
  create g a w pd both drop all per span tabu = Ok v -> solve X fuel fuel2 sa v = Ok (v', out) ->
  let s := out_solved out in
  truthyQ drop = false /\
  sv_routes s = combine (seq 1 (List.length (sa_pre sa))) (sa_pre sa) /\ sv_dropped s = [] /\
  (a_mixed_fleet a = false -> span = false -> 0 <= user_demand g Source -> 0 <= user_demand g Sink ->
   (forall r, In r (sa_pre sa) -> route_shape r /\ stops r <> [] /\ route_price g a r < inject_Z 10000000000 /\
      forall c, capacity_of a 0 c -> node_sum (user_demand g) (stops r) <= inject_Z c) ->
   exists q, best_value s = Ok q /\ q == Qsum (map (route_price g a) (sa_pre sa))).
Proof. exact everyone_locked. Qed.
Print Assumptions C108_plan_partial.

(** A problem is solved and its routes are preassigned in a second call of solve() on the same object: the routes of the first
    call are still there, and everybody is visited twice. *)
Theorem C108_refuted : exists X sa sa2 g a v v1 out1 v2 out2,
  wf g /\ acceptable g a (sa_strategy sa) /\ sa_pre sa = [] /\ sa_initial sa = [] /\ sa_cspy sa = false /\ sa_dive sa = false /\ sa_heuristic sa = false /\
  sa_greedy sa = false /\ sa_pre sa2 <> [] /\ all_complete (sa_pre sa2) /\ (forall u, In u (custs g) -> In u (riders (sa_pre sa2))) /\
  sa_initial sa2 = [] /\ sa_dive sa2 = false /\ sa_heuristic sa2 = false /\
  (forall n q, right_answer q (e_master (x_env X) n q)) /\ (forall n tl q, sound_answer q (e_pricer (x_env X) n tl q)) /\ finds_paths (x_path X) /\
  create g a false false false None false None false [] = Ok v /\ solve X 9 9 sa v = Ok (v1, out1) /\ solve X 9 9 sa2 v1 = Ok (v2, out2) /\
  map snd (sv_routes (out_solved out1)) = sa_pre sa2 /\ map snd (sv_routes (out_solved out2)) = sa_pre sa2 ++ sa_pre sa2 /\
  (forall u, In u (custs g) -> visits u (map snd (sv_routes (out_solved out1))) = 1%nat /\ visits u (map snd (sv_routes (out_solved out2))) = 2%nat) /\
  best_value (out_solved out1) = Ok 60 /\ best_value (out_solved out2) = Ok 148.
Proof. exact all_twice. Qed.
Print Assumptions C108_refuted.

(** With a drop penalty the call raises an exception. *)
Theorem C108_penalty_refuted : exists X sa g a d v,
  wf g /\ acceptable g a (sa_strategy sa) /\ sa_pre sa <> [] /\ all_complete (sa_pre sa) /\ (forall u, In u (custs g) -> In u (riders (sa_pre sa))) /\
  sa_initial sa = [] /\ sa_dive sa = false /\ sa_heuristic sa = false /\ 0 < d /\
  create g a false false false (Some d) false None false [] = Ok v /\ solve X 9 9 sa v = Err AttributeError.
Proof. exact all_raises. Qed.
Print Assumptions C108_penalty_refuted.

Example C108_case : exists X sa (g : rgraph) a v v' out,
  wf g /\ no_empty_costs g /\ a_mixed_fleet a = false /\ sa_pre sa <> [] /\ all_complete (sa_pre sa) /\ (forall u, In u (custs g) -> In u (riders (sa_pre sa))) /\
  sa_heuristic sa = false /\ sa_dive sa = false /\ 0 <= user_demand g Source /\ 0 <= user_demand g Sink /\
  (forall r, In r (sa_pre sa) -> route_shape r /\ stops r <> [] /\ route_price g a r < inject_Z 10000000000 /\
      forall c, capacity_of a 0 c -> node_sum (user_demand g) (stops r) <= inject_Z c) /\
  create g a false false false None false None false [] = Ok v /\ solve X 9 9 sa v = Ok (v', out) /\
  sv_routes (out_solved out) = [(1%nat, [Source; Cust 1; Cust 2; Sink]); (2%nat, [Source; Cust 3; Cust 4; Sink])] /\ best_value (out_solved out) = Ok 60.
Proof. exact all_case. Qed.
