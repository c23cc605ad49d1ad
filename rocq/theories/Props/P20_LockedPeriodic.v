(** Property C107: preassigned complete routes in periodic problems. *)
From Verif.Base Require Import Prelude Graph.
From Verif.Spec Require Import Routes Network Inputs Feasible LinProg Pricing MIP Timing Run Results Plans Variants Plain Periodic Locked.
From Verif.Model Require Import Args Initial LPPricing Cspy Master ColGen Post Schedule Solve.
From Verif.Proofs Require Import LockedPeriodic LockedPerWitness.

(* ---- C107 ---- *)
(** Proved: the preassigned routes come last, a customer on them is visited by them only, and the others as in C100.
    Missing: that a customer on a preassigned route is visited as often as required (false, see below); what C96 and C100
    miss, time windows, pickups and collections, given first routes, greedy pricing. *)
Theorem C107_visits_partial : forall X fuel fuel2 sa (g : rgraph) a drop all period span tabu v v' out,
  wf g -> (a_mixed_fleet a = false -> no_empty_costs g) -> nonneg_user_demands g ->
  (forall u r, node_data g u = Some r -> r_aux_depot r = false) ->
  period <> 0%Z -> truthyQ drop = false -> all_complete (sa_pre sa) -> sa_initial sa = [] ->
  sa_dive sa = false -> sa_heuristic sa = false -> sa_greedy sa = false ->
  (exists u, In u (custs g) /\ ~ In u (riders (sa_pre sa))) -> clocked g ->
  (forall u, 0 <= user_service g u) -> (forall u x, 0 <= user_time g u x) ->
  (forall u, In u (custs g) -> ~ In u (riders (sa_pre sa)) -> within_time g a [Source; u; Sink]) ->
  (forall n q, sound_answer q (e_master (x_env X) n q)) ->
  (sa_cspy sa = false -> (forall n tl q, sound_answer q (e_pricer (x_env X) n tl q)) /\ no_circles (x_env X)) ->
  (sa_cspy sa = true -> (forall n tl h, sound_labelling h (e_label (x_env X) n tl h)) /\
     (forall D, time_limit a D -> forall u, user_service g u == 0)) ->
  (forall q, sound_answer q (x_days X q)) -> finds_paths (x_path X) ->
  create g a false false false drop all (Some period) span tabu = Ok v -> solve X fuel fuel2 sa v = Ok (v', out) ->
  let s := out_solved out in
  let rs := map snd (sv_routes s) in
  exists n ks,
    skipn n rs = sa_pre sa /\ List.length ks = n /\ map fst (sv_routes s) = seq 1 (n + List.length (sa_pre sa)) /\
    (forall i k, nth_error ks i = Some k -> dget Nat.eqb (S i) (sv_types s) = Some k) /\
    Forall2 (fun k r => route_shape r /\ (stops r <> [] -> along (arc_list g ++ depot_arcs g) r /\ respects g a false false false k r))
      ks (firstn n rs) /\
    (forall u, In u (custs g) -> In u (riders (sa_pre sa)) -> visits u rs = visits u (sa_pre sa)) /\
    (forall u, In u (custs g) -> ~ In u (riders (sa_pre sa)) -> (Z.of_nat (visits u rs) <= user_freq g u)%Z /\
       ((user_freq g u <= 1)%Z -> Z.of_nat (visits u rs) = user_freq g u)) /\
    sv_dropped s = [].
Proof. exact locked_periodic. Qed.
Print Assumptions C107_visits_partial.

(** Customer 1 has to be visited three times and the user preassigns one of the visits. It remains the only one, although a
    plan with this route and two more visits exists and the solvers answer correctly. Nobody is reported as dropped. *)
Theorem C107_refuted : exists X sa g a period v v' out u,
  wf g /\ acceptable g a (sa_strategy sa) /\ all_complete (sa_pre sa) /\ sa_initial sa = [] /\ sa_cspy sa = false /\ sa_dive sa = false /\
  sa_heuristic sa = false /\ sa_greedy sa = false /\ sa_time_limit sa = None /\ sa_max_iter sa = None /\
  (forall n q, right_answer q (e_master (x_env X) n q)) /\ (forall n tl q, right_answer q (e_pricer (x_env X) n tl q)) /\
  (forall n h, e_negative (x_env X) n h = false -> ~ negative_cycle h) /\ (forall q, sound_answer q (x_days X q)) /\
  finds_paths (x_path X) /\
  create g a false false false None false (Some period) false [] = Ok v /\ solve X 9 9 sa v = Ok (v', out) /\
  In u (custs g) /\ In u (riders (sa_pre sa)) /\ user_freq g u = 3%Z /\ visits u (map snd (sv_routes (out_solved out))) = 1%nat /\
  sv_dropped (out_solved out) = [] /\ out_schedule out <> Some [] /\
  exists ks rs day, full_plan g a false false false period ks rs day /\ incl (sa_pre sa) rs.
Proof. exact locked_once. Qed.
Print Assumptions C107_refuted.

(** Customer 1 is on two preassigned routes; the hypotheses of C107_visits_partial are met. *)
Example C107_case : exists X sa (g : rgraph) a v v' out,
  wf g /\ (a_mixed_fleet a = false -> no_empty_costs g) /\ nonneg_user_demands g /\
  (forall u r, node_data g u = Some r -> r_aux_depot r = false) /\
  all_complete (sa_pre sa) /\ sa_initial sa = [] /\
  sa_dive sa = false /\ sa_heuristic sa = false /\ sa_greedy sa = false /\ sa_cspy sa = false /\
  (exists u, In u (custs g) /\ ~ In u (riders (sa_pre sa))) /\ clocked g /\
  (forall u, 0 <= user_service g u) /\ (forall u x, 0 <= user_time g u x) /\
  (forall u, In u (custs g) -> ~ In u (riders (sa_pre sa)) -> within_time g a [Source; u; Sink]) /\
  (forall n q, right_answer q (e_master (x_env X) n q)) /\
  (forall n tl q, sound_answer q (e_pricer (x_env X) n tl q)) /\ no_circles (x_env X) /\
  (forall q, right_answer q (x_days X q)) /\ finds_paths (x_path X) /\
  create g a false false false None false (Some 3%Z) false [] = Ok v /\ solve X 9 9 sa v = Ok (v', out) /\
  user_freq g (Cust 1) = 3%Z /\
  sv_routes (out_solved out) = [(1%nat, [Source; Cust 2; Sink]); (2%nat, [Source; Cust 1; Sink]); (3%nat, [Source; Cust 1; Sink])] /\
  out_schedule out = Some [(0%nat, [1%nat]); (1%nat, [2%nat]); (2%nat, [3%nat])].
Proof. exact locked_week_case. Qed.
