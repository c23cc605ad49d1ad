(** Calls of solve() in which all customers are on preassigned routes. *)
From Verif.Base Require Import Prelude Graph.
From Verif.Spec Require Import Routes Network Inputs Feasible LinProg Pricing MIP Timing Master Run Results Plans Variants Plain Locked.
From Verif.Model Require Import Args Reach Checks Preprocess ClarkeWright Greedy Initial Pricing
  GreedyPricing LPPricing Cspy Master Dive Hyper ColGen Post Schedule Solve.
From Verif.Proofs Require Import RouteLemmas Deciders LPProofs PricingCor Certificate DiveProofs PricingWitness MasterWitness PostEnd Oracles ColGenWitness SolveUser SolveSamples SolveWitness AnyCases AnyWitness WarmWitness PlainWitness.

Definition plan_p : list (list node) := [[Source; Cust 1; Cust 2; Sink]; [Source; Cust 3; Cust 4; Sink]].
Definition sa_all : solve_args := mkSA [] plan_p "Exact" false true None false false None 1 false.

Lemma plan_p_all : all_complete plan_p /\ forall u, In u (custs raw_p) -> In u (riders plan_p).
Proof.
  split; [intros r [<-|[<-|[]]]; [exists [Cust 1; Cust 2]|exists [Cust 3; Cust 4]]; reflexivity|].
  intros u Hu. vm_compute in Hu |- *. tauto.
Qed.

(** The routes of the first call are preassigned in the second one, on the same object. *)
Theorem all_twice : exists X sa sa2 g a v v1 out1 v2 out2,
  wf g /\ acceptable g a (sa_strategy sa) /\ sa_pre sa = [] /\ sa_initial sa = [] /\ sa_cspy sa = false /\ sa_dive sa = false /\ sa_heuristic sa = false /\
  sa_greedy sa = false /\ sa_pre sa2 <> [] /\ all_complete (sa_pre sa2) /\ (forall u, In u (custs g) -> In u (riders (sa_pre sa2))) /\
  sa_initial sa2 = [] /\ sa_dive sa2 = false /\ sa_heuristic sa2 = false /\
  (forall n q, right_answer q (e_master (x_env X) n q)) /\ (forall n tl q, sound_answer q (e_pricer (x_env X) n tl q)) /\ finds_paths (x_path X) /\
  create g a false false false None false None false [] = Ok v /\ solve X 9 9 sa v = Ok (v1, out1) /\ solve X 9 9 sa2 v1 = Ok (v2, out2) /\
  map snd (sv_routes (out_solved out1)) = sa_pre sa2 /\ map snd (sv_routes (out_solved out2)) = sa_pre sa2 ++ sa_pre sa2 /\
  (forall u, In u (custs g) -> visits u (map snd (sv_routes (out_solved out1))) = 1%nat /\ visits u (map snd (sv_routes (out_solved out2))) = 2%nat) /\
  best_value (out_solved out1) = Ok 60 /\ best_value (out_solved out2) = Ok 148.
Proof.
  assert (A : match create raw_p args_p false false false None false None false [] with
    | Ok v => match solve (X_p cands_p) 9 9 sa_p v with
      | Ok r => map snd (sv_routes (out_solved (snd r))) = plan_p /\ best_value (out_solved (snd r)) = Ok 60 /\
          match solve (X_p cands_p) 9 9 sa_all (fst r) with
          | Ok r2 => map snd (sv_routes (out_solved (snd r2))) = plan_p ++ plan_p /\ best_value (out_solved (snd r2)) = Ok 148
          | _ => False end
      | _ => False end
    | Err _ => False end) by (vm_compute; repeat split; reflexivity).
  destruct (create raw_p args_p false false false None false None false []) as [v|e] eqn:C; [|contradiction].
  destruct (solve (X_p cands_p) 9 9 sa_p v) as [[v1 out1]|e] eqn:S1; [|contradiction]. cbn [fst snd] in A. destruct A as (A1 & A2 & A).
  destruct (solve (X_p cands_p) 9 9 sa_all v1) as [[v2 out2]|e] eqn:S2; [|contradiction]. cbn [fst snd] in A. destruct A as (A3 & A4).
  assert (W : wf raw_p) by (apply wfb_ok; vm_compute; reflexivity). destruct plan_p_all as (B1 & B2).
  exists (X_p cands_p), sa_p, sa_all, raw_p, args_p, v, v1, out1, v2, out2.
  split; [exact W|]. split.
  { apply preparedb_iff; [exact W|reflexivity|apply costs_givenb_ok; vm_compute; reflexivity|apply demandsb_ok; vm_compute; reflexivity|apply timesb_ok; vm_compute; reflexivity|].
    vm_compute. reflexivity. }
  do 6 (split; [reflexivity|]). split; [discriminate|]. split; [exact B1|]. split; [exact B2|]. do 3 (split; [reflexivity|]).
  split; [intros n q; destruct (certify_right mvar_eqb mvar_eqb_eq cands_p q) as (D1 & D2); constructor; [exact D1|exact D2]|].
  split; [intros n tl q; apply propose_sound|]. split; [exact nx_path_ok|]. split; [exact C|]. split; [exact S1|]. split; [exact S2|].
  split; [exact A1|]. split; [exact A3|]. split; [|split; [exact A2|exact A4]].
  intros u Hu. rewrite A1, A3. vm_compute in Hu. repeat (destruct Hu as [<-|Hu]; [split; vm_compute; reflexivity|]). destruct Hu.
Qed.

(** The plan is preassigned in the first call on an object with a drop penalty. *)
Theorem all_raises : exists X sa g a d v,
  wf g /\ acceptable g a (sa_strategy sa) /\ sa_pre sa <> [] /\ all_complete (sa_pre sa) /\ (forall u, In u (custs g) -> In u (riders (sa_pre sa))) /\
  sa_initial sa = [] /\ sa_dive sa = false /\ sa_heuristic sa = false /\ 0 < d /\
  create g a false false false (Some d) false None false [] = Ok v /\ solve X 9 9 sa v = Err AttributeError.
Proof.
  assert (A : match create raw_p args_p false false false (Some 50) false None false [] with
    | Ok v => solve (X_p cands_p) 9 9 sa_all v = Err AttributeError
    | Err _ => False end) by (vm_compute; reflexivity).
  destruct (create raw_p args_p false false false (Some 50) false None false []) as [v|e] eqn:C; [|contradiction].
  assert (W : wf raw_p) by (apply wfb_ok; vm_compute; reflexivity). destruct plan_p_all as (B1 & B2).
  exists (X_p cands_p), sa_all, raw_p, args_p, 50, v. split; [exact W|]. split.
  { apply preparedb_iff; [exact W|reflexivity|apply costs_givenb_ok; vm_compute; reflexivity|apply demandsb_ok; vm_compute; reflexivity|apply timesb_ok; vm_compute; reflexivity|].
    vm_compute. reflexivity. }
  split; [discriminate|]. split; [exact B1|]. split; [exact B2|]. do 3 (split; [reflexivity|]). split; [reflexivity|]. split; [exact C|exact A].
Qed.

Theorem all_case : exists X sa (g : rgraph) a v v' out,
  wf g /\ no_empty_costs g /\ a_mixed_fleet a = false /\ sa_pre sa <> [] /\ all_complete (sa_pre sa) /\ (forall u, In u (custs g) -> In u (riders (sa_pre sa))) /\
  sa_heuristic sa = false /\ sa_dive sa = false /\ 0 <= user_demand g Source /\ 0 <= user_demand g Sink /\
  (forall r, In r (sa_pre sa) -> route_shape r /\ stops r <> [] /\ route_price g a r < inject_Z 10000000000 /\
      forall c, capacity_of a 0 c -> node_sum (user_demand g) (stops r) <= inject_Z c) /\
  create g a false false false None false None false [] = Ok v /\ solve X 9 9 sa v = Ok (v', out) /\
  sv_routes (out_solved out) = [(1%nat, [Source; Cust 1; Cust 2; Sink]); (2%nat, [Source; Cust 3; Cust 4; Sink])] /\ best_value (out_solved out) = Ok 60.
Proof.
  assert (A : match create raw_p args_p false false false None false None false [] with
    | Ok v => match solve (X_p []) 9 9 sa_all v with
      | Ok r => sv_routes (out_solved (snd r)) = [(1%nat, [Source; Cust 1; Cust 2; Sink]); (2%nat, [Source; Cust 3; Cust 4; Sink])] /\ best_value (out_solved (snd r)) = Ok 60
      | _ => False end
    | Err _ => False end) by (vm_compute; repeat split; reflexivity).
  destruct (create raw_p args_p false false false None false None false []) as [v|e] eqn:C; [|contradiction].
  destruct (solve (X_p []) 9 9 sa_all v) as [[v' out]|e] eqn:S1; [|contradiction]. cbn [fst snd] in A. destruct A as (A1 & A2). destruct plan_p_all as (B1 & B2).
  exists (X_p []), sa_all, raw_p, args_p, v, v', out.
  split; [apply wfb_ok; vm_compute; reflexivity|]. split; [apply costs_givenb_ok; vm_compute; reflexivity|]. split; [reflexivity|]. split; [discriminate|]. split; [exact B1|]. split; [exact B2|].
  do 2 (split; [reflexivity|]). do 2 (split; [vm_compute; discriminate|]). split.
  { intros r [<-|[<-|[]]]; (split; [apply route_shapeb_ok; vm_compute; reflexivity|]; split; [vm_compute; discriminate|]; split; [vm_compute; reflexivity|];
      intros c [(E & _)|(l & E & _)]; [injection E as <-; vm_compute; discriminate|discriminate]). }
  split; [exact C|]. split; [exact S1|]. split; [exact A1|exact A2].
Qed.
