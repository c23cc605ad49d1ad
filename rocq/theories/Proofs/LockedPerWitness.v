(** A call of solve() on a periodic problem with a preassigned route. *)
From Verif.Base Require Import Prelude Graph.
From Verif.Spec Require Import Routes Network Inputs Feasible LinProg Pricing MIP Timing Master Run Results Plans Variants Plain Periodic Locked.
From Verif.Model Require Import Args Reach Checks Preprocess ClarkeWright Greedy Initial Pricing
  GreedyPricing LPPricing Cspy Master Dive Hyper ColGen Post Schedule Solve.
From Verif.Proofs Require Import RouteLemmas Deciders LPProofs PricingCor Certificate DiveProofs PricingWitness MasterWitness PostEnd Oracles ColGenWitness SolveUser SolveSamples SolveWitness AnyWitness
  LockedWitness PerWitness.

Definition pre_q : list (list node) := [trip [Cust 1]].
Definition sa_q : solve_args := mkSA [] pre_q "Exact" false true None false false None 1 false.
Definition plans_q : list ((mvar -> Q) * list Q) := [(visits_w [1]%nat 0, [13])].
Definition X_q : outside := X_w plans_q [(0, 13)] days_w.

(** Customer 1 has to be visited three times, the user preassigns one visit, and it remains the only one. *)
Theorem locked_once : exists X sa g a period v v' out u,
  wf g /\ acceptable g a (sa_strategy sa) /\ all_complete (sa_pre sa) /\ sa_initial sa = [] /\ sa_cspy sa = false /\ sa_dive sa = false /\
  sa_heuristic sa = false /\ sa_greedy sa = false /\ sa_time_limit sa = None /\ sa_max_iter sa = None /\
  (forall n q, right_answer q (e_master (x_env X) n q)) /\ (forall n tl q, right_answer q (e_pricer (x_env X) n tl q)) /\
  (forall n h, e_negative (x_env X) n h = false -> ~ negative_cycle h) /\ (forall q, sound_answer q (x_days X q)) /\
  finds_paths (x_path X) /\
  create g a false false false None false (Some period) false [] = Ok v /\ solve X 9 9 sa v = Ok (v', out) /\
  In u (custs g) /\ In u (riders (sa_pre sa)) /\ user_freq g u = 3%Z /\ visits u (map snd (sv_routes (out_solved out))) = 1%nat /\
  sv_dropped (out_solved out) = [] /\ out_schedule out <> Some [] /\
  exists ks rs day, full_plan g a false false false period ks rs day /\ incl (sa_pre sa) rs.
Proof.
  assert (A : match create raw_w args_w false false false None false (Some 3%Z) false [] with
    | Ok v => match solve X_q 9 9 sa_q v with
      | Ok r => visits (Cust 1) (map snd (sv_routes (out_solved (snd r)))) = 1%nat /\ sv_dropped (out_solved (snd r)) = [] /\
          match out_schedule (snd r) with Some [] => False | _ => True end
      | _ => False end
    | Err _ => False end) by (vm_compute; repeat split; reflexivity).
  destruct (create raw_w args_w false false false None false (Some 3%Z) false []) as [v|e] eqn:C; [|contradiction].
  destruct (solve X_q 9 9 sa_q v) as [[v' out]|e] eqn:S1; [|contradiction]. cbn [fst snd] in A. destruct A as (A1 & A2 & A3).
  exists X_q, sa_q, raw_w, args_w, 3%Z, v, v', out, (Cust 1).
  destruct raw_w_acceptable as (W & Ac). destruct (oracles_w plans_q [(0, 13)] days_w) as (O1 & O2 & O3 & O4).
  split; [exact W|]. split; [exact Ac|]. split; [intros r [<-|[]]; exists [Cust 1]; reflexivity|]. do 7 (split; [reflexivity|]).
  split; [exact O1|]. split; [exact O2|]. split; [exact O3|].
  split; [intro q; apply propose_sound|]. split; [exact O4|]. split; [exact C|]. split; [exact S1|]. split; [cbn; tauto|]. split; [left; reflexivity|].
  split; [reflexivity|]. split; [exact A1|]. split; [exact A2|]. split; [intro Z; rewrite Z in A3; exact A3|].
  exists [0; 0; 0]%nat, [trip [Cust 1]; trip [Cust 1]; trip [Cust 1; Cust 2]], (fun i => (i - 1)%nat). split; [|intros r [<-|[]]; left; reflexivity]. constructor.
  - assert (Sh : route_shape (trip [Cust 1]) /\ along (arc_list raw_w) (trip [Cust 1]) /\ route_shape (trip [Cust 1; Cust 2]) /\ along (arc_list raw_w) (trip [Cust 1; Cust 2])).
    { split; [apply route_shapeb_ok; vm_compute; reflexivity|]. split; [intros x y Hxy; cbn in Hxy; repeat (destruct Hxy as [E|Hxy]; [injection E as <- <-; cbn; tauto|]); destruct Hxy|].
      split; [apply route_shapeb_ok; vm_compute; reflexivity|]. intros x y Hxy; cbn in Hxy; repeat (destruct Hxy as [E|Hxy]; [injection E as <- <-; cbn; tauto|]); destruct Hxy. }
    destruct Sh as (Q1 & Q2 & Q3 & Q4). do 3 (constructor; [split; [assumption|split; [assumption|apply respects_free]]|]); constructor.
  - intros u Hu. cbn in Hu. destruct Hu as [<-|[<-|[]]]; vm_compute; reflexivity.
  - constructor.
    + intros i r Hir. cbn in Hir. repeat (destruct Hir as [E|Hir]; [injection E as <- <-; cbn; lia|]). destruct Hir.
    + intros u i j r r' _ _ Hi Hj _ _ E. cbn in Hi, Hj. repeat (destruct Hi as [Z|Hi]; [injection Z as <- _|]); try destruct Hi;
        repeat (destruct Hj as [Z|Hj]; [injection Z as <- _|]); try destruct Hj; cbn in E; congruence.
    + intros k n t Hn Ht. destruct Hn as [(x & E & _ & -> & ->)|(l & x & E & _)]; [|discriminate]. injection E as <-. cbn in Ht.
      destruct t as [|[|[|t]]]; [vm_compute; discriminate|vm_compute; discriminate|vm_compute; discriminate|lia].
Qed.

(** A call that the theorem applies to: three visits to be made to customer 1, who is on two preassigned routes. *)
Definition X_q2 : outside := mkOut (env_l [(visits_w [1]%nat 0, [13])]) 0 (fun _ l => l) nx_path days_y.
Definition sa_q2 : solve_args := mkSA [] [trip [Cust 1]; trip [Cust 1]] "Exact" false true None false false (Some 4%Z) 1 false.
Lemma untimed_w : clocked raw_w.
Proof.
  right. right. split.
  - intros u r E. apply assoc_node_In in E. cbn in E. repeat (destruct E as [E|E]; [injection E as <- <-; split; reflexivity|]). destruct E.
  - intros u w e E. apply assoc_arc_In in E. cbn in E. repeat (destruct E as [E|E]; [injection E as <- <- <-; reflexivity|]). destruct E.
Qed.
Lemma service_w u : 0 <= user_service raw_w u.
Proof.
  unfold user_service. destruct (node_data raw_w u) as [r|] eqn:E; [|lra]. apply assoc_node_In in E. cbn in E. repeat (destruct E as [E|E]; [injection E as <- <-; vm_compute; discriminate|]). destruct E.
Qed.
Lemma time_w u x : 0 <= user_time raw_w u x.
Proof.
  unfold user_time. destruct (arc_data raw_w u x) as [e|] eqn:E; [|lra]. apply assoc_arc_In in E. cbn in E. repeat (destruct E as [E|E]; [injection E as <- <- <-; vm_compute; discriminate|]). destruct E.
Qed.
Theorem locked_week_case : exists X sa (g : rgraph) a v v' out,
  wf g /\ (a_mixed_fleet a = false -> no_empty_costs g) /\ nonneg_user_demands g /\
  (forall u r, node_data g u = Some r -> r_aux_depot r = false) /\
  all_complete (sa_pre sa) /\ sa_initial sa = [] /\
  sa_dive sa = false /\ sa_heuristic sa = false /\ sa_greedy sa = false /\ sa_cspy sa = false /\
  (exists u, In u (custs g) /\ ~ In u (riders (sa_pre sa))) /\ clocked g /\
  (forall u, 0 <= user_service g u) /\ (forall u x, 0 <= user_time g u x) /\
  (forall u, In u (custs g) -> ~ In u (riders (sa_pre sa)) -> within_time g a [Source; u; Sink]) /\
  (forall n q, right_answer q (e_master (x_env X) n q)) /\
  (forall n tl q, sound_answer q (e_pricer (x_env X) n tl q)) /\ no_circles (x_env X) /\
  (forall q, right_answer q (x_days X q)) /\ finds_paths (x_path X) /\
  create g a false false false None false (Some 3%Z) false [] = Ok v /\ solve X 9 9 sa v = Ok (v', out) /\
  user_freq g (Cust 1) = 3%Z /\
  sv_routes (out_solved out) = [(1%nat, [Source; Cust 2; Sink]); (2%nat, [Source; Cust 1; Sink]); (3%nat, [Source; Cust 1; Sink])] /\
  out_schedule out = Some [(0%nat, [1%nat]); (1%nat, [2%nat]); (2%nat, [3%nat])].
Proof.
  assert (A : match create raw_w args_w false false false None false (Some 3%Z) false [] with
    | Ok v => match solve X_q2 9 9 sa_q2 v with
      | Ok r => sv_routes (out_solved (snd r)) = [(1%nat, [Source; Cust 2; Sink]); (2%nat, [Source; Cust 1; Sink]); (3%nat, [Source; Cust 1; Sink])] /\
          out_schedule (snd r) = Some [(0%nat, [1%nat]); (1%nat, [2%nat]); (2%nat, [3%nat])]
      | _ => False end
    | Err _ => False end) by (vm_compute; repeat split; reflexivity).
  destruct (create raw_w args_w false false false None false (Some 3%Z) false []) as [v|e] eqn:C; [|contradiction].
  destruct (solve X_q2 9 9 sa_q2 v) as [[v' out]|e] eqn:S1; [|contradiction]. cbn [fst snd] in A. destruct A as (A1 & A2).
  exists X_q2, sa_q2, raw_w, args_w, v, v', out.
  split; [apply wfb_ok; vm_compute; reflexivity|]. split; [intros _; apply costs_givenb_ok; vm_compute; reflexivity|].
  split; [apply demandsb_ok; vm_compute; reflexivity|]. split; [apply no_auxb_ok; vm_compute; reflexivity|].
  split; [intros r [<-|[<-|[]]]; exists [Cust 1]; reflexivity|]. do 5 (split; [reflexivity|]).
  split; [exists (Cust 2); split; [cbn; tauto|]; intros [H|[H|[]]]; discriminate|]. split; [exact untimed_w|]. split; [exact service_w|]. split; [exact time_w|].
  split; [intros u _ _ D (Z & _); discriminate|].
  split; [intros n q; destruct (certify_right mvar_eqb mvar_eqb_eq [(visits_w [1]%nat 0, [13])] q) as (B1 & B2); constructor; [exact B1|exact B2]|].
  split; [intros n tl q; apply propose_sound|]. split; [intros n tl g h k caps o ns dur p _ Z; discriminate|]. split; [exact days_y_right|]. split; [exact nx_path_ok|].
  split; [exact C|]. split; [exact S1|]. split; [reflexivity|]. split; [exact A1|exact A2].
Qed.
