(** A call of solve() with a preassigned route. *)
From Verif.Base Require Import Prelude Graph.
From Verif.Spec Require Import Routes Network Inputs Feasible Prep LinProg Pricing MIP Timing Master Run Results Plans Variants Plain Locked.
From Verif.Model Require Import Args Reach Checks Preprocess ClarkeWright Greedy Initial Pricing
  GreedyPricing LPPricing Cspy Master Dive Hyper ColGen Post Schedule Solve.
From Verif.Proofs Require Import RouteLemmas PreLemmas Deciders LPProofs PricingCor Certificate DiveProofs PricingWitness MasterWitness PostProofs PostEnd Oracles ColGenWitness SolveUser SolveSamples SolveWitness AnyCases AnyWitness WarmWitness PlainWitness LockedUser.

(** ** A complete preassigned route is reported *)
Lemma kept X fuel fuel2 sa v v' out : sa_heuristic sa = false -> solve X fuel fuel2 sa v = Ok (v', out) ->
  forall r, In r (sa_pre sa) -> complete_route r -> exists i, In (i, r) (sv_routes (out_solved out)).
Proof.
  intros Hh H r Hr Cr. unfold solve in H. apply bind_ok in H. destruct H as (((a & K) & p) & Hp & H). rewrite Hh in H.
  apply bind_ok in H. destruct H as (ic & _ & H). apply bind_ok in H. destruct H as (s & _ & H). apply bind_ok in H. destruct H as (e & _ & H).
  apply bind_ok in H. destruct H as ((((routes & types) & dr) & sch) & Hpp & H). injection H as <- <-. cbn [out_solved sv_routes solved_of].
  unfold post_process in Hpp. apply bind_ok in Hpp. destruct Hpp as (dr' & _ & Hpp). apply bind_ok in Hpp. destruct Hpp as (nl & Hnl & Hpp). apply bind_ok in Hpp. destruct Hpp as (sc & _ & Hpp).
  injection Hpp as <- _ _ _. unfold node_lists in Hnl. apply bind_ok in Hnl. destruct Hnl as ((r1 & t1) & C1 & Hnl). apply bind_ok in Hnl. destruct Hnl as ((r2 & t2) & C2 & Hnl).
  injection Hnl as <-. cbn [fst snd]. destruct (locked_lists_ok _ _ _ _ _ _ _ C2) as (ks & _ & B2 & B3 & _).
  assert (Hn : In r (nonempty_or (sa_pre sa) (v_pre v))) by (destruct (sa_pre sa); [destruct Hr|exact Hr]).
  assert (Hm : In r (map snd r2)).
  { rewrite B3. apply filter_In. split; [exact Hn|]. destruct (is_complete_total r (B2 r Hn)) as (b & Hb). rewrite Hb. destruct b; [reflexivity|].
    apply (is_complete_spec r false Hb) in Cr. discriminate. }
  apply in_map_iff in Hm. destruct Hm as ((i & r') & E & Hi). cbn in E. subst r'. exists i. apply in_or_app. right. exact Hi.
Qed.

(** ** Cases *)
Definition env_l (cands : list ((mvar -> Q) * list Q)) : env :=
  mkEnv (fun _ => 0) (fun _ => certify mvar_eqb cands) (fun _ => by_node [(1%Z, 27); (3%Z, 3); (4%Z, 27)]) (fun _ _ => answers (fun _ => 0)) (fun _ l => l)
        (fun n _ => propose []) (fun _ _ => true)
        (fun _ _ _ => []) (fun _ _ _ _ _ _ _ => None) (fun _ _ _ => 0%nat) (fun _ => 0%nat) (fun _ _ => 0).
Definition X_l : outside := mkOut (env_l [(chosen [1; 2]%nat [], [27; 3; 27; 0])]) 0 (fun _ l => l) nx_path (fun _ => mkAnswer Infeasible None (fun _ => 0)).
Definition sa_l pre : solve_args := mkSA [] pre "Exact" false true None false false (Some 4%Z) 1 false.
Definition pre_l := [[Source; Cust 2; Sink]].

(** vehicles serve one customer in 7 hours, and there are two *)
Definition args_l : rargs := mkArgs (PNum (PInt 1)) (PNum (PInt 9)) (PNum (PInt 7)) (PNum (PInt 7)) (PNum (PInt 2)) false "Exact".
Definition X_m : outside := mkOut (env_l [(chosen [1; 2]%nat [], [27; 27; 0])]) 0 (fun _ l => l) nx_path (fun _ => mkAnswer Infeasible None (fun _ => 0)).
Definition pre_m := [[Source; Cust 1; Cust 2; Sink]].

Lemma service_l u : 0 <= user_service raw_p u.
Proof.
  unfold user_service. destruct (node_data raw_p u) as [r|] eqn:E; [|lra]. apply assoc_node_In in E. cbn in E. repeat (destruct E as [E|E]; [injection E as <- <-; vm_compute; discriminate|]). destruct E.
Qed.
Lemma time_l u x : 0 <= user_time raw_p u x.
Proof.
  unfold user_time. destruct (arc_data raw_p u x) as [e|] eqn:E; [|lra]. apply assoc_arc_In in E. cbn in E. repeat (destruct E as [E|E]; [injection E as <- <- <-; vm_compute; discriminate|]). destruct E.
Qed.
Lemma clocked_l : clocked raw_p.
Proof. left. exists (Cust 1). split; [left; reflexivity|]. split; [cbn; tauto|]. vm_compute. reflexivity. Qed.

Lemma locked_case : exists X sa g a v v' out,
  wf g /\ a_mixed_fleet a = false /\ no_empty_costs g /\ nonneg_user_demands g /\
  (forall u r, node_data g u = Some r -> r_aux_depot r = false) /\
  all_complete (sa_pre sa) /\ sa_initial sa = [] /\ sa_dive sa = false /\ sa_heuristic sa = false /\ sa_greedy sa = false /\ sa_cspy sa = false /\
  (exists u, In u (custs g) /\ ~ In u (riders (sa_pre sa))) /\ clocked g /\
  (forall u, 0 <= user_service g u) /\ (forall u x, 0 <= user_time g u x) /\ fair_times g a /\ time_limit a 8 /\
  (forall x l, Permutation l (x_perms X x l)) /\
  (forall n q, right_answer q (e_master (x_env X) n q)) /\
  (forall n tl q, sound_answer q (e_pricer (x_env X) n tl q)) /\ no_circles (x_env X) /\ finds_paths (x_path X) /\
  (forall r, In r (sa_pre sa) -> route_shape r /\ stops r <> [] /\ route_price g a r < inject_Z 10000000000 /\
     forall c, capacity_of a 0 c -> node_sum (user_demand g) (stops r) <= inject_Z c) /\
  create g a false false false (Some 50) false None false [] = Ok v /\ solve X 9 9 sa v = Ok (v', out) /\
  sa_pre sa = [[Source; Cust 2; Sink]] /\
  sv_routes (out_solved out) = [(1%nat, [Source; Cust 1; Sink]); (2%nat, [Source; Cust 3; Cust 4; Sink]); (3%nat, [Source; Cust 2; Sink])] /\
  best_value (out_solved out) = Ok 84.
Proof.
  assert (A : match create raw_p args_p false false false (Some 50) false None false [] with
    | Ok v => match solve X_l 9 9 (sa_l pre_l) v with
      | Ok r => sv_routes (out_solved (snd r)) = [(1%nat, [Source; Cust 1; Sink]); (2%nat, [Source; Cust 3; Cust 4; Sink]); (3%nat, [Source; Cust 2; Sink])] /\
          best_value (out_solved (snd r)) = Ok 84
      | _ => False end
    | Err _ => False end) by (vm_compute; repeat split; reflexivity).
  destruct (create raw_p args_p false false false (Some 50) false None false []) as [v|e] eqn:C; [|contradiction].
  destruct (solve X_l 9 9 (sa_l pre_l) v) as [[v' out]|e] eqn:S1; [|contradiction]. cbn [fst snd] in A. destruct A as (A1 & A2).
  exists X_l, (sa_l pre_l), raw_p, args_p, v, v', out.
  split; [apply wfb_ok; vm_compute; reflexivity|]. split; [reflexivity|]. split; [apply costs_givenb_ok; vm_compute; reflexivity|].
  split; [apply demandsb_ok; vm_compute; reflexivity|]. split; [apply no_auxb_ok; vm_compute; reflexivity|].
  split; [intros r [<-|[]]; exists [Cust 2]; reflexivity|]. do 5 (split; [reflexivity|]).
  split; [exists (Cust 1); split; [left; reflexivity|]; intros [H|[]]; discriminate|]. split; [exact clocked_l|]. split; [exact service_l|]. split; [exact time_l|].
  split; [exact fair_p|]. split; [split; [reflexivity|discriminate]|].
  split; [intros; apply Permutation_refl|].
  split; [intros n q; destruct (certify_right mvar_eqb mvar_eqb_eq [(chosen [1; 2]%nat [], [27; 3; 27; 0])] q) as (B1 & B2); constructor; [exact B1|exact B2]|].
  split; [intros n tl q; apply propose_sound|]. split; [intros n tl g h k caps o ns dur p _ Z; discriminate|]. split; [exact nx_path_ok|].
  split. { intros r [<-|[]]. split; [apply route_shapeb_ok; vm_compute; reflexivity|]. split; [vm_compute; discriminate|]. split; [vm_compute; reflexivity|].
    intros c [(E & _)|(l & E & _)]; [injection E as <-; vm_compute; discriminate|discriminate]. }
  split; [exact C|]. split; [exact S1|]. split; [reflexivity|]. split; [exact A1|exact A2].
Qed.

(** heuristic_only does not report the preassigned route, and nobody serves its customer *)
Lemma lost_case : exists X sa g a v v' out,
  wf g /\ sa_pre sa = [[Source; Cust 2; Sink]] /\ sa_heuristic sa = true /\ In (Cust 2) (custs g) /\
  create g a false false false None false None false [] = Ok v /\ solve X 9 9 sa v = Ok (v', out) /\
  sv_routes (out_solved out) = [(0%nat, [Source; Cust 1; Sink]); (1%nat, [Source; Cust 3; Cust 4; Sink])] /\
  sv_dropped (out_solved out) = [] /\ best_value (out_solved out) = Ok 57.
Proof.
  assert (A : match create raw_p args_p false false false None false None false [] with
    | Ok v => match solve X_l 9 9 (only_heuristic "Exact" pre_l) v with
      | Ok r => sv_routes (out_solved (snd r)) = [(0%nat, [Source; Cust 1; Sink]); (1%nat, [Source; Cust 3; Cust 4; Sink])] /\
          sv_dropped (out_solved (snd r)) = [] /\ best_value (out_solved (snd r)) = Ok 57
      | _ => False end
    | Err _ => False end) by (vm_compute; repeat split; reflexivity).
  destruct (create raw_p args_p false false false None false None false []) as [v|e] eqn:C; [|contradiction].
  destruct (solve X_l 9 9 (only_heuristic "Exact" pre_l) v) as [[v' out]|e] eqn:S1; [|contradiction]. cbn [fst snd] in A. destruct A as (A1 & A2 & A3).
  exists X_l, (only_heuristic "Exact" pre_l), raw_p, args_p, v, v', out.
  split; [apply wfb_ok; vm_compute; reflexivity|]. split; [reflexivity|]. split; [reflexivity|]. split; [cbn; tauto|]. split; [exact C|]. split; [exact S1|]. auto.
Qed.

(** a preassigned route that breaks the limits is reported, and comes on top of num_vehicles *)
Lemma unchecked_case : exists X sa g a v v' out,
  wf g /\ all_complete (sa_pre sa) /\ sa_heuristic sa = false /\ stop_limit a 1 /\ time_limit a 7 /\ number_of a 0 2 /\
  (forall n q, right_answer q (e_master (x_env X) n q)) /\ (forall n tl q, sound_answer q (e_pricer (x_env X) n tl q)) /\ finds_paths (x_path X) /\
  create g a false false false None false None false [] = Ok v /\ solve X 9 9 sa v = Ok (v', out) /\
  sv_routes (out_solved out) = [(1%nat, [Source; Cust 3; Sink]); (2%nat, [Source; Cust 4; Sink]); (3%nat, [Source; Cust 1; Cust 2; Sink])] /\
  sv_types (out_solved out) = [(1%nat, 0%nat); (2%nat, 0%nat); (3%nat, 0%nat)] /\
  ~ within_time g a [Source; Cust 1; Cust 2; Sink].
Proof.
  assert (A : match create raw_p args_l false false false None false None false [] with
    | Ok v => match solve X_m 9 9 (sa_l pre_m) v with
      | Ok r => sv_routes (out_solved (snd r)) = [(1%nat, [Source; Cust 3; Sink]); (2%nat, [Source; Cust 4; Sink]); (3%nat, [Source; Cust 1; Cust 2; Sink])] /\
          sv_types (out_solved (snd r)) = [(1%nat, 0%nat); (2%nat, 0%nat); (3%nat, 0%nat)]
      | _ => False end
    | Err _ => False end) by (vm_compute; repeat split; reflexivity).
  destruct (create raw_p args_l false false false None false None false []) as [v|e] eqn:C; [|contradiction].
  destruct (solve X_m 9 9 (sa_l pre_m) v) as [[v' out]|e] eqn:S1; [|contradiction]. cbn [fst snd] in A. destruct A as (A1 & A2).
  exists X_m, (sa_l pre_m), raw_p, args_l, v, v', out.
  split; [apply wfb_ok; vm_compute; reflexivity|]. split; [intros r [<-|[]]; exists [Cust 1; Cust 2]; reflexivity|]. split; [reflexivity|].
  split; [split; [reflexivity|discriminate]|]. split; [split; [reflexivity|discriminate]|].
  split; [left; exists (PInt 2); split; [reflexivity|]; split; [intro Z; vm_compute in Z; discriminate|]; split; reflexivity|].
  split; [intros n q; destruct (certify_right mvar_eqb mvar_eqb_eq [(chosen [1; 2]%nat [], [27; 27; 0])] q) as (B1 & B2); constructor; [exact B1|exact B2]|].
  split; [intros n tl q; apply propose_sound|]. split; [exact nx_path_ok|]. split; [exact C|]. split; [exact S1|]. split; [exact A1|]. split; [exact A2|].
  intro H. assert (T : time_limit args_l 7) by (split; [reflexivity|discriminate]). apply H in T. clear - T. vm_compute in T. apply T. reflexivity.
Qed.
