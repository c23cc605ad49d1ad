(** Calls of solve() on a plain problem that the heuristics do not solve. *)
From Verif.Base Require Import Prelude Graph.
From Verif.Spec Require Import Routes Network Inputs Feasible LinProg Pricing MIP Timing Master Run Results Plans Variants Plain.
From Verif.Model Require Import Args Reach Checks Preprocess ClarkeWright Greedy Initial Pricing
  GreedyPricing LPPricing Cspy Master Dive Hyper ColGen Post Schedule Solve.
From Verif.Proofs Require Import RouteLemmas Deciders LPProofs PricingCor Certificate DiveProofs PricingWitness MasterWitness PostEnd Oracles ColGenWitness SolveUser SolveSamples SolveWitness AnyCases AnyWitness WarmWitness.

(** a chain of four customers; the middle arc is the cheapest, and vehicles serve two customers *)
Definition raw_p : rgraph :=
  let no := mkNR None None None None None None None false in
  let nr d := mkNR (Some d) None (Some 1) None None None None false in
  let er c t := mkER (Some (Scalar c)) (Some t) in
  mkGraph [(Source, no); (Cust 1, nr 3); (Cust 2, nr 4); (Cust 3, nr 4); (Cust 4, nr 2); (Sink, no)]
          [((Source, Cust 1), er 11 3); ((Source, Cust 2), er 10 2); ((Source, Cust 3), er 10 2); ((Source, Cust 4), er 9 3);
           ((Cust 1, Cust 2), er 2 1); ((Cust 2, Cust 3), er 1 1); ((Cust 3, Cust 4), er 2 1);
           ((Cust 1, Sink), er 9 3); ((Cust 2, Sink), er 10 2); ((Cust 3, Sink), er 10 2); ((Cust 4, Sink), er 11 3)].
Definition args_p : rargs := mkArgs (PNum (PInt 2)) (PNum (PInt 9)) (PNum (PInt 8)) (PNum (PInt 7)) (PNum (PInt 3)) false "Exact".
Definition ride_p (u w : Z) := ride [Cust u; Cust w] [] [] [] [].
Definition pi_p := by_node [(1%Z, 30); (2%Z, 30); (3%Z, 30); (4%Z, 30)].
Definition env_p (cands : list ((mvar -> Q) * list Q)) : env :=
  mkEnv (fun _ => 0) (fun _ => certify mvar_eqb cands) (fun _ => pi_p) (fun _ _ => answers (fun _ => 0)) (fun _ l => l)
        (fun n _ => propose (if (n <? 6)%nat then [ride_p 1 2] else [ride_p 3 4])) (fun _ _ => true)
        (fun _ _ _ => []) (fun _ _ _ _ _ _ _ => None) (fun _ _ _ => 0%nat) (fun _ => 0%nat) (fun _ _ => 0).
Definition X_p cands : outside := mkOut (env_p cands) 0 (fun _ l => l) nx_path (fun _ => mkAnswer Infeasible None (fun _ => 0)).
Definition sa_p : solve_args := exact_call 4.
Definition sh_p : solve_args := only_heuristic "Exact" [].
Definition cands_p := [(chosen [61; 62]%nat [], [27; 3; 3; 27; 0]); (chosen [1; 2; 3]%nat [], [27; 3; 25; 27; 0])].

Lemma fair_p : fair_times raw_p args_p.
Proof.
  intros D (E & _). injection E as <-. split; [|split].
  - intros u Hu. cbn in Hu. destruct Hu as [<-|[<-|[<-|[<-|[]]]]]; vm_compute; reflexivity.
  - intros u w Hu Hw H1 H2. cbn in H1, H2, Hu, Hw.
    repeat (destruct H1 as [H1|H1]; [injection H1 as <- <-; repeat (destruct H2 as [H2|H2]; [discriminate|]); destruct H2|]). destruct H1.
  - intros u Hu. cbn in Hu. destruct Hu as [<-|[<-|[<-|[<-|[]]]]]; vm_compute; discriminate.
Qed.

Lemma plain_case : exists X sa sh g a v v' out vh outh,
  wf g /\ a_mixed_fleet a = false /\ no_empty_costs g /\ nonneg_user_demands g /\
  (forall u r, node_data g u = Some r -> r_aux_depot r = false) /\
  sa_pre sa = [] /\ sa_initial sa = [] /\ sa_dive sa = false /\ sa_heuristic sa = false /\ sa_greedy sa = false /\ sa_cspy sa = false /\
  0 <= user_service g Source /\ fair_times g a /\ time_limit a 8 /\ number_of a 0 3 /\
  (forall x l, Permutation l (x_perms X x l)) /\
  (forall n q, right_answer q (e_master (x_env X) n q)) /\
  (forall n tl q, sound_answer q (e_pricer (x_env X) n tl q)) /\ no_circles (x_env X) /\ finds_paths (x_path X) /\
  create g a false false false (Some 50) false None false [] = Ok v /\ solve X 9 9 sa v = Ok (v', out) /\
  v_iter v' = 4%nat /\
  sv_routes (out_solved out) = [(1%nat, [Source; Cust 1; Cust 2; Sink]); (2%nat, [Source; Cust 3; Cust 4; Sink])] /\
  best_value (out_solved out) = Ok 60 /\
  sa_heuristic sh = true /\ sa_pre sh = [] /\ sa_strategy sh = sa_strategy sa /\ sa_cspy sh = sa_cspy sa /\
  solve X 9 9 sh v = Ok (vh, outh) /\
  sv_routes (out_solved outh) = [(0%nat, [Source; Cust 1; Sink]); (1%nat, [Source; Cust 2; Cust 3; Sink]); (2%nat, [Source; Cust 4; Sink])] /\
  best_value (out_solved outh) = Ok 82.
Proof.
  assert (A : match create raw_p args_p false false false (Some 50) false None false [] with
    | Ok v => match solve (X_p cands_p) 9 9 sa_p v, solve (X_p cands_p) 9 9 sh_p v with
      | Ok r, Ok h => v_iter (fst r) = 4%nat /\
          sv_routes (out_solved (snd r)) = [(1%nat, [Source; Cust 1; Cust 2; Sink]); (2%nat, [Source; Cust 3; Cust 4; Sink])] /\
          best_value (out_solved (snd r)) = Ok 60 /\
          sv_routes (out_solved (snd h)) = [(0%nat, [Source; Cust 1; Sink]); (1%nat, [Source; Cust 2; Cust 3; Sink]); (2%nat, [Source; Cust 4; Sink])] /\
          best_value (out_solved (snd h)) = Ok 82
      | _, _ => False end
    | Err _ => False end) by (vm_compute; repeat split; reflexivity).
  destruct (create raw_p args_p false false false (Some 50) false None false []) as [v|e] eqn:C; [|contradiction].
  destruct (solve (X_p cands_p) 9 9 sa_p v) as [[v' out]|e] eqn:S1; [|contradiction].
  destruct (solve (X_p cands_p) 9 9 sh_p v) as [[vh outh]|e] eqn:S2; [|contradiction]. cbn [fst snd] in A. destruct A as (A1 & A2 & A3 & A4 & A5).
  exists (X_p cands_p), sa_p, sh_p, raw_p, args_p, v, v', out, vh, outh.
  split; [apply wfb_ok; vm_compute; reflexivity|]. split; [reflexivity|]. split; [apply costs_givenb_ok; vm_compute; reflexivity|].
  split; [apply demandsb_ok; vm_compute; reflexivity|]. split; [apply no_auxb_ok; vm_compute; reflexivity|]. do 6 (split; [reflexivity|]).
  split; [vm_compute; discriminate|]. split; [exact fair_p|]. split; [split; [reflexivity|discriminate]|].
  split; [left; exists (PInt 3); split; [reflexivity|]; split; [intro Z; vm_compute in Z; discriminate|]; split; reflexivity|].
  split; [intros; apply Permutation_refl|].
  split; [intros n q; destruct (certify_right mvar_eqb mvar_eqb_eq cands_p q) as (B1 & B2); constructor; [exact B1|exact B2]|].
  split; [intros n tl q; apply propose_sound|]. split; [intros n tl g h k caps o ns dur p _ Z; discriminate|]. split; [exact nx_path_ok|].
  split; [exact C|]. split; [exact S1|]. split; [exact A1|]. split; [exact A2|]. split; [exact A3|]. do 4 (split; [reflexivity|]). split; [exact S2|]. split; [exact A4|exact A5].
Qed.
