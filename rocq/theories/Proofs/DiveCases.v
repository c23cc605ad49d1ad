(** A dive after which there are too many routes, and calls of solve(dive=True). *)
From Verif.Base Require Import Prelude Graph.
From Verif.Spec Require Import Routes Network Inputs Feasible LinProg Pricing MIP Master Run Results Plans Variants Plain Diving.
From Verif.Model Require Import Args Reach Checks Preprocess ClarkeWright Greedy Initial Pricing
  GreedyPricing LPPricing Cspy Master Dive Hyper ColGen Post Schedule Solve.
From Verif.Proofs Require Import RouteLemmas Deciders LPProofs PricingCor Certificate DiveProofs PricingWitness MasterWitness PostEnd Oracles ColGenWitness SolveUser SolveSamples SolveWitness AnyCases AnyWitness WarmWitness SessionWitness PlainWitness.

(** Two groups of three customers, at most two on a route and four vehicles. In the relaxation each pair is used half. *)
Definition raw_6 : rgraph :=
  let er c := mkER (Some (Scalar c)) None in
  let c := mkNR (Some 1) None None None None None None false in
  mkGraph [(Source, mkNR None None None None None None None false); (Cust 1, c); (Cust 2, c); (Cust 3, c); (Cust 4, c); (Cust 5, c); (Cust 6, c);
           (Sink, mkNR None None None None None None None false)]
          (map (fun i => ((Source, Cust i), er 4)) [1;2;3;4;5;6]%Z ++
           [((Cust 1, Cust 2), er 2); ((Cust 2, Cust 3), er 2); ((Cust 1, Cust 3), er 2);
            ((Cust 4, Cust 5), er 2); ((Cust 5, Cust 6), er 2); ((Cust 4, Cust 6), er 2)] ++
           map (fun i => ((Cust i, Sink), er 4)) [1;2;3;4;5;6]%Z).
Definition args_6 : rargs := mkArgs (PNum (PInt 2)) PNone PNone PNone (PNum (PInt 4)) false "Exact".
Definition ini_6 : list (list node) :=
  map trip [[Cust 1; Cust 2]; [Cust 2; Cust 3]; [Cust 1; Cust 3]; [Cust 4; Cust 5]; [Cust 5; Cust 6]; [Cust 4; Cust 6];
            [Cust 1]; [Cust 2]; [Cust 3]; [Cust 4]; [Cust 5]; [Cust 6]].
Definition mix_6 (l h : list nat) (x : mvar) : Q :=
  match x with Y (CNat i) => if existsb (Nat.eqb i) l then 1 else if existsb (Nat.eqb i) h then (1 # 2) else 0 | _ => 0 end.
Definition plans_6 : list ((mvar -> Q) * list Q) :=
  [(mix_6 [] [1;2;3;4;5;6]%nat, [5; 5; 5; 5; 5; 5; 0]); (mix_6 [1;9]%nat [4;5;6]%nat, [2; 2; 8; 5; 5; 5; 0; 0; 6])].
Definition pot_6 (v : node) : Q := match v with Source => 0 | Cust 1 => 4 | Cust 2 => 1 | Cust 3 => -2 # 1 | Cust 4 => 4 | Cust 5 => 1 | Cust _ => -2 # 1 | Sink => -3 # 1 end.
Definition env_6 (neg : vgraph -> bool) : env :=
  mkEnv (fun _ => 0) (fun _ => certify mvar_eqb plans_6) (fun _ => by_node [(1%Z, 5); (2%Z, 5); (3%Z, 5); (4%Z, 5); (5%Z, 5); (6%Z, 5)])
        (fun _ _ => certify mvar_eqb plans_6) (fun _ l => l)
        (fun _ _ => certify pvar_eqb [(onec (arcs (trip [Cust 1; Cust 2])), [0; 0; 0; 0; 0; 0; 7; 2; 0; -3 # 1])])
        (fun _ => neg)
        (fun _ _ _ => []) (fun _ _ _ _ _ _ _ => None) (fun _ _ _ => 0%nat) (fun _ => 0%nat) (fun _ _ => 0).
Definition X_6 neg : outside := mkOut (env_6 neg) 0 (fun _ l => l) nx_path (fun _ => mkAnswer Infeasible None (fun _ => 0)).
Definition neg_6 (h : vgraph) : bool := negb (potentialb h pot_6).
Definition sa_6 (dive : bool) : solve_args := mkSA ini_6 [] "Exact" false true None dive false None 1 false.
Definition new_6 := create raw_6 args_6 false false false None false None false [].
Definition found_6 : list (nat * list node) :=
  [(1%nat, [Source; Cust 1; Cust 2; Sink]); (2%nat, [Source; Cust 4; Cust 5; Sink]); (3%nat, [Source; Cust 5; Cust 6; Sink]);
   (4%nat, [Source; Cust 4; Cust 6; Sink]); (5%nat, [Source; Cust 3; Sink])].
Definition better_6 : list (nat * list node) :=
  [(1%nat, [Source; Cust 1; Cust 2; Sink]); (2%nat, [Source; Cust 3; Sink]); (3%nat, [Source; Cust 4; Cust 5; Sink]); (4%nat, [Source; Cust 6; Sink])].

Lemma raw_6_acceptable : wf raw_6 /\ acceptable raw_6 args_6 "Exact".
Proof.
  assert (W : wf raw_6) by (apply wfb_ok; vm_compute; reflexivity). split; [exact W|].
  apply preparedb_iff; [exact W|reflexivity|apply costs_givenb_ok; vm_compute; reflexivity|apply demandsb_ok; vm_compute; reflexivity|apply timesb_ok; vm_compute; reflexivity|].
  vm_compute. reflexivity.
Qed.
Lemma oracles_6 neg :
  (forall n q, right_answer q (e_master (x_env (X_6 neg)) n q)) /\ (forall n i q, right_answer q (e_dive (x_env (X_6 neg)) n i q)) /\
  (forall n tl q, right_answer q (e_pricer (x_env (X_6 neg)) n tl q)) /\ finds_paths (x_path (X_6 neg)).
Proof.
  split; [intros n q; destruct (certify_right mvar_eqb mvar_eqb_eq plans_6 q); constructor; assumption|].
  split; [intros n i q; destruct (certify_right mvar_eqb mvar_eqb_eq plans_6 q); constructor; assumption|].
  split; [intros n tl q; cbn [X_6 x_env env_6 e_pricer]; match goal with |- right_answer q (certify pvar_eqb ?l q) => destruct (certify_right pvar_eqb pvar_eqb_eq l q) end; constructor; assumption|].
  exact nx_path_ok.
Qed.
Lemma neg_6_right h : neg_6 h = false -> ~ negative_cycle h.
Proof.
  intro H. unfold neg_6 in H. apply negb_false_iff in H.
  apply (potential_no_negative_cycle h pot_6). intros p q Hab. unfold potentialb in H. apply (proj1 (forallb_forall _ _) H) in Hab. apply Qle_bool_iff. exact Hab.
Qed.
Lemma call_6 neg : (neg = neg_6 \/ neg = fun _ => true) -> exists v v' out, new_6 = Ok v /\ solve (X_6 neg) 3 3 (sa_6 true) v = Ok (v', out) /\
  sv_routes (out_solved out) = found_6 /\ sv_dropped (out_solved out) = [] /\ best_value (out_solved out) = Ok 48.
Proof.
  intro N. assert (A : match (let* v := new_6 in solve (X_6 neg) 3 3 (sa_6 true) v) with
    | Ok r => sv_routes (out_solved (snd r)) = found_6 /\ sv_dropped (out_solved (snd r)) = [] /\ best_value (out_solved (snd r)) = Ok 48
    | Err _ => False end) by (destruct N as [->| ->]; vm_compute; repeat split; reflexivity).
  destruct new_6 as [v|e] eqn:C; cbn [bind] in A; [|contradiction].
  destruct (solve (X_6 neg) 3 3 (sa_6 true) v) as [[v' out]|e] eqn:S; [|contradiction]. exists v, v', out. auto.
Qed.

Lemma short_6 k r : k = 0%nat -> (List.length (stops r) <= 2)%nat -> respects raw_6 args_6 false false false k r.
Proof.
  intros -> L. constructor; try discriminate.
  - intros c [(E & _)|(l & E & _)]; discriminate.
  - intros n (E & _). injection E as <-. lia.
  - intros D (E & _). discriminate.
Qed.
Lemma better_ok : planned raw_6 args_6 false false false None false better_6 (fun i => Some 0%nat) [] [0; 0; 0; 0]%nat.
Proof.
  constructor.
  - reflexivity.
  - reflexivity.
  - intros i k H. apply nth_error_In in H. cbn in H. destruct H as [<-|[<-|[<-|[<-|[]]]]]; reflexivity.
  - cbn [map snd better_6]. repeat (apply Forall2_cons); [| | | |apply Forall2_nil];
      (split; [apply route_shapeb_ok; vm_compute; reflexivity|]; intros _; split; [|apply short_6; [reflexivity|vm_compute; lia]];
       intros x y Hxy; cbn in Hxy; repeat (destruct Hxy as [Hxy|Hxy]; [injection Hxy as <- <-; vm_compute; tauto|]); destruct Hxy).
  - intros u Hu. left. vm_compute in Hu. repeat (destruct Hu as [<-|Hu]; [split; [vm_compute; reflexivity|intros []]|]). destruct Hu.
  - intros r u Hr Hu U1 U2. cbn in Hr. destruct Hr as [<-|[<-|[<-|[<-|[]]]]]; cbn in Hu;
      repeat (destruct Hu as [<-|Hu]; [try tauto; vm_compute; tauto|]); destruct Hu.
  - split; [constructor|]. split; [intros u []|reflexivity].
  - intros _ k n [(x & E & _ & -> & ->)|(l & x & E & _)]; [|discriminate]. injection E as <-. split; [vm_compute; discriminate|discriminate].
Qed.

Theorem dive_exceeds : exists X sa g a v v' out routes types ks q,
  wf g /\ acceptable g a (sa_strategy sa) /\ sa_pre sa = [] /\ sa_cspy sa = false /\ sa_dive sa = true /\ sa_heuristic sa = false /\
  sa_greedy sa = false /\ sa_time_limit sa = None /\ sa_max_iter sa = None /\
  (forall n q, right_answer q (e_master (x_env X) n q)) /\ (forall n i q, right_answer q (e_dive (x_env X) n i q)) /\
  (forall n l, e_order (x_env X) n l = l) /\
  (forall n tl q, right_answer q (e_pricer (x_env X) n tl q)) /\
  (forall n h, e_negative (x_env X) n h = false -> ~ negative_cycle h) /\ finds_paths (x_path X) /\
  create g a false false false None false None false [] = Ok v /\ solve X 3 3 sa v = Ok (v', out) /\
  number_of a 0 4 /\ List.length (sv_routes (out_solved out)) = 5%nat /\
  visits (Cust 5) (map snd (sv_routes (out_solved out))) = 2%nat /\ best_value (out_solved out) = Ok q /\
  (forall i r, In (i, r) routes -> In r (sa_initial sa)) /\
  planned g a false false false None false routes types [] ks /\ plan_cost g a None ks routes [] < q.
Proof.
  destruct (call_6 neg_6 (or_introl eq_refl)) as (v & v' & out & C & S & R & D & B).
  exists (X_6 neg_6), (sa_6 true), raw_6, args_6, v, v', out, better_6, (fun _ => Some 0%nat), [0; 0; 0; 0]%nat, 48.
  destruct raw_6_acceptable as (W & A). destruct (oracles_6 neg_6) as (O1 & O2 & O3 & O5).
  split; [exact W|]. split; [exact A|]. do 7 (split; [reflexivity|]). split; [exact O1|]. split; [exact O2|]. split; [reflexivity|]. split; [exact O3|].
  split; [intros n h; exact (neg_6_right h)|]. split; [exact O5|]. split; [exact C|]. split; [exact S|].
  split; [left; exists (PInt 4); split; [reflexivity|]; split; [intro Z; vm_compute in Z; discriminate|auto]|].
  rewrite R. split; [reflexivity|]. split; [vm_compute; reflexivity|]. split; [exact B|].
  split; [|split; [exact better_ok|vm_compute; reflexivity]].
  intros i r Hr. cbn in Hr. repeat (destruct Hr as [Hr|Hr]; [injection Hr as <- <-; vm_compute; tauto|]). destruct Hr.
Qed.

Theorem dive_case : exists X sa g a v v' out,
  wf g /\ no_empty_costs g /\ nonneg_user_demands g /\ sa_initial sa <> [] /\
  (forall r, In r (sa_initial sa) -> route_shape r /\ stops r <> []) /\
  (forall u r, node_data g u = Some r -> r_aux_depot r = false) /\
  sa_pre sa = [] /\ sa_dive sa = true /\ sa_heuristic sa = false /\ sa_greedy sa = false /\ sa_cspy sa = false /\
  0 <= user_service g Source /\
  (forall r k, first_route (sa_initial sa) g false r -> first_carrier a (node_sum (user_demand g) (stops r)) k ->
     respects g a false false false k r) /\
  (forall n q, sound_answer q (e_master (x_env X) n q)) /\
  (forall n i q, sound_answer q (e_dive (x_env X) n i q)) /\
  (forall n l z, In z (e_order (x_env X) n l) -> In z l) /\
  (forall n tl q, sound_answer q (e_pricer (x_env X) n tl q)) /\ no_circles (x_env X) /\ finds_paths (x_path X) /\
  create g a false false false None false None false [] = Ok v /\ solve X 3 3 sa v = Ok (v', out) /\
  List.length (sv_routes (out_solved out)) = 5%nat /\ best_value (out_solved out) = Ok 48.
Proof.
  destruct (call_6 (fun _ => true) (or_intror eq_refl)) as (v & v' & out & C & S & R & D & B).
  exists (X_6 (fun _ => true)), (sa_6 true), raw_6, args_6, v, v', out.
  destruct (oracles_6 (fun _ => true)) as (O1 & O2 & O3 & O5).
  split; [apply wfb_ok; vm_compute; reflexivity|]. split; [apply costs_givenb_ok; vm_compute; reflexivity|].
  split; [apply demandsb_ok; vm_compute; reflexivity|]. split; [discriminate|].
  assert (Sh : forall r, In r ini_6 -> route_shape r /\ stops r <> [] /\ (List.length (stops r) <= 2)%nat).
  { intros r Hr. cbn in Hr. repeat (destruct Hr as [<-|Hr]; [split; [apply route_shapeb_ok; vm_compute; reflexivity|split; [vm_compute; discriminate|vm_compute; lia]]|]). destruct Hr. }
  split; [intros r Hr; destruct (Sh r Hr) as (Z1 & Z2 & _); auto|].
  split; [apply no_auxb_ok; vm_compute; reflexivity|]. do 5 (split; [reflexivity|]). split; [vm_compute; discriminate|].
  split; [intros r k Hr Hk; apply short_6; [exact Hk|apply (Sh r Hr)]|].
  split; [intros n q; apply O1|]. split; [intros n i q; apply O2|]. split; [intros n l z Hz; exact Hz|]. split; [intros n tl q; apply O3|].
  split; [intros n tl g h k caps o ns dur p _ Z; discriminate|]. split; [exact O5|]. split; [exact C|]. split; [exact S|].
  rewrite R. split; [reflexivity|exact B].
Qed.

(** Without given routes. *)
Definition X_d : outside :=
  mkOut (mkEnv (fun _ => 0) (fun _ => certify mvar_eqb cands_p) (fun _ => pi_p) (fun _ _ => certify mvar_eqb cands_p) (fun _ l => l)
        (e_pricer (env_p cands_p)) (fun _ _ => true)
        (fun _ _ _ => []) (fun _ _ _ _ _ _ _ => None) (fun _ _ _ => 0%nat) (fun _ => 0%nat) (fun _ _ => 0)) 0 (fun _ l => l) nx_path (fun _ => mkAnswer Infeasible None (fun _ => 0)).
Definition sa_d : solve_args := mkSA [] [] "Exact" false true None true false (Some 4%Z) 1 false.
Theorem dive_plain_case : exists X sa g a v v' out,
  wf g /\ a_mixed_fleet a = false /\ no_empty_costs g /\ nonneg_user_demands g /\
  (forall u r, node_data g u = Some r -> r_aux_depot r = false) /\
  sa_pre sa = [] /\ sa_initial sa = [] /\ sa_dive sa = true /\ sa_heuristic sa = false /\ sa_greedy sa = false /\ sa_cspy sa = false /\
  0 <= user_service g Source /\ fair_times g a /\ time_limit a 8 /\
  (forall x l, Permutation l (x_perms X x l)) /\
  (forall n q, sound_answer q (e_master (x_env X) n q)) /\
  (forall n i q, sound_answer q (e_dive (x_env X) n i q)) /\
  (forall n l z, In z (e_order (x_env X) n l) -> In z l) /\
  (forall n tl q, sound_answer q (e_pricer (x_env X) n tl q)) /\ no_circles (x_env X) /\ finds_paths (x_path X) /\
  create g a false false false (Some 50) false None false [] = Ok v /\ solve X 9 9 sa v = Ok (v', out) /\
  sv_routes (out_solved out) = [(1%nat, [Source; Cust 1; Cust 2; Sink]); (2%nat, [Source; Cust 3; Cust 4; Sink])] /\
  best_value (out_solved out) = Ok 60.
Proof.
  assert (A : match create raw_p args_p false false false (Some 50) false None false [] with
    | Ok v => match solve X_d 9 9 sa_d v with
      | Ok r => sv_routes (out_solved (snd r)) = [(1%nat, [Source; Cust 1; Cust 2; Sink]); (2%nat, [Source; Cust 3; Cust 4; Sink])] /\
          best_value (out_solved (snd r)) = Ok 60
      | Err _ => False end
    | Err _ => False end) by (vm_compute; split; reflexivity).
  destruct (create raw_p args_p false false false (Some 50) false None false []) as [v|e] eqn:C; [|contradiction].
  destruct (solve X_d 9 9 sa_d v) as [[v' out]|e] eqn:S1; [|contradiction]. cbn [snd] in A. destruct A as (A1 & A2).
  exists X_d, sa_d, raw_p, args_p, v, v', out.
  split; [apply wfb_ok; vm_compute; reflexivity|]. split; [reflexivity|]. split; [apply costs_givenb_ok; vm_compute; reflexivity|].
  split; [apply demandsb_ok; vm_compute; reflexivity|]. split; [apply no_auxb_ok; vm_compute; reflexivity|]. do 6 (split; [reflexivity|]).
  split; [vm_compute; discriminate|]. split; [exact fair_p|]. split; [split; [reflexivity|discriminate]|].
  split; [intros; apply Permutation_refl|].
  split; [intros n q; apply (certify_right mvar_eqb mvar_eqb_eq cands_p q)|]. split; [intros n i q; apply (certify_right mvar_eqb mvar_eqb_eq cands_p q)|].
  split; [intros n l z Hz; exact Hz|].
  split; [intros n tl q; apply propose_sound|]. split; [intros n tl g h k caps o ns dur p _ Z; discriminate|]. split; [exact nx_path_ok|].
  split; [exact C|]. split; [exact S1|]. split; [exact A1|exact A2].
Qed.
