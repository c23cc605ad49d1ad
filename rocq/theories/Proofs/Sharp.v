(** Calls that show that the conditions of C87, C92, C94, C95 and C102 are needed. *)
From Verif.Base Require Import Prelude Graph.
From Verif.Spec Require Import Routes Network Inputs Feasible LinProg Pricing MIP Timing Master Run Results Plans Variants Plain Periodic.
From Verif.Model Require Import Args Reach Checks Preprocess ClarkeWright Greedy Initial Pricing
  GreedyPricing LPPricing Cspy Master Dive Hyper ColGen Post Schedule Solve.
From Verif.Proofs Require Import RouteLemmas Deciders LPProofs PricingCor Certificate DiveProofs PricingWitness MasterWitness PostEnd Oracles ColGenWitness SolveUser SolveSamples SolveWitness AnyCases AnyWitness WarmWitness LabelWitness PlainWitness.

(** optimal masters, and a labelling algorithm that finds nothing *)
Definition env_s (cands : list ((mvar -> Q) * list Q)) (pi : mrow -> Q) : env :=
  mkEnv (fun _ => 0) (fun _ => certify mvar_eqb cands) (fun _ => pi)
        (fun _ _ => answers (fun _ => 0)) (fun _ l => l)
        (fun _ _ _ => mkAnswer Infeasible None (fun _ => 0)) (fun _ _ => false)
        (fun _ _ _ => []) (fun n _ => labeller []) (fun _ _ _ => 0%nat) (fun _ => 0%nat) (fun _ _ => 0).
Definition X_s cands pi : outside := mkOut (env_s cands pi) 0 (fun _ l => l) nx_path (fun _ => mkAnswer Infeasible None (fun _ => 0)).
Definition sa_s (initial : list (list node)) (heur : bool) : solve_args := mkSA initial [] "Exact" true true None false false None 1 heur.
Definition node_r (d : Q) := mkNR (Some d) None None None None None None false.
Definition er (c t : Q) := mkER (Some (Scalar c)) (Some t).

Lemma oracles_s cands pi :
  (forall x l, Permutation l (x_perms (X_s cands pi) x l)) /\
  (forall n q, right_answer q (e_master (x_env (X_s cands pi)) n q)) /\
  (forall n tl h, sound_labelling h (e_label (x_env (X_s cands pi)) n tl h)) /\ finds_paths (x_path (X_s cands pi)).
Proof.
  split; [intros x l; apply Permutation_refl|].
  split; [intros n q; destruct (certify_right mvar_eqb mvar_eqb_eq cands q) as (B1 & B2); constructor; [exact B1|exact B2]|].
  split; [intros n tl h; apply labeller_sound|exact nx_path_ok].
Qed.

Lemma call_s g a w both cands pi initial heur (P : vrp -> outcome -> Prop) :
  match create g a w false both None false None false [] with
  | Ok v => match solve (X_s cands pi) 9 9 (sa_s initial heur) v with Ok r => P (fst r) (snd r) | Err _ => False end
  | Err _ => False end ->
  exists v v' out, create g a w false both None false None false [] = Ok v /\
    solve (X_s cands pi) 9 9 (sa_s initial heur) v = Ok (v', out) /\ P v' out.
Proof.
  destruct (create g a w false both None false None false []) as [v|e] eqn:E; [|tauto].
  destruct (solve (X_s cands pi) 9 9 (sa_s initial heur) v) as [[v' out]|e] eqn:E2; [|tauto]. intro H. exists v, v', out. auto.
Qed.

Theorem label_collects_too_much : exists X sa g a v v' out i r c,
  wf g /\ no_empty_costs g /\ nonneg_user_demands g /\ (forall u w, 0 <= user_time g u w) /\
  sa_pre sa = [] /\ sa_initial sa = [] /\ sa_cspy sa = true /\ sa_dive sa = false /\ sa_heuristic sa = false /\
  (forall n q, right_answer q (e_master (x_env X) n q)) /\
  (forall n tl h, sound_labelling h (e_label (x_env X) n tl h)) /\ finds_paths (x_path X) /\
  create g a false false true None false None false [] = Ok v /\ solve X 9 9 sa v = Ok (v', out) /\
  In (i, r) (sv_routes (out_solved out)) /\ capacity_of a 0 c /\
  inject_Z c < node_sum (user_collect g) (stops r).
Proof.
  set (g := raw13 (Some 100) 0 0 0 None). set (a := mkArgs PNone (PNum (PInt 10)) PNone PNone PNone false "Exact").
  set (cs := [(by_name [(1%nat, 1)], [2])]). set (pi := by_node [(1%Z, 2)]).
  destruct (call_s g a false true cs pi [] false (fun v' out => sv_routes (out_solved out) = [(1%nat, [Source; Cust 1; Sink])]))
    as (v & v' & out & C & So & R); [vm_compute; reflexivity|].
  destruct (oracles_s cs pi) as (_ & O2 & O3 & O4).
  exists (X_s cs pi), (sa_s [] false), g, a, v, v', out, 1%nat, [Source; Cust 1; Sink], 10%Z.
  split; [apply wfb_ok; vm_compute; reflexivity|]. split; [apply costs_givenb_ok; vm_compute; reflexivity|].
  split; [apply demandsb_ok; vm_compute; reflexivity|]. split; [apply timesb_ok; vm_compute; reflexivity|].
  do 5 (split; [reflexivity|]). do 3 (split; [assumption|]). split; [exact C|]. split; [exact So|]. split; [rewrite R; left; reflexivity|].
  split; [left; split; [reflexivity|]; split; [discriminate|reflexivity]|]. vm_compute. reflexivity.
Qed.

(** the way between the customers is short *)
Definition raw_b : rgraph := mkGraph [(Source, node_r 0); (Cust 1, node_r 1); (Cust 2, node_r 1); (Sink, node_r 0)]
  [((Source, Cust 1), er 10 0); ((Source, Cust 2), er 10 0); ((Cust 1, Sink), er 10 0); ((Cust 2, Sink), er 10 0); ((Cust 1, Cust 2), er 1 0)].

Theorem given_too_long : exists X sa g a v v' out i r n,
  wf g /\ no_empty_costs g /\ nonneg_user_demands g /\ (forall u w, 0 <= user_time g u w) /\
  sa_pre sa = [] /\ sa_initial sa = [r] /\ route_shape r /\ along (arc_list g) r /\
  sa_cspy sa = true /\ sa_dive sa = false /\ sa_heuristic sa = false /\
  (forall n q, right_answer q (e_master (x_env X) n q)) /\
  (forall n tl h, sound_labelling h (e_label (x_env X) n tl h)) /\ finds_paths (x_path X) /\
  create g a false false false None false None false [] = Ok v /\ solve X 9 9 sa v = Ok (v', out) /\
  In (i, r) (sv_routes (out_solved out)) /\ stop_limit a n /\ (n < Z.of_nat (List.length (stops r)))%Z.
Proof.
  set (a := mkArgs (PNum (PInt 1)) PNone PNone PNone PNone false "Exact"). set (r := [Source; Cust 1; Cust 2; Sink]).
  set (cs := [(by_name [(1%nat, 1)], [11; 10])]). set (pi := by_node [(1%Z, 11); (2%Z, 10)]).
  destruct (call_s raw_b a false false cs pi [r] false (fun v' out => sv_routes (out_solved out) = [(1%nat, r)]))
    as (v & v' & out & C & So & R); [vm_compute; reflexivity|].
  destruct (oracles_s cs pi) as (_ & O2 & O3 & O4).
  exists (X_s cs pi), (sa_s [r] false), raw_b, a, v, v', out, 1%nat, r, 1%Z.
  split; [apply wfb_ok; vm_compute; reflexivity|]. split; [apply costs_givenb_ok; vm_compute; reflexivity|].
  split; [apply demandsb_ok; vm_compute; reflexivity|]. split; [apply timesb_ok; vm_compute; reflexivity|].
  do 2 (split; [reflexivity|]). split.
  { exists [Cust 1; Cust 2]. split; [reflexivity|]. split; [repeat constructor; cbn; intuition discriminate|]. intros u [<-|[<-|[]]]; split; discriminate. }
  split; [intros x y H; cbn in H |- *; intuition|]. do 3 (split; [reflexivity|]). do 3 (split; [assumption|]). split; [exact C|]. split; [exact So|].
  split; [rewrite R; left; reflexivity|]. split; [split; [reflexivity|discriminate]|reflexivity].
Qed.

(** going from 1 to 2 takes 30, the way back 1 *)
Definition raw_c : rgraph := mkGraph [(Source, node_r 0); (Cust 1, node_r 1); (Cust 2, node_r 1); (Sink, node_r 0)]
  [((Source, Cust 1), er 10 30); ((Source, Cust 2), er 10 10); ((Cust 1, Sink), er 10 10); ((Cust 2, Sink), er 10 10);
   ((Cust 1, Cust 2), er 1 30); ((Cust 2, Cust 1), er 5 1)].

Theorem plain_too_long : exists X sa g a v v' out i r D,
  wf g /\ a_mixed_fleet a = false /\ no_empty_costs g /\ nonneg_user_demands g /\ (forall u w, 0 <= user_time g u w) /\
  (forall u, user_service g u == 0) /\ (forall u, In u (custs g) -> path_sum (user_time g) [Source; u; Sink] <= inject_Z D) /\
  sa_pre sa = [] /\ sa_initial sa = [] /\ sa_cspy sa = true /\ sa_dive sa = false /\ sa_greedy sa = false /\ sa_heuristic sa = false /\
  (forall x l, Permutation l (x_perms X x l)) /\ (forall n q, right_answer q (e_master (x_env X) n q)) /\
  (forall n tl h, sound_labelling h (e_label (x_env X) n tl h)) /\ finds_paths (x_path X) /\
  create g a false false false None false None false [] = Ok v /\ solve X 9 9 sa v = Ok (v', out) /\
  In (i, r) (sv_routes (out_solved out)) /\ time_limit a D /\ inject_Z D < path_sum (user_time g) r.
Proof.
  set (a := mkArgs PNone PNone (PNum (PInt 50)) PNone PNone false "Exact"). set (r := [Source; Cust 1; Cust 2; Sink]).
  set (cs := [(by_name [(3%nat, 1)], [11; 10])]). set (pi := by_node [(1%Z, 11); (2%Z, 10)]).
  destruct (call_s raw_c a false false cs pi [] false (fun v' out => sv_routes (out_solved out) = [(1%nat, r)]))
    as (v & v' & out & C & So & R); [vm_compute; reflexivity|].
  destruct (oracles_s cs pi) as (O1 & O2 & O3 & O4).
  exists (X_s cs pi), (sa_s [] false), raw_c, a, v, v', out, 1%nat, r, 50%Z.
  split; [apply wfb_ok; vm_compute; reflexivity|]. split; [reflexivity|]. split; [apply costs_givenb_ok; vm_compute; reflexivity|].
  split; [apply demandsb_ok; vm_compute; reflexivity|]. split; [apply timesb_ok; vm_compute; reflexivity|].
  split. { intro u. unfold user_service. destruct (node_data raw_c u) as [x|] eqn:E; [|reflexivity]. unfold node_data in E. apply assoc_node_In in E. cbn in E.
    repeat (destruct E as [E|E]; [injection E as _ <-; reflexivity|]). destruct E. }
  split. { intros u Hu. cbn in Hu. destruct Hu as [<-|[<-|[]]]; vm_compute; discriminate. }
  do 6 (split; [reflexivity|]). do 4 (split; [assumption|]). split; [exact C|]. split; [exact So|].
  split; [rewrite R; left; reflexivity|]. split; [split; [reflexivity|discriminate]|reflexivity].
Qed.

(** one vehicle has to go from 3 to 2, which is expensive *)
Definition raw_d : rgraph := mkGraph [(Source, node_r 0); (Cust 1, node_r 1); (Cust 2, node_r 1); (Cust 3, node_r 1); (Sink, node_r 0)]
  [((Source, Cust 1), er 1 0); ((Source, Cust 2), er 40 0); ((Source, Cust 3), er 5 0);
   ((Cust 1, Sink), er 10 0); ((Cust 2, Sink), er 10 0); ((Cust 3, Sink), er 8 0);
   ((Cust 1, Cust 2), er 10 0); ((Cust 1, Cust 3), er 5 0); ((Cust 3, Cust 2), er 50 0)].
Definition pi_d (r : mrow) : Q := match r with Visit (Cust 1) => 1 | Visit (Cust 2) => 52 | Visit (Cust 3) => 113 | Fleet 0 => - (100) | _ => 0 end.

Theorem heuristic_cheaper : exists X sa sh g a v v' out vh outh,
  wf g /\ a_mixed_fleet a = false /\ no_empty_costs g /\ nonneg_user_demands g /\ (forall D, ~ time_limit a D) /\
  sa_pre sa = [] /\ sa_initial sa = [] /\ sa_cspy sa = true /\ sa_dive sa = false /\ sa_greedy sa = false /\ sa_heuristic sa = false /\
  (forall x l, Permutation l (x_perms X x l)) /\ (forall n q, right_answer q (e_master (x_env X) n q)) /\
  (forall n tl h, sound_labelling h (e_label (x_env X) n tl h)) /\ finds_paths (x_path X) /\
  create g a false false false None false None false [] = Ok v /\ solve X 9 9 sa v = Ok (v', out) /\
  sa_heuristic sh = true /\ sa_pre sh = [] /\ sa_strategy sh = sa_strategy sa /\ sa_cspy sh = sa_cspy sa /\
  solve X 9 9 sh v = Ok (vh, outh) /\
  number_of a 0 1 /\ List.length (sv_routes (out_solved out)) = 1%nat /\ List.length (sv_routes (out_solved outh)) = 2%nat /\
  best_value (out_solved out) = Ok 66 /\ best_value (out_solved outh) = Ok 34.
Proof.
  set (a := mkArgs PNone PNone PNone PNone (PNum (PInt 1)) false "Exact").
  set (cs := [(by_name [(39%nat, 1)], [1; 52; 113; 100]); (by_name [(39%nat, 1)], [1; 52; 113; - (100)])]).
  assert (A : match create raw_d a false false false None false None false [] with
    | Ok v => match solve (X_s cs pi_d) 9 9 (sa_s [] false) v, solve (X_s cs pi_d) 9 9 (sa_s [] true) v with
      | Ok r, Ok h => List.length (sv_routes (out_solved (snd r))) = 1%nat /\ List.length (sv_routes (out_solved (snd h))) = 2%nat /\
          best_value (out_solved (snd r)) = Ok 66 /\ best_value (out_solved (snd h)) = Ok 34
      | _, _ => False end
    | Err _ => False end) by (vm_compute; repeat split; reflexivity).
  destruct (create raw_d a false false false None false None false []) as [v|e] eqn:C; [|contradiction].
  destruct (solve (X_s cs pi_d) 9 9 (sa_s [] false) v) as [[v' out]|e] eqn:S1; [|contradiction].
  destruct (solve (X_s cs pi_d) 9 9 (sa_s [] true) v) as [[vh outh]|e] eqn:S2; [|contradiction]. cbn [fst snd] in A.
  destruct (oracles_s cs pi_d) as (O1 & O2 & O3 & O4).
  exists (X_s cs pi_d), (sa_s [] false), (sa_s [] true), raw_d, a, v, v', out, vh, outh.
  split; [apply wfb_ok; vm_compute; reflexivity|]. split; [reflexivity|]. split; [apply costs_givenb_ok; vm_compute; reflexivity|].
  split; [apply demandsb_ok; vm_compute; reflexivity|]. split; [intros D (Z & _); discriminate|].
  do 6 (split; [reflexivity|]). do 4 (split; [assumption|]). split; [exact C|]. split; [exact S1|]. do 4 (split; [reflexivity|]). split; [exact S2|].
  split; [left; exists (PInt 1); split; [reflexivity|]; split; [intro Z; vm_compute in Z; discriminate|]; split; reflexivity|exact A].
Qed.

(** [mixed_worse] over two days *)
Theorem week_worse : exists X sa g a v v' out q,
  wf g /\ a_mixed_fleet a = true /\ nonneg_user_demands g /\ sa_pre sa = [] /\ sa_dive sa = false /\ sa_heuristic sa = false /\
  (forall r, In r (sa_initial sa) -> route_shape r /\ along (arc_list g) r /\
     forall k, first_carrier a (node_sum (user_demand g) (stops r)) k -> respects g a false false false k r) /\
  (forall n q, right_answer q (e_master (x_env X) n q)) /\
  (forall n tl q, sound_answer q (e_pricer (x_env X) n tl q)) /\ (forall q, sound_answer q (x_days X q)) /\ finds_paths (x_path X) /\
  create g a false false false None false (Some 2%Z) false [] = Ok v /\ solve X 9 9 sa v = Ok (v', out) /\
  best_value (out_solved out) = Ok q /\
  exists r1 r2, In r1 (sa_initial sa) /\ In r2 (sa_initial sa) /\
    (forall u, In u (custs g) -> Z.of_nat (visits u [r1; r2]) = user_freq g u) /\
    first_carrier a (node_sum (user_demand g) (stops r1)) 0 /\ first_carrier a (node_sum (user_demand g) (stops r2)) 0 /\
    fleet_price g a [(0%nat, r1); (0%nat, r2)] == 40 /\ q == 150.
Proof.
  assert (Q : exists v v' out, create raw_m args_m false false false None false (Some 2%Z) false [] = Ok v /\
    solve (out_w cands_m [] (by_node [])) 9 9 (sa_w given_m 1) v = Ok (v', out) /\ best_value (out_solved out) = Ok 150).
  { assert (E : match create raw_m args_m false false false None false (Some 2%Z) false [] with
      | Ok v => match solve (out_w cands_m [] (by_node [])) 9 9 (sa_w given_m 1) v with
                | Ok r => match best_value (out_solved (snd r)) with Ok q => q = 150 | Err _ => False end | Err _ => False end
      | Err _ => False end) by (vm_compute; reflexivity).
    destruct (create raw_m args_m false false false None false (Some 2%Z) false []) as [v|e]; [|destruct E]. exists v.
    destruct (solve (out_w cands_m [] (by_node [])) 9 9 (sa_w given_m 1) v) as [(v' & out)|e]; [|destruct E]. exists v', out. cbn [snd] in E.
    destruct (best_value (out_solved out)) as [q|e]; [|destruct E]. subst q. auto. }
  destruct Q as (v & v' & out & C & So & B).
  exists (out_w cands_m [] (by_node [])), (sa_w given_m 1), raw_m, args_m, v, v', out, 150.
  split; [apply wfb_ok; vm_compute; reflexivity|]. split; [reflexivity|]. split.
  { intro u. unfold user_demand. destruct (node_data raw_m u) as [x|] eqn:E; [|lra]. unfold node_data in E. apply assoc_node_In in E. cbn in E.
    repeat (destruct E as [E|E]; [injection E as _ <-; cbn; lra|]). destruct E. }
  do 3 (split; [reflexivity|]). split.
  { assert (Re : forall r k, (forall c, capacity_of args_m k c -> node_sum (user_demand raw_m) (stops r) <= inject_Z c) -> respects raw_m args_m false false false k r).
    { intros r k L. constructor; try discriminate; [exact L| |]; intros n (E & _); discriminate. }
    assert (Ca : forall q k c, first_carrier args_m q k -> capacity_of args_m k c -> q <= inject_Z c).
    { intros q k c ((n & E1 & E2) & _) [(E & _)|(l & E & E3)]; [discriminate|]. injection E as <-. cbn [args_m a_load_capacity] in E1. rewrite E3 in E1. injection E1 as <-. exact E2. }
    intros r Hr. assert (Sh : route_shape r /\ along (arc_list raw_m) r).
    { cbn in Hr. destruct Hr as [<-|[<-|[<-|[]]]]; split.
      - exists [Cust 1; Cust 2]. split; [reflexivity|]. split; [repeat constructor; cbn; intuition discriminate|]. intros u [<-|[<-|[]]]; split; discriminate.
      - intros x y H. cbn in H |- *. intuition.
      - exists [Cust 1]. split; [reflexivity|]. split; [repeat constructor; cbn; intuition discriminate|]. intros u [<-|[]]; split; discriminate.
      - intros x y H. cbn in H |- *. intuition.
      - exists [Cust 2]. split; [reflexivity|]. split; [repeat constructor; cbn; intuition discriminate|]. intros u [<-|[]]; split; discriminate.
      - intros x y H. cbn in H |- *. intuition. }
    destruct Sh as (A1 & A2). split; [exact A1|]. split; [exact A2|]. intros k Hk. apply Re. intros c Hc. exact (Ca _ k c Hk Hc). }
  split; [intros; apply right_w|]. split; [intros n tl q; apply propose_sound|].
  split; [intro q; constructor; cbn; [intros [Z|(Z & _)]; congruence|discriminate]|]. split; [exact nx_path_ok|]. split; [exact C|]. split; [exact So|]. split; [exact B|].
  exists (trip [Cust 1]), (trip [Cust 2]). split; [cbn; auto|]. split; [cbn; auto|]. split.
  { intros u Hu. cbn in Hu. destruct Hu as [<-|[<-|[]]]; reflexivity. }
  split; [|split; [|split; [vm_compute; reflexivity|reflexivity]]].
  - split; [exists (PInt 5); split; [reflexivity|vm_compute; discriminate]|intros j n Hj; lia].
  - split; [exists (PInt 5); split; [reflexivity|vm_compute; discriminate]|intros j n Hj; lia].
Qed.
