(** Concrete problems for the theorems about solve(). *)
From Verif.Base Require Import Prelude Graph.
From Verif.Spec Require Import Routes Network Inputs Feasible LinProg Results Plans.
From Verif.Model Require Import Args Reach Checks Preprocess ClarkeWright Greedy Initial Pricing
  GreedyPricing LPPricing Cspy Master Dive Hyper ColGen Post Schedule Solve.
From Verif.Proofs Require Import RouteLemmas Deciders MasterWitness Oracles ColGenWitness SolveUser.

(** Four customers; customer 4 has no arc to Sink, and arcs between 1, 2, 3 only. *)
Definition raw2 : rgraph :=
  let nr d := mkNR (Some d) None (Some 1) None None None None false in
  let er c t := mkER (Some (Scalar c)) (Some t) in
  mkGraph [(Source, mkNR None None None None None None None false); (Cust 1, nr 3); (Cust 2, nr 4); (Cust 3, nr 5); (Cust 4, nr 2); (Sink, mkNR None None None None None None None false)]
          [((Source, Cust 1), er 10 3); ((Source, Cust 2), er 11 2); ((Source, Cust 3), er 12 1); ((Source, Cust 4), er 5 0);
           ((Cust 1, Cust 2), er 2 1); ((Cust 2, Cust 1), er 3 1); ((Cust 2, Cust 3), er 3 2);
           ((Cust 1, Sink), er 10 3); ((Cust 2, Sink), er 11 2); ((Cust 3, Sink), er 12 1)].
Definition args2_with (c d : Z) : rargs :=
  mkArgs (PNum (PInt 3)) (PNum (PInt c)) (PNum (PInt d)) (PNum (PInt 7)) PNone false "BestEdges1".
Definition args2 : rargs := args2_with 8 9.

Definition only_heuristic (s : string) (pre : list (list node)) : solve_args :=
  mkSA [] pre s false true None false false None 1 true.
Definition X2 : outside :=
  mkOut (quiet (mkGraph [] []) (fun _ => 0) (fun _ => answers (fun _ => 0)) (fun _ _ => 0) []) 0 (fun _ l => l)
        (fun _ _ => None) (fun _ => mkAnswer Infeasible None (fun _ => 0)).
Definition routes2 : list (nat * list node) :=
  [(0%nat, [Source; Cust 1; Cust 2; Sink]); (1%nat, [Source; Cust 3; Sink]); (2%nat, [Source; Cust 4; Sink])].
Definition value2 : Q := 10000000073.

Lemma raw2_wf : wf raw2. Proof. apply wfb_ok. vm_compute. reflexivity. Qed.

Definition costs_givenb (g : rgraph) : bool :=
  forallb (fun p => match r_cost (snd p) with Some (Vec []) => false | _ => true end) (gedges g).
Lemma costs_givenb_ok g : costs_givenb g = true -> no_empty_costs g.
Proof.
  unfold costs_givenb. rewrite forallb_forall. intros H u w e He C. unfold arc_data in He. apply assoc_arc_In in He.
  specialize (H _ He). cbn in H. rewrite C in H. discriminate.
Qed.
Definition demandsb (g : rgraph) : bool := forallb (fun p => Qle_bool 0 (or_zero (r_demand (snd p)))) (gnodes g).
Lemma demandsb_ok g : demandsb g = true -> nonneg_user_demands g.
Proof.
  unfold demandsb. rewrite forallb_forall. intros H u. unfold user_demand. destruct (node_data g u) as [d|] eqn:E; [|lra].
  unfold node_data in E. apply assoc_node_In in E. apply Qle_bool_iff. exact (H _ E).
Qed.
Definition timesb (g : rgraph) : bool := forallb (fun p => Qle_bool 0 (or_zero (r_time (snd p)))) (gedges g).
Lemma timesb_ok g : timesb g = true -> forall u w, 0 <= user_time g u w.
Proof.
  unfold timesb. rewrite forallb_forall. intros H u w. unfold user_time. destruct (arc_data g u w) as [e|] eqn:E; [|lra].
  unfold arc_data in E. apply assoc_arc_In in E. apply Qle_bool_iff. exact (H _ E).
Qed.
Lemma raw2_costs : no_empty_costs raw2. Proof. apply costs_givenb_ok. vm_compute. reflexivity. Qed.
Lemma raw2_demands : nonneg_user_demands raw2. Proof. apply demandsb_ok. vm_compute. reflexivity. Qed.
Lemma raw2_times : forall u w, 0 <= user_time raw2 u w. Proof. apply timesb_ok. vm_compute. reflexivity. Qed.

Definition made (g : rgraph) (a : rargs) : res vrp := create g a false false false None false None false [].
Definition preparedb (g : rgraph) (a : rargs) (s : string) : bool :=
  match made g a with
  | Ok v => match prepare v (only_heuristic s []) with Ok _ => true | Err _ => false end
  | Err _ => false
  end.
Lemma preparedb_iff g a s : wf g -> a_mixed_fleet a = false -> no_empty_costs g -> nonneg_user_demands g ->
  (forall u w, 0 <= user_time g u w) -> (preparedb g a s = true <-> acceptable g a s).
Proof.
  intros W M NE ND NT. pose proof (accepted_exactly g a None false None false [] (only_heuristic s []) W M NE ND NT eq_refl) as A.
  change (sa_strategy (only_heuristic s [])) with s in A. rewrite <- A. unfold preparedb, made.
  destruct (create g a false false false None false None false []) as [v|e] eqn:E.
  - destruct (prepare v (only_heuristic s [])) as [r|e] eqn:E2; split; intro H; try discriminate; eauto.
    destruct H as (v' & r & H1 & H2). injection H1 as <-. congruence.
  - split; [discriminate|]. intros (v & r & H & _). discriminate.
Qed.

Lemma acceptable_cases : wf raw2 /\ no_empty_costs raw2 /\ nonneg_user_demands raw2 /\
  (forall u v, 0 <= user_time raw2 u v) /\ acceptable raw2 args2 "BestEdges1" /\
  ~ acceptable raw2 (args2_with 3 9) "BestEdges1" /\ ~ acceptable raw2 (args2_with 10 1) "BestEdges1" /\
  ~ acceptable raw2 args2 "Fastest".
Proof.
  split; [exact raw2_wf|]. split; [exact raw2_costs|]. split; [exact raw2_demands|]. split; [exact raw2_times|].
  rewrite <- !(preparedb_iff raw2) by (first [exact raw2_wf | reflexivity | exact raw2_costs | exact raw2_demands | exact raw2_times]).
  split; [vm_compute; reflexivity|]. split; [|split]; intro H; vm_compute in H; discriminate.
Qed.

Definition heur (g : rgraph) (a : rargs) (pre : list (list node)) : res (vrp * outcome) :=
  let* v := made g a in solve X2 5 5 (only_heuristic "BestEdges1" pre) v.

Lemma heur_ok g a pre (P : outcome -> Prop) :
  match heur g a pre with Ok r => P (snd r) | Err _ => False end ->
  exists v v' out, made g a = Ok v /\ solve X2 5 5 (only_heuristic "BestEdges1" pre) v = Ok (v', out) /\ P out.
Proof.
  unfold heur. destruct (made g a) as [v|e] eqn:E; cbn [bind]; [|tauto].
  destruct (solve X2 5 5 (only_heuristic "BestEdges1" pre) v) as [[v' out]|e] eqn:E2; [|tauto]. intro H. exists v, v', out. auto.
Qed.

Lemma heuristic_case : wf raw2 /\ no_empty_costs raw2 /\ nonneg_user_demands raw2 /\
  (forall u v, 0 <= user_time raw2 u v) /\ acceptable raw2 args2 "BestEdges1" /\
  exists v v' out, create raw2 args2 false false false None false None false [] = Ok v /\
    solve X2 5 5 (only_heuristic "BestEdges1" []) v = Ok (v', out) /\
    sv_routes (out_solved out) = routes2 /\ best_value (out_solved out) = Ok value2 /\
    (1 < List.length routes2)%nat.
Proof.
  destruct acceptable_cases as (H1 & H2 & H3 & H4 & H5 & _). do 5 (split; [assumption|]).
  apply (heur_ok raw2 args2 [] (fun out => sv_routes (out_solved out) = routes2 /\ best_value (out_solved out) = Ok value2 /\ (1 < List.length routes2)%nat)).
  vm_compute. split; [reflexivity|]. split; [reflexivity|]. lia.
Qed.

Theorem heuristic_loses_locked : exists X sa g a v v' out u,
  wf g /\ acceptable g a (sa_strategy sa) /\ sa_heuristic sa = true /\
  (forall l, Permutation l (x_perms X 10 l)) /\
  create g a false false false None false None false [] = Ok v /\
  solve X 5 5 sa v = Ok (v', out) /\
  In u (custs g) /\ (exists r, In r (sa_pre sa) /\ In u r) /\
  forall i r, In (i, r) (sv_routes (out_solved out)) -> ~ In u r.
Proof.
  destruct (heur_ok raw2 args2 [[Source; Cust 3; Sink]]
    (fun out => sv_routes (out_solved out) = [(0%nat, [Source; Cust 1; Cust 2; Sink]); (1%nat, [Source; Cust 4; Sink])]))
    as (v & v' & out & C & Sv & Hr); [vm_compute; reflexivity|].
  exists X2, (only_heuristic "BestEdges1" [[Source; Cust 3; Sink]]), raw2, args2, v, v', out, (Cust 3).
  split; [exact raw2_wf|]. split; [apply acceptable_cases|]. split; [reflexivity|]. split; [intro l; reflexivity|]. split; [exact C|]. split; [exact Sv|].
  split; [cbn; tauto|]. split; [eexists; split; [left; reflexivity|cbn; tauto]|].
  rewrite Hr. intros i r [E|[E|[]]] Hi; injection E as <- <-; cbn in Hi; intuition discriminate.
Qed.
