(** Concrete second calls of solve(), and a locked route that exceeds the fleet. *)
From Verif.Base Require Import Prelude Graph.
From Verif.Spec Require Import Routes Network Inputs Feasible LinProg Pricing MIP Master Run Results Plans.
From Verif.Model Require Import Args Reach Checks Preprocess ClarkeWright Greedy Initial Pricing
  GreedyPricing LPPricing Cspy Master Dive Hyper ColGen Post Schedule Solve.
From Verif.Proofs Require Import RouteLemmas Deciders LPProofs PricingCor Certificate DiveProofs PricingWitness MasterWitness PostEnd Oracles ColGenWitness SolveUser SolveSamples SolveWitness.

Definition two (X : outside) (sa : solve_args) (g : rgraph) (a : rargs) (f : nat) : res (vrp * outcome * res (vrp * outcome)) :=
  let* v := made g a in let* r := solve X f f sa v in Ok (fst r, snd r, solve X f f sa (fst r)).
Lemma two_ok X sa g a f (P : vrp -> outcome -> res (vrp * outcome) -> Prop) :
  match two X sa g a f with Ok r => P (fst (fst r)) (snd (fst r)) (snd r) | Err _ => False end ->
  exists v v1 out, made g a = Ok v /\ solve X f f sa v = Ok (v1, out) /\ P v1 out (solve X f f sa v1).
Proof.
  unfold two. destruct (made g a) as [v|e] eqn:E; cbn [bind]; [|tauto].
  destruct (solve X f f sa v) as [[v' out]|e] eqn:E2; cbn [bind fst snd]; [|tauto]. intro H. exists v, v', out. auto.
Qed.

(** four customers, two of the arcs between them are cheap *)
Definition raw7 : rgraph :=
  let nr := mkNR (Some 1) None None None None None None false in
  let er c := mkER (Some (Scalar c)) None in
  mkGraph [(Source, mkNR None None None None None None None false); (Cust 1, nr); (Cust 2, nr); (Cust 3, nr); (Cust 4, nr);
           (Sink, mkNR None None None None None None None false)]
          [((Source, Cust 1), er 10); ((Source, Cust 2), er 10); ((Source, Cust 3), er 10); ((Source, Cust 4), er 10);
           ((Cust 1, Sink), er 10); ((Cust 2, Sink), er 10); ((Cust 3, Sink), er 10); ((Cust 4, Sink), er 10);
           ((Cust 1, Cust 2), er 5); ((Cust 3, Cust 4), er 5)].
Definition args7 : rargs := mkArgs PNone PNone PNone PNone PNone false "Exact".
Definition pot7 (v : node) : Q := match v with Source => 0 | Sink => -15 # 1 | Cust 2 | Cust 4 => -5 # 1 | Cust _ => 10 end.
Definition env7 : env :=
  mkEnv (fun _ => 0)
        (fun _ => certify mvar_eqb [(by_name [(1%nat, 1); (2%nat, 1); (3%nat, 1); (4%nat, 1)], [20; 20; 20; 20]);
                                    (by_name [(3%nat, 1); (4%nat, 1); (5%nat, 1)], [5; 20; 20; 20]);
                                    (by_name [(5%nat, 1); (6%nat, 1)], [5; 20; 5; 20])])
        (fun n => if (n <? 3)%nat then by_node [(1%Z, 20); (2%Z, 20); (3%Z, 20); (4%Z, 20)]
                  else by_node [(1%Z, 5); (2%Z, 20); (3%Z, 20); (4%Z, 20)])
        (fun _ _ => answers (fun _ => 0)) (fun _ l => l)
        (fun _ _ => certify pvar_eqb
           [(onec [(Source, Cust 1); (Cust 1, Cust 2); (Cust 2, Sink)], [10; -5 # 1; 10; -5 # 1; 0; -15 # 1; 0]);
            (onec [(Source, Cust 3); (Cust 3, Cust 4); (Cust 4, Sink)], [10; -5 # 1; 10; -5 # 1; 0; -15 # 1; 0])])
        (fun _ h => negb (potentialb h pot7))
        (fun _ _ _ => []) (fun _ _ _ _ _ _ _ => None) (fun _ _ _ => 0%nat) (fun _ => 0%nat) (fun _ _ => 0).
Definition X7 : outside := mkOut env7 0 (fun _ l => l) nx_path (fun _ => mkAnswer Infeasible None (fun _ => 0)).
Definition sa7 (m : option Z) : solve_args :=
  mkSA [trip [Cust 1]; trip [Cust 2]; trip [Cust 3]; trip [Cust 4]] [] "Exact" false true None false false m 1 false.

(** The arc (1,2) is too heavy, and without it customer 2 is out of reach *)
Definition raw8 : rgraph :=
  let nr := mkNR (Some 3) None None None None None None false in
  let er t := mkER (Some (Scalar 1)) (Some t) in
  mkGraph [(Source, mkNR None None None None None None None false); (Cust 1, nr); (Cust 2, nr);
           (Sink, mkNR None None None None None None None false)]
          [((Source, Cust 1), er 1); ((Source, Cust 2), er 20); ((Cust 1, Cust 2), er 1);
           ((Cust 1, Sink), er 1); ((Cust 2, Sink), er 1)].
Definition args8 : rargs := mkArgs PNone (PNum (PInt 5)) (PNum (PInt 10)) PNone PNone false "BestEdges1".
(** a fleet of one vehicle and a complete preassigned route *)
Definition args9 : rargs := mkArgs PNone PNone PNone PNone (PNum (PInt 1)) false "Exact".
Definition X9 : outside := mkOut (mkEnv (fun _ => 0)
        (fun _ => certify mvar_eqb [(by_name [(1%nat, 1)], [2]);(by_name [(1%nat, 1)], [2;0])])
        (fun n => by_node [(2%Z, 2)])
        (fun _ _ => answers (fun _ => 0)) (fun _ l => l)
        (fun _ _ => certify pvar_eqb
           [(onec [(Source, Cust 2); (Cust 2, Sink)], [1; 0; 0; 0])])
        (fun _ h => negb (potentialb h (fun v => match v with Source => 0 | Sink => 0 | _ => 1 end)))
        (fun _ _ _ => []) (fun _ _ _ _ _ _ _ => None) (fun _ _ _ => 0%nat) (fun _ => 0%nat) (fun _ _ => 0)) 0 (fun _ l => l) nx_path (fun _ => mkAnswer Infeasible None (fun _ => 0)).
Definition sa9 : solve_args := mkSA [trip [Cust 2]] [trip [Cust 1]] "Exact" false true None false false None 1 false.


Lemma accepted g a s : wf g -> a_mixed_fleet a = false -> costs_givenb g = true -> demandsb g = true ->
  timesb g = true -> preparedb g a s = true -> acceptable g a s.
Proof.
  intros W M C D T P. apply (preparedb_iff g a s W M); auto using costs_givenb_ok, demandsb_ok, timesb_ok.
Qed.
Lemma raw7_wf : wf raw7. Proof. apply wfb_ok. vm_compute. reflexivity. Qed.
Lemma raw8_wf : wf raw8. Proof. apply wfb_ok. vm_compute. reflexivity. Qed.

Theorem fixed_cost_twice : exists X sa g a v v1 v2 out1 out2 q1 q2,
  wf g /\ acceptable g a (sa_strategy sa) /\ sa_pre sa = [] /\ sa_heuristic sa = true /\
  (forall l, Permutation l (x_perms X 10 l)) /\
  create g a false false false None false None false [] = Ok v /\
  solve X 5 5 sa v = Ok (v1, out1) /\ solve X 5 5 sa v1 = Ok (v2, out2) /\
  sv_routes (out_solved out2) = sv_routes (out_solved out1) /\
  best_value (out_solved out1) = Ok q1 /\ best_value (out_solved out2) = Ok q2 /\ q1 < q2.
Proof.
  destruct (two_ok X2 (only_heuristic "BestEdges1" []) raw2 args2 5
    (fun _ out r => match r with Ok r => sv_routes (out_solved (snd r)) = sv_routes (out_solved out) /\
       best_value (out_solved out) = Ok value2 /\ best_value (out_solved (snd r)) = Ok 10000000094 | Err _ => False end))
    as (v & v1 & out & C & S1 & H); [vm_compute; repeat split; reflexivity|].
  destruct (solve X2 5 5 (only_heuristic "BestEdges1" []) v1) as [[v2 out2]|e] eqn:S2; [|destruct H].
  destruct H as (H1 & H2 & H3).
  exists X2, (only_heuristic "BestEdges1" []), raw2, args2, v, v1, v2, out, out2, value2, 10000000094.
  split; [exact raw2_wf|]. split; [apply accepted; first [exact raw2_wf | vm_compute; reflexivity]|].
  split; [reflexivity|]. split; [reflexivity|]. split; [intro l; reflexivity|].
  split; [exact C|]. split; [exact S1|]. split; [exact S2|]. split; [exact H1|]. split; [exact H2|]. split; [exact H3|].
  reflexivity.
Qed.

Theorem iterations_twice : exists X sa g a v v1 v2 out1 out2 q1 q2,
  wf g /\ acceptable g a (sa_strategy sa) /\ sa_pre sa = [] /\ py_truthy (a_fixed_cost a) = false /\
  sa_cspy sa = false /\ sa_dive sa = false /\ sa_heuristic sa = false /\ sa_max_iter sa = Some 2%Z /\
  (forall x l, Permutation l (x_perms X x l)) /\
  (forall n q, sound_answer q (e_master (x_env X) n q) /\
     (a_status (e_master (x_env X) n q) = Optimal -> forall y, feasible y q ->
      value (a_value (e_master (x_env X) n q)) (p_obj q) <= value y (p_obj q))) /\
  (forall n tl q, sound_answer q (e_pricer (x_env X) n tl q) /\
     (a_status (e_pricer (x_env X) n tl q) = Optimal -> forall y, feasible y q ->
      value (a_value (e_pricer (x_env X) n tl q)) (p_obj q) <= value y (p_obj q))) /\
  (forall n h, e_negative (x_env X) n h = false -> ~ negative_cycle h) /\
  finds_paths (x_path X) /\
  create g a false false false None false None false [] = Ok v /\
  solve X 9 9 sa v = Ok (v1, out1) /\ solve X 9 9 sa v1 = Ok (v2, out2) /\
  best_value (out_solved out1) = Ok q1 /\ best_value (out_solved out2) = Ok q2 /\ q1 < q2.
Proof.
  destruct (two_ok X7 (sa7 (Some 2%Z)) raw7 args7 9
    (fun _ out r => match r with Ok r =>
       best_value (out_solved out) = Ok 50 /\ best_value (out_solved (snd r)) = Ok 65 | Err _ => False end))
    as (v & v1 & out & C & S1 & H); [vm_compute; repeat split; reflexivity|].
  destruct (solve X7 9 9 (sa7 (Some 2%Z)) v1) as [[v2 out2]|e] eqn:S2; [|destruct H].
  destruct H as (H2 & H3).
  exists X7, (sa7 (Some 2%Z)), raw7, args7, v, v1, v2, out, out2, 50, 65.
  split; [exact raw7_wf|]. split; [apply accepted; first [exact raw7_wf | vm_compute; reflexivity]|].
  do 6 (split; [reflexivity|]). split; [intros x l; reflexivity|].
  split; [intros n q; apply (certify_right mvar_eqb mvar_eqb_eq)|].
  split; [intros n tl q; apply (certify_right pvar_eqb pvar_eqb_eq)|].
  split.
  { intros n h H. cbn [X7 x_env env7 e_negative] in H. apply negb_false_iff in H. apply (potential_no_negative_cycle h pot7).
    intros p q Hab. unfold potentialb in H. apply (proj1 (forallb_forall _ _) H) in Hab. apply Qle_bool_iff. exact Hab. }
  split; [exact nx_path_ok|].
  split; [exact C|]. split; [exact S1|]. split; [exact S2|]. split; [exact H2|]. split; [exact H3|].
  reflexivity.
Qed.

Theorem duration_twice : exists X sa g a v v1 out,
  wf g /\ acceptable g a (sa_strategy sa) /\ sa_pre sa = [] /\ sa_heuristic sa = true /\
  py_truthy (a_fixed_cost a) = false /\ (forall l, Permutation l (x_perms X 10 l)) /\
  create g a false false false None false None false [] = Ok v /\
  solve X 5 5 sa v = Ok (v1, out) /\ solve X 5 5 sa v1 = Err ValueError.
Proof.
  destruct (two_ok X2 (only_heuristic "BestEdges1" []) raw8 args8 5
    (fun _ _ r => match r with Ok _ => False | Err e => e = ValueError end))
    as (v & v1 & out & C & S1 & H); [vm_compute; reflexivity|].
  destruct (solve X2 5 5 (only_heuristic "BestEdges1" []) v1) as [[v2 out2]|e] eqn:S2; [destruct H|subst e].
  exists X2, (only_heuristic "BestEdges1" []), raw8, args8, v, v1, out.
  split; [exact raw8_wf|]. split; [apply accepted; first [exact raw8_wf | vm_compute; reflexivity]|].
  do 3 (split; [reflexivity|]). split; [intro l; reflexivity|]. auto.
Qed.

Theorem preassigned_twice : exists X sa g a v v1 out,
  wf g /\ acceptable g a (sa_strategy sa) /\ sa_heuristic sa = true /\
  (forall l, Permutation l (x_perms X 10 l)) /\
  (forall r, In r (sa_pre sa) -> route_shape r /\ along (arc_list g) r /\ stops r <> []) /\
  create g a false false false None false None false [] = Ok v /\
  solve X 5 5 sa v = Ok (v1, out) /\ solve X 5 5 sa v1 = Err ValueError.
Proof.
  set (sa := only_heuristic "BestEdges1" [[Source; Cust 3; Sink]]).
  destruct (two_ok X2 sa raw2 args2 5
    (fun _ _ r => match r with Ok _ => False | Err e => e = ValueError end))
    as (v & v1 & out & C & S1 & H); [vm_compute; reflexivity|].
  destruct (solve X2 5 5 sa v1) as [[v2 out2]|e] eqn:S2; [destruct H|subst e].
  exists X2, sa, raw2, args2, v, v1, out.
  split; [exact raw2_wf|]. split; [apply accepted; first [exact raw2_wf | vm_compute; reflexivity]|].
  split; [reflexivity|]. split; [intro l; reflexivity|].
  split. { intros r [<-|[]]. split; [|split; [|discriminate]].
    - exists [Cust 3]. split; [reflexivity|]. split; [constructor; [intros []|constructor]|]. intros x [<-|[]]. split; discriminate.
    - intros u w H'. cbn in H'. repeat (destruct H' as [H'|H']; [injection H' as <- <-; cbn; tauto|]). destruct H'. }
  auto.
Qed.

Theorem fleet_exceeded : exists X sa g a v v' out n,
  wf g /\ acceptable g a (sa_strategy sa) /\ a_num_vehicles a = PNum (PInt (Z.of_nat n)) /\ (0 < n)%nat /\
  sa_cspy sa = false /\ sa_dive sa = false /\ sa_heuristic sa = false /\
  (forall x l, Permutation l (x_perms X x l)) /\
  (forall n q, sound_answer q (e_master (x_env X) n q) /\
     (a_status (e_master (x_env X) n q) = Optimal -> forall y, feasible y q ->
      value (a_value (e_master (x_env X) n q)) (p_obj q) <= value y (p_obj q))) /\
  (forall n tl q, sound_answer q (e_pricer (x_env X) n tl q) /\
     (a_status (e_pricer (x_env X) n tl q) = Optimal -> forall y, feasible y q ->
      value (a_value (e_pricer (x_env X) n tl q)) (p_obj q) <= value y (p_obj q))) /\
  (forall n h, e_negative (x_env X) n h = false -> ~ negative_cycle h) /\
  finds_paths (x_path X) /\
  create g a false false false None false None false [] = Ok v /\
  solve X 9 9 sa v = Ok (v', out) /\
  (n < List.length (sv_routes (out_solved out)))%nat /\
  (forall i r, In (i, r) (sv_routes (out_solved out)) -> stops r <> []).
Proof.
  destruct (solve_ok X9 sa9 raw8 args9 9
    (fun _ out => sv_routes (out_solved out) = [(1%nat, trip [Cust 2]); (2%nat, trip [Cust 1])]))
    as (v & v' & out & C & Sv & Hr); [vm_compute; reflexivity|].
  exists X9, sa9, raw8, args9, v, v', out, 1%nat.
  split; [exact raw8_wf|]. split; [apply accepted; first [exact raw8_wf | vm_compute; reflexivity]|].
  split; [reflexivity|]. split; [repeat constructor|]. do 3 (split; [reflexivity|]). split; [intros x l; reflexivity|].
  split; [intros n q; apply (certify_right mvar_eqb mvar_eqb_eq)|].
  split; [intros n tl q; apply (certify_right pvar_eqb pvar_eqb_eq)|].
  split.
  { intros n h H. cbn [X9 x_env e_negative] in H. apply negb_false_iff in H.
    apply (potential_no_negative_cycle h (fun v => match v with Source => 0 | Sink => 0 | _ => 1 end)).
    intros p q Hab. unfold potentialb in H. apply (proj1 (forallb_forall _ _) H) in Hab. apply Qle_bool_iff. exact Hab. }
  split; [exact nx_path_ok|]. split; [exact C|]. split; [exact Sv|]. rewrite Hr. split; [cbn; repeat constructor|].
  intros i r [E|[E|[]]]; injection E as <- <-; discriminate.
Qed.

(** A second call that meets the conditions: the same plan, at the same price. *)
Definition args10 : rargs := mkArgs (PNum (PInt 3)) (PNum (PInt 8)) (PNum (PInt 9)) PNone PNone false "BestEdges1".
Lemma twice_case : wf raw2 /\ no_empty_costs raw2 /\ py_truthy (a_fixed_cost args10) = false /\
  time_limit args10 9 /\
  (forall D, time_limit args10 D -> (forall u w, 0 <= user_time raw2 u w) /\
     forall u, In u (custs raw2) -> user_time raw2 Source u + user_time raw2 u Sink <= inject_Z D) /\
  (forall l, Permutation l (x_perms X2 10 l)) /\
  exists v v1 out, create raw2 args10 false false false None false None false [] = Ok v /\
    solve X2 5 5 (only_heuristic "BestEdges1" []) v = Ok (v1, out) /\
    sv_routes (out_solved out) = routes2 /\
    (exists u w, In (u, w) (arc_list raw2) /\ ~ In (u, w) (arc_list (v_graph v1))).
Proof.
  split; [exact raw2_wf|]. split; [exact raw2_costs|]. split; [reflexivity|].
  split; [split; [reflexivity|discriminate]|].
  split. { intros D (E & _). injection E as <-. split; [exact raw2_times|]. intros u H. cbn in H.
           repeat (destruct H as [<-|H]; [vm_compute; discriminate|]). destruct H. }
  split; [intro l; reflexivity|].
  destruct (solve_ok X2 (only_heuristic "BestEdges1" []) raw2 args10 5
    (fun v1 out => sv_routes (out_solved out) = routes2 /\ existsb (fun a => negb (mem_arc a (arc_list (v_graph v1)))) (arc_list raw2) = true))
    as (v & v1 & out & C & Sv & Hr & Hp); [vm_compute; repeat split; reflexivity|].
  exists v, v1, out. split; [exact C|]. split; [exact Sv|]. split; [exact Hr|].
  apply existsb_exists in Hp as ((u, w) & Hi & Hn). exists u, w. split; [exact Hi|].
  apply mem_arc_false, negb_true_iff. exact Hn.
Qed.
