(** Calls that influence later ones: a dive on another problem, and the number of vehicles of a periodic problem. *)
From Verif.Base Require Import Prelude Graph.
From Verif.Spec Require Import Routes Network Inputs Feasible LinProg Pricing MIP Master Run Results Plans Variants Periodic Session.
From Verif.Model Require Import Args Reach Checks Preprocess ClarkeWright Greedy Initial Pricing
  GreedyPricing LPPricing Cspy Master Dive Hyper ColGen Post Schedule Solve.
From Verif.Proofs Require Import RouteLemmas Deciders LPProofs PricingCor Certificate DiveProofs PricingWitness MasterWitness PostEnd Oracles ColGenWitness SolveUser SolveSamples SolveWitness AnyWitness PerWitness.

(* ------------------------------------------------------------------ *)
(** ** The list of columns not to fix *)

(** Three customers, at most two on a route. In the relaxation each pair is used half. *)
Definition raw_t : rgraph :=
  let er c := mkER (Some (Scalar c)) None in
  let c := mkNR (Some 1) None None None None None None false in
  mkGraph [(Source, mkNR None None None None None None None false); (Cust 1, c); (Cust 2, c); (Cust 3, c);
           (Sink, mkNR None None None None None None None false)]
          [((Source, Cust 1), er 4); ((Source, Cust 2), er 4); ((Source, Cust 3), er 4);
           ((Cust 1, Cust 2), er 2); ((Cust 2, Cust 3), er 2); ((Cust 1, Cust 3), er 2);
           ((Cust 1, Sink), er 4); ((Cust 2, Sink), er 4); ((Cust 3, Sink), er 4)].
Definition args_t : rargs := mkArgs (PNum (PInt 2)) PNone PNone PNone PNone false "Exact".
Definition ini_t : list (list node) :=
  [trip [Cust 1; Cust 2]; trip [Cust 2; Cust 3]; trip [Cust 1; Cust 3]; trip [Cust 1]; trip [Cust 2]; trip [Cust 3]].
Definition taken_t (l : list nat) (q : Q) (x : mvar) : Q :=
  match x with Y (CNat i) => if existsb (Nat.eqb i) l then q else 0 | _ => 0 end.
Definition plans_t : list ((mvar -> Q) * list Q) :=
  [(taken_t [1; 2; 3]%nat (1 # 2), [5; 5; 5]); (taken_t [1; 6]%nat 1, [2; 2; 8; 0; 6]);
   (taken_t [2; 4]%nat 1, [8; 2; 2; 0; 6]); (taken_t [3; 5]%nat 1, [2; 8; 2; 0; 6])].
Definition pot_t (v : node) : Q := match v with Source => 0 | Cust 1 => 4 | Cust 2 => 1 | Cust _ => -2 # 1 | Sink => -3 # 1 end.
Definition env_t : env :=
  mkEnv (fun _ => 0) (fun _ => certify mvar_eqb plans_t) (fun _ => by_node [(1%Z, 5); (2%Z, 5); (3%Z, 5)])
        (fun _ _ => certify mvar_eqb plans_t) (fun _ l => l)
        (fun _ _ => certify pvar_eqb [(onec (arcs (trip [Cust 1; Cust 2])), [0; 0; 0; 7; 2; 0; -3 # 1])])
        (fun _ h => negb (potentialb h pot_t))
        (fun _ _ _ => []) (fun _ _ _ _ _ _ _ => None) (fun _ _ _ => 0%nat) (fun _ => 0%nat) (fun _ _ => 0).
Definition X_t : outside := mkOut env_t 0 (fun _ l => l) nx_path (fun _ => mkAnswer Infeasible None (fun _ => 0)).
Definition sa_t (dive : bool) : solve_args := mkSA ini_t [] "Exact" false true None dive false None 1 false.
Definition new_t tabu := create raw_t args_t false false false None false None false tabu.

Lemma raw_t_acceptable : wf raw_t /\ acceptable raw_t args_t "Exact".
Proof.
  assert (W : wf raw_t) by (apply wfb_ok; vm_compute; reflexivity). split; [exact W|].
  apply preparedb_iff; [exact W|reflexivity|apply costs_givenb_ok; vm_compute; reflexivity|apply demandsb_ok; vm_compute; reflexivity|apply timesb_ok; vm_compute; reflexivity|].
  vm_compute. reflexivity.
Qed.
Lemma oracles_t :
  (forall n q, right_answer q (e_master (x_env X_t) n q)) /\ (forall n i q, right_answer q (e_dive (x_env X_t) n i q)) /\
  (forall n tl q, right_answer q (e_pricer (x_env X_t) n tl q)) /\
  (forall n h, e_negative (x_env X_t) n h = false -> ~ negative_cycle h) /\ finds_paths (x_path X_t).
Proof.
  split; [intros n q; destruct (certify_right mvar_eqb mvar_eqb_eq plans_t q); constructor; assumption|].
  split; [intros n i q; destruct (certify_right mvar_eqb mvar_eqb_eq plans_t q); constructor; assumption|].
  split; [intros n tl q; cbn [X_t x_env env_t e_pricer]; match goal with |- right_answer q (certify pvar_eqb ?l q) => destruct (certify_right pvar_eqb pvar_eqb_eq l q) end; constructor; assumption|].
  split; [|exact nx_path_ok].
  intros n h H. cbn [X_t x_env env_t e_negative] in H. apply negb_false_iff in H.
  apply (potential_no_negative_cycle h pot_t). intros p q Hab. unfold potentialb in H. apply (proj1 (forallb_forall _ _) H) in Hab. apply Qle_bool_iff. exact Hab.
Qed.
Lemma call_t dive tabu (P : vrp -> outcome -> Prop) :
  match (let* v := new_t tabu in solve X_t 3 3 (sa_t dive) v) with Ok r => P (fst r) (snd r) | Err _ => False end ->
  exists v v' out, new_t tabu = Ok v /\ v_tabu v = tabu /\ solve X_t 3 3 (sa_t dive) v = Ok (v', out) /\ P v' out.
Proof.
  destruct (new_t tabu) as [v|e] eqn:E; cbn [bind]; [|tauto].
  destruct (solve X_t 3 3 (sa_t dive) v) as [[v' out]|e] eqn:E2; [|tauto]. intro H. exists v, v', out. split; [reflexivity|].
  split; [|auto]. unfold new_t, create in E. apply bind_ok in E. destruct E as (g & _ & E). injection E as <-. reflexivity.
Qed.
Definition tabu_t : list mvar := [Y (CNat 1); Y (CNat 2); Y (CNat 3)].
Lemma session_step_t tabu tabu' d : session d tabu ->
  match (let* v := new_t tabu in solve X_t 3 3 (sa_t true) v) with Ok r => v_tabu (fst r) = tabu' | Err _ => False end -> session true tabu'.
Proof.
  intros S H. destruct (call_t true tabu (fun v' _ => v_tabu v' = tabu') H) as (v & v' & out & _ & T & Sv & <-).
  replace true with (d || (sa_dive (sa_t true) && negb (sa_heuristic (sa_t true)))) by (destruct d; reflexivity).
  eapply session_call; [|exact Sv]. rewrite T. exact S.
Qed.
Lemma session_t : session true tabu_t.
Proof.
  apply (session_step_t [Y (CNat 1); Y (CNat 2)] tabu_t true); [|vm_compute; reflexivity].
  apply (session_step_t [Y (CNat 1)] _ true); [|vm_compute; reflexivity].
  apply (session_step_t [] _ false); [constructor|vm_compute; reflexivity].
Qed.

(** The fourth of four equal problems gets another result than the first: everybody is visited twice. *)
Theorem influenced : exists X sa g a tabu v0 v0' out0 v v' out,
  wf g /\ acceptable g a (sa_strategy sa) /\ sa_pre sa = [] /\ sa_cspy sa = false /\ sa_heuristic sa = false /\
  sa_greedy sa = false /\ sa_time_limit sa = None /\ sa_max_iter sa = None /\
  (forall n q, right_answer q (e_master (x_env X) n q)) /\ (forall n i q, right_answer q (e_dive (x_env X) n i q)) /\
  (forall n tl q, right_answer q (e_pricer (x_env X) n tl q)) /\
  (forall n h, e_negative (x_env X) n h = false -> ~ negative_cycle h) /\ finds_paths (x_path X) /\
  session true tabu /\
  create g a false false false None false None false [] = Ok v0 /\ solve X 3 3 sa v0 = Ok (v0', out0) /\
  create g a false false false None false None false tabu = Ok v /\ solve X 3 3 sa v = Ok (v', out) /\
  best_value (out_solved out0) = Ok 18 /\ best_value (out_solved out) = Ok 30 /\
  forall u, In u (custs g) -> visits u (map snd (sv_routes (out_solved out0))) = 1%nat /\ visits u (map snd (sv_routes (out_solved out))) = 2%nat.
Proof.
  destruct (call_t true [] (fun _ out => sv_routes (out_solved out) = [(1%nat, trip [Cust 1; Cust 2]); (2%nat, trip [Cust 3])] /\
     best_value (out_solved out) = Ok 18)) as (v0 & v0' & out0 & C0 & _ & S0 & R0 & B0); [vm_compute; split; reflexivity|].
  destruct (call_t true tabu_t (fun _ out => sv_routes (out_solved out) = [(1%nat, trip [Cust 1; Cust 2]); (2%nat, trip [Cust 2; Cust 3]); (3%nat, trip [Cust 1; Cust 3])] /\
     best_value (out_solved out) = Ok 30)) as (v & v' & out & C & _ & S & R & B); [vm_compute; split; reflexivity|].
  exists X_t, (sa_t true), raw_t, args_t, tabu_t, v0, v0', out0, v, v', out.
  destruct raw_t_acceptable as (W & A). destruct oracles_t as (O1 & O2 & O3 & O4 & O5).
  split; [exact W|]. split; [exact A|]. do 6 (split; [reflexivity|]). split; [exact O1|]. split; [exact O2|]. split; [exact O3|]. split; [exact O4|]. split; [exact O5|].
  split; [exact session_t|]. split; [exact C0|]. split; [exact S0|]. split; [exact C|]. split; [exact S|]. split; [exact B0|]. split; [exact B|].
  rewrite R0, R. intros u Hu. vm_compute in Hu. repeat (destruct Hu as [<-|Hu]; [split; vm_compute; reflexivity|]). destruct Hu.
Qed.

(** After dives on other problems, a call without diving that succeeds. *)
Definition X_u : outside :=
  mkOut (mkEnv (fun _ => 0) (fun _ => propose (map fst plans_t)) (fun _ => by_node [(1%Z, 5); (2%Z, 5); (3%Z, 5)])
        (fun _ _ => propose (map fst plans_t)) (fun _ l => l)
        (e_pricer env_t) (e_negative env_t)
        (fun _ _ _ => []) (fun _ _ _ _ _ _ _ => None) (fun _ _ _ => 0%nat) (fun _ => 0%nat) (fun _ _ => 0)) 0 (fun _ l => l) nx_path (x_days X_t).
Theorem isolated_case : exists X sa g a tabu v0 v v' out, session true tabu /\ tabu <> [] /\ sa_dive sa = false /\
  create g a false false false None false None false [] = Ok v0 /\
  create g a false false false None false None false tabu = Ok v /\ solve X 3 3 sa v = Ok (v', out) /\
  v_tabu v' = tabu /\ best_value (out_solved out) = Ok 18.
Proof.
  assert (A : match new_t [], new_t tabu_t with
    | Ok _, Ok v => match solve X_u 3 3 (sa_t false) v with Ok r => v_tabu (fst r) = tabu_t /\ best_value (out_solved (snd r)) = Ok 18 | Err _ => False end
    | _, _ => False end) by (vm_compute; split; reflexivity).
  destruct (new_t []) as [v0|e] eqn:C0; [|contradiction]. destruct (new_t tabu_t) as [v|e] eqn:C; [|contradiction].
  destruct (solve X_u 3 3 (sa_t false) v) as [[v' out]|e] eqn:S; [|contradiction]. destruct A as (T & B).
  exists X_u, (sa_t false), raw_t, args_t, tabu_t, v0, v, v', out. split; [exact session_t|]. split; [discriminate|]. split; [reflexivity|].
  split; [exact C0|]. split; [exact C|]. split; [exact S|]. split; [exact T|exact B].
Qed.

(* ------------------------------------------------------------------ *)
(** ** The number of vehicles of a periodic problem *)

Definition days_2 : program svar -> answer svar :=
  certify svar_eqb [((fun x => match x with OnDay _ 0 => 1 | OnDay _ _ => 0 | _ => 2 end), [-1 # 1; 1; 0; 0; 0; 0])].
Lemma days_2_right q : right_answer q (days_2 q).
Proof. unfold days_2. match goal with |- right_answer q (certify svar_eqb ?l q) => destruct (certify_right svar_eqb svar_eqb_eq l q) end. constructor; assumption. Qed.

(** One vehicle, one day, two routes: the first call says that there is no schedule, the second one sends two vehicles. *)
Theorem vehicles_twice : exists X sa g a period v v1 out1 v2 out2,
  wf g /\ acceptable g a (sa_strategy sa) /\ sa_pre sa = [] /\ sa_initial sa = [] /\ sa_cspy sa = false /\ sa_dive sa = false /\
  sa_heuristic sa = false /\ sa_greedy sa = false /\ sa_time_limit sa = None /\ sa_max_iter sa = None /\
  (forall n q, right_answer q (e_master (x_env X) n q)) /\ (forall n tl q, right_answer q (e_pricer (x_env X) n tl q)) /\
  (forall n h, e_negative (x_env X) n h = false -> ~ negative_cycle h) /\ (forall q, right_answer q (x_days X q)) /\
  finds_paths (x_path X) /\
  create g a false false false None false (Some period) false [] = Ok v /\
  solve X 9 9 sa v = Ok (v1, out1) /\ solve X 9 9 sa v1 = Ok (v2, out2) /\
  number_of a 0 1 /\ out_schedule out1 = Some [] /\
  sv_routes (out_solved out2) = [(1%nat, [Source; Cust 1; Sink]); (2%nat, [Source; Cust 2; Sink])] /\
  out_schedule out2 = Some [(0%nat, [1%nat; 2%nat])] /\
  forall day, ~ good_week g a period (sv_routes (out_solved out2)) (fun i => dget Nat.eqb i (sv_types (out_solved out2))) day.
Proof.
  assert (A : match create raw_x args_x false false false None false (Some 1%Z) false [] with
    | Ok v => match solve (X_w plans_x duals_x days_2) 9 9 (sa_w []) v with
      | Ok r => out_schedule (snd r) = Some [] /\
          match solve (X_w plans_x duals_x days_2) 9 9 (sa_w []) (fst r) with
          | Ok r2 => sv_routes (out_solved (snd r2)) = [(1%nat, [Source; Cust 1; Sink]); (2%nat, [Source; Cust 2; Sink])] /\
              sv_types (out_solved (snd r2)) = [(1%nat, 0%nat); (2%nat, 0%nat)] /\
              out_schedule (snd r2) = Some [(0%nat, [1%nat; 2%nat])]
          | Err _ => False end
      | Err _ => False end
    | Err _ => False end) by (vm_compute; repeat split; reflexivity).
  destruct (create raw_x args_x false false false None false (Some 1%Z) false []) as [v|e] eqn:C; [|contradiction].
  destruct (solve (X_w plans_x duals_x days_2) 9 9 (sa_w []) v) as [[v1 out1]|e] eqn:S1; [|contradiction]. cbn [fst snd] in A. destruct A as (A1 & A2).
  destruct (solve (X_w plans_x duals_x days_2) 9 9 (sa_w []) v1) as [[v2 out2]|e] eqn:S2; [|contradiction]. cbn [fst snd] in A2. destruct A2 as (A2 & A3 & A4).
  exists (X_w plans_x duals_x days_2), (sa_w []), raw_x, args_x, 1%Z, v, v1, out1, v2, out2.
  destruct raw_x_acceptable as (W & A). destruct (oracles_w plans_x duals_x days_2) as (O1 & O2 & O3 & O4).
  split; [exact W|]. split; [exact A|]. do 8 (split; [reflexivity|]). split; [exact O1|]. split; [exact O2|]. split; [exact O3|].
  split; [exact days_2_right|]. split; [exact O4|]. split; [exact C|]. split; [exact S1|]. split; [exact S2|].
  split; [left; exists (PInt 1); split; [reflexivity|]; split; [intro Z; discriminate|auto]|]. split; [exact A1|]. split; [exact A2|]. split; [exact A4|].
  rewrite A2, A3. intros day [G1 _ G3]. assert (D1 := G1 1%nat _ (or_introl eq_refl)). assert (D2 := G1 2%nat _ (or_intror (or_introl eq_refl))).
  assert (Z1 : day 1%nat = 0%nat) by lia. assert (Z2 : day 2%nat = 0%nat) by lia.
  assert (Q := G3 0%nat 1 0%nat). cbn in Q. unfold load_on in Q. cbn [filter] in Q. rewrite Z1, Z2 in Q. cbn in Q.
  assert (Q' : inject_Z 2 <= 1); [|vm_compute in Q'; apply Q'; reflexivity]. apply Q; [|reflexivity]. left. exists (PInt 1). split; [reflexivity|]. split; [intro Z; discriminate|auto].
Qed.

Theorem lost_case : exists X sa g a v v' out,
  create g a false false false None false (Some 1%Z) false [] = Ok v /\ solve X 9 9 sa v = Ok (v', out) /\
  number_of (v_args v) 0 1 /\ a_num_vehicles (v_args v') = PList [].
Proof.
  assert (A : match create raw_x args_x false false false None false (Some 1%Z) false [] with
    | Ok v => match solve (X_w plans_x duals_x days_2) 9 9 (sa_w []) v with
      | Ok r => a_num_vehicles (v_args v) = PNum (PInt 1) /\ a_num_vehicles (v_args (fst r)) = PList []
      | Err _ => False end
    | Err _ => False end) by (vm_compute; split; reflexivity).
  destruct (create raw_x args_x false false false None false (Some 1%Z) false []) as [v|e] eqn:C; [|contradiction].
  destruct (solve (X_w plans_x duals_x days_2) 9 9 (sa_w []) v) as [[v1 out1]|e] eqn:S1; [|contradiction]. cbn [fst snd] in A. destruct A as (A1 & A2).
  exists (X_w plans_x duals_x days_2), (sa_w []), raw_x, args_x, v, v1, out1. split; [exact C|]. split; [exact S1|]. split; [|exact A2].
  left. exists (PInt 1). split; [exact A1|]. split; [intro Z; discriminate|auto].
Qed.
