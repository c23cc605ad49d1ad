(** Concrete calls of solve() on periodic problems: hypotheses that can be met, and properties that fail. *)
From Verif.Base Require Import Prelude Graph.
From Verif.Spec Require Import Routes Network Inputs Feasible LinProg Pricing MIP Master Run Results Plans Variants Periodic.
From Verif.Model Require Import Args Reach Checks Preprocess ClarkeWright Greedy Initial Pricing
  GreedyPricing LPPricing Cspy Master Dive Hyper ColGen Post Schedule Solve.
From Verif.Proofs Require Import RouteLemmas Deciders LPProofs PricingCor Certificate DiveProofs PricingWitness MasterWitness PostEnd Oracles ColGenWitness SolveUser SolveSamples SolveWitness AnyWitness.

(** Customer 1 has to be visited three times, customer 2 once. Going home from 2 is much cheaper than from 1. *)
Definition raw_w : rgraph :=
  let er c := mkER (Some (Scalar c)) None in
  mkGraph [(Source, mkNR None None None None None None None false);
           (Cust 1, mkNR (Some 1) None None None None (Some 3%Z) None false); (Cust 2, mkNR (Some 1) None None None None None None false);
           (Sink, mkNR None None None None None None None false)]
          [((Source, Cust 1), er 10); ((Source, Cust 2), er 10); ((Cust 1, Cust 2), er 2); ((Cust 1, Sink), er 10); ((Cust 2, Sink), er 3)].
Definition args_w : rargs := mkArgs PNone PNone PNone PNone (PNum (PInt 2)) false "Exact".

(** Two customers that had better not share a vehicle. *)
Definition raw_x : rgraph :=
  let er c := mkER (Some (Scalar c)) None in
  mkGraph [(Source, mkNR None None None None None None None false);
           (Cust 1, mkNR (Some 1) None None None None None None false); (Cust 2, mkNR (Some 1) None None None None None None false);
           (Sink, mkNR None None None None None None None false)]
          [((Source, Cust 1), er 10); ((Source, Cust 2), er 10); ((Cust 1, Cust 2), er 50); ((Cust 1, Sink), er 10); ((Cust 2, Sink), er 10)].
Definition args_x : rargs := mkArgs PNone PNone PNone PNone (PNum (PInt 1)) false "Exact".

(** columns [l], and [d] artificial visits *)
Definition visits_w (l : list nat) (d : Q) (x : mvar) : Q :=
  match x with
  | Y (CNat i) => if existsb (Nat.eqb i) l then 1 else 0
  | Dummy _ => d
  | _ => 0
  end.
Definition svar_eqb (a b : svar) : bool :=
  match a, b with
  | OnDay r t, OnDay r' t' => (r =? r')%nat && (t =? t')%nat
  | LoadMax, LoadMax | LoadMin, LoadMin => true
  | _, _ => false
  end.
Lemma svar_eqb_eq a b : svar_eqb a b = true <-> a = b.
Proof.
  destruct a, b; cbn; try (split; [discriminate|congruence]); try tauto.
  rewrite andb_true_iff, !Nat.eqb_eq. split; [intros (-> & ->); reflexivity|intro E; injection E as -> ->; auto].
Qed.
(** route [i] on day [i - 1]; [m] routes a day *)
Definition one_a_day (hi lo : Q) (x : svar) : Q :=
  match x with OnDay r t => if (r =? S t)%nat then 1 else 0 | LoadMax => hi | LoadMin => lo end.

Definition pots_w : list (node -> Q) :=
  map (fun l v => match v with Source => 0 | Cust 1 => 10 | Cust _ => fst l | Sink => snd l end)
      [(12 - big, 2 - big); (12 - big, 15 - big); (-8 # 1, -5 # 1); (-3 # 1, 0); (-8 # 1, -18 # 1); (10, 0)].
Definition mults_w : list (list Q) :=
  [[10; 12 - big; 0; 2 - big; 0]; [10; 12 - big; 0; 15 - big; 0]; [10; -8 # 1; 0; -5 # 1; 0]; [10; -3 # 1; 0; 0; 0]; [10; -8 # 1; 0; -18 # 1; 0]; [10; 10; 0; 0; 0]].
(** there are 7 questions to [env] in an iteration *)
Definition env_w (plans : list ((mvar -> Q) * list Q)) (duals : list (Q * Q)) : env :=
  mkEnv (fun _ => 0)
        (fun _ => certify mvar_eqb plans)
        (fun n => let d := nth (n / 7) duals (0, 0) in by_node [(1%Z, fst d); (2%Z, snd d)])
        (fun _ _ => answers (fun _ => 0)) (fun _ l => l)
        (fun _ _ => certify pvar_eqb (flat_map (fun r => map (fun m => (onec (arcs (trip r)), m)) mults_w) [[Cust 1; Cust 2]; [Cust 1]; [Cust 2]]))
        (fun _ h => negb (existsb (potentialb h) pots_w))
        (fun _ _ _ => []) (fun _ _ _ _ _ _ _ => None) (fun _ _ _ => 0%nat) (fun _ => 0%nat) (fun _ _ => 0).
Definition X_w plans duals days : outside := mkOut (env_w plans duals) 0 (fun _ l => l) nx_path days.
Definition days_w : program svar -> answer svar := propose [one_a_day 1 0].
Definition days_y : program svar -> answer svar := certify svar_eqb [(one_a_day 1 1, [-1 # 1; 0; 0; 1])].
Definition sa_w (ini : list (list node)) : solve_args := mkSA ini [] "Exact" false true None false false None 1 false.
Definition call_w plans duals days ini g a period :=
  let* v := create g a false false false None false (Some period) false [] in solve (X_w plans duals days) 9 9 (sa_w ini) v.
Lemma call_w_ok plans duals days ini g a period (P : vrp -> outcome -> Prop) :
  match call_w plans duals days ini g a period with Ok r => P (fst r) (snd r) | Err _ => False end ->
  exists v v' out, create g a false false false None false (Some period) false [] = Ok v /\
    solve (X_w plans duals days) 9 9 (sa_w ini) v = Ok (v', out) /\ P v' out.
Proof.
  unfold call_w. destruct (create g a false false false None false (Some period) false []) as [v|e] eqn:E; cbn [bind]; [|tauto].
  destruct (solve (X_w plans duals days) 9 9 (sa_w ini) v) as [[v' out]|e] eqn:E2; [|tauto]. intro H. exists v, v', out. auto.
Qed.
Lemma oracles_w plans duals days : let X := X_w plans duals days in
  (forall n q, right_answer q (e_master (x_env X) n q)) /\ (forall n tl q, right_answer q (e_pricer (x_env X) n tl q)) /\
  (forall n h, e_negative (x_env X) n h = false -> ~ negative_cycle h) /\ finds_paths (x_path X).
Proof.
  split; [intros n q; destruct (certify_right mvar_eqb mvar_eqb_eq plans q); constructor; assumption|].
  split; [intros n tl q; cbn [X_w x_env env_w e_pricer]; match goal with |- right_answer q (certify pvar_eqb ?l q) => destruct (certify_right pvar_eqb pvar_eqb_eq l q) end; constructor; assumption|].
  split; [|exact nx_path_ok].
  intros n h H. cbn [X_w x_env env_w e_negative] in H. apply negb_false_iff in H. apply existsb_exists in H. destruct H as (pot & _ & H).
  apply (potential_no_negative_cycle h pot). intros p q Hab. unfold potentialb in H. apply (proj1 (forallb_forall _ _) H) in Hab. apply Qle_bool_iff. exact Hab.
Qed.

Definition plans_w : list ((mvar -> Q) * list Q) :=
  [(visits_w [1; 2]%nat 2, [big; 13]); (visits_w [1; 3]%nat 1, [big; 0]); (visits_w [1; 3; 4]%nat 0, [20; 0]);
   (visits_w [3; 4; 5]%nat 0, [15; 0]); (visits_w [1; 3]%nat 1, [big; 15 - big])].
Definition duals_w : list (Q * Q) := [(big, 13); (big, 0); (20, 0); (15, 0)].
(** the same with enough round trips to start from *)
Definition ini_y : list (list node) := [trip [Cust 1]; trip [Cust 1]; trip [Cust 1]; trip [Cust 2]].
Definition plans_y : list ((mvar -> Q) * list Q) :=
  [(visits_w [1; 2; 3; 4]%nat 0, [20; 13]); (visits_w [1; 2; 5]%nat 0, [20; 0]); (visits_w [1; 5; 6]%nat 0, [20; 0]);
   (visits_w [5; 6; 7]%nat 0, [15; 0]); (visits_w [1; 2; 5]%nat 0, [20; -5 # 1])].
Definition duals_y : list (Q * Q) := [(20, 13); (20, 0); (20, 0); (15, 0)].
Definition plans_x : list ((mvar -> Q) * list Q) := [(visits_w [1; 2]%nat 0, [20; 20])].
Definition duals_x : list (Q * Q) := [(20, 20)].

Lemma days_y_right q : right_answer q (days_y q).
Proof. unfold days_y. destruct (certify_right svar_eqb svar_eqb_eq [(one_a_day 1 1, [-1 # 1; 0; 0; 1])] q). constructor; assumption. Qed.

Lemma raw_w_acceptable : wf raw_w /\ acceptable raw_w args_w "Exact".
Proof.
  assert (W : wf raw_w) by (apply wfb_ok; vm_compute; reflexivity). split; [exact W|].
  apply preparedb_iff; [exact W|reflexivity|apply costs_givenb_ok; vm_compute; reflexivity|apply demandsb_ok; vm_compute; reflexivity|apply timesb_ok; vm_compute; reflexivity|].
  vm_compute. reflexivity.
Qed.
Lemma raw_x_acceptable : wf raw_x /\ acceptable raw_x args_x "Exact".
Proof.
  assert (W : wf raw_x) by (apply wfb_ok; vm_compute; reflexivity). split; [exact W|].
  apply preparedb_iff; [exact W|reflexivity|apply costs_givenb_ok; vm_compute; reflexivity|apply demandsb_ok; vm_compute; reflexivity|apply timesb_ok; vm_compute; reflexivity|].
  vm_compute. reflexivity.
Qed.

Lemma respects_free g n r k : respects g (mkArgs PNone PNone PNone PNone n false "Exact") false false false k r.
Proof.
  constructor; try discriminate.
  - intros c [(Z & _)|(l & Z & _)]; discriminate.
  - intros c (Z & _); discriminate.
  - intros c (Z & _); discriminate.
Qed.

(** A customer is not visited as often as required although all answers are right and a plan exists. *)
Theorem short_visits : exists X sa g a period v v' out u,
  wf g /\ acceptable g a (sa_strategy sa) /\ sa_pre sa = [] /\ sa_initial sa = [] /\ sa_cspy sa = false /\ sa_dive sa = false /\
  sa_heuristic sa = false /\ sa_greedy sa = false /\ sa_time_limit sa = None /\ sa_max_iter sa = None /\
  (forall n q, right_answer q (e_master (x_env X) n q)) /\ (forall n tl q, right_answer q (e_pricer (x_env X) n tl q)) /\
  (forall n h, e_negative (x_env X) n h = false -> ~ negative_cycle h) /\ (forall q, sound_answer q (x_days X q)) /\
  finds_paths (x_path X) /\
  create g a false false false None false (Some period) false [] = Ok v /\ solve X 9 9 sa v = Ok (v', out) /\
  In u (custs g) /\ (Z.of_nat (visits u (map snd (sv_routes (out_solved out)))) < user_freq g u)%Z /\
  out_schedule out <> Some [] /\
  exists ks rs day, full_plan g a false false false period ks rs day.
Proof.
  destruct (call_w_ok plans_w duals_w days_w [] raw_w args_w 3
    (fun _ out => sv_routes (out_solved out) = [(1%nat, trip [Cust 1]); (2%nat, trip [Cust 1; Cust 2])] /\
       out_schedule out = Some [(0%nat, [1%nat]); (1%nat, [2%nat])])) as (v & v' & out & C & Sv & Hr & Hs);
    [vm_compute; split; reflexivity|].
  exists (X_w plans_w duals_w days_w), (sa_w []), raw_w, args_w, 3%Z, v, v', out, (Cust 1).
  destruct raw_w_acceptable as (W & A). destruct (oracles_w plans_w duals_w days_w) as (O1 & O2 & O3 & O4).
  split; [exact W|]. split; [exact A|]. do 8 (split; [reflexivity|]). split; [exact O1|]. split; [exact O2|]. split; [exact O3|].
  split; [intro q; apply propose_sound|]. split; [exact O4|]. split; [exact C|]. split; [exact Sv|]. split; [cbn; tauto|].
  split; [rewrite Hr; vm_compute; reflexivity|]. split; [rewrite Hs; discriminate|].
  exists [0; 0; 0]%nat, [trip [Cust 1]; trip [Cust 1]; trip [Cust 1; Cust 2]], (fun i => (i - 1)%nat). constructor.
  - assert (Sh : route_shape (trip [Cust 1]) /\ along (arc_list raw_w) (trip [Cust 1]) /\ route_shape (trip [Cust 1; Cust 2]) /\ along (arc_list raw_w) (trip [Cust 1; Cust 2])).
    { split; [apply route_shapeb_ok; vm_compute; reflexivity|]. split; [intros x y Hxy; cbn in Hxy; repeat (destruct Hxy as [E|Hxy]; [injection E as <- <-; cbn; tauto|]); destruct Hxy|].
      split; [apply route_shapeb_ok; vm_compute; reflexivity|]. intros x y Hxy; cbn in Hxy; repeat (destruct Hxy as [E|Hxy]; [injection E as <- <-; cbn; tauto|]); destruct Hxy. }
    destruct Sh as (Q1 & Q2 & Q3 & Q4). do 3 (constructor; [split; [assumption|split; [assumption|apply respects_free]]|]); constructor.
  - intros u Hu. cbn in Hu. destruct Hu as [<-|[<-|[]]]; vm_compute; reflexivity.
  - constructor.
    + intros i r Hir. cbn in Hir. repeat (destruct Hir as [E|Hir]; [injection E as <- <-; cbn; lia|]). destruct Hir.
    + intros u i j r r' _ _ Hi Hj _ _ E. cbn in Hi, Hj. repeat (destruct Hi as [Z|Hi]; [injection Z as <- _|]); try destruct Hi;
        repeat (destruct Hj as [Z|Hj]; [injection Z as <- _|]); try destruct Hj; cbn in E; congruence.
    + intros k n t Hn Ht. destruct Hn as [(x & E & _ & -> & ->)|(l & x & E & _)]; [|discriminate]. injection E as <-. cbn in Ht.
      destruct t as [|[|[|t]]]; [vm_compute; discriminate|vm_compute; discriminate|vm_compute; discriminate|lia].
Qed.

(** There is no schedule for the routes although another plan has one. *)
Theorem no_schedule : exists X sa g a period v v' out,
  wf g /\ acceptable g a (sa_strategy sa) /\ sa_pre sa = [] /\ sa_initial sa = [] /\ sa_cspy sa = false /\ sa_dive sa = false /\
  sa_heuristic sa = false /\ sa_greedy sa = false /\ sa_time_limit sa = None /\ sa_max_iter sa = None /\
  (forall n q, right_answer q (e_master (x_env X) n q)) /\ (forall n tl q, right_answer q (e_pricer (x_env X) n tl q)) /\
  (forall n h, e_negative (x_env X) n h = false -> ~ negative_cycle h) /\ (forall q, right_answer q (x_days X q)) /\
  finds_paths (x_path X) /\
  create g a false false false None false (Some period) false [] = Ok v /\ solve X 9 9 sa v = Ok (v', out) /\
  (forall day, ~ good_week g a period (sv_routes (out_solved out)) (fun i => dget Nat.eqb i (sv_types (out_solved out))) day) /\
  out_schedule out = Some [] /\
  exists ks rs day, full_plan g a false false false period ks rs day.
Proof.
  destruct (call_w_ok plans_x duals_x days_y [] raw_x args_x 1
    (fun _ out => sv_routes (out_solved out) = [(1%nat, trip [Cust 1]); (2%nat, trip [Cust 2])] /\
       sv_types (out_solved out) = [(1%nat, 0%nat); (2%nat, 0%nat)] /\ out_schedule out = Some [])) as (v & v' & out & C & Sv & Hr & Ht & Hs);
    [vm_compute; repeat split; reflexivity|].
  exists (X_w plans_x duals_x days_y), (sa_w []), raw_x, args_x, 1%Z, v, v', out.
  destruct raw_x_acceptable as (W & A). destruct (oracles_w plans_x duals_x days_y) as (O1 & O2 & O3 & O4).
  split; [exact W|]. split; [exact A|]. do 8 (split; [reflexivity|]). split; [exact O1|]. split; [exact O2|]. split; [exact O3|].
  split; [exact days_y_right|].
  split; [exact O4|]. split; [exact C|]. split; [exact Sv|]. split.
  { rewrite Hr, Ht. intros day [G1 _ G3]. assert (D1 := G1 1%nat _ (or_introl eq_refl)). assert (D2 := G1 2%nat _ (or_intror (or_introl eq_refl))).
    assert (Z1 : day 1%nat = 0%nat) by lia. assert (Z2 : day 2%nat = 0%nat) by lia.
    assert (Q := G3 0%nat 1 0%nat). cbn in Q. unfold load_on in Q. cbn [filter] in Q. rewrite Z1, Z2 in Q. cbn in Q.
    assert (Q' : inject_Z 2 <= 1); [|vm_compute in Q'; apply Q'; reflexivity]. apply Q; [|reflexivity]. left. exists (PInt 1). split; [reflexivity|]. split; [intro Z; discriminate|auto]. }
  split; [exact Hs|].
  exists [0]%nat, [trip [Cust 1; Cust 2]], (fun _ => 0%nat). constructor.
  - constructor; [|constructor]. split; [apply route_shapeb_ok; vm_compute; reflexivity|]. split; [|apply respects_free].
    intros x y Hxy; cbn in Hxy; repeat (destruct Hxy as [E|Hxy]; [injection E as <- <-; cbn; tauto|]); destruct Hxy.
  - intros u Hu. cbn in Hu. destruct Hu as [<-|[<-|[]]]; vm_compute; reflexivity.
  - constructor.
    + intros i r [E|[]]. reflexivity.
    + intros u i j r r' _ _ [E|[]] [E'|[]] _ _ _. congruence.
    + intros k n t Hn Hd. destruct Hn as [(x & E & _ & -> & ->)|(l & x & E & _)]; [|discriminate]. injection E as <-. cbn in Hd.
      destruct t as [|t]; [vm_compute; discriminate|lia].
Qed.

(** The call with given first routes, and a pricing solver that always offers the route over both customers. *)
Definition env_z : env :=
  mkEnv (fun _ => 0)
        (fun _ => certify mvar_eqb plans_y)
        (fun n => let d := nth (n / 7) duals_y (0, 0) in by_node [(1%Z, fst d); (2%Z, snd d)])
        (fun _ _ => answers (fun _ => 0)) (fun _ l => l)
        (fun _ _ => route_pricer [[Cust 1; Cust 2]]) (fun _ _ => false)
        (fun _ _ _ => []) (fun _ _ _ _ _ _ _ => None) (fun _ _ _ => 0%nat) (fun _ => 0%nat) (fun _ _ => 0).
Definition X_z : outside := mkOut env_z 0 (fun _ l => l) nx_path days_y.

Theorem week_case : exists X sa g a v v' out,
  wf g /\ no_empty_costs g /\ (forall r, In r (sa_initial sa) -> route_shape r /\ stops r <> []) /\
  (forall u r, node_data g u = Some r -> r_aux_depot r = false) /\
  sa_pre sa = [] /\ sa_dive sa = false /\ sa_heuristic sa = false /\ sa_greedy sa = false /\ sa_cspy sa = false /\
  0 <= user_demand g Source /\ 0 <= user_demand g Sink /\ 0 <= user_service g Source /\ nonneg_user_demands g /\
  (forall r k, respects g a false false false k r) /\
  (forall n q, right_answer q (e_master (x_env X) n q)) /\ (forall n tl q, sound_answer q (e_pricer (x_env X) n tl q)) /\
  no_circles (x_env X) /\ (forall q, right_answer q (x_days X q)) /\ finds_paths (x_path X) /\
  create g a false false false None false (Some 3%Z) false [] = Ok v /\ solve X 9 9 sa v = Ok (v', out) /\
  user_freq g (Cust 1) = 3%Z /\ number_of a 0 2 /\
  sv_routes (out_solved out) = [(1%nat, [Source; Cust 1; Sink]); (2%nat, [Source; Cust 1; Sink]); (3%nat, [Source; Cust 1; Cust 2; Sink])] /\
  out_schedule out = Some [(0%nat, [1%nat]); (1%nat, [2%nat]); (2%nat, [3%nat])] /\
  best_value (out_solved out) = Ok 55 /\
  a_mixed_fleet a = false /\ (forall x y l, a_load_capacity a <> PList (x :: y :: l)) /\
  (forall u, In u (custs g) -> Z.of_nat (visits u (sa_initial sa)) = user_freq g u) /\ Qsum (map (route_price g a) (sa_initial sa)) == 73.
Proof.
  assert (A : match create raw_w args_w false false false None false (Some 3%Z) false [] with
    | Ok v => match solve X_z 9 9 (sa_w ini_y) v with
      | Ok r => sv_routes (out_solved (snd r)) = [(1%nat, [Source; Cust 1; Sink]); (2%nat, [Source; Cust 1; Sink]); (3%nat, [Source; Cust 1; Cust 2; Sink])] /\
          out_schedule (snd r) = Some [(0%nat, [1%nat]); (1%nat, [2%nat]); (2%nat, [3%nat])] /\
          best_value (out_solved (snd r)) = Ok 55
      | _ => False end
    | Err _ => False end) by (vm_compute; repeat split; reflexivity).
  destruct (create raw_w args_w false false false None false (Some 3%Z) false []) as [v|e] eqn:C; [|contradiction].
  destruct (solve X_z 9 9 (sa_w ini_y) v) as [[v' out]|e] eqn:S1; [|contradiction]. cbn [fst snd] in A. destruct A as (A1 & A2 & A3).
  exists X_z, (sa_w ini_y), raw_w, args_w, v, v', out.
  split; [apply raw_w_acceptable|]. split; [apply costs_givenb_ok; vm_compute; reflexivity|].
  split. { intros r Hr. cbn in Hr. repeat (destruct Hr as [<-|Hr]; [split; [apply route_shapeb_ok; vm_compute; reflexivity|discriminate]|]). destruct Hr. }
  split; [apply no_auxb_ok; vm_compute; reflexivity|]. do 5 (split; [reflexivity|]). do 3 (split; [vm_compute; discriminate|]).
  split; [apply demandsb_ok; vm_compute; reflexivity|]. split; [intros r k; apply respects_free|].
  split; [intros n q; destruct (certify_right mvar_eqb mvar_eqb_eq plans_y q); constructor; assumption|].
  split; [intros n tl q; apply propose_sound|]. split; [apply (route_pricer_straight [[Cust 1; Cust 2]]); [vm_compute; reflexivity|intros; reflexivity]|].
  split; [exact days_y_right|].
  split; [exact nx_path_ok|]. split; [exact C|]. split; [exact S1|]. split; [reflexivity|].
  split; [left; exists (PInt 2); split; [reflexivity|]; split; [intro Z; discriminate|auto]|].
  split; [exact A1|]. split; [exact A2|]. split; [exact A3|]. split; [reflexivity|]. split; [intros x y l; discriminate|].
  split; [|vm_compute; reflexivity]. intros u Hu. vm_compute in Hu. repeat (destruct Hu as [<-|Hu]; [vm_compute; reflexivity|]). destruct Hu.
Qed.
