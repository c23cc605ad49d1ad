(** Calls of solve() with initial routes. *)
From Verif.Base Require Import Prelude Graph.
From Verif.Spec Require Import Routes Network Inputs Feasible LinProg Pricing MIP Timing Master Run Results Plans Variants.
From Verif.Model Require Import Args Reach Checks Preprocess ClarkeWright Greedy Initial Pricing
  GreedyPricing LPPricing Cspy Master Dive Hyper ColGen Post Schedule Solve.
From Verif.Proofs Require Import RouteLemmas Deciders LPProofs PricingCor Certificate DiveProofs PricingWitness MasterWitness PostEnd Oracles ColGenWitness SolveUser SolveSamples SolveWitness AnyCases AnyWitness.

(** the master problem is solved by certified selections *)
Definition env_w (cands : list ((mvar -> Q) * list Q)) (rides : list (pvar -> Q)) (pi : mrow -> Q) : env :=
  mkEnv (fun _ => 0) (fun _ => certify mvar_eqb cands) (fun _ => pi) (fun _ _ => answers (fun _ => 0)) (fun _ l => l)
        (fun _ _ => propose rides) (fun _ _ => true)
        (fun _ _ _ => []) (fun _ _ _ _ _ _ _ => None) (fun _ _ _ => 0%nat) (fun _ => 0%nat) (fun _ _ => 0).
Definition out_w cands rides pi : outside :=
  mkOut (env_w cands rides pi) 0 (fun _ l => l) nx_path (fun _ => mkAnswer Infeasible None (fun _ => 0)).
Definition sa_w (ini : list (list node)) (n : Z) : solve_args := mkSA ini [] "Exact" false true None false false (Some n) 1 false.
Definition call_w cands rides pi ini n g a span : res (vrp * outcome) :=
  let* v := create g a true false false None false None span [] in solve (out_w cands rides pi) 9 9 (sa_w ini n) v.
Lemma call_w_ok cands rides pi ini n g a span (P : vrp -> outcome -> Prop) :
  match call_w cands rides pi ini n g a span with Ok r => P (fst r) (snd r) | Err _ => False end ->
  exists v v' out, create g a true false false None false None span [] = Ok v /\
    solve (out_w cands rides pi) 9 9 (sa_w ini n) v = Ok (v', out) /\ P v' out.
Proof.
  unfold call_w. destruct (create g a true false false None false None span []) as [v|e] eqn:E; cbn [bind]; [|tauto].
  destruct (solve (out_w cands rides pi) 9 9 (sa_w ini n) v) as [[v' out]|e] eqn:E2; [|tauto]. intro H. exists v, v', out. auto.
Qed.
Lemma right_w cands rides pi n q : right_answer q (e_master (x_env (out_w cands rides pi)) n q).
Proof. destruct (certify_right mvar_eqb mvar_eqb_eq cands q) as (A & B). constructor; [exact A|exact B]. Qed.

Definition given_w : list (list node) := [trip [Cust 1; Cust 2]; trip [Cust 3]].
Definition trips_w : list (list node) := [trip [Cust 1]; trip [Cust 2]; trip [Cust 3]].
Definition cands_w := [(chosen [3; 4]%nat [], [15; 15; 31]); (chosen [1; 2; 3]%nat [], [27; 29; 31])].
Definition long_w (x : mvar) : Q := match x with Span => 31 | _ => chosen [1; 2]%nat [] x end.

Lemma shape_w r : In r (given_w ++ trips_w) -> route_shape r /\ stops r <> [].
Proof.
  intro H. cbn in H. destruct H as [<-|[<-|[<-|[<-|[<-|[]]]]]]; (split; [|discriminate]).
  - exists [Cust 1; Cust 2]. split; [reflexivity|]. split; [repeat constructor; cbn; intuition discriminate|]. intros u [<-|[<-|[]]]; split; discriminate.
  - exists [Cust 3]. split; [reflexivity|]. split; [repeat constructor; cbn; intuition discriminate|]. intros u [<-|[]]; split; discriminate.
  - exists [Cust 1]. split; [reflexivity|]. split; [repeat constructor; cbn; intuition discriminate|]. intros u [<-|[]]; split; discriminate.
  - exists [Cust 2]. split; [reflexivity|]. split; [repeat constructor; cbn; intuition discriminate|]. intros u [<-|[]]; split; discriminate.
  - exists [Cust 3]. split; [reflexivity|]. split; [repeat constructor; cbn; intuition discriminate|]. intros u [<-|[]]; split; discriminate.
Qed.
Lemma respects_w r : In r (given_w ++ trips_w) -> respects raw10 args10 true false false 0 r.
Proof.
  assert (Cap : forall c, capacity_of args10 0 c -> c = 10%Z).
  { intros c [(E & _)|(l & E & _)]; [injection E as <-; reflexivity|discriminate]. }
  assert (St : forall n, stop_limit args10 n -> n = 2%Z).
  { intros n (E & _). injection E as <-. reflexivity. }
  assert (Du : forall D, time_limit args10 D -> D = 20%Z).
  { intros D (E & _). injection E as <-. reflexivity. }
  assert (T : forall r ts, node_sum (user_demand raw10) (stops r) <= 10 -> (List.length (stops r) <= 2)%nat ->
    path_sum (user_time raw10) r + node_sum (user_service raw10) (stops r) <= 20 ->
    timetable (user_time raw10) (user_service raw10) (user_lower raw10) (user_upper raw10 0) r ts -> respects raw10 args10 true false false 0 r).
  { intros r' ts L N D F. constructor; try discriminate.
    - intros c Hc. rewrite (Cap c Hc). exact L.
    - intros n Hn. rewrite (St n Hn). lia.
    - intros D' HD. rewrite (Du D' HD). exact D.
    - intros _. exists 0, ts. exact F. }
  intro H. cbn in H. destruct H as [<-|[<-|[<-|[<-|[<-|[]]]]]].
  - apply (T _ [0; 5; 7; 50]); [vm_compute; discriminate|cbn; lia|vm_compute; discriminate|vm_compute; repeat split; discriminate].
  - apply (T _ [0; 4; 50]); [vm_compute; discriminate|cbn; lia|vm_compute; discriminate|vm_compute; repeat split; discriminate].
  - apply (T _ [0; 5; 50]); [vm_compute; discriminate|cbn; lia|vm_compute; discriminate|vm_compute; repeat split; discriminate].
  - apply (T _ [0; 6; 50]); [vm_compute; discriminate|cbn; lia|vm_compute; discriminate|vm_compute; repeat split; discriminate].
  - apply (T _ [0; 4; 50]); [vm_compute; discriminate|cbn; lia|vm_compute; discriminate|vm_compute; repeat split; discriminate].
Qed.
Lemma carrier_w q k : first_carrier args10 q k -> k = 0%nat.
Proof. intro H. exact H. Qed.
Lemma start_w given : given = given_w \/ given = trips_w -> starting_plan raw10 args10 false None false given given [].
Proof.
  intros Hg. constructor.
  - intros r Hr. unfold first_route. destruct given; [destruct Hr|exact Hr].
  - intros u Hu. left. split; [|intros []]. cbn in Hu. destruct Hg as [->| ->]; destruct Hu as [<-|[<-|[<-|[]]]]; reflexivity.
  - split; [constructor|]. split; [intros u []|reflexivity].
  - intros k n [(x & E & _)|(l & x & E & _)]; discriminate.
Qed.

Lemma given_case : exists X sa g a v v' out,
  wf g /\ no_empty_costs g /\ (forall u r, node_data g u = Some r -> r_aux_depot r = false) /\
  sa_pre sa = [] /\ sa_initial sa = trips_w /\ sa_dive sa = false /\ sa_heuristic sa = false /\ sa_greedy sa = false /\
  (forall r, In r (sa_initial sa) -> route_shape r /\ stops r <> [] /\
     forall k, first_carrier a (node_sum (user_demand g) (stops r)) k -> respects g a true false false k r) /\
  nonneg_user_demands g /\ 0 <= user_service g Source /\
  (forall n q, right_answer q (e_master (x_env X) n q)) /\ sa_cspy sa = false /\
  (forall n tl q, sound_answer q (e_pricer (x_env X) n tl q)) /\ takes_time g /\ finds_paths (x_path X) /\
  starting_plan g a false None false (sa_initial sa) trips_w [] /\ Qsum (map (route_price g a) trips_w) == 87 /\
  create g a true false false None false None false [] = Ok v /\ solve X 9 9 sa v = Ok (v', out) /\
  v_iter v' = 3%nat /\
  sv_routes (out_solved out) = [(1%nat, [Source; Cust 3; Sink]); (2%nat, [Source; Cust 1; Cust 2; Sink])] /\
  best_value (out_solved out) = Ok 61.
Proof.
  destruct (call_w_ok cands_w [ride10] pi10 trips_w 3 raw10 args10 false
    (fun v' out => v_iter v' = 3%nat /\
       sv_routes (out_solved out) = [(1%nat, [Source; Cust 3; Sink]); (2%nat, [Source; Cust 1; Cust 2; Sink])] /\
       best_value (out_solved out) = Ok 61)) as (v & v' & out & C & So & R); [vm_compute; repeat split; reflexivity|].
  exists (out_w cands_w [ride10] pi10), (sa_w trips_w 3), raw10, args10, v, v', out.
  destruct (raw10_facts 8 ltac:(lra)) as (F1 & F2 & F3 & F4 & _ & F5).
  split; [exact F1|]. split; [exact F2|]. split; [exact F3|]. do 5 (split; [reflexivity|]).
  split.
  { intros r Hr. destruct (shape_w r) as (A & B); [apply in_or_app; right; exact Hr|]. split; [exact A|]. split; [exact B|].
    intros k Hk. rewrite (carrier_w _ _ Hk). apply respects_w. apply in_or_app. right. exact Hr. }
  split; [exact F4|]. split; [exact F5|]. split; [intros; apply right_w|]. split; [reflexivity|].
  split; [intros n tl q; apply propose_sound|]. split; [apply raw10_slow|]. split; [exact nx_path_ok|].
  split; [apply start_w; right; reflexivity|]. split; [vm_compute; reflexivity|]. split; [exact C|]. split; [exact So|exact R].
Qed.

Lemma span_case_w : exists X sa g a v v' out,
  sa_initial sa = given_w /\ (forall n q, right_answer q (e_master (x_env X) n q)) /\
  starting_plan g a false None false (sa_initial sa) given_w [] /\ few_first (sa_initial sa) g /\ dearest g a given_w == 31 /\
  create g a true false false None false None true [] = Ok v /\ solve X 9 9 sa v = Ok (v', out) /\
  best_value (out_solved out) = Ok 31.
Proof.
  destruct (call_w_ok [(long_w, [0; 0; 31; 0; -1 # 1])] [] pi10 given_w 3 raw10 args10 true
    (fun v' out => best_value (out_solved out) = Ok 31)) as (v & v' & out & C & So & R); [vm_compute; reflexivity|].
  exists (out_w [(long_w, [0; 0; 31; 0; -1 # 1])] [] pi10), (sa_w given_w 3), raw10, args10, v, v', out.
  split; [reflexivity|]. split; [intros; apply right_w|]. split; [apply start_w; left; reflexivity|]. split; [cbn; lia|].
  split; [vm_compute; reflexivity|]. split; [exact C|]. split; [exact So|exact R].
Qed.

(** two customers; type 1 carries both, and its arcs cost 50 instead of 10 *)
Definition raw_m : rgraph :=
  let nr d := mkNR (Some d) None None None None None None false in
  let er c := mkER (Some (Vec [c; 50])) None in
  mkGraph [(Source, mkNR None None None None None None None false); (Cust 1, nr 3); (Cust 2, nr 4);
           (Sink, mkNR None None None None None None None false)]
          [((Source, Cust 1), er 10); ((Source, Cust 2), er 10); ((Cust 1, Cust 2), er 1);
           ((Cust 1, Sink), er 10); ((Cust 2, Sink), er 10)].
Definition args_m : rargs := mkArgs PNone (PList [PInt 5; PInt 10]) PNone PNone PNone true "Exact".
Definition given_m : list (list node) := [trip [Cust 1; Cust 2]; trip [Cust 1]; trip [Cust 2]].
Definition cands_m := [(chosen [1]%nat [], [10; 11])].

Lemma mixed_worse : exists X sa g a v v' out q,
  wf g /\ a_mixed_fleet a = true /\ nonneg_user_demands g /\ sa_pre sa = [] /\ sa_dive sa = false /\ sa_heuristic sa = false /\
  (forall r, In r (sa_initial sa) -> route_shape r /\ along (arc_list g) r /\
     forall k, first_carrier a (node_sum (user_demand g) (stops r)) k -> respects g a false false false k r) /\
  (forall n q, right_answer q (e_master (x_env X) n q)) /\
  (forall n tl q, sound_answer q (e_pricer (x_env X) n tl q)) /\ finds_paths (x_path X) /\
  create g a false false false None false None false [] = Ok v /\ solve X 9 9 sa v = Ok (v', out) /\
  best_value (out_solved out) = Ok q /\
  exists r1 r2, In r1 (sa_initial sa) /\ In r2 (sa_initial sa) /\
    (forall u, In u (custs g) -> visits u [r1; r2] = 1%nat) /\
    first_carrier a (node_sum (user_demand g) (stops r1)) 0 /\ first_carrier a (node_sum (user_demand g) (stops r2)) 0 /\
    fleet_price g a [(0%nat, r1); (0%nat, r2)] == 40 /\ q == 150.
Proof.
  assert (Q : exists v v' out, create raw_m args_m false false false None false None false [] = Ok v /\
    solve (out_w cands_m [] (by_node [])) 9 9 (sa_w given_m 1) v = Ok (v', out) /\ best_value (out_solved out) = Ok 150).
  { assert (E : match create raw_m args_m false false false None false None false [] with
      | Ok v => match solve (out_w cands_m [] (by_node [])) 9 9 (sa_w given_m 1) v with
                | Ok r => match best_value (out_solved (snd r)) with Ok q => q = 150 | Err _ => False end | Err _ => False end
      | Err _ => False end) by (vm_compute; reflexivity).
    destruct (create raw_m args_m false false false None false None false []) as [v|e]; [|destruct E]. exists v.
    destruct (solve (out_w cands_m [] (by_node [])) 9 9 (sa_w given_m 1) v) as [(v' & out)|e]; [|destruct E]. exists v', out. cbn [snd] in E.
    destruct (best_value (out_solved out)) as [q|e]; [|destruct E]. subst q. auto. }
  destruct Q as (v & v' & out & C & So & B).
  exists (out_w cands_m [] (by_node [])), (sa_w given_m 1), raw_m, args_m, v, v', out, 150.
  split; [apply wfb_ok; vm_compute; reflexivity|]. split; [reflexivity|]. split.
  { intro u. unfold user_demand. destruct (node_data raw_m u) as [x|] eqn:E; [|lra]. unfold node_data in E. apply assoc_node_In in E. cbn in E.
    repeat (destruct E as [E|E]; [injection E as _ <-; cbn; lra|]). destruct E. }
  do 3 (split; [reflexivity|]). split.
  { assert (Re : forall r k, (forall c, capacity_of args_m k c -> node_sum (user_demand raw_m) (stops r) <= inject_Z c) -> respects raw_m args_m false false false k r).
    { intros r k L. constructor; try discriminate; [exact L| |]; intros n (E & _); discriminate. }
    assert (Ca : forall q k c, first_carrier args_m q k -> capacity_of args_m k c -> q <= inject_Z c).
    { intros q k c ((n & E1 & E2) & _) [(E & _)|(l & E & E3)]; [discriminate|]. injection E as <-. cbn [args_m a_load_capacity] in E1. rewrite E3 in E1. injection E1 as <-. exact E2. }
    intros r Hr. assert (Sh : route_shape r /\ along (arc_list raw_m) r).
    { cbn in Hr. destruct Hr as [<-|[<-|[<-|[]]]]; split.
      - exists [Cust 1; Cust 2]. split; [reflexivity|]. split; [repeat constructor; cbn; intuition discriminate|]. intros u [<-|[<-|[]]]; split; discriminate.
      - intros x y H. cbn in H |- *. intuition.
      - exists [Cust 1]. split; [reflexivity|]. split; [repeat constructor; cbn; intuition discriminate|]. intros u [<-|[]]; split; discriminate.
      - intros x y H. cbn in H |- *. intuition.
      - exists [Cust 2]. split; [reflexivity|]. split; [repeat constructor; cbn; intuition discriminate|]. intros u [<-|[]]; split; discriminate.
      - intros x y H. cbn in H |- *. intuition. }
    destruct Sh as (A1 & A2). split; [exact A1|]. split; [exact A2|]. intros k Hk. apply Re. intros c Hc. exact (Ca _ k c Hk Hc). }
  split; [intros; apply right_w|]. split; [intros n tl q; apply propose_sound|]. split; [exact nx_path_ok|]. split; [exact C|]. split; [exact So|]. split; [exact B|].
  exists (trip [Cust 1]), (trip [Cust 2]). split; [cbn; auto|]. split; [cbn; auto|]. split.
  { intros u Hu. cbn in Hu. destruct Hu as [<-|[<-|[]]]; reflexivity. }
  split; [|split; [|split; [vm_compute; reflexivity|reflexivity]]].
  - split; [exists (PInt 5); split; [reflexivity|vm_compute; discriminate]|intros j n Hj; lia].
  - split; [exists (PInt 5); split; [reflexivity|vm_compute; discriminate]|intros j n Hj; lia].
Qed.
