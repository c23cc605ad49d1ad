(** Concrete calls of solve() with labelling pricing and time windows, distribution and collection, or
    several vehicle types: hypotheses that can be met, and properties that fail. *)
From Verif.Base Require Import Prelude Graph.
From Verif.Spec Require Import Routes Network Inputs Feasible LinProg Pricing MIP Timing Master Run Results Plans Variants.
From Verif.Model Require Import Args Reach Checks Preprocess ClarkeWright Greedy Initial Pricing
  GreedyPricing LPPricing Cspy Master Dive Hyper ColGen Post Schedule Solve.
From Verif.Proofs Require Import RouteLemmas Deciders LPProofs PricingCor Certificate DiveProofs PricingWitness MasterWitness PostEnd Oracles ColGenWitness SolveUser SolveSamples SolveWitness LabelWitness AnyWitness.

(** a solver that proposes selections and an algorithm that finds the first path of a list that is allowed *)
Definition lab_env (paths : list (list node)) (plans : list (mvar -> Q)) (pi : mrow -> Q) : env :=
  mkEnv (fun _ => 0) (fun _ => propose plans) (fun _ => pi) (fun _ _ => answers (fun _ => 0)) (fun _ l => l)
        (fun _ _ _ => mkAnswer Infeasible None (fun _ => 0)) (fun _ _ => false)
        (fun _ _ _ => []) (fun _ _ => labeller paths) (fun _ _ _ => 0%nat) (fun _ => 0%nat) (fun _ _ => 0).
Definition lab_out paths plans pi : outside :=
  mkOut (lab_env paths plans pi) 0 (fun _ l => l) nx_path (fun _ => mkAnswer Infeasible None (fun _ => 0)).
Definition lab_call (n : Z) : solve_args := mkSA [] [] "Exact" true false None false false (Some n) 1 false.

Definition label_call paths plans pi n g a w both drop : res (vrp * outcome) :=
  let* v := create g a w false both drop false None false [] in solve (lab_out paths plans pi) 9 9 (lab_call n) v.
Lemma label_ok paths plans pi n g a w both drop (P : vrp -> outcome -> Prop) :
  match label_call paths plans pi n g a w both drop with Ok r => P (fst r) (snd r) | Err _ => False end ->
  exists v v' out, create g a w false both drop false None false [] = Ok v /\
    solve (lab_out paths plans pi) 9 9 (lab_call n) v = Ok (v', out) /\ P v' out.
Proof.
  unfold label_call. destruct (create g a w false both drop false None false []) as [v|e] eqn:E; cbn [bind]; [|tauto].
  destruct (solve (lab_out paths plans pi) 9 9 (lab_call n) v) as [[v' out]|e] eqn:E2; [|tauto]. intro H. exists v, v', out. auto.
Qed.
Lemma lab_oracles paths plans pi :
  (forall n q, sound_answer q (e_master (x_env (lab_out paths plans pi)) n q)) /\
  (forall n tl h, sound_labelling h (e_label (x_env (lab_out paths plans pi)) n tl h)) /\
  finds_paths (x_path (lab_out paths plans pi)).
Proof. split; [intros n q; apply propose_sound|]. split; [intros n tl h; apply labeller_sound|exact nx_path_ok]. Qed.

Definition paths10 := [trip [Cust 1; Cust 2]].
Definition lab_plans (d : list node) :=
  [by_elem [(CNat 3, 1); (CElem 4, 1)]; chosen [1; 2; 3]%nat []; chosen [3]%nat d].

Lemma raw10_opens d : opens_well (raw10_with d).
Proof. split; [vm_compute; discriminate|]. left. vm_compute. discriminate. Qed.

Lemma windows_labelled_case : exists X sa g a v v' out,
  wf g /\ a_mixed_fleet a = false /\ no_empty_costs g /\
  (forall u r, node_data g u = Some r -> r_aux_depot r = false) /\
  sa_pre sa = [] /\ sa_initial sa = [] /\ sa_cspy sa = true /\ sa_dive sa = false /\ sa_heuristic sa = false /\
  nonneg_user_demands g /\ 0 <= user_service g Source /\
  (forall u, In u (custs g) -> within_time g a [Source; u; Sink]) /\
  (forall u, In u (custs g) ->
     exists T, tw_feasible (user_time g) (user_service g) (user_lower g) (user_upper g T) [Source; u; Sink]) /\
  (forall n q, sound_answer q (e_master (x_env X) n q)) /\
  (forall n tl h, sound_labelling h (e_label (x_env X) n tl h)) /\ finds_paths (x_path X) /\ opens_well g /\
  create g a true false false None false None false [] = Ok v /\ solve X 9 9 sa v = Ok (v', out) /\
  v_iter v' = 2%nat /\ map c_name (v_chosen v') = [CNat 3; CElem 4] /\
  sv_routes (out_solved out) = [(1%nat, [Source; Cust 3; Sink]); (2%nat, [Source; Cust 1; Cust 2; Sink])] /\
  best_value (out_solved out) = Ok 61.
Proof.
  destruct (label_ok paths10 (lab_plans []) pi10 3 raw10 args10 true false None
    (fun v' out => v_iter v' = 2%nat /\ map c_name (v_chosen v') = [CNat 3; CElem 4] /\
       sv_routes (out_solved out) = [(1%nat, [Source; Cust 3; Sink]); (2%nat, [Source; Cust 1; Cust 2; Sink])] /\
       best_value (out_solved out) = Ok 61)) as (v & v' & out & C & So & R); [vm_compute; repeat split; reflexivity|].
  exists (lab_out paths10 (lab_plans []) pi10), (lab_call 3), raw10, args10, v, v', out.
  destruct (raw10_facts 8 ltac:(lra)) as (F1 & F2 & F3 & F4 & _ & F6). destruct (lab_oracles paths10 (lab_plans []) pi10) as (O1 & O2 & O3).
  do 9 (split; [first [assumption|reflexivity]|]). split; [exact F4|]. split; [exact F6|].
  split. { intros u Hu D (E & _). injection E as <-. apply (raw10_round 8 u Hu). }
  split. { intros u Hu. exists 0. apply (raw10_round 8 u Hu). }
  do 3 (split; [assumption|]). split; [exact (raw10_opens 8)|]. split; [exact C|]. split; [exact So|]. exact R.
Qed.

Lemma both_labelled_case : exists X sa g a v v' out,
  wf g /\ no_empty_costs g /\
  (forall u r, node_data g u = Some r -> r_aux_depot r = false) /\
  sa_pre sa = [] /\ sa_initial sa = [] /\ sa_cspy sa = true /\ sa_dive sa = false /\ sa_heuristic sa = false /\
  nonneg_user_demands g /\ (forall u, 0 <= user_collect g u) /\ 0 <= user_service g Source /\
  (forall u, In u (custs g) -> within_time g a [Source; u; Sink]) /\
  (forall u k c, In u (custs g) -> first_carrier a (user_demand g u) k -> capacity_of a k c ->
     user_collect g u <= inject_Z c) /\
  (forall n q, sound_answer q (e_master (x_env X) n q)) /\
  (forall n tl h, sound_labelling h (e_label (x_env X) n tl h)) /\ finds_paths (x_path X) /\
  create g a false false true None false None false [] = Ok v /\ solve X 9 9 sa v = Ok (v', out) /\
  v_iter v' = 2%nat /\ map c_name (v_chosen v') = [CNat 3; CElem 4] /\
  sv_routes (out_solved out) = [(1%nat, [Source; Cust 3; Sink]); (2%nat, [Source; Cust 1; Cust 2; Sink])] /\
  best_value (out_solved out) = Ok 61.
Proof.
  destruct (label_ok paths10 (lab_plans []) pi10 3 raw10 args10 false true None
    (fun v' out => v_iter v' = 2%nat /\ map c_name (v_chosen v') = [CNat 3; CElem 4] /\
       sv_routes (out_solved out) = [(1%nat, [Source; Cust 3; Sink]); (2%nat, [Source; Cust 1; Cust 2; Sink])] /\
       best_value (out_solved out) = Ok 61)) as (v & v' & out & C & So & R); [vm_compute; repeat split; reflexivity|].
  exists (lab_out paths10 (lab_plans []) pi10), (lab_call 3), raw10, args10, v, v', out.
  destruct (raw10_facts 8 ltac:(lra)) as (F1 & F2 & F3 & F4 & F5 & F6). destruct (lab_oracles paths10 (lab_plans []) pi10) as (O1 & O2 & O3).
  do 8 (split; [first [assumption|reflexivity]|]). split; [exact F4|]. split; [exact F5|]. split; [exact F6|].
  split. { intros u Hu D (E & _). injection E as <-. apply (raw10_round 8 u Hu). }
  split. { intros u k c Hu _ [(E & _)|(l & E & _)]; [|discriminate]. injection E as <-. cbn in Hu. destruct Hu as [<-|[<-|[<-|[]]]]; vm_compute; discriminate. }
  do 3 (split; [assumption|]). split; [exact C|]. split; [exact So|]. exact R.
Qed.

Lemma mixed_labelled_case : exists X sa g a v v' out,
  wf g /\ a_mixed_fleet a = true /\
  (forall u r, node_data g u = Some r -> r_aux_depot r = false) /\
  sa_pre sa = [] /\ sa_initial sa = [] /\ sa_cspy sa = true /\ sa_dive sa = false /\ sa_heuristic sa = false /\ sa_greedy sa = false /\
  nonneg_user_demands g /\ 0 <= user_service g Source /\
  (forall u, In u (custs g) -> within_time g a [Source; u; Sink]) /\
  (forall u, In u (custs g) ->
     exists T, tw_feasible (user_time g) (user_service g) (user_lower g) (user_upper g T) [Source; u; Sink]) /\
  (forall n q, sound_answer q (e_master (x_env X) n q)) /\
  (forall n tl h, sound_labelling h (e_label (x_env X) n tl h)) /\ finds_paths (x_path X) /\ opens_well g /\
  create g a true false false (Some 50) false None false [] = Ok v /\ solve X 9 9 sa v = Ok (v', out) /\
  v_iter v' = 2%nat /\ number_of a 0 1 /\ number_of a 1 1 /\ map c_name (v_chosen v') = [CNat 3; CElem 4] /\
  sv_routes (out_solved out) = [(1%nat, [Source; Cust 3; Sink]); (2%nat, [Source; Cust 1; Cust 2; Sink])] /\
  sv_types (out_solved out) = [(1%nat, 0%nat); (2%nat, 1%nat)] /\
  best_value (out_solved out) = Ok 58.
Proof.
  destruct (label_ok paths10 (lab_plans [Cust 1; Cust 2]) pi10 3 raw11 args11 true false (Some 50)
    (fun v' out => v_iter v' = 2%nat /\ map c_name (v_chosen v') = [CNat 3; CElem 4] /\
       sv_routes (out_solved out) = [(1%nat, [Source; Cust 3; Sink]); (2%nat, [Source; Cust 1; Cust 2; Sink])] /\
       sv_types (out_solved out) = [(1%nat, 0%nat); (2%nat, 1%nat)] /\
       best_value (out_solved out) = Ok 58)) as (v & v' & out & C & So & R1 & R2); [vm_compute; repeat split; reflexivity|].
  exists (lab_out paths10 (lab_plans [Cust 1; Cust 2]) pi10), (lab_call 3), raw11, args11, v, v', out.
  destruct (raw10_facts 5 ltac:(lra)) as (F1 & F2 & F3 & F4 & F5 & F6). destruct (lab_oracles paths10 (lab_plans [Cust 1; Cust 2]) pi10) as (O1 & O2 & O3).
  do 9 (split; [first [assumption|reflexivity]|]). split; [exact F4|]. split; [exact F6|].
  split. { intros u Hu D (E & _). discriminate. }
  split. { intros u Hu. exists 0. apply (raw10_round 5 u Hu). }
  do 3 (split; [assumption|]). split; [exact (raw10_opens 5)|]. split; [exact C|]. split; [exact So|]. split; [exact R1|].
  split. { right. exists [PInt 1; PInt 1], (PInt 1). repeat split; reflexivity. }
  split. { right. exists [PInt 1; PInt 1], (PInt 1). repeat split; reflexivity. }
  exact R2.
Qed.

(** *** What fails without the assumption on the depot *)

(** The depot opens at 10 and needs 5 before departure. Customer 2 is reached at 20 at the earliest,
    and over customer 1 at 25, but closes at 22. *)
Definition raw15 : rgraph :=
  let er c := mkER (Some (Scalar c)) (Some 5) in
  mkGraph [(Source, mkNR None None (Some 5) (Some 10) (Some 50) None None false);
           (Cust 1, mkNR (Some 1) None None None (Some 40) None None false);
           (Cust 2, mkNR (Some 1) None None None (Some 22) None None false);
           (Sink, mkNR None None None None (Some 50) None None false)]
          [((Source, Cust 1), er 10); ((Source, Cust 2), er 10); ((Cust 1, Cust 2), er 1);
           ((Cust 1, Sink), er 10); ((Cust 2, Sink), er 10)].
Definition args15 : rargs := mkArgs (PNum (PInt 2)) PNone PNone PNone PNone false "Exact".
Definition plans15 := [by_elem [(CElem 3, 1)]; chosen [1; 2]%nat []].
Definition pi15 := by_node [(1%Z, 20); (2%Z, 20)].

Theorem labelling_leaves_early : exists X sa g a v v' out i r,
  wf g /\ a_mixed_fleet a = false /\ no_empty_costs g /\ nonneg_user_demands g /\ (forall u w, 0 <= user_time g u w) /\ (forall u, 0 <= user_service g u) /\
  sa_pre sa = [] /\ sa_initial sa = [] /\ sa_cspy sa = true /\ sa_dive sa = false /\ sa_heuristic sa = false /\
  user_lower g Source <= user_upper g 0 Source /\
  (forall u, In u (custs g) ->
     exists T, tw_feasible (user_time g) (user_service g) (user_lower g) (user_upper g T) [Source; u; Sink]) /\
  (forall n q, sound_answer q (e_master (x_env X) n q)) /\
  (forall n tl h, sound_labelling h (e_label (x_env X) n tl h)) /\ finds_paths (x_path X) /\
  create g a true false false None false None false [] = Ok v /\ solve X 9 9 sa v = Ok (v', out) /\
  In (i, r) (sv_routes (out_solved out)) /\
  forall T, ~ tw_feasible (user_time g) (user_service g) (user_lower g) (user_upper g T) r.
Proof.
  set (g := raw15).
  destruct (label_ok paths10 plans15 pi15 3 g args15 true false None
    (fun v' out => sv_routes (out_solved out) = [(1%nat, [Source; Cust 1; Cust 2; Sink])])) as (v & v' & out & C & So & R); [vm_compute; repeat split; reflexivity|].
  exists (lab_out paths10 plans15 pi15), (lab_call 3), g, args15, v, v', out, 1%nat, [Source; Cust 1; Cust 2; Sink].
  destruct (lab_oracles paths10 plans15 pi15) as (O1 & O2 & O3).
  split; [apply wfb_ok; vm_compute; reflexivity|]. split; [reflexivity|]. split; [apply costs_givenb_ok; vm_compute; reflexivity|].
  split; [apply demandsb_ok; vm_compute; reflexivity|]. split; [apply timesb_ok; vm_compute; reflexivity|].
  split. { intro u. unfold user_service. destruct (node_data g u) as [x|] eqn:E; [|lra]. unfold node_data in E. apply assoc_node_In in E. cbn in E.
    repeat (destruct E as [E|E]; [injection E as _ <-; cbn; lra|]). destruct E. }
  do 5 (split; [reflexivity|]). split; [vm_compute; discriminate|].
  split. { intros u Hu. exists 0. cbn in Hu. destruct Hu as [<-|[<-|[]]]; exists [10; 20; 50]; vm_compute; repeat split; discriminate. }
  do 3 (split; [assumption|]). split; [exact C|]. split; [exact So|]. split; [rewrite R; left; reflexivity|].
  intros T (t & HT). destruct t as [|t0 [|t1 [|t2 [|t3 [|t4 t]]]]]; cbn [timetable] in HT; try tauto.
  destruct HT as (A1 & A2 & A3 & B1 & B2 & B3 & C1 & C2 & C3 & _).
  change (user_lower g Source) with 10 in A1. change (user_service g Source) with 5 in A3. change (user_time g Source (Cust 1)) with 5 in A3.
  change (user_service g (Cust 1)) with 0 in B3. change (user_time g (Cust 1) (Cust 2)) with 5 in B3. change (user_upper g T (Cust 2)) with 22 in C2. lra.
Qed.

(** services count in the duration, but not for the labelling algorithm without time windows *)
Definition raw16 : rgraph :=
  let er c := mkER (Some (Vec [c; c])) (Some 1) in
  let nr := mkNR (Some 1) None (Some 4) None None None None false in
  mkGraph [(Source, mkNR None None None None None None None false); (Cust 1, nr); (Cust 2, nr);
           (Sink, mkNR None None None None None None None false)]
          [((Source, Cust 1), er 10); ((Source, Cust 2), er 10); ((Cust 1, Cust 2), er 1);
           ((Cust 1, Sink), er 10); ((Cust 2, Sink), er 10)].
Definition args16 : rargs := mkArgs (PNum (PInt 2)) (PList [PInt 5; PInt 10]) (PNum (PInt 8)) PNone PNone true "Exact".

Theorem labelling_fleet_late : exists X sa g a v v' out i r D,
  wf g /\ a_mixed_fleet a = true /\ nonneg_user_demands g /\ (forall u w, 0 <= user_time g u w) /\ (forall u, 0 <= user_service g u) /\
  sa_pre sa = [] /\ sa_initial sa = [] /\ sa_cspy sa = true /\ sa_dive sa = false /\ sa_heuristic sa = false /\ sa_greedy sa = false /\
  (forall u, In u (custs g) -> within_time g a [Source; u; Sink]) /\
  (forall n q, sound_answer q (e_master (x_env X) n q)) /\
  (forall n tl h, sound_labelling h (e_label (x_env X) n tl h)) /\ finds_paths (x_path X) /\
  create g a false false false None false None false [] = Ok v /\ solve X 9 9 sa v = Ok (v', out) /\
  In (i, r) (sv_routes (out_solved out)) /\ time_limit a D /\
  inject_Z D < path_sum (user_time g) r + node_sum (user_service g) (stops r).
Proof.
  set (g := raw16).
  destruct (label_ok paths10 plans15 pi15 3 g args16 false false None
    (fun v' out => sv_routes (out_solved out) = [(1%nat, [Source; Cust 1; Cust 2; Sink])])) as (v & v' & out & C & So & R); [vm_compute; repeat split; reflexivity|].
  exists (lab_out paths10 plans15 pi15), (lab_call 3), g, args16, v, v', out, 1%nat, [Source; Cust 1; Cust 2; Sink], 8%Z.
  destruct (lab_oracles paths10 plans15 pi15) as (O1 & O2 & O3).
  split; [apply wfb_ok; vm_compute; reflexivity|]. split; [reflexivity|].
  split; [apply demandsb_ok; vm_compute; reflexivity|]. split; [apply timesb_ok; vm_compute; reflexivity|].
  split. { intro u. unfold user_service. destruct (node_data g u) as [x|] eqn:E; [|lra]. unfold node_data in E. apply assoc_node_In in E. cbn in E.
    repeat (destruct E as [E|E]; [injection E as _ <-; cbn; lra|]). destruct E. }
  do 6 (split; [reflexivity|]).
  split. { intros u Hu D (E & _). injection E as <-. cbn in Hu. destruct Hu as [<-|[<-|[]]]; vm_compute; discriminate. }
  do 3 (split; [assumption|]). split; [exact C|]. split; [exact So|]. split; [rewrite R; left; reflexivity|].
  split; [split; [reflexivity|discriminate]|]. vm_compute. reflexivity.
Qed.
