(** Concrete calls of solve() with time windows, pickups and deliveries, distribution and collection,
    and several vehicle types: hypotheses that can be met, and properties that fail. *)
From Verif.Base Require Import Prelude Graph.
From Verif.Spec Require Import Routes Network Inputs Feasible LinProg Pricing MIP Master Run Results Plans Variants.
From Verif.Model Require Import Args Reach Checks Preprocess ClarkeWright Greedy Initial Pricing
  GreedyPricing LPPricing Cspy Master Dive Hyper ColGen Post Schedule Solve.
From Verif.Proofs Require Import RouteLemmas Deciders LPProofs PricingCor Certificate DiveProofs PricingWitness MasterWitness PostEnd Oracles ColGenWitness SolveUser SolveSamples SolveWitness.

(** an assignment for the pricing problem: the arcs of [r], the position of each node, and given times, loads
    and quantities on the arcs *)
Fixpoint position (v : node) (r : list node) : nat :=
  match r with [] => 0 | u :: t => if node_eqb u v then 0 else S (position v t) end.
Definition ride (r : list node) (time load : list (node * Q)) (out back : list (arc * Q)) (x : pvar) : Q :=
  let look {K} (eqb : K -> K -> bool) (l : list (K * Q)) k :=
    match find (fun t => eqb (fst t) k) l with Some t => snd t | None => 0 end in
  match x with
  | X a => if mem_arc a (arcs (trip r)) then 1 else 0
  | Time u => look node_eqb time u
  | Rank u => if mem u (trip r) then inject_Z (Z.of_nat (position u (trip r))) else 0
  | Load u => look node_eqb load u
  | Unload a => look arc_eqb out a
  | Collected a => look arc_eqb back a
  end.
Definition chosen (l : list nat) (d : list node) (x : mvar) : Q :=
  match x with
  | Y (CNat i) => if existsb (Nat.eqb i) l then 1 else 0
  | Drop v => if mem v d then 1 else 0
  | _ => 0
  end.
(** solvers that propose rides and selections; every network is said to have a negative cycle *)
Definition env_of (rides : list (pvar -> Q)) (plans : list (mvar -> Q)) (pi : mrow -> Q) : env :=
  mkEnv (fun _ => 0) (fun _ => propose plans) (fun _ => pi) (fun _ _ => answers (fun _ => 0)) (fun _ l => l)
        (fun _ _ => propose rides) (fun _ _ => true)
        (fun _ _ _ => []) (fun _ _ _ _ _ _ _ => None) (fun _ _ _ => 0%nat) (fun _ => 0%nat) (fun _ _ => 0).
Definition out_of rides plans pi : outside :=
  mkOut (env_of rides plans pi) 0 (fun _ l => l) nx_path (fun _ => mkAnswer Infeasible None (fun _ => 0)).
Definition exact_call (n : Z) : solve_args := mkSA [] [] "Exact" false true None false false (Some n) 1 false.

Definition call rides plans pi n g a w pd both drop : res (vrp * outcome) :=
  let* v := create g a w pd both drop false None false [] in solve (out_of rides plans pi) 9 9 (exact_call n) v.
Lemma call_ok rides plans pi n g a w pd both drop (P : vrp -> outcome -> Prop) :
  match call rides plans pi n g a w pd both drop with Ok r => P (fst r) (snd r) | Err _ => False end ->
  exists v v' out, create g a w pd both drop false None false [] = Ok v /\
    solve (out_of rides plans pi) 9 9 (exact_call n) v = Ok (v', out) /\ P v' out.
Proof.
  unfold call. destruct (create g a w pd both drop false None false []) as [v|e] eqn:E; cbn [bind]; [|tauto].
  destruct (solve (out_of rides plans pi) 9 9 (exact_call n) v) as [[v' out]|e] eqn:E2; [|tauto]. intro H. exists v, v', out. auto.
Qed.
Lemma oracles_ok rides plans pi :
  (forall n q, sound_answer q (e_master (x_env (out_of rides plans pi)) n q)) /\
  (forall n tl q, sound_answer q (e_pricer (x_env (out_of rides plans pi)) n tl q)) /\
  no_circles (x_env (out_of rides plans pi)) /\ finds_paths (x_path (out_of rides plans pi)).
Proof.
  split; [intros n q; apply propose_sound|]. split; [intros n tl q; apply propose_sound|]. split; [|exact nx_path_ok].
  intros n tl g h k caps o ns dur p _ E. discriminate.
Qed.
Definition no_auxb (g : rgraph) : bool := forallb (fun p => negb (r_aux_depot (snd p))) (gnodes g).
Lemma no_auxb_ok g : no_auxb g = true -> forall u r, node_data g u = Some r -> r_aux_depot r = false.
Proof.
  unfold no_auxb. rewrite forallb_forall. intros H u r E. unfold node_data in E. apply assoc_node_In in E.
  apply H in E. apply negb_true_iff. exact E.
Qed.

(** three customers; 1 before 10, 2 between 6 and 20 *)
Definition raw10_with (d3 : Q) : rgraph :=
  let nr d c lo up := mkNR (Some d) (Some c) (Some 1) lo up None None false in
  let er c t := mkER (Some (Vec [c; c + 2])) (Some t) in
  mkGraph [(Source, mkNR None None None None None None None false);
           (Cust 1, nr 3 2 None (Some 10)); (Cust 2, nr 4 6 (Some 6) (Some 20)); (Cust 3, nr d3 9 None (Some 30));
           (Sink, mkNR None None None None (Some 50) None None false)]
          [((Source, Cust 1), er 10 5); ((Source, Cust 2), er 11 5); ((Source, Cust 3), er 12 4);
           ((Cust 1, Cust 2), er 2 1); ((Cust 2, Cust 3), er 3 2);
           ((Cust 1, Sink), er 10 5); ((Cust 2, Sink), er 11 5); ((Cust 3, Sink), er 12 4)].
Definition raw10 : rgraph := raw10_with 8.
Definition args10 : rargs := mkArgs (PNum (PInt 2)) (PNum (PInt 10)) (PNum (PInt 20)) (PNum (PInt 7)) PNone false "Exact".
Definition ride10 := ride [Cust 1; Cust 2] [(Cust 1, 5); (Cust 2, 7); (Sink, 13); (Cust 3, 4)] []
  [((Source, Cust 1), 7); ((Cust 1, Cust 2), 4)] [((Cust 1, Cust 2), 2); ((Cust 2, Sink), 8)].
Definition plans10 := [chosen [3; 4]%nat []; chosen [1; 2; 3]%nat []].
Definition pi10 := by_node [(1%Z, 20); (2%Z, 22); (3%Z, 24)].
Definition raw11 : rgraph := raw10_with 5.
Definition args11 : rargs :=
  mkArgs PNone (PList [PInt 5; PInt 10]) PNone (PList [PInt 1; PInt 4]) (PList [PInt 1; PInt 1]) true "Exact".
Definition plans11 := [chosen [3; 4]%nat []; chosen [3]%nat [Cust 1; Cust 2]].

(** two pairs: 1 to 3 and 2 to 4 *)
Definition raw12 : rgraph :=
  let nr d q := mkNR (Some d) None None None None None q false in
  let er c := mkER (Some (Scalar c)) (Some 1) in
  mkGraph [(Source, mkNR None None None None None None None false);
           (Cust 1, nr 3 (Some (Cust 3))); (Cust 2, nr 4 (Some (Cust 4))); (Cust 3, nr (-(3)) None); (Cust 4, nr (-(4)) None);
           (Sink, mkNR None None None None None None None false)]
          [((Source, Cust 1), er 10); ((Source, Cust 2), er 10); ((Cust 1, Cust 3), er 5); ((Cust 2, Cust 4), er 5);
           ((Cust 1, Cust 2), er 1); ((Cust 2, Cust 3), er 2); ((Cust 3, Cust 4), er 1);
           ((Cust 3, Sink), er 10); ((Cust 4, Sink), er 10)].
Definition args12 : rargs := mkArgs (PNum (PInt 4)) (PNum (PInt 7)) (PNum (PInt 9)) PNone (PNum (PInt 2)) false "Exact".
Definition ride12 := ride [Cust 1; Cust 2; Cust 3; Cust 4] [] [(Cust 1, 3); (Cust 2, 7); (Cust 3, 4); (Cust 4, 0)] [] [].
Definition plans12 := [chosen [3]%nat []; chosen [1; 2]%nat []].
Definition pi12 := by_node [(1%Z, 13); (2%Z, 13); (3%Z, 12); (4%Z, 12)].

(** *** Calls that meet the hypotheses *)

Lemma raw10_facts d : 0 <= d -> wf (raw10_with d) /\ no_empty_costs (raw10_with d) /\
  (forall u r, node_data (raw10_with d) u = Some r -> r_aux_depot r = false) /\
  nonneg_user_demands (raw10_with d) /\ (forall u, 0 <= user_collect (raw10_with d) u) /\ 0 <= user_service (raw10_with d) Source.
Proof.
  intro Hd. split; [apply wfb_ok; vm_compute; reflexivity|]. split; [apply costs_givenb_ok; vm_compute; reflexivity|].
  split; [apply no_auxb_ok; vm_compute; reflexivity|]. split.
  { intro u. unfold user_demand. destruct (node_data (raw10_with d) u) as [x|] eqn:E; [|lra]. unfold node_data in E. apply assoc_node_In in E. cbn in E.
    repeat (destruct E as [E|E]; [injection E as _ <-; cbn; lra|]). destruct E. }
  split.
  { intro u. unfold user_collect. destruct (node_data (raw10_with d) u) as [x|] eqn:E; [|lra]. unfold node_data in E. apply assoc_node_In in E. cbn in E.
    repeat (destruct E as [E|E]; [injection E as _ <-; cbn; lra|]). destruct E. }
  vm_compute. discriminate.
Qed.
Lemma raw10_round d u : In u (custs (raw10_with d)) ->
  path_sum (user_time (raw10_with d)) [Source; u; Sink] + node_sum (user_service (raw10_with d)) (stops [Source; u; Sink]) <= 20 /\
  tw_feasible (user_time (raw10_with d)) (user_service (raw10_with d)) (user_lower (raw10_with d)) (user_upper (raw10_with d) 0) [Source; u; Sink].
Proof.
  intro H. cbn in H. destruct H as [<-|[<-|[<-|[]]]]; (split; [vm_compute; discriminate|]).
  - exists [0; 5; 50]. vm_compute. repeat split; discriminate.
  - exists [0; 6; 50]. vm_compute. repeat split; discriminate.
  - exists [0; 4; 50]. vm_compute. repeat split; discriminate.
Qed.

Lemma raw10_slow d : takes_time (raw10_with d).
Proof.
  intros u v _ _ H. cbn in H.
  repeat (destruct H as [H|H]; [injection H as <- <-; vm_compute; reflexivity|]). destruct H.
Qed.

Lemma windows_case : exists X sa g a v v' out,
  wf g /\ a_mixed_fleet a = false /\ no_empty_costs g /\
  (forall u r, node_data g u = Some r -> r_aux_depot r = false) /\
  sa_pre sa = [] /\ sa_initial sa = [] /\ sa_cspy sa = false /\ sa_dive sa = false /\ sa_heuristic sa = false /\
  nonneg_user_demands g /\ 0 <= user_service g Source /\
  (forall u, In u (custs g) -> within_time g a [Source; u; Sink]) /\
  (forall u, In u (custs g) ->
     exists T, tw_feasible (user_time g) (user_service g) (user_lower g) (user_upper g T) [Source; u; Sink]) /\
  (forall n q, sound_answer q (e_master (x_env X) n q)) /\
  (forall n tl q, sound_answer q (e_pricer (x_env X) n tl q)) /\ takes_time g /\ finds_paths (x_path X) /\
  create g a true false false None false None false [] = Ok v /\ solve X 9 9 sa v = Ok (v', out) /\
  v_iter v' = 3%nat /\
  sv_routes (out_solved out) = [(1%nat, [Source; Cust 3; Sink]); (2%nat, [Source; Cust 1; Cust 2; Sink])] /\
  best_value (out_solved out) = Ok 61.
Proof.
  destruct (call_ok [ride10] plans10 pi10 3 raw10 args10 true false false None
    (fun v' out => v_iter v' = 3%nat /\
       sv_routes (out_solved out) = [(1%nat, [Source; Cust 3; Sink]); (2%nat, [Source; Cust 1; Cust 2; Sink])] /\
       best_value (out_solved out) = Ok 61)) as (v & v' & out & C & So & R); [vm_compute; repeat split; reflexivity|].
  exists (out_of [ride10] plans10 pi10), (exact_call 3), raw10, args10, v, v', out.
  destruct (raw10_facts 8 ltac:(lra)) as (F1 & F2 & F3 & F4 & _ & F6). destruct (oracles_ok [ride10] plans10 pi10) as (O1 & O2 & O3 & O4).
  do 9 (split; [first [assumption|reflexivity]|]). split; [exact F4|]. split; [exact F6|].
  split. { intros u Hu D (E & _). injection E as <-. apply (raw10_round 8 u Hu). }
  split. { intros u Hu. exists 0. apply (raw10_round 8 u Hu). }
  do 2 (split; [assumption|]). split; [exact (raw10_slow 8)|]. split; [assumption|]. split; [exact C|]. split; [exact So|]. exact R.
Qed.

Lemma both_case : exists X sa g a v v' out,
  wf g /\ no_empty_costs g /\
  (forall u r, node_data g u = Some r -> r_aux_depot r = false) /\
  sa_pre sa = [] /\ sa_initial sa = [] /\ sa_cspy sa = false /\ sa_dive sa = false /\ sa_heuristic sa = false /\
  nonneg_user_demands g /\ (forall u, 0 <= user_collect g u) /\ 0 <= user_service g Source /\
  (forall u, In u (custs g) -> within_time g a [Source; u; Sink]) /\
  (forall u k c, In u (custs g) -> first_carrier a (user_demand g u) k -> capacity_of a k c ->
     user_collect g u <= inject_Z c) /\
  (forall n q, sound_answer q (e_master (x_env X) n q)) /\
  (forall n tl q, sound_answer q (e_pricer (x_env X) n tl q)) /\ no_circles (x_env X) /\ finds_paths (x_path X) /\
  create g a false false true None false None false [] = Ok v /\ solve X 9 9 sa v = Ok (v', out) /\
  v_iter v' = 3%nat /\
  sv_routes (out_solved out) = [(1%nat, [Source; Cust 3; Sink]); (2%nat, [Source; Cust 1; Cust 2; Sink])] /\
  best_value (out_solved out) = Ok 61.
Proof.
  destruct (call_ok [ride10] plans10 pi10 3 raw10 args10 false false true None
    (fun v' out => v_iter v' = 3%nat /\
       sv_routes (out_solved out) = [(1%nat, [Source; Cust 3; Sink]); (2%nat, [Source; Cust 1; Cust 2; Sink])] /\
       best_value (out_solved out) = Ok 61)) as (v & v' & out & C & So & R); [vm_compute; repeat split; reflexivity|].
  exists (out_of [ride10] plans10 pi10), (exact_call 3), raw10, args10, v, v', out.
  destruct (raw10_facts 8 ltac:(lra)) as (F1 & F2 & F3 & F4 & F5 & F6). destruct (oracles_ok [ride10] plans10 pi10) as (O1 & O2 & O3 & O4).
  do 8 (split; [first [assumption|reflexivity]|]). split; [exact F4|]. split; [exact F5|]. split; [exact F6|].
  split. { intros u Hu D (E & _). injection E as <-. apply (raw10_round 8 u Hu). }
  split. { intros u k c Hu _ [(E & _)|(l & E & _)]; [|discriminate]. injection E as <-. cbn in Hu. destruct Hu as [<-|[<-|[<-|[]]]]; vm_compute; discriminate. }
  do 4 (split; [assumption|]). split; [exact C|]. split; [exact So|]. exact R.
Qed.

Lemma mixed_case : exists X sa g a v v' out,
  wf g /\ a_mixed_fleet a = true /\
  (forall u r, node_data g u = Some r -> r_aux_depot r = false) /\
  sa_pre sa = [] /\ sa_initial sa = [] /\ sa_cspy sa = false /\ sa_dive sa = false /\ sa_heuristic sa = false /\ sa_greedy sa = false /\
  nonneg_user_demands g /\ 0 <= user_service g Source /\
  (forall u, In u (custs g) -> within_time g a [Source; u; Sink]) /\
  (forall u, In u (custs g) ->
     exists T, tw_feasible (user_time g) (user_service g) (user_lower g) (user_upper g T) [Source; u; Sink]) /\
  (forall n q, sound_answer q (e_master (x_env X) n q)) /\
  (forall n tl q, sound_answer q (e_pricer (x_env X) n tl q)) /\ takes_time g /\ finds_paths (x_path X) /\
  create g a true false false (Some 50) false None false [] = Ok v /\ solve X 9 9 sa v = Ok (v', out) /\
  v_iter v' = 3%nat /\ number_of a 0 1 /\ number_of a 1 1 /\
  sv_routes (out_solved out) = [(1%nat, [Source; Cust 3; Sink]); (2%nat, [Source; Cust 1; Cust 2; Sink])] /\
  sv_types (out_solved out) = [(1%nat, 0%nat); (2%nat, 1%nat)] /\
  best_value (out_solved out) = Ok 58.
Proof.
  destruct (call_ok [ride10] plans11 pi10 3 raw11 args11 true false false (Some 50)
    (fun v' out => v_iter v' = 3%nat /\
       sv_routes (out_solved out) = [(1%nat, [Source; Cust 3; Sink]); (2%nat, [Source; Cust 1; Cust 2; Sink])] /\
       sv_types (out_solved out) = [(1%nat, 0%nat); (2%nat, 1%nat)] /\
       best_value (out_solved out) = Ok 58)) as (v & v' & out & C & So & R1 & R2); [vm_compute; repeat split; reflexivity|].
  exists (out_of [ride10] plans11 pi10), (exact_call 3), raw11, args11, v, v', out.
  destruct (raw10_facts 5 ltac:(lra)) as (F1 & F2 & F3 & F4 & F5 & F6). destruct (oracles_ok [ride10] plans11 pi10) as (O1 & O2 & O3 & O4).
  do 9 (split; [first [assumption|reflexivity]|]). split; [exact F4|]. split; [exact F6|].
  split. { intros u Hu D (E & _). discriminate. }
  split. { intros u Hu. exists 0. apply (raw10_round 5 u Hu). }
  do 2 (split; [assumption|]). split; [exact (raw10_slow 5)|]. split; [assumption|]. split; [exact C|]. split; [exact So|]. split; [exact R1|].
  split. { right. exists [PInt 1; PInt 1], (PInt 1). repeat split; reflexivity. }
  split. { right. exists [PInt 1; PInt 1], (PInt 1). repeat split; reflexivity. }
  exact R2.
Qed.

Lemma raw12_pair u d : user_pair raw12 u d -> (u = Cust 1 /\ d = Cust 3) \/ (u = Cust 2 /\ d = Cust 4).
Proof.
  intros (r & H & E). unfold node_data in H. apply assoc_node_In in H. cbn in H.
  repeat (destruct H as [H|H]; [injection H as <- <-; cbn in E; first [discriminate|injection E as <-; auto]|]). destruct H.
Qed.
Lemma raw12_proper : proper_pairs raw12.
Proof.
  constructor.
  - intros u d H. destruct (raw12_pair u d H) as [(-> & ->)|(-> & ->)]; cbn; tauto.
  - intros u d d' H H'. destruct (raw12_pair u d H) as [(-> & ->)|(-> & ->)]; destruct (raw12_pair _ _ H') as [(Z & _)|(Z & _)]; discriminate.
  - intros u u' d H H'. destruct (raw12_pair u d H) as [(-> & ->)|(-> & ->)]; destruct (raw12_pair _ _ H') as [(-> & Z)|(-> & Z)]; congruence.
  - intros u H. cbn in H. destruct H as [<-|[<-|[<-|[<-|[]]]]].
    + exists (Cust 3). left. eexists. split; reflexivity.
    + exists (Cust 4). left. eexists. split; reflexivity.
    + exists (Cust 1). right. eexists. split; reflexivity.
    + exists (Cust 2). right. eexists. split; reflexivity.
  - intros u d H. destruct (raw12_pair u d H) as [(-> & ->)|(-> & ->)]; split; vm_compute; reflexivity.
Qed.

Lemma pairs_case : exists X sa g a v v' out,
  wf g /\ no_empty_costs g /\
  (forall u r, node_data g u = Some r -> r_aux_depot r = false) /\
  sa_pre sa = [] /\ sa_initial sa = [] /\ sa_cspy sa = false /\ sa_dive sa = false /\ sa_heuristic sa = false /\
  proper_pairs g /\ 0 <= user_demand g Source /\ 0 <= user_demand g Sink /\ 0 <= user_service g Source /\
  (forall n, stop_limit a n -> (2 <= n)%Z) /\
  (forall u d, user_pair g u d -> within_time g a [Source; u; d; Sink]) /\
  (forall u d c, user_pair g u d -> capacity_of a 0 c -> user_demand g u <= inject_Z c) /\
  (forall n q, sound_answer q (e_master (x_env X) n q)) /\
  (forall n tl q, sound_answer q (e_pricer (x_env X) n tl q)) /\ finds_paths (x_path X) /\
  create g a false true false None false None false [] = Ok v /\ solve X 9 9 sa v = Ok (v', out) /\
  v_iter v' = 3%nat /\
  sv_routes (out_solved out) = [(1%nat, [Source; Cust 1; Cust 2; Cust 3; Cust 4; Sink])] /\
  best_value (out_solved out) = Ok 24.
Proof.
  destruct (call_ok [ride12] plans12 pi12 3 raw12 args12 false true false None
    (fun v' out => v_iter v' = 3%nat /\
       sv_routes (out_solved out) = [(1%nat, [Source; Cust 1; Cust 2; Cust 3; Cust 4; Sink])] /\
       best_value (out_solved out) = Ok 24)) as (v & v' & out & C & So & R); [vm_compute; repeat split; reflexivity|].
  exists (out_of [ride12] plans12 pi12), (exact_call 3), raw12, args12, v, v', out. destruct (oracles_ok [ride12] plans12 pi12) as (O1 & O2 & _ & O4).
  split; [apply wfb_ok; vm_compute; reflexivity|]. split; [apply costs_givenb_ok; vm_compute; reflexivity|]. split; [apply no_auxb_ok; vm_compute; reflexivity|].
  do 5 (split; [reflexivity|]). split; [exact raw12_proper|]. do 3 (split; [vm_compute; discriminate|]).
  split. { intros n (E & _). injection E as <-. lia. }
  split. { intros u d H D (E & _). injection E as <-. destruct (raw12_pair u d H) as [(-> & ->)|(-> & ->)]; vm_compute; discriminate. }
  split. { intros u d c H [(E & _)|(l & E & _)]; [|discriminate]. injection E as <-. destruct (raw12_pair u d H) as [(-> & ->)|(-> & ->)]; vm_compute; discriminate. }
  do 3 (split; [assumption|]). split; [exact C|]. split; [exact So|]. exact R.
Qed.

(** *** What fails without the assumptions on the first routes *)

(** the depot closes at 100; the round trip to customer 1 ends at 110 *)
Definition raw13 (collect : option Q) (t1 ser t2 : Q) (up : option Q) : rgraph :=
  mkGraph [(Cust 1, mkNR (Some 1) collect (Some ser) None up None None false);
           (Source, mkNR None None None None None None None false);
           (Sink, mkNR None None None None up None None false)]
          [((Source, Cust 1), mkER (Some (Vec [1])) (Some t1)); ((Cust 1, Sink), mkER (Some (Vec [1])) (Some t2))].
Definition plans13 := [chosen [1]%nat []].

Theorem windows_missed : exists X sa g a v v' out i r,
  wf g /\ no_empty_costs g /\ nonneg_user_demands g /\ (forall u w, 0 <= user_time g u w) /\
  sa_pre sa = [] /\ sa_initial sa = [] /\ sa_cspy sa = false /\ sa_dive sa = false /\ sa_heuristic sa = false /\
  (forall n q, sound_answer q (e_master (x_env X) n q)) /\
  (forall n tl q, sound_answer q (e_pricer (x_env X) n tl q)) /\ no_circles (x_env X) /\ finds_paths (x_path X) /\
  create g a true false false None false None false [] = Ok v /\ solve X 9 9 sa v = Ok (v', out) /\
  In (i, r) (sv_routes (out_solved out)) /\
  forall T, ~ tw_feasible (user_time g) (user_service g) (user_lower g) (user_upper g T) r.
Proof.
  set (g := raw13 None 50 20 40 (Some 100)). set (a := mkArgs PNone PNone PNone PNone PNone false "Exact").
  destruct (call_ok [] plans13 (fun _ => 0) 3 g a true false false None
    (fun v' out => sv_routes (out_solved out) = [(1%nat, [Source; Cust 1; Sink])])) as (v & v' & out & C & So & R); [vm_compute; repeat split; reflexivity|].
  exists (out_of [] plans13 (fun _ => 0)), (exact_call 3), g, a, v, v', out, 1%nat, [Source; Cust 1; Sink].
  destruct (oracles_ok [] plans13 (fun _ => 0)) as (O1 & O2 & O3 & O4).
  split; [apply wfb_ok; vm_compute; reflexivity|]. split; [apply costs_givenb_ok; vm_compute; reflexivity|].
  split; [apply demandsb_ok; vm_compute; reflexivity|]. split; [apply timesb_ok; vm_compute; reflexivity|].
  do 5 (split; [reflexivity|]). do 4 (split; [assumption|]). split; [exact C|]. split; [exact So|]. split; [rewrite R; left; reflexivity|].
  intros T (t & HT). destruct t as [|t0 [|t1 [|t2 [|t3 t]]]]; cbn [timetable] in HT; try tauto.
  destruct HT as (A1 & A2 & A3 & B1 & B2 & B3 & C1 & C2).
  change (user_lower g Source) with 0 in A1. change (user_service g Source) with 0 in A3. change (user_time g Source (Cust 1)) with 50 in A3.
  change (user_service g (Cust 1)) with 20 in B3. change (user_time g (Cust 1) Sink) with 40 in B3. change (user_upper g T Sink) with 100 in C2. lra.
Qed.

Theorem collected_too_much : exists X sa g a v v' out i r c,
  wf g /\ no_empty_costs g /\ nonneg_user_demands g /\ (forall u w, 0 <= user_time g u w) /\
  sa_pre sa = [] /\ sa_initial sa = [] /\ sa_cspy sa = false /\ sa_dive sa = false /\ sa_heuristic sa = false /\
  (forall n q, sound_answer q (e_master (x_env X) n q)) /\
  (forall n tl q, sound_answer q (e_pricer (x_env X) n tl q)) /\ no_circles (x_env X) /\ finds_paths (x_path X) /\
  create g a false false true None false None false [] = Ok v /\ solve X 9 9 sa v = Ok (v', out) /\
  In (i, r) (sv_routes (out_solved out)) /\ a_load_capacity a = PNum (PInt c) /\
  inject_Z c < node_sum (user_collect g) (stops r).
Proof.
  set (g := raw13 (Some 100) 0 0 0 None). set (a := mkArgs PNone (PNum (PInt 10)) PNone PNone PNone false "Exact").
  destruct (call_ok [] plans13 (fun _ => 0) 3 g a false false true None
    (fun v' out => sv_routes (out_solved out) = [(1%nat, [Source; Cust 1; Sink])])) as (v & v' & out & C & So & R); [vm_compute; repeat split; reflexivity|].
  exists (out_of [] plans13 (fun _ => 0)), (exact_call 3), g, a, v, v', out, 1%nat, [Source; Cust 1; Sink], 10%Z.
  destruct (oracles_ok [] plans13 (fun _ => 0)) as (O1 & O2 & O3 & O4).
  split; [apply wfb_ok; vm_compute; reflexivity|]. split; [apply costs_givenb_ok; vm_compute; reflexivity|].
  split; [apply demandsb_ok; vm_compute; reflexivity|]. split; [apply timesb_ok; vm_compute; reflexivity|].
  do 5 (split; [reflexivity|]). do 4 (split; [assumption|]). split; [exact C|]. split; [exact So|]. split; [rewrite R; left; reflexivity|].
  split; [reflexivity|]. vm_compute. reflexivity.
Qed.

(** two stops, although one is the limit *)
Theorem pairs_too_long : exists X sa g a v v' out i r n,
  wf g /\ no_empty_costs g /\ proper_pairs g /\ (forall u w, 0 <= user_time g u w) /\
  sa_pre sa = [] /\ sa_initial sa = [] /\ sa_cspy sa = false /\ sa_dive sa = false /\ sa_heuristic sa = false /\
  (forall n q, sound_answer q (e_master (x_env X) n q)) /\
  (forall n tl q, sound_answer q (e_pricer (x_env X) n tl q)) /\ finds_paths (x_path X) /\
  create g a false true false None false None false [] = Ok v /\ solve X 9 9 sa v = Ok (v', out) /\
  In (i, r) (sv_routes (out_solved out)) /\ stop_limit a n /\ (n < Z.of_nat (List.length (stops r)))%Z.
Proof.
  set (a := mkArgs (PNum (PInt 1)) (PNum (PInt 7)) PNone PNone PNone false "Exact").
  destruct (call_ok [] plans12 (fun _ => 0) 3 raw12 a false true false None
    (fun v' out => sv_routes (out_solved out) = [(1%nat, [Source; Cust 1; Cust 3; Sink]); (2%nat, [Source; Cust 2; Cust 4; Sink])]))
    as (v & v' & out & C & So & R); [vm_compute; repeat split; reflexivity|].
  exists (out_of [] plans12 (fun _ => 0)), (exact_call 3), raw12, a, v, v', out, 1%nat, [Source; Cust 1; Cust 3; Sink], 1%Z.
  destruct (oracles_ok [] plans12 (fun _ => 0)) as (O1 & O2 & _ & O4).
  split; [apply wfb_ok; vm_compute; reflexivity|]. split; [apply costs_givenb_ok; vm_compute; reflexivity|].
  split; [exact raw12_proper|]. split; [apply timesb_ok; vm_compute; reflexivity|].
  do 5 (split; [reflexivity|]). do 3 (split; [assumption|]). split; [exact C|]. split; [exact So|]. split; [rewrite R; left; reflexivity|].
  split; [split; [reflexivity|discriminate]|]. vm_compute. reflexivity.
Qed.

(** there and back takes 7, although 6 is the limit: going through customer 2 would take 3 *)
Definition raw14 : rgraph :=
  let er t := mkER (Some (Vec [1])) (Some t) in
  mkGraph [(Source, mkNR None None None None None None None false); (Cust 1, mkNR (Some 1) None None None None None None false);
           (Cust 2, mkNR (Some 1) None None None None None None false); (Sink, mkNR None None None None None None None false)]
          [((Source, Cust 1), er 6); ((Source, Cust 2), er 1); ((Cust 2, Cust 1), er 1); ((Cust 1, Sink), er 1); ((Cust 2, Sink), er 1)].
Theorem mixed_too_late : exists X sa g a v v' out i r D,
  wf g /\ a_mixed_fleet a = true /\ nonneg_user_demands g /\ (forall u w, 0 <= user_time g u w) /\
  sa_pre sa = [] /\ sa_initial sa = [] /\ sa_cspy sa = false /\ sa_dive sa = false /\ sa_heuristic sa = false /\
  (forall n q, sound_answer q (e_master (x_env X) n q)) /\
  (forall n tl q, sound_answer q (e_pricer (x_env X) n tl q)) /\ no_circles (x_env X) /\ finds_paths (x_path X) /\
  create g a false false false None false None false [] = Ok v /\ solve X 9 9 sa v = Ok (v', out) /\
  In (i, r) (sv_routes (out_solved out)) /\ time_limit a D /\
  inject_Z D < path_sum (user_time g) r + node_sum (user_service g) (stops r).
Proof.
  set (g := raw14).
  set (a := mkArgs PNone (PList [PInt 10]) (PNum (PInt 6)) PNone PNone true "Exact").
  destruct (call_ok [] plans12 (fun _ => 0) 3 g a false false false None
    (fun v' out => sv_routes (out_solved out) = [(1%nat, [Source; Cust 1; Sink]); (2%nat, [Source; Cust 2; Sink])])) as (v & v' & out & C & So & R); [vm_compute; repeat split; reflexivity|].
  exists (out_of [] plans12 (fun _ => 0)), (exact_call 3), g, a, v, v', out, 1%nat, [Source; Cust 1; Sink], 6%Z.
  destruct (oracles_ok [] plans12 (fun _ => 0)) as (O1 & O2 & O3 & O4).
  split; [apply wfb_ok; vm_compute; reflexivity|]. split; [reflexivity|].
  split; [apply demandsb_ok; vm_compute; reflexivity|]. split; [apply timesb_ok; vm_compute; reflexivity|].
  do 5 (split; [reflexivity|]). do 4 (split; [assumption|]). split; [exact C|]. split; [exact So|]. split; [rewrite R; left; reflexivity|].
  split; [split; [reflexivity|discriminate]|]. vm_compute. reflexivity.
Qed.
