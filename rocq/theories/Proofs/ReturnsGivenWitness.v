(** Starting from routes of one's own: a call that returns, and one that cannot. *)
From Verif.Base Require Import Prelude Graph.
From Verif.Spec Require Import Routes Network Inputs Feasible LinProg Pricing MIP Timing Master Run Results Plans Variants Plain Returning.
From Verif.Model Require Import Args Reach Checks Preprocess ClarkeWright Greedy Initial Pricing
  GreedyPricing LPPricing Cspy Master Dive Hyper ColGen Post Schedule Solve.
From Verif.Proofs Require Import RouteLemmas SolveHeur Deciders LPProofs PricingCor Certificate DiveProofs PricingWitness MasterWitness PostEnd Oracles ColGenWitness ColGenProofs RunProofs ColGenCor ColGenEnd SelectProofs SolveUser SolveSamples SolveWitness AnyCases AnyWitness WarmWitness LabelWitness PlainWitness ReturnsWitness ReturnsGiven.

(** ** The labelling algorithm finds nothing: the pool stays as it is *)
Lemma nothing_grown E C g pool pool' : cg_cspy C = true -> cg_greedy C = false ->
  (forall n tl h m ref e thr, e_label E n tl h m ref e thr = None) ->
  grown E C g pool pool' -> same_columns pool' pool.
Proof.
  intros K Gr L H. induction H as [|p1 p2 _ IH P|p1 p2 _ IH S]; [reflexivity| |unfold same_columns in *; congruence].
  destruct P as [D k route p n h hr more _ _ _ P|D k h n more _ (Z & _) _ _]; [|congruence].
  cbv zeta in P. rewrite K in P. unfold cspy_solve in P. destruct (negb (snd hr)); [injection P as <- _; exact IH|].
  apply bind_ok in P. destruct P as (m & _ & P). destruct (passes (cg_options C) (cg_elementary C)) as [|e t]; cbn [cspy_loop] in P; [injection P as <- _; exact IH|].
  apply bind_ok in P. destruct P as (thr & _ & P). rewrite L in P. injection P as <- _. exact IH.
Qed.

(** ** Three customers, two stops per route, and routes 1-2 and 2-3 to start from *)
Definition raw_v : rgraph :=
  let no := mkNR None None None None None None None false in
  let er c := mkER (Some (Scalar c)) None in
  mkGraph [(Source, no); (Cust 1, no); (Cust 2, no); (Cust 3, no); (Sink, no)]
          [((Source, Cust 1), er 10); ((Cust 1, Cust 2), er 1); ((Cust 2, Sink), er 10);
           ((Source, Cust 2), er 10); ((Cust 2, Cust 3), er 1); ((Cust 3, Sink), er 10);
           ((Cust 1, Sink), er 100); ((Source, Cust 3), er 100)].
Definition args_v : rargs := mkArgs (PNum (PInt 2)) PNone PNone PNone PNone false "Exact".
Definition sa_v (given : list (list node)) : solve_args := mkSA given [] "Exact" true true None false false None 1 false.
Definition overlap := [trip [Cust 1; Cust 2]; trip [Cust 2; Cust 3]].
Definition cands_v := [(by_name [(1%nat, 1); (2%nat, 1)], [21; 0; 21])].
Definition X_v (M : nat -> program mvar -> answer mvar) : outside :=
  mkOut (mkEnv (fun _ => 0) M (fun _ => by_node [(1%Z, 21); (3%Z, 21)])
          (fun _ _ => answers (fun _ => 0)) (fun _ l => l)
          (fun _ _ _ => mkAnswer Infeasible None (fun _ => 0)) (fun _ _ => false)
          (fun _ _ _ => []) (fun n _ => labeller []) (fun _ _ _ => 0%nat) (fun _ => 0%nat) (fun _ _ => 0))
        0 (fun _ l => l) nx_path (fun _ => mkAnswer Infeasible None (fun _ => 0)).

Lemma plain_v : plain_problem (sa_v []) raw_v args_v None false None.
Proof.
  assert (W : wf raw_v) by (apply wfb_ok; vm_compute; reflexivity). constructor.
  - exact W.
  - split; [reflexivity|]. intros x y l Z. discriminate.
  - apply costs_givenb_ok. vm_compute. reflexivity.
  - apply demandsb_ok. vm_compute. reflexivity.
  - apply timesb_ok. vm_compute. reflexivity.
  - apply no_auxb_ok. vm_compute. reflexivity.
  - discriminate.
  - reflexivity.
  - repeat split.
  - left. reflexivity.
  - intros x Z. discriminate.
  - intros k n [(x & Z & _)|(l & x & Z & _)]; discriminate.
  - apply accepted; [exact W|reflexivity|vm_compute; reflexivity|vm_compute; reflexivity|vm_compute; reflexivity|vm_compute; reflexivity].
Qed.

Definition obj_v : res vrp := create raw_v args_v false false false None false None false [].

(** Whatever the solver of the master problem does, there is no plan to be returned. *)
Lemma never_v M v : obj_v = Ok v -> (forall n q, sound_answer q (M n q)) ->
  forall f f2 r, solve (X_v M) f f2 (sa_v overlap) v <> Ok r.
Proof.
  intros Hv So f f2 r H. vm_compute in Hv. injection Hv as <-. unfold solve in H.
  apply bind_ok in H. destruct H as (((a & K) & p) & Hp & H). vm_compute in Hp. injection Hp as <- <- <-.
  cbn [sa_heuristic sa_v] in H. apply bind_ok in H. destruct H as ((rs & pool) & Hi & H). cbv zeta in H. cbn [fst snd] in H.
  apply bind_ok in H. destruct H as (s & Hs & H). apply bind_ok in H. destruct H as ((s' & c) & He & _).
  set (C := cg_of _ _ _ _ _ _ _) in *. vm_compute in Hi. injection Hi as <- <-. vm_compute in Hs. injection Hs as <-.
  match type of He with solve_columns _ _ _ _ _ ?x = _ => set (s := x) in * end.
  assert (Fr : fresh C (s_graph s) s).
  { constructor; try (vm_compute; reflexivity); [|split; reflexivity]. exists false, (fun _ l => l), overlap, overlap. vm_compute. reflexivity. }
  change (sa_dive (sa_v overlap)) with false in He.
  destruct c as [((t & sel) & dropped)|].
  2: { unfold solve_columns in He. apply bind_ok in He. destruct He as (s1 & H1 & He). apply bind_ok in He. destruct He as (q & H2 & He). injection He as -> ->.
       apply generation_is_run in H1. destruct H1 as (n & _ & R). destruct (RunProofs.run_ok _ C (s_graph s) n s s' R (fresh_inv _ _ _ Fr)) as (I & _).
       unfold conclude in H2. rewrite (strip_nodes _ _ (iv_graph _ _ _ I)) in H2. cbn in H2. repeat (apply bind_ok in H2; destruct H2 as (? & _ & H2)). discriminate. }
  destruct (concluded_end _ _ _ _ _ _ _ _ _ _ Fr He) as (_ & Gw & Cc).
  apply nothing_grown in Gw; [|reflexivity|reflexivity|intros; reflexivity].
  unfold same_columns in Gw.
  destruct (s_pool s') as [|c1 [|c2 [|c3 l]]]; try discriminate Gw. cbn [map s_pool s] in Gw.
  assert (G1 := f_equal (fun l => nth 0 l (untag c1)) Gw). assert (G2 := f_equal (fun l => nth 1 l (untag c1)) Gw). clear Gw He Fr.
  destruct c1 as [n1 u1 a1 p1 q1 k1 t1], c2 as [n2 u2 a2 p2 q2 k2 t2]. cbn in G1, G2.
  injection G1 as -> -> -> -> -> ->. injection G2 as -> -> -> -> -> ->.
  match type of Cc with concluded _ _ ?l _ _ _ _ _ => assert (Lb : forall c, In c l -> labelled c) by (intros c [<-|[<-|[]]]; reflexivity);
    assert (Nm : NoDup (map c_name l)) by (cbn; repeat constructor; cbn; intuition discriminate) end.
  destruct (conclusion_valid _ _ _ _ _ t sel dropped (wfb_ok _ (eq_refl true : wfb (s_graph s) = true)) Lb Nm (fun m _ => So _ _) Cc eq_refl) as [V1 V2 V3 V4 V5 V6 V7].
  assert (Dr : dropped = []) by (apply V6; intros q (Z & _); discriminate). subst dropped.
  assert (On : forall i, (1 <= i <= 3)%Z -> once (Cust i) sel).
  { intros i Hi. assert (Ci : exists d, customer (s_graph s) (Cust i) d).
    { assert (Ei : i = 1%Z \/ i = 2%Z \/ i = 3%Z) by lia. destruct Ei as [-> | [-> | ->]]; eexists; (split; [cbn; eauto 8|split; [discriminate|split; [discriminate|reflexivity]]]). }
    destruct Ci as (d & Hd). destruct (V4 (Cust i) d Hd) as [(Z & _)|(_ & [])]. exact Z. }
  destruct (On 1%Z) as (d1 & D1 & T1 & _); [lia|]. destruct (On 3%Z) as (d3 & D3 & T3 & _); [lia|].
  destruct (On 2%Z) as (d2 & D2 & T2 & U2); [lia|].
  assert (d1 = d2).
  { apply U2; [exact D1|]. destruct (V1 d1 D1) as [<-|[<-|[]]]; [|discriminate T1]. vm_compute. lia. }
  assert (d3 = d2).
  { apply U2; [exact D3|]. destruct (V1 d3 D3) as [<-|[<-|[]]]; [discriminate T3|]. vm_compute. lia. }
  subst. destruct (V1 d2 D2) as [<-|[<-|[]]]; discriminate.
Qed.

(** ** The statement *)
Lemma arcs_v x y : In (x, y) (arc_list raw_v ++ depot_arcs raw_v) ->
  In (x, y) [(Source, Cust 1); (Cust 1, Cust 2); (Cust 2, Sink); (Source, Cust 2); (Cust 2, Cust 3); (Cust 3, Sink); (Cust 1, Sink); (Source, Cust 3); (Source, Sink)].
Proof. vm_compute. intuition. Qed.

Lemma stop_limit_v r : respects raw_v args_v false false false 0 r -> (List.length (stops r) <= 2)%nat.
Proof.
  intros [_ H _ _ _ _ _ _]. enough (Z.of_nat (List.length (stops r)) <= 2)%Z by lia. apply H. split; [reflexivity|discriminate].
Qed.

Lemma respects_v r : (List.length (stops r) <= 2)%nat -> respects raw_v args_v false false false 0 r.
Proof.
  intro L. constructor; try discriminate.
  - intros c Hc. exfalso. destruct Hc as [(Z & _)|(l & Z & _)]; discriminate.
  - intros n (Hx & _). injection Hx as <-. lia.
  - intros D HD. exfalso. destruct HD as (Z & _). discriminate.
Qed.

Lemma nothing_v n M r : route_shape r -> along (arc_list raw_v ++ depot_arcs raw_v) r -> respects raw_v args_v false false false 0 r ->
  node_sum (fun u => e_duals (x_env (X_v M)) n (Visit u)) (stops r) <= path_sum (user_cost raw_v 0) r.
Proof.
  intros Sh Al Re. apply stop_limit_v in Re. destruct (route_shape_stops r Sh) as (cs & -> & Es). rewrite Es in *.
  assert (Al' : forall x y, In (x, y) (arcs (Source :: cs ++ [Sink])) -> In (x, y) _) by (intros x y Hxy; exact (arcs_v x y (Al x y Hxy))).
  destruct cs as [|u [|w [|z l]]]; [vm_compute; discriminate| | |cbn in Re; lia].
  - destruct (Al' Source u (or_introl eq_refl)) as [E|[E|[E|[E|[E|[E|[E|[E|[E|[]]]]]]]]]]; try discriminate E; injection E as <-; vm_compute; discriminate.
  - assert (A1 := Al' Source u (or_introl eq_refl)). assert (A2 := Al' u w (or_intror (or_introl eq_refl))).
    assert (A3 := Al' w Sink (or_intror (or_intror (or_introl eq_refl)))).
    destruct A1 as [E|[E|[E|[E|[E|[E|[E|[E|[E|[]]]]]]]]]]; try discriminate E; injection E as <-;
    destruct A2 as [E|[E|[E|[E|[E|[E|[E|[E|[E|[]]]]]]]]]]; try discriminate E; injection E as <-; vm_compute; discriminate.
Qed.

Theorem overlap_raises : exists X g a given v,
  let sa rs := mkSA rs [] "Exact" true true None false false None 1 false in
  let with_master M := let E := x_env X in
    mkOut (mkEnv (e_clock E) M (e_duals E) (e_dive E) (e_order E) (e_pricer E) (e_negative E) (e_paths E) (e_label E)
                 (e_random E) (e_choice E) (e_ucb E)) (x_start X) (x_perms X) (x_path X) (x_days X) in
  plain_problem (sa []) g a None false None /\
  (forall r, In r given -> route_shape r /\ stops r <> [] /\ along (arc_list g ++ depot_arcs g) r /\ respects g a false false false 0 r) /\
  (forall u, In u (custs g) -> exists r, In r given /\ In u r) /\
  (forall n q, right_answer q (e_master (x_env X) n q)) /\
  (forall n tl h, sound_labelling h (e_label (x_env X) n tl h)) /\ finds_paths (x_path X) /\
  (forall n r, route_shape r -> along (arc_list g ++ depot_arcs g) r -> respects g a false false false 0 r ->
     node_sum (fun u => e_duals (x_env X) n (Visit u)) (stops r) <= path_sum (user_cost g 0) r) /\
  create g a false false false None false None false [] = Ok v /\
  solve X 9 9 (sa given) v = Err GenericException /\
  (forall M, (forall n q, sound_answer q (M n q)) -> forall f f2 r, solve (with_master M) f f2 (sa given) v <> Ok r).
Proof.
  assert (A : exists v, obj_v = Ok v /\ solve (X_v (fun _ => certify mvar_eqb cands_v)) 9 9 (sa_v overlap) v = Err GenericException).
  { eexists. split; [vm_compute; reflexivity|]. vm_compute. reflexivity. }
  destruct A as (v & Cr & S1). exists (X_v (fun _ => certify mvar_eqb cands_v)), raw_v, args_v, overlap, v. cbv zeta. split; [exact plain_v|].
  split. { intros r Hr. assert (L : route_shape r /\ stops r <> [] /\ along (arc_list raw_v ++ depot_arcs raw_v) r /\ (List.length (stops r) <= 2)%nat).
    { destruct Hr as [<-|[<-|[]]]; (split; [apply route_shapeb_ok; vm_compute; reflexivity|]); (split; [discriminate|]); (split; [|vm_compute; lia]);
      intros x y Hxy; cbn in Hxy; destruct Hxy as [E|[E|[E|[]]]]; injection E as <- <-; vm_compute; auto 12. }
    destruct L as (L1 & L2 & L3 & L4). split; [exact L1|]. split; [exact L2|]. split; [exact L3|]. apply respects_v. exact L4. }
  split. { intros u Hu. vm_compute in Hu. destruct Hu as [<-|[<-|[<-|[]]]]; [exists (trip [Cust 1; Cust 2])|exists (trip [Cust 1; Cust 2])|exists (trip [Cust 2; Cust 3])]; vm_compute; auto 8. }
  split; [intros n q; destruct (certify_right mvar_eqb mvar_eqb_eq cands_v q) as (B1 & B2); constructor; [exact B1|exact B2]|].
  split; [intros n tl h; apply labeller_sound|]. split; [exact nx_path_ok|]. split; [intros n r; apply nothing_v|]. split; [exact Cr|]. split; [exact S1|].
  intros M So f f2 r. exact (never_v M v Cr So f f2 r).
Qed.

(** ** A call that returns a cheaper plan than the one it was given *)
Definition sa_h : solve_args := mkSA [trip [Cust 1]; trip [Cust 2]] [] "Exact" true true None false false None 1 false.
Definition cands_h := [(by_elem [(CNat 1, 1); (CNat 2, 1)], [19; 19]); (by_elem [(CElem 3, 1)], [10; 9])].
Definition env_h : env :=
  mkEnv (fun _ => 0) (fun _ => certify mvar_eqb cands_h)
        (fun n => if (n <? 3)%nat then by_node [(1%Z, 19); (2%Z, 19)] else by_node [(1%Z, 10); (2%Z, 9)])
        (fun _ _ => answers (fun _ => 0)) (fun _ l => l)
        (fun _ _ _ => mkAnswer Infeasible None (fun _ => 0)) (fun _ _ => true)
        (fun _ _ _ => []) (fun n _ => labeller [trip [Cust 2; Cust 1]]) (fun _ _ _ => 0%nat) (fun _ => 0%nat) (fun _ _ => 0).
Definition X_h : outside := mkOut env_h 0 (fun _ l => l) nx_path (fun _ => mkAnswer Infeasible None (fun _ => 0)).

Lemma own_h : own_plan sa_h (raw7 0) args7 None false None (sa_initial sa_h) [].
Proof.
  destruct plain_7 as [P1 P2 P3 P4 P5 P6 P7 P8 P9 P10 P11 _ P13]. constructor;
    [exact P1|exact P2|exact P3|exact P4|exact P5|exact P6|exact P7|exact P8|repeat split|left; reflexivity|exact P11|exact P13|discriminate| | |].
  - intros r Hr. cbn in Hr. assert (L : route_shape r /\ stops r <> [] /\ along (arc_list (raw7 0) ++ depot_arcs (raw7 0)) r /\
      node_sum (user_demand (raw7 0)) (stops r) <= 10 /\ (Z.of_nat (List.length (stops r)) <= 3)%Z /\
      path_sum (user_time (raw7 0)) r + node_sum (user_service (raw7 0)) (stops r) <= 10).
    { destruct Hr as [<-|[<-|[]]]; (split; [apply route_shapeb_ok; vm_compute; reflexivity|]); (split; [discriminate|]);
      (split; [intros x y Hxy; cbn in Hxy; destruct Hxy as [E|[E|[]]]; injection E as <- <-; vm_compute; auto 12|]); repeat split; vm_compute; discriminate. }
    destruct L as (L1 & L2 & L3 & L4 & L5 & L6). split; [exact L1|]. split; [exact L2|]. split; [exact L3|]. constructor; try discriminate.
    + intros c [(Z & _)|(l & Z & _)]; [injection Z as <-; exact L4|discriminate].
    + intros n (Z & _). injection Z as <-. exact L5.
    + intros D (Z & _). injection Z as <-. exact L6.
  - intros u Hu. vm_compute in Hu. destruct Hu as [<-|[<-|[]]]; [exists (trip [Cust 1])|exists (trip [Cust 2])]; vm_compute; auto 8.
  - constructor.
    + intros r Hr. exact Hr.
    + intros u Hu. left. split; [|intros []]. vm_compute in Hu. destruct Hu as [<-|[<-|[]]]; vm_compute; reflexivity.
    + split; [constructor|]. split; [intros u []|auto].
    + intros k n [(x & Z & _)|(l & x & Z & _)]; discriminate.
Qed.

Lemma own_labelling_case : own_plan sa_h (raw7 0) args7 None false None (sa_initial sa_h) [] /\ sa_cspy sa_h = true /\
  (forall n q, right_answer q (e_master (x_env X_h) n q)) /\
  (forall n tl h, sound_labelling h (e_label (x_env X_h) n tl h)) /\ finds_paths (x_path X_h) /\
  Qsum (map (route_price (raw7 0) args7) (sa_initial sa_h)) == 38 /\
  exists v v' out, create (raw7 0) args7 false false false None false None false [] = Ok v /\
    solve X_h 9 9 sa_h v = Ok (v', out) /\ sv_routes (out_solved out) = [(1%nat, trip [Cust 2; Cust 1])] /\
    best_value (out_solved out) = Ok 19.
Proof.
  split; [exact own_h|]. split; [reflexivity|].
  split; [intros n q; destruct (certify_right mvar_eqb mvar_eqb_eq cands_h q) as (B1 & B2); constructor; [exact B1|exact B2]|].
  split; [intros n tl h; apply labeller_sound|]. split; [exact nx_path_ok|]. split; [vm_compute; reflexivity|].
  assert (A : match create (raw7 0) args7 false false false None false None false [] with
    | Ok v => match solve X_h 9 9 sa_h v with
      | Ok r => sv_routes (out_solved (snd r)) = [(1%nat, trip [Cust 2; Cust 1])] /\ best_value (out_solved (snd r)) = Ok 19
      | _ => False end
    | Err _ => False end) by (vm_compute; split; reflexivity).
  destruct (create (raw7 0) args7 false false false None false None false []) as [v|e] eqn:C; [|contradiction].
  destruct (solve X_h 9 9 sa_h v) as [[v' out]|e] eqn:S1; [|contradiction]. exists v, v', out. split; [reflexivity|]. split; [exact S1|]. exact A.
Qed.

(** MIP pricing, nothing found; the given plan is returned *)
Definition sa_i : solve_args := mkSA [trip [Cust 1]; trip [Cust 2]] [] "Exact" false true None false false None 1 false.
Lemma own_i : own_plan sa_i (raw7 0) args7 None false None (sa_initial sa_i) [].
Proof. destruct own_h. constructor; auto. Qed.

Lemma own_mip_case : exists X, own_plan sa_i (raw7 0) args7 None false None (sa_initial sa_i) [] /\ sa_cspy sa_i = false /\
  (forall k u t, 0 <= user_cost (raw7 0) k u t) /\ (forall k, 0 <= price_of args7 k) /\
  (forall n q, right_answer q (e_master (x_env X) n q) /\
     (a_status (e_master (x_env X) n q) = Optimal -> a_objective (e_master (x_env X) n q) <> None /\
      forall y, feasible y q -> value (a_value (e_master (x_env X) n q)) (p_obj q) <= value y (p_obj q))) /\
  (forall n tl q, sound_answer q (e_pricer (x_env X) n tl q)) /\ no_circles (x_env X) /\ finds_paths (x_path X) /\
  exists v v' out, create (raw7 0) args7 false false false None false None false [] = Ok v /\
    solve X 9 9 sa_i v = Ok (v', out) /\ sv_routes (out_solved out) = [(1%nat, trip [Cust 1]); (2%nat, trip [Cust 2])] /\
    best_value (out_solved out) = Ok 38.
Proof.
  exists X_h. split; [exact own_i|]. split; [reflexivity|]. split.
  { intros k u t. unfold user_cost. destruct (arc_data (raw7 0) u t) as [e|] eqn:E.
    - unfold arc_data in E. apply assoc_arc_In in E. cbn in E.
      repeat (destruct E as [E|E]; [injection E as <- <- <-; cbn; lra|]). destruct E.
    - destruct (mem_arc _ _); [|lra]. change 0 with (inject_Z 0). rewrite <- Zle_Qle. lia. }
  split; [intros [|[|k]]; vm_compute; discriminate|]. split.
  { intros n q. destruct (certify_right mvar_eqb mvar_eqb_eq cands_h q) as [A B]. split; [constructor; [exact A|exact B]|]. intro S. split; [|exact (B S)].
    cbn [X_h x_env env_h e_master] in *. unfold certify in *. destruct (find _ _); [discriminate|discriminate S]. }
  split; [intros n tl q; constructor; [intros [Z|(Z & _)]; [discriminate|destruct (Z eq_refl)]|intros x Z; discriminate]|]. split; [intros n tl g h k caps o ns dur p _ Z; discriminate|]. split; [exact nx_path_ok|].
  assert (A : match create (raw7 0) args7 false false false None false None false [] with
    | Ok v => match solve X_h 9 9 sa_i v with
      | Ok r => sv_routes (out_solved (snd r)) = [(1%nat, trip [Cust 1]); (2%nat, trip [Cust 2])] /\ best_value (out_solved (snd r)) = Ok 38
      | _ => False end
    | Err _ => False end) by (vm_compute; split; reflexivity).
  destruct (create (raw7 0) args7 false false false None false None false []) as [v|e] eqn:C; [|contradiction].
  destruct (solve X_h 9 9 sa_i v) as [[v' out]|e] eqn:S1; [|contradiction]. exists v, v', out. split; [reflexivity|]. split; [exact S1|]. exact A.
Qed.
