(** The prepared problem for any number of vehicle types and with time windows. *)
From Verif.Base Require Import Prelude Graph.
From Verif.Spec Require Import Routes Network Inputs Feasible Prep Heuristics LinProg MIP Plans Variants.
From Verif.Model Require Import Args Reach Checks Preprocess ClarkeWright Greedy Initial Pricing
  GreedyPricing LPPricing Cspy Master Dive Hyper ColGen Post Schedule Solve.
From Verif.Proofs Require Import RouteLemmas ChecksProofs FeasProofs PreLemmas PruneProofs KnapProofs LockProofs
  PresolveProofs PresolveEnd SolveProofs.

(* ------------------------------------------------------------------ *)
(** ** Preprocessing without preassignments *)
Section Pre.
  Variables (c : config) (o : options) (g : rgraph) (p : prepared).
  Local Notation h := (pr_copy p).
  Local Notation K := (cf_vehicle_types c).
  Hypothesis W : wf g.
  Hypothesis HS : In Source (nodes g).
  Hypothesis HT : In Sink (nodes g).
  Hypothesis NI : forall u, ~ In (u, Source) (arc_list g).
  Hypothesis NO : forall v, ~ In (Sink, v) (arc_list g).
  Hypothesis C : cost_lists K g.
  Hypothesis RT : forall v, In v (custs g) -> In (Source, v) (arc_list g) /\ In (v, Sink) (arc_list g).
  Hypothesis P : pre_solve c o g = Ok p.
  Hypothesis E1 : o_preassignments o = [].

  Theorem presolve_any :
    network K (pr_graph p) /\ nodes (pr_graph p) = nodes h /\ pr_more_routes p = true /\
    (forall v, In v (nodes h) ->
       demand_of (pr_graph p) v = demand_of h v /\ collect_of (pr_graph p) v = collect_of h v /\
       service_of (pr_graph p) v = service_of h v /\
       request (nd (pr_graph p) v) = request (nd h v) /\ is_aux_depot (nd (pr_graph p) v) = is_aux_depot (nd h v)) /\
    (o_time_windows o = true -> arc_list (pr_graph p) <> [] -> forall v, In v (nodes h) ->
       lower_of h v <= lower_of (pr_graph p) v /\ upper_of (pr_graph p) v <= upper_of h v) /\
    (forall u v, In (u, v) (arc_list (pr_graph p)) -> In (u, v) (arc_list h) /\ time_of (pr_graph p) u v = time_of h u v).
  Proof.
    destruct (presolve_nodes c o g p W HS HT NI NO C RT P) as (W4 & N4 & F4 & A4).
    destruct (safe_stages c o g p P) as (g2 & gc & g3 & H1 & H2 & H3 & H4 & H5 & H6).
    destruct (final_capacity c o g p W HS HT NI NO C RT P g2 gc H1 H2 H4) as (Wc & Sc & Tc & Rc & Nc & Dc & Ac & Bc & Ec).
    destruct (presolve_copy_network c o g p W HS HT NI NO C P) as (Net & N & A).
    unfold lock_stage in H1. rewrite E1 in H1. cbn in H1. injection H1 as <- MR.
    destruct (penalise_ok _ _ _ H6) as (G6 & A6 & T6 & D6).
    destruct Net as [Wh Sh Th Nih Noh Ch].
    assert (Q3 : nodes g3 = nodes gc /\ (forall v, request (nd g3 v) = request (nd gc v) /\ is_aux_depot (nd g3 v) = is_aux_depot (nd gc v)) /\
      forall u v, In (u, v) (arc_list g3) -> arc_data g3 u v = arc_data gc u v /\ In (u, v) (arc_list gc)).
    { destruct (o_time_windows o).
      - destruct (tw_prune_ok gc Wc Sc Tc Rc) as (gx & E & W3 & N3 & F & L3 & A3 & E3). assert (gx = g3) by congruence. subst gx.
        pose proof (tw_prune_rest gc g3 Wc Sc Tc Rc E) as Rs.
        split; [exact N3|]. split; [intro v; destruct (Rs v) as (_ & X); exact X|]. intros u v Huv. split; [apply E3; exact Huv|]. apply A3 in Huv. tauto.
      - injection H3 as <-. auto. }
    destruct Q3 as (N3 & R3 & A3).
    assert (N6 : nodes (pr_graph p) = nodes h) by (unfold nodes in *; rewrite G6, N3; exact Nc).
    assert (L6 : forall u v e, arc_data (pr_graph p) u v = Some e -> exists e', arc_data g3 u v = Some e' /\ List.length (ecost e) = List.length (ecost e')).
    { intros u v e He. destruct (o_use_all_vehicles o) eqn:Eo; [|injection H6 as ->; eauto].
      unfold penalise_empty in H6. apply bind_ok in H6. destruct H6 as (x & Hx & H6). injection H6 as H6. rewrite <- H6, arc_data_map_arcs in He.
      destruct (arc_data g3 u v) as [e'|] eqn:Ee; [|discriminate]. exists e'. split; [reflexivity|]. cbn [option_map] in He.
      injection He as <-. destruct (arc_eqb (u, v) (Source, Sink)) eqn:Ea; [|reflexivity].
      apply arc_eqb_eq in Ea. injection Ea as -> ->. unfold get_arc in Hx. rewrite Ee in Hx. injection Hx as <-. cbn. apply repeat_length. }
    split.
    { constructor.
      - exact W4.
      - rewrite N6; exact Sh.
      - rewrite N6; exact Th.
      - intros u Hu. apply A4 in Hu. apply (Nih u). tauto.
      - intros u Hu. apply A4 in Hu. apply (Noh u). tauto.
      - intros u v e He. destruct (L6 u v e He) as (e' & He' & ->). assert (Huv : In (u, v) (arc_list g3)) by (apply arc_data_In; eauto).
        destruct (A3 u v Huv) as (X1 & X2). rewrite X1, (Ec u v X2) in He'. apply (Ch u v e' He'). }
    split; [exact N6|]. split; [symmetry; exact MR|]. split; [|split].
    - intros v Hv. rewrite <- N6 in Hv. destruct (F4 v Hv) as (Y1 & Y2 & Y3 & _). split; [exact Y1|]. split; [exact Y2|]. split; [exact Y3|].
      assert (X : nd (pr_graph p) v = nd g3 v) by (unfold nd, node_data; rewrite G6; reflexivity). rewrite X. destruct (R3 v) as (-> & ->).
      assert (Z : nd gc v = nd h v) by (unfold nd; rewrite Dc; [reflexivity|rewrite Nc, <- N6; exact Hv]). rewrite Z. auto.
    - intros Ew NE v Hv. rewrite <- N6 in Hv. destruct (F4 v Hv) as (_ & _ & _ & Y4). rewrite Ew in Y4. destruct (Y4 NE) as (-> & ->).
      unfold tight_lower, tight_upper. destruct (is_depot v); [split; lra|]. split.
      + unfold pymax2. destruct (Qltb (lower_of h v) _) eqn:E; [apply Qltb_lt in E; lra|lra].
      + unfold pymin2. destruct (Qltb _ (upper_of h v)) eqn:E; [apply Qltb_lt in E; lra|lra].
    - intros u v Huv. destruct (A4 u v Huv) as (Y1 & Y2 & _). auto.
  Qed.

  (** costs change on the empty trip only *)
  Lemma presolve_costs k u v : In (u, v) (arc_list (pr_graph p)) -> o_use_all_vehicles o = false \/ (u, v) <> (Source, Sink) ->
    cost_of (pr_graph p) k u v = cost_of h k u v.
  Proof.
    intros Huv Un. destruct (safe_stages c o g p P) as (g2 & gc & g3 & H1 & H2 & H3 & H4 & H5 & H6).
    destruct (final_capacity c o g p W HS HT NI NO C RT P g2 gc H1 H2 H4) as (Wc & Sc & Tc & Rc & Nc & Dc & Ac & Bc & Ec).
    unfold lock_stage in H1. rewrite E1 in H1. cbn in H1. injection H1 as <- MR.
    assert (A3 : forall u v, In (u, v) (arc_list g3) -> arc_data g3 u v = arc_data gc u v /\ In (u, v) (arc_list gc)).
    { destruct (o_time_windows o).
      - destruct (tw_prune_ok gc Wc Sc Tc Rc) as (gx & E & W3 & N3 & F & L3 & A3 & E3). assert (gx = g3) by congruence. subst gx.
        intros x y Hxy. split; [apply E3; exact Hxy|]. apply A3 in Hxy. tauto.
      - injection H3 as <-. auto. }
    assert (Eq : arc_data (pr_graph p) u v = arc_data g3 u v).
    { destruct (penalise_ok _ _ _ H6) as (_ & _ & _ & D6). destruct Un as [Un|Un]; [rewrite Un in H6; injection H6 as ->; reflexivity|apply D6; exact Un]. }
    assert (Hg : In (u, v) (arc_list g3)) by (destruct (penalise_ok _ _ _ H6) as (_ & <- & _); exact Huv).
    destruct (A3 u v Hg) as (X1 & X2). unfold cost_of. rewrite Eq, X1, (Ec u v X2). reflexivity.
  Qed.
End Pre.

(* ------------------------------------------------------------------ *)
(** ** prepare *)
Section Any.
  Variables (v : vrp) (sa : solve_args) (a : rargs) (K : nat) (p : prepared).
  Local Notation G := (v_graph v).
  Local Notation h := (pr_copy p).
  Local Notation g3 := (pr_graph p).
  Local Notation o := (options_of v sa).
  Hypothesis R : ready G.
  Hypothesis NE : a_mixed_fleet (v_args v) = false -> no_empty_costs G.
  Hypothesis H : prepare v sa = Ok (a, K, p).

  (** the graph and the arguments after formatting *)
  Lemma any_graph_args : exists g1, gnodes g1 = gnodes G /\ arc_list g1 = arc_list G /\
    (forall u w e, arc_data G u w = Some e -> exists e1, arc_data g1 u w = Some e1 /\ r_time e1 = r_time e /\
       forall k, (k < K)%nat -> raw_cost g1 k u w = user_cost G k u w) /\
    wf g1 /\ In Source (nodes g1) /\ In Sink (nodes g1) /\
    (forall u, ~ In (u, Source) (arc_list g1)) /\ (forall u, ~ In (Sink, u) (arc_list g1)) /\
    cost_lists K g1 /\
    (forall u, In u (custs g1) -> In (Source, u) (arc_list g1) /\ In (u, Sink) (arc_list g1)) /\
    pre_solve (config_of a K) o g1 = Ok p /\ (1 <= K)%nat /\
    a_num_stops a = a_num_stops (v_args v) /\ a_duration a = a_duration (v_args v) /\
    a_mixed_fleet a = a_mixed_fleet (v_args v) /\
    (a_mixed_fleet (v_args v) = false -> K = 1%nat) /\
    (exists f, f = (if a_mixed_fleet (v_args v) then (fun x => x) else format_val) /\
      a_load_capacity a = f (a_load_capacity (v_args v)) /\ a_fixed_cost a = f (a_fixed_cost (v_args v)) /\
      a_num_vehicles a = f (a_num_vehicles (v_args v))) /\
    check_arguments a (Some K) g1 = Ok tt /\
    prepare_args (set_strategy (sa_strategy sa) (v_args v)) G = Ok (a, Some K, g1).
  Proof.
    destruct (a_mixed_fleet (v_args v)) eqn:M.
    - destruct (prepare_inv v sa a K p H) as (g1 & H1 & H2). pose proof H1 as Pa. rewrite prepare_args_unfold in H1.
      assert (E : a_mixed_fleet (set_strategy (sa_strategy sa) (v_args v)) = true) by exact M. rewrite E in H1.
      apply bind_ok in H1. destruct H1 as (ty & Hty & H1). apply bind_ok in H1. destruct H1 as ([] & Ck & H1). injection H1 as Ea Ek Eg. subst ty g1.
      rewrite Ea in Ck. destruct R as [W S T NI NO' Co RT].
      assert (K1 : (1 <= K)%nat).
      { unfold define_vehicle_types in Hty. cbn in Hty.
        assert (L : forall x, py_truthy x = true -> forall n, py_len x = Ok n -> (1 <= n)%nat).
        { intros [|y|[|y l]] Hx n; cbn in *; try discriminate. intro Z. injection Z as <-. lia. }
        destruct (py_truthy (a_load_capacity (v_args v))) eqn:T1.
        { apply bind_ok in Hty. destruct Hty as (n & Hn & Hty). injection Hty as <-. exact (L _ T1 _ Hn). }
        destruct (py_truthy (a_fixed_cost (v_args v))) eqn:T2.
        { apply bind_ok in Hty. destruct Hty as (n & Hn & Hty). injection Hty as <-. exact (L _ T2 _ Hn). }
        destruct (py_truthy (a_num_vehicles (v_args v))) eqn:T3; [|discriminate].
        apply bind_ok in Hty. destruct Hty as (n & Hn & Hty). injection Hty as <-. exact (L _ T3 _ Hn). }
      assert (CL : forall u w e, arc_data G u w = Some e -> exists l, r_cost e = Some (Vec l) /\ List.length l = K).
      { unfold check_arguments in Ck. apply bind_ok in Ck. destruct Ck as (x1 & _ & Ck). apply bind_ok in Ck. destruct Ck as (x2 & _ & Ck).
        apply bind_ok in Ck. destruct Ck as (x3 & _ & Ck). apply bind_ok in Ck. destruct Ck as (x4 & _ & Ck).
        assert (M' : a_mixed_fleet a = true) by (rewrite <- Ea; exact M). rewrite M' in Ck.
        apply bind_ok in Ck. destruct Ck as (x5 & _ & Ck). apply bind_ok in Ck. destruct Ck as (x6 & _ & Ck). apply bind_ok in Ck. destruct Ck as (x7 & _ & Ck).
        rewrite iterM_ok in Ck. intros u w e He. assert (Hin : In (u, w) (edges G)) by (apply in_edges; [exact W|]; apply arc_data_In; eauto).
        specialize (Ck (u, w) Hin). cbn [fst snd] in Ck. unfold get_arc in Ck. rewrite He in Ck. cbn [of_opt bind] in Ck. unfold check_cost_vector in Ck.
        destruct (r_cost e) as [[q|l]|]; try discriminate. exists l. split; [reflexivity|]. apply raise_if_ok in Ck. apply negb_false_iff, Nat.eqb_eq in Ck. exact Ck. }
      exists G. split; [reflexivity|]. split; [reflexivity|]. split.
      { intros u w e He. exists e. split; [exact He|]. split; [reflexivity|]. intros k Hk. unfold raw_cost, user_cost. rewrite He.
        destruct (CL u w e He) as (l & -> & _). reflexivity. }
      split; [exact W|]. split; [exact S|]. split; [exact T|]. split; [exact NI|]. split; [exact NO'|]. split.
      { intros u w e He. destruct (CL u w e He) as (l & El & Ll). exists l. split; [exact El|lia]. }
      split; [exact RT|]. split; [exact H2|]. split; [exact K1|]. rewrite <- Ea. cbn. split; [reflexivity|]. split; [reflexivity|]. split; [exact M|]. split; [discriminate|].
      split; [exists (fun x => x); auto|]. rewrite Ea. split; [exact Ck|]. rewrite Ea in Pa. exact Pa.
    - specialize (NE eq_refl). destruct (one_args v sa a K p M H) as (EK & Ea & P & Ck). destruct (one_graph v sa R NE) as (N1 & A1 & D1 & W1 & S1 & T1 & NI1 & NO1 & C1 & RT1).
      eexists. split; [exact N1|]. split; [exact A1|]. split.
      { intros u w e He. exists (format_cost e). split; [rewrite D1, He; reflexivity|]. split; [unfold format_cost; destruct (r_cost e) as [[q|l]|]; reflexivity|].
        intros k Hk. assert (k = 0%nat) by lia. subst k. unfold raw_cost, user_cost. rewrite D1, He. cbn [option_map]. unfold format_cost.
        destruct R as [_ _ _ _ _ Co _]. specialize (Co _ _ _ He). destruct (r_cost e) as [[q|l]|] eqn:Er; cbn; rewrite ?Er; reflexivity. }
      split; [exact W1|]. split; [exact S1|]. split; [exact T1|]. split; [exact NI1|]. split; [exact NO1|]. split; [rewrite EK; exact C1|]. split; [exact RT1|].
      split; [exact P|]. split; [lia|]. rewrite EK. split; [rewrite Ea; reflexivity|]. split; [rewrite Ea; reflexivity|]. split; [rewrite Ea; reflexivity|]. split; [auto|].
      split; [exists format_val; rewrite Ea; cbn; auto|]. split; [exact Ck|].
      destruct (prepare_inv v sa a K p H) as (gx & Hx & _). rewrite EK in Hx. rewrite Hx. f_equal. f_equal. rewrite prepare_args_unfold in Hx.
      assert (E : a_mixed_fleet (set_strategy (sa_strategy sa) (v_args v)) = false) by exact M. rewrite E in Hx.
      apply bind_ok in Hx. destruct Hx as (y & _ & Hx). injection Hx as _ <-. reflexivity.
  Qed.
  Lemma any_graph : exists g1, gnodes g1 = gnodes G /\ arc_list g1 = arc_list G /\
    (forall u w e, arc_data G u w = Some e -> exists e1, arc_data g1 u w = Some e1 /\ r_time e1 = r_time e /\
       forall k, (k < K)%nat -> raw_cost g1 k u w = user_cost G k u w) /\
    wf g1 /\ In Source (nodes g1) /\ In Sink (nodes g1) /\
    (forall u, ~ In (u, Source) (arc_list g1)) /\ (forall u, ~ In (Sink, u) (arc_list g1)) /\
    cost_lists K g1 /\
    (forall u, In u (custs g1) -> In (Source, u) (arc_list g1) /\ In (u, Sink) (arc_list g1)) /\
    pre_solve (config_of a K) o g1 = Ok p /\ (1 <= K)%nat /\
    a_num_stops a = a_num_stops (v_args v) /\ a_duration a = a_duration (v_args v) /\
    a_mixed_fleet a = a_mixed_fleet (v_args v) /\
    (a_mixed_fleet (v_args v) = false -> K = 1%nat) /\
    (exists f, f = (if a_mixed_fleet (v_args v) then (fun x => x) else format_val) /\
      a_load_capacity a = f (a_load_capacity (v_args v)) /\ a_fixed_cost a = f (a_fixed_cost (v_args v)) /\
      a_num_vehicles a = f (a_num_vehicles (v_args v))) /\
    check_arguments a (Some K) g1 = Ok tt.
  Proof.
    destruct any_graph_args as (g1 & X). exists g1. repeat (destruct X as (?Y & X); split; [assumption|]). apply X.
  Qed.

  Lemma any_network : network K h /\ nodes h = nodes G /\
    (forall u w, In (u, w) (arc_list h) <-> In (u, w) (arc_list G) \/ (u, w) = (Source, Sink)).
  Proof.
    destruct any_graph as (g1 & N1 & A1 & D1 & W1 & S1 & T1 & NI1 & NO1 & C1 & RT1 & P & _).
    destruct (presolve_copy_network (config_of a K) o g1 p W1 S1 T1 NI1 NO1 C1 P) as (Net & N & A).
    split; [exact Net|]. split; [rewrite N; unfold nodes; rewrite N1; reflexivity|]. intros u w. rewrite A, A1. reflexivity.
  Qed.

  (** The figures in the working copy are those of the user. *)
  Lemma any_figures :
    (forall u, In u (custs G) -> demand_of h u = user_demand G u) /\
    (forall u, is_depot u = true -> 0 <= user_demand G u -> demand_of h u == 0) /\
    (forall u, service_of h u = user_service G u /\ collect_of h u = user_collect G u /\ lower_of h u = user_lower G u /\
       upper_of h u == user_upper G (upper_of h Sink) u) /\
    (forall u d, pair_of h u d <-> user_pair G u d) /\
    (forall u d, node_data h u = Some d -> exists r, node_data G u = Some r /\ is_aux_depot d = r_aux_depot r) /\
    (forall u w, time_of h u w = user_time G u w).
  Proof.
    destruct any_graph as (g1 & N1 & A1 & D1 & W1 & S1 & T1 & NI1 & NO1 & C1 & RT1 & P & _).
    destruct (pre_solve_inv _ _ _ _ P) as (g2 & _ & _ & P1 & P2 & _).
    destruct (fixed_stage_ok (config_of a K) g1 g2 W1 C1 P1) as (W2 & N2 & N2' & A2 & C2).
    assert (S2 : In Source (nodes g2)) by (rewrite N2; exact S1). assert (T2 : In Sink (nodes g2)) by (rewrite N2; exact T1).
    destruct (update_dummy_ok _ g2 h W2 S2 T2 P2) as (N3 & W3 & F3 & A3).
    assert (ND : forall u, node_data g2 u = node_data G u) by (intro u; unfold node_data; rewrite N2', N1; reflexivity).
    assert (NO : forall u, node_data G u = None -> node_data h u = None).
    { intros u Hu. destruct (node_data h u) as [d|] eqn:E; [|reflexivity]. exfalso. assert (X : In u (nodes h)) by (apply node_data_In; eauto).
      rewrite N3 in X. apply node_data_In in X. destruct X as (r & X). rewrite ND in X. congruence. }
    assert (TM : forall u w e, arc_data G u w = Some e -> exists e2, arc_data g2 u w = Some e2 /\ r_time e2 = r_time e).
    { intros u w e He. destruct (D1 u w e He) as (e1 & E1 & T0 & _).
      unfold fixed_stage in P1. destruct (nonempty (cf_fixed_cost (config_of a K))); [|assert (E2 : g2 = g1) by congruence; rewrite E2; eauto].
      destruct (add_fixed_costs_ok _ _ _ _ W1 P1) as (_ & _ & _ & X1 & X2). destruct (node_eq_dec u Source) as [->|Hu].
      - destruct (X2 w _ E1) as (e' & l & l' & Y1 & Y2 & _). exists e'. split; [exact Y1|]. congruence.
      - rewrite (X1 u w Hu). eauto. }
    split; [|split; [|split; [|split; [|split]]]].
    - intros u Hu. apply in_custs in Hu. destruct Hu as (Hu & Hd). unfold user_demand, demand_of, nd. apply node_data_In in Hu. destruct Hu as (r & Hr).
      rewrite Hr. destruct (F3 u r) as (d & Hd1 & F); [rewrite ND; exact Hr|]. rewrite Hd1. destruct F as (F & _).
      specialize (F _ (default_given _ _)). rewrite F. apply is_depot_false in Hd. rewrite Hd. cbn. unfold default, or_zero. destruct (r_demand r); reflexivity.
    - intros u Hu H0. assert (X := copy_depot_demand (config_of a K) o g1 p u W1 S1 T1 C1 P Hu). assert (Y : 0 <= demand_of h u); [|lra].
      unfold user_demand in H0. unfold demand_of, nd. destruct (node_data G u) as [r|] eqn:Hr; [|rewrite (NO u Hr); cbn; lra].
      destruct (F3 u r) as (d & Hd1 & F); [rewrite ND; exact Hr|]. rewrite Hd1. destruct F as (F & _). specialize (F _ (default_given _ _)). rewrite F, Hu. cbn [andb].
      destruct (Qltb 0 (default (r_demand r) 0)) eqn:Q0; [lra|]. unfold or_zero in H0. unfold default. exact H0.
    - intro u. unfold user_service, user_collect, user_lower, user_upper, service_of, collect_of, lower_of, upper_of, nd.
      destruct (node_data G u) as [r|] eqn:Hr; [|rewrite (NO u Hr); cbn; repeat split; reflexivity].
      destruct (F3 u r) as (d & Hd1 & F); [rewrite ND; exact Hr|]. rewrite Hd1. destruct F as (_ & Fc & Fs & Fl & Fu & _).
      unfold given_or in Fc, Fs, Fl. unfold or_zero at 1 2 3. split; [destruct (r_service r); auto|]. split; [destruct (r_collect r); auto|]. split; [destruct (r_lower r); auto|].
      destruct (node_eqb u Sink) eqn:Eu; cbn [andb].
      + apply node_eqb_eq in Eu. subst u. destruct (Qeq_bool (or_zero (r_upper r)) 0) eqn:Ez; [rewrite Hd1; reflexivity|].
        assert (Hx : given_or (r_upper r) 0 (upper d)).
        { apply Fu. right. unfold or_zero in Ez. destruct (r_upper r) as [x|]; [|cbn in Ez; discriminate]. exists x. split; [reflexivity|]. intro Z. apply Qeq_bool_iff in Z. congruence. }
        unfold given_or in Hx. unfold or_zero. destruct (r_upper r); rewrite Hx; reflexivity.
      + assert (Hx : given_or (r_upper r) 0 (upper d)).
        { apply Fu. left. intro Z. apply node_eqb_eq in Z. congruence. }
        unfold given_or in Hx. unfold or_zero. destruct (r_upper r); rewrite Hx; reflexivity.
    - intros u d. unfold pair_of, user_pair. split.
      + intros (x & Hx & Hq). assert (X : In u (nodes h)) by (apply node_data_In; eauto). rewrite N3 in X. apply node_data_In in X. destruct X as (r & Hr).
        destruct (F3 u r Hr) as (x' & Hx' & _ & _ & _ & _ & _ & _ & Rq & _). rewrite ND in Hr. exists r. split; [exact Hr|]. congruence.
      + intros (r & Hr & Hq). rewrite <- ND in Hr. destruct (F3 u r Hr) as (x' & Hx' & _ & _ & _ & _ & _ & _ & Rq & _). exists x'. split; [exact Hx'|]. congruence.
    - intros u d Hd. assert (X : In u (nodes h)) by (apply node_data_In; eauto). rewrite N3 in X. apply node_data_In in X. destruct X as (r & Hr).
      destruct (F3 u r Hr) as (x' & Hx' & _ & _ & _ & _ & _ & _ & _ & Ax). rewrite ND in Hr. exists r. split; [exact Hr|]. congruence.
    - intros u w. unfold user_time, time_of. specialize (A3 u w). destruct (arc_data G u w) as [e|] eqn:He.
      + destruct (TM u w e He) as (e2 & E2 & T2'). rewrite E2 in A3. destruct A3 as (e' & -> & _ & F). rewrite T2' in F. unfold given_or in F. unfold or_zero. destruct (r_time e); auto.
      + destruct (arc_data g2 u w) as [e2|] eqn:E2.
        * exfalso. assert (X : In (u, w) (arc_list g2)) by (apply arc_data_In; eauto). rewrite A2, A1 in X. apply arc_data_In in X. destruct X as (x & X). congruence.
        * rewrite A3. destruct (arc_eqb (u, w) (Source, Sink)); reflexivity.
  Qed.

  Lemma any_types : (1 <= K)%nat /\ (a_mixed_fleet (v_args v) = false -> K = 1%nat) /\ a_mixed_fleet a = a_mixed_fleet (v_args v) /\
    a_num_stops a = a_num_stops (v_args v) /\ a_duration a = a_duration (v_args v).
  Proof. destruct any_graph as (g1 & N1 & A1 & D1 & W1 & S1 & T1 & NI1 & NO1 & C1 & RT1 & P & Q1 & Q2 & Q3 & Q4 & Q5 & _). auto. Qed.

  (** What a mixed fleet gives for one of its attributes has one entry for each type. *)
  Lemma mixed_lists : a_mixed_fleet (v_args v) = true ->
    forall x, x = a_load_capacity (v_args v) \/ x = a_fixed_cost (v_args v) \/ x = a_num_vehicles (v_args v) ->
    py_truthy x = true -> exists l, x = PList l /\ List.length l = K.
  Proof.
    intros M x Hx T. destruct (prepare_inv v sa a K p H) as (g1 & H1 & H2). rewrite prepare_args_unfold in H1.
    assert (E : a_mixed_fleet (set_strategy (sa_strategy sa) (v_args v)) = true) by exact M. rewrite E in H1.
    apply bind_ok in H1. destruct H1 as (ty & Hty & H1). apply bind_ok in H1. destruct H1 as ([] & Ck & H1). injection H1 as Ea Ek Eg. subst ty.
    unfold check_arguments in Ck. apply bind_ok in Ck. destruct Ck as (x1 & _ & Ck). apply bind_ok in Ck. destruct Ck as (x2 & _ & Ck).
    apply bind_ok in Ck. destruct Ck as (x3 & _ & Ck). apply bind_ok in Ck. destruct Ck as (x4 & _ & Ck). rewrite E in Ck.
    apply bind_ok in Ck. destruct Ck as (x5 & C5 & Ck). apply bind_ok in Ck. destruct Ck as (x6 & C6 & Ck). apply bind_ok in Ck. destruct Ck as (x7 & C7 & Ck).
    apply same_len_ok in C5, C6, C7. cbn in C5, C6, C7, Hty. unfold define_vehicle_types in Hty. cbn in Hty.
    assert (L : forall y n, py_len y = Ok n -> exists l, y = PList l /\ List.length l = n).
    { intros [|y|l] n; cbn; try discriminate. intro Z. injection Z as <-. eauto. }
    assert (NF : forall y, py_truthy y = true -> falsy y -> False) by (intros y Y1 Y2; apply falsy_iff in Y2; congruence).
    destruct (py_truthy (a_load_capacity (v_args v))) eqn:T1.
    { apply bind_ok in Hty. destruct Hty as (n & Hn & Hty). injection Hty as <-. destruct (L _ _ Hn) as (l1 & L1 & L2).
      destruct Hx as [Hx|[Hx|Hx]]; subst x.
      - exists l1. auto.
      - destruct C6 as [F|[F|(la & lb & F1 & F2 & F3)]]; [destruct (NF _ T1 F)|destruct (NF _ T F)|]. exists lb. split; [exact F2|]. congruence.
      - destruct C5 as [F|[F|(la & lb & F1 & F2 & F3)]]; [destruct (NF _ T1 F)|destruct (NF _ T F)|]. exists lb. split; [exact F2|]. congruence. }
    destruct (py_truthy (a_fixed_cost (v_args v))) eqn:T2.
    { apply bind_ok in Hty. destruct Hty as (n & Hn & Hty). injection Hty as <-. destruct (L _ _ Hn) as (l1 & L1 & L2).
      destruct Hx as [Hx|[Hx|Hx]]; subst x; [congruence|exists l1; auto|].
      destruct C7 as [F|[F|(la & lb & F1 & F2 & F3)]]; [destruct (NF _ T F)|destruct (NF _ T2 F)|]. exists la. split; [exact F1|]. congruence. }
    destruct (py_truthy (a_num_vehicles (v_args v))) eqn:T3; [|discriminate].
    apply bind_ok in Hty. destruct Hty as (n & Hn & Hty). injection Hty as <-. destruct (L _ _ Hn) as (l1 & L1 & L2).
    destruct Hx as [Hx|[Hx|Hx]]; subst x; [congruence|congruence|exists l1; auto].
  Qed.

  (** The fixed cost of each vehicle type. *)
  Lemma any_fixed k : (k < K)%nat -> nth k (cf_fixed_cost (config_of a K)) 0 == price_of (v_args v) k.
  Proof.
    intro Hk. destruct any_graph as (g1 & _ & _ & _ & _ & _ & _ & _ & _ & _ & _ & _ & K1 & _ & _ & _ & KO & (f & Ef & _ & Fx & _) & _).
    cbn. unfold fixed_arg, price_of. rewrite Fx, Ef. destruct (a_mixed_fleet (v_args v)) eqn:M.
    - destruct (a_fixed_cost (v_args v)) as [|n|l] eqn:E; try reflexivity; [destruct k; reflexivity|].
      destruct (py_truthy (PNum n)) eqn:T.
      + destruct (mixed_lists M (PNum n)) as (l & L & _); [right; left; congruence|exact T|discriminate].
      + cbn in T. apply negb_false_iff in T. unfold num_zero in T. apply Qeq_bool_iff in T. rewrite T. destruct k; reflexivity.
    - assert (k = 0%nat) by (specialize (KO eq_refl); lia). subst k. unfold format_val.
      destruct (a_fixed_cost (v_args v)) as [|n|[|n l]] eqn:E; cbn [py_truthy]; try reflexivity.
      destruct (num_zero n) eqn:Z; [|reflexivity]. cbn. unfold num_zero in Z. apply Qeq_bool_iff in Z. rewrite Z. reflexivity.
  Qed.

  (** The cost of a route is what the user charges for it. *)
  Lemma any_route_cost k cs : (k < K)%nat -> cs <> [] -> route_shape (Source :: cs ++ [Sink]) -> along (arc_list G) (Source :: cs ++ [Sink]) ->
    path_sum (cost_of h k) (Source :: cs ++ [Sink]) == path_sum (user_cost G k) (Source :: cs ++ [Sink]) + price_of (v_args v) k.
  Proof.
    intros Hk N0 Sh Al. pose proof (any_fixed k Hk) as AF. destruct any_graph as (g1 & N1 & A1 & D1 & W1 & S1 & T1 & NI1 & NO1 & C1 & RT1 & P & _).
    rewrite <- A1 in Al. rewrite (presolve_cost (config_of a K) o g1 p k cs W1 S1 T1 C1 P Hk N0 Sh Al). rewrite A1 in Al.
    rewrite AF. assert (E : path_sum (raw_cost g1 k) (Source :: cs ++ [Sink]) == path_sum (user_cost G k) (Source :: cs ++ [Sink])); [|rewrite E; reflexivity].
    apply path_sum_ext. intros u w Huw. apply Al in Huw. apply arc_data_In in Huw. destruct Huw as (e & He).
    destruct (D1 u w e He) as (_ & _ & _ & Q). rewrite (Q k Hk). reflexivity.
  Qed.

  (** The capacities. *)
  Lemma any_caps :
    (forall k c, capacity_of (v_args v) k c -> exists l, caps_arg (a_load_capacity a) = Some l /\ nth_error l k = Some c) /\
    (forall q k, first_fitting (caps_arg (a_load_capacity a)) q k -> first_carrier (v_args v) q k) /\
    match caps_arg (a_load_capacity a) with
    | None => pr_max_capacity p = None
    | Some l => l <> [] /\ (forall x, In x l -> (0 < x)%Z) /\ exists m, zmax l = Ok m /\ pr_max_capacity p = Some m
    end /\
    ((a_mixed_fleet (v_args v) = true \/ forall x y l, a_load_capacity (v_args v) <> PList (x :: y :: l)) ->
       forall l, caps_arg (a_load_capacity a) = Some l -> List.length l = K).
  Proof.
    destruct any_graph as (g1 & N1 & A1 & D1 & W1 & S1 & T1 & NI1 & NO1 & C1 & RT1 & P & K1 & _ & _ & Mx & KO & (f & Ef & Lc & _) & Ck).
    pose proof mixed_lists as ML.
    assert (CC : falsy (a_load_capacity a) \/ pos_int_list (a_load_capacity a)).
    { unfold check_arguments in Ck. apply bind_ok in Ck. destruct Ck as (x1 & _ & Ck). apply bind_ok in Ck. destruct Ck as (x2 & C2 & _). apply capacity_check_ok in C2. exact C2. }
    destruct (safe_stages (config_of a K) o g1 p P) as (g2 & gc & g3' & _ & _ & _ & Z & _). cbn [cf_load_capacity config_of] in Z.
    assert (CS : caps_arg (a_load_capacity a) <> Some []).
    { intro X. rewrite X in Z. destruct Z as (m & Z & _). discriminate. }
    assert (PI : forall l, a_load_capacity a = PList l -> forall n, In n l -> exists z, n = PInt z /\ (0 < z)%Z).
    { intros l El n Hn. destruct CC as [F|(l' & E & F)].
      - rewrite El in F. apply falsy_iff in F. destruct l; [destruct Hn|discriminate].
      - rewrite El in E. injection E as <-. exact (F n Hn). }
    assert (NV : forall l n, a_load_capacity a = PList l -> In n l -> inject_Z (int_of n) = num_val n).
    { intros l n El Hn. destruct (PI l El n Hn) as (z & -> & _). reflexivity. }
    split; [|split; [|split]].
    - intros k c Hc. rewrite Lc. destruct Hc as [(E & Hc & ->)|(l & E & Hk)]; rewrite E in *.
      + assert (Tc : py_truthy (PNum (PInt c)) = true).
        { cbn. apply negb_true_iff. unfold num_zero. destruct (Qeq_bool (num_val (PInt c)) 0) eqn:Ez; [|reflexivity]. apply Qeq_bool_iff in Ez. unfold Qeq in Ez. cbn in Ez. lia. }
        destruct (a_mixed_fleet (v_args v)) eqn:M.
        * destruct (ML eq_refl (PNum (PInt c)) (or_introl eq_refl) Tc) as (l & L & _). discriminate.
        * rewrite Ef. unfold format_val. rewrite Tc. exists [c]. split; reflexivity.
      + assert (Ea' : f (PList l) = PList l) by (rewrite Ef; destruct (a_mixed_fleet (v_args v)); [reflexivity|unfold format_val; destruct (py_truthy (PList l)); reflexivity]).
        rewrite Ea' in *. exists (map int_of l). split; [reflexivity|]. rewrite nth_error_map, Hk. reflexivity.
    - intros q k Hf. unfold first_carrier. destruct (a_load_capacity (v_args v)) as [|n|l0] eqn:E.
      + assert (X : caps_arg (a_load_capacity a) = None) by (rewrite Lc, Ef; destruct (a_mixed_fleet (v_args v)); reflexivity). rewrite X in Hf. exact Hf.
      + rewrite Lc, Ef in Hf. destruct (a_mixed_fleet (v_args v)); [exact Hf|]. unfold format_val in Hf. destruct (py_truthy (PNum n)); [|exact Hf]. cbn in Hf.
        destruct Hf as ((c & Hc & _) & _). destruct k as [|[|k]]; [reflexivity|discriminate|discriminate].
      + assert (Ea' : a_load_capacity a = PList l0) by (rewrite Lc, Ef; destruct (a_mixed_fleet (v_args v)); [reflexivity|unfold format_val; destruct (py_truthy (PList l0)); reflexivity]).
        rewrite Ea' in Hf. cbn in Hf. destruct l0 as [|n l0]; [exact Hf|]. change (int_of n :: map int_of l0) with (map int_of (n :: l0)) in Hf.
        set (L := n :: l0) in *. assert (Hf' : (exists c, nth_error (map int_of L) k = Some c /\ q <= inject_Z c) /\ forall i c, (i < k)%nat -> nth_error (map int_of L) i = Some c -> inject_Z c < q) by exact Hf.
        destruct Hf' as ((c & Hc & Hq) & Hm). split.
        * rewrite nth_error_map in Hc. destruct (nth_error L k) as [n'|] eqn:En; [|discriminate]. injection Hc as <-. exists n'. split; [reflexivity|].
          rewrite <- (NV L n' Ea' (nth_error_In _ _ En)). exact Hq.
        * intros j n' Hj En. rewrite <- (NV L n' Ea' (nth_error_In _ _ En)). apply (Hm j _ Hj). rewrite nth_error_map, En. reflexivity.
    - destruct (caps_arg (a_load_capacity a)) as [l|] eqn:El; [|exact Z]. split; [congruence|]. split; [|exact Z].
      intros x Hx. unfold caps_arg in El. destruct (a_load_capacity a) as [|n|l']; try discriminate. injection El as <-. apply in_map_iff in Hx. destruct Hx as (n & <- & Hn).
      destruct (PI l' eq_refl n Hn) as (z & -> & Hz). exact Hz.
    - intros Hm l Hl. assert (Hl0 : l <> []) by congruence. rewrite Lc, Ef in Hl. destruct (a_mixed_fleet (v_args v)) eqn:M.
      + destruct (a_load_capacity (v_args v)) as [|n|l0] eqn:E; try discriminate. cbn in Hl. injection Hl as <-. destruct l0 as [|n l0]; [exfalso; apply Hl0; reflexivity|].
        destruct (ML eq_refl (PList (n :: l0)) (or_introl eq_refl) eq_refl) as (l' & L1 & L2). injection L1 as <-. rewrite map_length. exact L2.
      + destruct Hm as [Hm|Hm]; [discriminate|]. rewrite (KO eq_refl). unfold format_val in Hl. destruct (a_load_capacity (v_args v)) as [|n|[|n [|n' l0]]] eqn:E; try discriminate.
        * destruct (py_truthy (PNum n)); [|discriminate]. injection Hl as <-. reflexivity.
        * cbn in Hl. congruence.
        * injection Hl as <-. reflexivity.
        * exfalso. exact (Hm _ _ _ eq_refl).
  Qed.

  (** The fleet. *)
  Lemma any_fleet k n : truthy (v_periodic v) = false -> number_of (v_args v) k n -> exists l, pr_num_vehicles p = Some l /\ nth_error l k = Some n.
  Proof.
    intros Per Hn. pose proof mixed_lists as ML. destruct any_graph as (g1 & N1 & A1 & D1 & W1 & S1 & T1 & NI1 & NO1 & C1 & RT1 & P & K1 & _ & _ & Mx & KO & (f & Ef & _ & _ & Nv) & Ck).
    destruct (pre_solve_inv _ _ _ _ P) as (_ & _ & _ & _ & _ & _ & _ & _ & _ & _ & _ & Sp). cbn [o_periodic options_of cf_num_vehicles config_of] in Sp.
    unfold split_vehicles, check_periodic_num_vehicles in Sp.
    assert (Q : exists l, fleet_arg (a_num_vehicles a) = Some l /\ nth_error l k = Some n); [|destruct Q as (l & Q1 & Q2); exists l; split; [|exact Q2]; rewrite Q1 in Sp; rewrite Per in Sp; cbn in Sp; congruence].
    rewrite Nv. destruct Hn as [(x & E & Hx & -> & ->)|(l & x & E & Hk & ->)]; rewrite E in *.
    - assert (T : py_truthy (PNum x) = true).
      { cbn. apply negb_true_iff. unfold num_zero. destruct (Qeq_bool (num_val x) 0) eqn:Ez; [|reflexivity]. apply Qeq_bool_iff in Ez. contradiction. }
      destruct (a_mixed_fleet (v_args v)) eqn:M.
      + destruct (ML eq_refl (PNum x)) as (l & L & _); [right; right; congruence|exact T|discriminate].
      + rewrite Ef. unfold format_val. rewrite T. exists [num_val x]. split; reflexivity.
    - assert (Ea' : f (PList l) = PList l) by (rewrite Ef; destruct (a_mixed_fleet (v_args v)); [reflexivity|unfold format_val; destruct (py_truthy (PList l)); reflexivity]).
      rewrite Ea'. exists (map num_val l). split; [reflexivity|]. rewrite nth_error_map, Hk. reflexivity.
  Qed.

  Lemma any_fleet_inv l k n : truthy (v_periodic v) = false -> a_mixed_fleet (v_args v) = false -> pr_num_vehicles p = Some l -> nth_error l k = Some n -> number_of (v_args v) k n.
  Proof.
    intros Per M Hl Hn. destruct any_graph as (g1 & N1 & A1 & D1 & W1 & S1 & T1 & NI1 & NO1 & C1 & RT1 & P & K1 & _ & _ & Mx & KO & (f & Ef & _ & _ & Nv) & Ck).
    destruct (pre_solve_inv _ _ _ _ P) as (_ & _ & _ & _ & _ & _ & _ & _ & _ & _ & _ & Sp). cbn [o_periodic options_of cf_num_vehicles config_of] in Sp.
    unfold split_vehicles, check_periodic_num_vehicles in Sp.
    assert (Q : fleet_arg (a_num_vehicles a) = Some l) by (destruct (fleet_arg (a_num_vehicles a)); rewrite ?Per in Sp; cbn in Sp; congruence).
    rewrite Nv, Ef, M in Q. unfold number_of. unfold format_val, fleet_arg in Q. destruct (a_num_vehicles (v_args v)) as [|x|q] eqn:E; cbn in Q.
    - discriminate.
    - left. exists x. destruct (num_zero x) eqn:Z; cbn in Q; [discriminate|]. injection Q as <-. destruct k as [|[|k]]; [|discriminate|discriminate].
      injection Hn as <-. split; [reflexivity|]. split; [|auto]. intro Hz. unfold num_zero in Z. pose proof (Qeq_eq_bool _ _ Hz) as Hz'. congruence.
    - right. exists q. assert (Q' : map num_val q = l) by (destruct q; cbn in Q |- *; congruence). subst l. rewrite nth_error_map in Hn. destruct (nth_error q k) as [x|]; [|discriminate].
      exists x. split; [reflexivity|]. split; [reflexivity|]. injection Hn as <-. reflexivity.
  Qed.

  (** The network the problem is solved on. *)
  Lemma any_prepared : o_preassignments o = [] ->
    network K g3 /\ nodes g3 = nodes G /\ custs g3 = custs G /\ pr_more_routes p = true /\
    (forall u d, node_data g3 u = Some d -> exists r, node_data G u = Some r /\ is_aux_depot d = r_aux_depot r) /\
    (forall u, In u (custs G) -> demand_of g3 u = user_demand G u) /\
    (forall u, is_depot u = true -> 0 <= user_demand G u -> demand_of g3 u == 0) /\
    (forall u, In u (nodes G) -> service_of g3 u = user_service G u /\ collect_of g3 u = user_collect G u) /\
    (v_windows v = true -> arc_list g3 <> [] -> forall u, In u (nodes G) ->
       user_lower G u <= lower_of g3 u /\ upper_of g3 u <= user_upper G (upper_of h Sink) u) /\
    (forall u d, pair_of g3 u d <-> user_pair G u d) /\
    (forall u w, In (u, w) (arc_list g3) -> In (u, w) (arc_list G) \/ (u, w) = (Source, Sink)) /\
    (forall u w, In (u, w) (arc_list g3) -> time_of g3 u w = user_time G u w).
  Proof.
    intro E1. destruct any_network as (Nh & Nn & Ah). destruct any_figures as (F1 & F2 & F3 & F4 & F5 & F6).
    destruct any_graph as (g1 & N1 & A1 & D1 & W1 & S1 & T1 & NI1 & NO1 & C1 & RT1 & P & _).
    destruct (presolve_any (config_of a K) o g1 p W1 S1 T1 NI1 NO1 C1 RT1 P E1) as (Q1 & Q2 & Q3 & Q4 & Q5 & Q6).
    assert (NG : nodes g3 = nodes G) by congruence.
    assert (CG : custs g3 = custs G) by (unfold custs; rewrite NG; reflexivity).
    assert (ND : forall u d, node_data g3 u = Some d -> exists d', node_data h u = Some d' /\ request d = request d' /\ is_aux_depot d = is_aux_depot d').
    { intros u d Hd. assert (Hu : In u (nodes h)) by (rewrite <- Q2; apply node_data_In; eauto). destruct (Q4 u Hu) as (_ & _ & _ & R1 & R2).
      apply node_data_In in Hu. destruct Hu as (d' & Hd'). exists d'. unfold nd in R1, R2. rewrite Hd, Hd' in R1, R2. auto. }
    split; [exact Q1|]. split; [exact NG|]. split; [exact CG|]. split; [exact Q3|]. split; [|split; [|split; [|split; [|split; [|split; [|split]]]]]].
    - intros u d Hd. destruct (ND u d Hd) as (d' & Hd' & _ & ->). exact (F5 u d' Hd').
    - intros u Hu. destruct (Q4 u) as (-> & _); [rewrite Nn; apply in_custs in Hu; tauto|]. apply F1. exact Hu.
    - intros u Hu H0. destruct (Q4 u) as (-> & _); [|apply F2; assumption].
      destruct u; cbn in Hu; try discriminate; [apply (net_source _ _ Nh)|apply (net_sink _ _ Nh)].
    - intros u Hu. rewrite <- Nn in Hu. destruct (Q4 u Hu) as (_ & -> & -> & _). destruct (F3 u) as (-> & -> & _). auto.
    - intros Hw Ne u Hu. rewrite <- Nn in Hu. destruct (Q5 Hw Ne u Hu) as (X1 & X2). destruct (F3 u) as (_ & _ & Y1 & Y2). rewrite <- Y1, <- Y2. auto.
    - intros u d. rewrite <- F4. unfold pair_of. split.
      + intros (x & Hx & Hr). destruct (ND u x Hx) as (d' & Hd' & Er & _). exists d'. split; [exact Hd'|congruence].
      + intros (x & Hx & Hr). assert (Hu : In u (nodes g3)) by (rewrite Q2; apply node_data_In; eauto). apply node_data_In in Hu. destruct Hu as (y & Hy).
        destruct (ND u y Hy) as (d' & Hd' & Er & _). exists y. split; [exact Hy|congruence].
    - intros u w Huw. apply Ah. apply Q6. exact Huw.
    - intros u w Huw. destruct (Q6 u w Huw) as (_ & ->). apply F6.
  Qed.

  (** Its costs, apart from the empty trip. *)
  Lemma any_costs k u w : o_preassignments o = [] -> In (u, w) (arc_list g3) -> v_all v = false \/ (u, w) <> (Source, Sink) -> cost_of g3 k u w = cost_of h k u w.
  Proof.
    intros E1 Huw Un. destruct any_graph as (g1 & N1 & A1 & D1 & W1 & S1 & T1 & NI1 & NO1 & C1 & RT1 & P & _).
    exact (presolve_costs (config_of a K) o g1 p W1 S1 T1 NI1 NO1 C1 RT1 P E1 k u w Huw Un).
  Qed.

  (** The time windows it has: those of the user, strengthened by the direct trips. *)
  Lemma any_windows : o_preassignments o = [] -> v_windows v = true -> arc_list g3 <> [] ->
    lower_of g3 Source = user_lower G Source /\ upper_of g3 Source == user_upper G (upper_of h Sink) Source /\
    forall u, In u (custs G) -> user_lower G Source + user_time G Source u <= lower_of g3 u.
  Proof.
    intros E1 Ew NA. destruct (any_prepared E1) as (_ & NG & _). destruct any_network as (Nh & Nn & Ah). destruct any_figures as (_ & _ & F3 & _ & _ & F6).
    destruct any_graph as (g1 & N1 & A1 & D1 & W1 & S1 & T1 & NI1 & NO1 & C1 & RT1 & P & _).
    destruct (presolve_nodes (config_of a K) o g1 p W1 S1 T1 NI1 NO1 C1 RT1 P) as (W4 & N4 & F4 & A4).
    change (o_time_windows o) with (v_windows v) in F4. rewrite Ew in F4.
    assert (NS : In Source (nodes g3)) by (rewrite NG, <- Nn; apply (net_source _ _ Nh)).
    destruct (F4 Source NS) as (_ & _ & _ & Y). destruct (Y NA) as (Y1 & Y2). cbn in Y1, Y2.
    destruct (F3 Source) as (_ & _ & X1 & X2).
    split; [rewrite Y1; exact X1|]. split; [rewrite Y2; exact X2|]. intros u Hu.
    assert (NU : In u (nodes g3)) by (rewrite NG; apply in_custs in Hu; tauto).
    destruct (F4 u NU) as (_ & _ & _ & Z). destruct (Z NA) as (Z1 & _). rewrite Z1. unfold tight_lower.
    apply in_custs in Hu. destruct Hu as (_ & U1 & U2). assert (Ed : is_depot u = false) by (apply is_depot_false; auto). rewrite Ed.
    rewrite <- X1, <- F6. unfold pymax2. destruct (Qltb (lower_of h u) _) eqn:E; [lra|]. apply Qltb_ge in E. exact E.
  Qed.

  (** The limit on the number of stops. *)
  Lemma any_cap_pos l n : a_load_capacity (v_args v) = PList l -> In n l -> 0 < num_val n.
  Proof.
    intros El Hn. destruct any_graph as (g1 & N1 & A1 & D1 & W1 & S1 & T1 & NI1 & NO1 & C1 & RT1 & P & K1 & _ & _ & Mx & KO & (f & Ef & Lc & _) & Ck).
    assert (CC : falsy (a_load_capacity a) \/ pos_int_list (a_load_capacity a)).
    { unfold check_arguments in Ck. apply bind_ok in Ck. destruct Ck as (x1 & _ & Ck). apply bind_ok in Ck. destruct Ck as (x2 & C2 & _). apply capacity_check_ok in C2. exact C2. }
    assert (Ea' : a_load_capacity a = PList l) by (rewrite Lc, El, Ef; destruct (a_mixed_fleet (v_args v)); [reflexivity|unfold format_val; destruct (py_truthy (PList l)); reflexivity]).
    rewrite Ea' in CC. destruct CC as [F|(l' & E & F)].
    - apply falsy_iff in F. destruct l; [destruct Hn|discriminate].
    - injection E as <-. destruct (F n Hn) as (z & -> & Hz). cbn. unfold Qlt. cbn. lia.
  Qed.
  Lemma any_stop_pos n : stop_limit (v_args v) n -> (0 < n)%Z.
  Proof.
    intros (En & Hn). destruct any_graph as (g1 & N1 & A1 & D1 & W1 & S1 & T1 & NI1 & NO1 & C1 & RT1 & P & K1 & Sa & _ & _ & _ & _ & Ck).
    unfold check_arguments in Ck. apply bind_ok in Ck. destruct Ck as (x1 & C0 & _). rewrite Sa in C0. apply stops_check_ok in C0.
    rewrite En in C0. destruct C0 as [F0|(z & E & Hz)]; [|injection E as ->; exact Hz]. apply falsy_iff in F0. cbn in F0. unfold num_zero in F0.
    apply negb_false_iff, Qeq_bool_iff in F0. unfold Qeq in F0. cbn in F0. lia.
  Qed.

  Lemma any_stops cs n : o_preassignments o = [] -> 0 <= user_demand G Source -> 0 <= user_demand G Sink ->
    (v_pickup v = false -> nonneg_user_demands G) ->
    (v_pickup v = false -> v_both v = true -> forall u, 0 <= user_collect G u) ->
    stop_limit (v_args v) n -> NoDup cs -> (forall u, In u cs -> In u (custs G)) -> cs <> [] ->
    (forall b, pr_num_stops p = Some b -> b <> 0%Z -> (Z.of_nat (List.length cs) <= b)%Z) ->
    (v_pickup v = false -> forall m, pr_max_capacity p = Some m -> node_sum (user_demand G) cs <= inject_Z m /\
       (v_both v = true -> node_sum (user_collect G) cs <= inject_Z m)) ->
    (Z.of_nat (List.length cs) <= n)%Z.
  Proof.
    intros E1 DS DT ND NC (En & Hn) Nd Cu Ne St Lo. destruct (any_prepared E1) as (Net & NG & CG & _ & _ & FD & FZ & FS & _).
    pose proof any_caps as (_ & _ & Cp & _).
    destruct any_graph as (g1 & N1 & A1 & D1 & W1 & S1 & T1 & NI1 & NO1 & C1 & RT1 & P & K1 & Sa & _ & _ & _ & _ & Ck).
    assert (Ec : cf_num_stops (config_of a K) = Some n) by (cbn; rewrite Sa, En; reflexivity).
    destruct (pre_solve_inv _ _ _ _ P) as (gg & g2 & gx & _ & _ & _ & F & L & Pr & Sg & Pen & _).
    unfold stops_stage in Sg. rewrite Ec in Sg. cbn [o_pickup_delivery o_distribution_collection options_of] in Sg.
    destruct (pr_max_capacity p) as [m|] eqn:Em; [|apply St; [congruence|exact Hn]].
    destruct (v_pickup v) eqn:Epd; [apply St; [congruence|exact Hn]|].
    apply bind_ok in Sg. destruct Sg as (b & B & Eb).
    destruct (penalise_ok _ _ _ Pen) as (G6 & A6 & _).
    assert (W3 : wf gx) by (destruct (net_wf _ _ Net) as [X1 X2 X3]; unfold nodes in *; rewrite G6, A6 in *; constructor; auto).
    assert (N3 : nodes gx = nodes G) by (rewrite <- NG; unfold nodes; rewrite G6; reflexivity).
    assert (X3 : forall u, demand_of gx u = demand_of g3 u /\ collect_of gx u = collect_of g3 u) by (intro u; unfold demand_of, collect_of, nd, node_data; rewrite G6; auto).
    assert (OUT : forall u, ~ In u (nodes G) -> node_data g3 u = None).
    { intros u Hu. destruct (node_data g3 u) as [d|] eqn:Eu; [|reflexivity]. exfalso. apply Hu. rewrite <- NG. apply node_data_In. eauto. }
    assert (D3 : nonneg_demands gx).
    { intro u. destruct (X3 u) as (-> & _). destruct (in_dec node_eq_dec u (nodes G)) as [Hu|Hu].
      - destruct (is_depot u) eqn:Ed.
        + rewrite (FZ u Ed); [lra|]. destruct u; cbn in Ed; try discriminate; assumption.
        + rewrite FD; [apply (ND eq_refl)|]. apply in_custs. split; [exact Hu|]. apply is_depot_false. exact Ed.
      - unfold demand_of, nd. rewrite (OUT u Hu). cbn. lra. }
    assert (C3 : v_both v = true -> nonneg_collects gx).
    { intros Hb u. destruct (X3 u) as (_ & ->). destruct (in_dec node_eq_dec u (nodes G)) as [Hu|Hu].
      - destruct (FS u Hu) as (_ & ->). apply (NC eq_refl Hb).
      - unfold collect_of, nd. rewrite (OUT u Hu). cbn. lra. }
    assert (Hm : (0 <= m)%Z).
    { destruct (caps_arg (a_load_capacity a)) as [l|]; [|congruence]. destruct Cp as (_ & Cp & (m' & Z & Em')).
      assert (m' = m) by congruence. subst m'. apply zmax_in in Z. apply Cp in Z. lia. }
    destruct (Lo eq_refl m eq_refl) as (L1 & L2).
    destruct (stop_bound_exact gx m (Some n) (v_both v) W3) as (k & b' & B' & Mx & m' & Sm & Eb').
    - rewrite N3. apply (rd_source _ R).
    - rewrite N3. apply (rd_sink _ R).
    - exact D3.
    - exact C3.
    - exact Hm.
    - assert (Q : b' = b) by congruence. rewrite Q in Eb'. clear Q.
      assert (Z : (n =? 0)%Z = false) by (apply Z.eqb_neq; exact Hn). rewrite Z in Eb'.
      assert (Hi : forall u, In u cs -> In u (nodes gx)) by (intros u Hu; rewrite N3; apply Cu, in_custs in Hu; tauto).
      assert (B1 : (Z.of_nat (List.length cs) <= k)%Z).
      { apply (fits_count gx demand cs m k W3 D3 Nd Hi); [|exact Mx]. rewrite (node_sum_ext _ (user_demand G)); [exact L1|]. intros u Hu.
        destruct (X3 u) as (X & _). rewrite (FD u (Cu u Hu)) in X. unfold demand_of in X. rewrite <- X. reflexivity. }
      assert (B2 : (Z.of_nat (List.length cs) <= m')%Z).
      { destruct (v_both v) eqn:Eb2; [|rewrite Sm; exact B1]. destruct Sm as (mc & Mc & ->).
        assert (Z.of_nat (List.length cs) <= mc)%Z; [|lia].
        apply (fits_count gx collect cs m mc W3 (C3 eq_refl) Nd Hi); [|exact Mc]. rewrite (node_sum_ext _ (user_collect G)); [exact (L2 eq_refl)|]. intros u Hu.
        destruct (X3 u) as (_ & X). destruct (FS u) as (_ & Y); [apply Cu, in_custs in Hu; tauto|]. rewrite Y in X. unfold collect_of in X. rewrite <- X. reflexivity. }
      destruct cs as [|u cs]; [congruence|]. 
      assert (Hpos : (0 < n)%Z).
      { apply any_stop_pos. split; assumption. }
      assert (b <> 0%Z) by (cbn [List.length] in B2; lia). injection Eb as Eb. specialize (St b (eq_sym Eb)). lia.
  Qed.
  (** the bound on the stops is never negative *)
  Lemma any_stops_nonneg b : o_preassignments o = [] -> 0 <= user_demand G Source -> 0 <= user_demand G Sink ->
    (v_pickup v = false -> nonneg_user_demands G) ->
    (v_pickup v = false -> v_both v = true -> forall u, 0 <= user_collect G u) ->
    pr_num_stops p = Some b -> (0 <= b)%Z.
  Proof.
    intros E1 DS DT ND NC Hb. destruct (any_prepared E1) as (Net & NG & CG & _ & _ & FD & FZ & FS & _).
    pose proof any_caps as (_ & _ & Cp & _).
    destruct any_graph as (g1 & N1 & A1 & D1 & W1 & S1 & T1 & NI1 & NO1 & C1 & RT1 & P & K1 & Sa & _ & _ & _ & _ & Ck).
    assert (Pos : forall s, cf_num_stops (config_of a K) = Some s -> (0 <= s)%Z).
    { intros s Hs. cbn in Hs. rewrite Sa in Hs. destruct (Z.eq_dec s 0) as [->|Ns]; [lia|]. apply Z.lt_le_incl, any_stop_pos. split; [|exact Ns].
      destruct (a_num_stops (v_args v)) as [|[z|q]|l]; cbn in Hs; try discriminate; injection Hs as <-; [reflexivity|congruence]. }
    destruct (pre_solve_inv _ _ _ _ P) as (gg & g2 & gx & _ & _ & _ & F & L & Pr & Sg & Pen & _).
    unfold stops_stage in Sg. cbn [o_pickup_delivery o_distribution_collection options_of] in Sg.
    destruct (pr_max_capacity p) as [m|] eqn:Em; [|apply Pos; congruence].
    destruct (v_pickup v) eqn:Epd; [apply Pos; congruence|].
    apply bind_ok in Sg. destruct Sg as (b1 & B & Eb). assert (b1 = b) by congruence. subst b1.
    destruct (penalise_ok _ _ _ Pen) as (G6 & A6 & _).
    assert (W3 : wf gx) by (destruct (net_wf _ _ Net) as [X1 X2 X3]; unfold nodes in *; rewrite G6, A6 in *; constructor; auto).
    assert (N3 : nodes gx = nodes G) by (rewrite <- NG; unfold nodes; rewrite G6; reflexivity).
    assert (X3 : forall u, demand_of gx u = demand_of g3 u /\ collect_of gx u = collect_of g3 u) by (intro u; unfold demand_of, collect_of, nd, node_data; rewrite G6; auto).
    assert (OUT : forall u, ~ In u (nodes G) -> node_data g3 u = None).
    { intros u Hu. destruct (node_data g3 u) as [d|] eqn:Eu; [|reflexivity]. exfalso. apply Hu. rewrite <- NG. apply node_data_In. eauto. }
    destruct (stop_bound_exact gx m (cf_num_stops (config_of a K)) (v_both v) W3) as (k & b' & B' & Mx & m' & Sm & Eb').
    - rewrite N3. apply (rd_source _ R).
    - rewrite N3. apply (rd_sink _ R).
    - intro u. destruct (X3 u) as (-> & _). destruct (in_dec node_eq_dec u (nodes G)) as [Hu|Hu].
      + destruct (is_depot u) eqn:Ed.
        * rewrite (FZ u Ed); [lra|]. destruct u; cbn in Ed; try discriminate; assumption.
        * rewrite FD; [apply (ND eq_refl)|]. apply in_custs. split; [exact Hu|]. apply is_depot_false. exact Ed.
      + unfold demand_of, nd. rewrite (OUT u Hu). cbn. lra.
    - intros Eb2 u. destruct (X3 u) as (_ & ->). destruct (in_dec node_eq_dec u (nodes G)) as [Hu|Hu].
      + destruct (FS u Hu) as (_ & ->). apply (NC eq_refl Eb2).
      + unfold collect_of, nd. rewrite (OUT u Hu). cbn. lra.
    - destruct (caps_arg (a_load_capacity a)) as [l|]; [|congruence]. destruct Cp as (_ & Cp & (m1 & Z & Em')).
      assert (m1 = m) by congruence. subst m1. apply zmax_in in Z. apply Cp in Z. lia.
    - assert (Q : b' = b) by congruence. rewrite Q in Eb'. clear Q. destruct Mx as ((c1 & _ & _ & Mx) & _).
      assert (0 <= m')%Z by (destruct (v_both v); [destruct Sm as (mc & ((c2 & _ & _ & Mc) & _) & ->); lia|lia]).
      destruct (cf_num_stops (config_of a K)) as [s|] eqn:Es; [|lia]. pose proof (Pos s eq_refl). destruct (s =? 0)%Z; lia.
  Qed.
End Any.
