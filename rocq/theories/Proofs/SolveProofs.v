(** From the object and the arguments of solve() to the prepared problem. *)
From Verif.Base Require Import Prelude Graph.
From Verif.Spec Require Import Routes Network Inputs Feasible Prep LinProg Plans.
From Verif.Model Require Import Args Reach Checks Preprocess ClarkeWright Greedy Initial Pricing
  GreedyPricing LPPricing Cspy Master Dive Hyper ColGen Post Schedule Solve.
From Verif.Proofs Require Import RouteLemmas ChecksProofs FeasProofs PreLemmas PruneProofs KnapProofs LockProofs
  PresolveProofs PresolveEnd.

(* ------------------------------------------------------------------ *)
(** ** The graph of an object *)

(** What the constructor leaves in the attribute G, and what solve() keeps. *)
Record ready (g : rgraph) : Prop := {
  rd_wf : wf g;
  rd_source : In Source (nodes g);
  rd_sink : In Sink (nodes g);
  rd_no_in : forall u, ~ In (u, Source) (arc_list g);
  rd_no_out : forall v, ~ In (Sink, v) (arc_list g);
  rd_costed : costed g;
  rd_trips : forall v, In v (custs g) -> In (Source, v) (arc_list g) /\ In (v, Sink) (arc_list g)
}.

Lemma completion_nodes g g' : completion g g' -> nodes g' = nodes g.
Proof. intros (H & _). unfold nodes. rewrite H. reflexivity. Qed.

Lemma in_depot_arcs (g : rgraph) v : In v (custs g) -> In (Source, v) (depot_arcs g) /\ In (v, Sink) (depot_arcs g).
Proof. intro H. unfold depot_arcs. split; apply in_flat_map; exists v; split; auto; simpl; auto. Qed.

Lemma depot_arcs_inv (g : rgraph) u v : In (u, v) (depot_arcs g) -> (u = Source /\ In v (custs g)) \/ (v = Sink /\ In u (custs g)).
Proof.
  unfold depot_arcs. intro H. apply in_flat_map in H. destruct H as (x & Hx & [E|[E|[]]]); injection E as <- <-; auto.
Qed.

Lemma check_vrp_ready g g' : wf g -> check_vrp g = Ok g' -> ready g' /\ completion g g'.
Proof.
  intros W H. destruct (check_vrp_effect g g' W H) as (Cp & W'). destruct (check_vrp_inv g g' W H) as (A & _).
  destruct A as [S T NI NO _ Co]. assert (N := completion_nodes g g' Cp). assert (Ar := completion_arcs g g' Cp).
  split; [|exact Cp]. constructor; auto.
  - rewrite N; auto.
  - rewrite N; auto.
  - intros u Hu. apply Ar in Hu. apply in_app_iff in Hu. destruct Hu as [Hu|Hu]; [eapply NI; eauto|].
    apply depot_arcs_inv in Hu. destruct Hu as [(_ & Hu)|(E & _)]; [|discriminate]. apply in_custs in Hu. tauto.
  - intros u Hu. apply Ar in Hu. apply in_app_iff in Hu. destruct Hu as [Hu|Hu]; [eapply NO; eauto|].
    apply depot_arcs_inv in Hu. destruct Hu as [(E & _)|(_ & Hu)]; [discriminate|]. apply in_custs in Hu. tauto.
  - apply (completion_costed g g' Cp). exact Co.
  - intros v Hv. assert (Hv' : In v (custs g)) by (unfold custs in *; rewrite N in Hv; exact Hv).
    destruct (in_depot_arcs g v Hv') as (D1 & D2). split; apply Ar, in_app_iff; auto.
Qed.

(** The user's figures in the completed graph *)
Lemma completion_demand g g' v : completion g g' -> user_demand g' v = user_demand g v.
Proof. intros (H & _). unfold user_demand, node_data. rewrite H. reflexivity. Qed.
Lemma completion_service g g' v : completion g g' -> user_service g' v = user_service g v.
Proof. intros (H & _). unfold user_service, node_data. rewrite H. reflexivity. Qed.
Lemma completion_time g g' u v : completion g g' -> user_time g' u v = user_time g u v.
Proof.
  intros (_ & H). unfold user_time. rewrite H. destruct (arc_data g u v); [reflexivity|].
  destruct (mem_arc (u, v) (depot_arcs g)); reflexivity.
Qed.
Lemma completion_cost g g' k u v : completion g g' -> user_cost g' k u v = user_cost g k u v.
Proof.
  intros (G & H). assert (E : depot_arcs g' = depot_arcs g) by (unfold depot_arcs, custs, nodes; rewrite G; reflexivity).
  unfold user_cost. rewrite E, H. destruct (arc_data g u v); [reflexivity|].
  destruct (mem_arc (u, v) (depot_arcs g)); reflexivity.
Qed.
Lemma completion_no_empty g g' : completion g g' -> no_empty_costs g -> no_empty_costs g'.
Proof.
  intros (_ & H) N u v e He. rewrite H in He. destruct (arc_data g u v) as [e'|] eqn:E.
  - injection He as <-. eapply N; eauto.
  - destruct (mem_arc (u, v) (depot_arcs g)); [|discriminate]. injection He as <-. discriminate.
Qed.

(** The result of the constructor *)
Lemma create_ok g a w pd both drop all per span tabu v :
  create g a w pd both drop all per span tabu = Ok v ->
  check_vrp g = Ok (v_graph v) /\
  v_args v = mkArgs (a_num_stops a) (a_load_capacity a) (a_duration a) (a_fixed_cost a)
               (match a_num_vehicles a with PNone => PList [] | n => n end) (a_mixed_fleet a) (a_strategy a) /\
  v_windows v = w /\ v_pickup v = pd /\ v_both v = both /\ v_drop v = drop /\ v_all v = all /\
  v_periodic v = per /\ v_span v = span /\ v_initial v = [] /\ v_pre v = [] /\ v_iter v = 0%nat /\
  v_noimp v = 0%nat /\ v_bounds v = [] /\ v_hyper v = None /\ v_chosen v = [] /\ v_dropped v = [] /\ v_tabu v = tabu.
Proof. unfold create. intro H. apply bind_ok in H. destruct H as (g1 & H1 & H). injection H as <-. cbn. repeat (split; [solve [auto]|]). auto. Qed.

(* ------------------------------------------------------------------ *)
(** ** prepare, for one vehicle type *)

Lemma prepare_inv v sa a K p : prepare v sa = Ok (a, K, p) ->
  exists g1, prepare_args (set_strategy (sa_strategy sa) (v_args v)) (v_graph v) = Ok (a, Some K, g1) /\
    pre_solve (config_of a K) (options_of v sa) g1 = Ok p.
Proof.
  unfold prepare. intro H. apply bind_ok in H. destruct H as (((a1 & types) & g1) & H1 & H).
  apply bind_ok in H. destruct H as (K1 & H2 & H). apply bind_ok in H. destruct H as (p1 & H3 & H). injection H as -> -> ->.
  exists g1. destruct types as [k|]; [|discriminate]. cbn in H2. injection H2 as ->. auto.
Qed.

(** capacities that passed the checks *)
Lemma format_capacity v : py_truthy v = true ->
  (exists u, capacity_check (format_val v) = Ok u) ->
  exists l, l <> [] /\ format_val v = PList (map PInt l) /\ (forall x, In x l -> (0 < x)%Z) /\
    (v = PList (map PInt l) \/ exists c, v = PNum (PInt c) /\ l = [c]).
Proof.
  intros T (u & H). apply capacity_check_ok in H. destruct H as [F|(l & E & H)].
  - exfalso. apply falsy_iff in F. unfold format_val in F. rewrite T in F. destruct v as [|n|l]; try discriminate. rewrite T in F. discriminate.
  - assert (X : exists zs, l = map PInt zs /\ forall x, In x zs -> (0 < x)%Z).
    { clear - H. induction l as [|n l IH]; [exists []; split; [reflexivity|intros x []]|].
      destruct IH as (zs & -> & Z); [intros; apply H; right; assumption|]. destruct (H n (or_introl eq_refl)) as (z & -> & Hz).
      exists (z :: zs). split; [reflexivity|]. intros x [<-|Hx]; auto. }
    destruct X as (zs & -> & Z). exists zs. split; [|split; [exact E|split; [exact Z|]]].
    + intros ->. unfold format_val in E. rewrite T in E. destruct v as [|n|l]; try discriminate. injection E as ->. discriminate.
    + unfold format_val in E. rewrite T in E. destruct v as [|n|l]; try discriminate; [|left; exact E].
      right. destruct zs as [|z [|z' zs]]; try discriminate. injection E as ->. eauto.
Qed.

Lemma chosen_none l : chosen l [].
Proof. induction l; constructor; auto. Qed.
Lemma chosen_one (w : Z) l : In w l -> chosen l [w].
Proof. induction l as [|x l IH]; intros []; [subst; constructor; apply chosen_none|constructor; auto]. Qed.
Lemma qtrunc_zero q : q == 0 -> qtrunc q = 0%Z.
Proof. intro H. unfold qtrunc. unfold Qeq in H. cbn in H. assert (E : Qnum q = 0%Z) by lia. rewrite E. reflexivity. Qed.

Section One.
  Variables (v : vrp) (sa : solve_args) (a : rargs) (K : nat) (p : prepared).
  Local Notation G := (v_graph v).
  Local Notation h := (pr_copy p).
  Local Notation c := (config_of a K).
  Local Notation o := (options_of v sa).
  Hypothesis R : ready G.
  Hypothesis M : a_mixed_fleet (v_args v) = false.
  Hypothesis NE : no_empty_costs G.
  Hypothesis H : prepare v sa = Ok (a, K, p).

  Lemma one_args : K = 1%nat /\
    a = mkArgs (a_num_stops (v_args v)) (format_val (a_load_capacity (v_args v))) (a_duration (v_args v))
          (format_val (a_fixed_cost (v_args v))) (format_val (a_num_vehicles (v_args v))) false (sa_strategy sa) /\
    pre_solve c o (snd (format (set_strategy (sa_strategy sa) (v_args v)) G)) = Ok p /\
    check_arguments a (Some 1%nat) (snd (format (set_strategy (sa_strategy sa) (v_args v)) G)) = Ok tt.
  Proof.
    destruct (prepare_inv v sa a K p H) as (g1 & H1 & H2). rewrite prepare_args_unfold in H1.
    assert (E : a_mixed_fleet (set_strategy (sa_strategy sa) (v_args v)) = false) by exact M. rewrite E in H1.
    apply bind_ok in H1. destruct H1 as ([] & H3 & H1). injection H1 as Ea Ek Eg. subst K g1.
    assert (Ea' : a = mkArgs (a_num_stops (v_args v)) (format_val (a_load_capacity (v_args v))) (a_duration (v_args v))
          (format_val (a_fixed_cost (v_args v))) (format_val (a_num_vehicles (v_args v))) false (sa_strategy sa)).
    { rewrite <- Ea. cbn. rewrite M. reflexivity. }
    split; [reflexivity|]. split; [exact Ea'|]. split; [exact H2|]. rewrite Ea' in *. cbn in H3. rewrite M in H3. exact H3.
  Qed.

  Local Notation g1 := (snd (format (set_strategy (sa_strategy sa) (v_args v)) G)).

  Lemma one_graph : gnodes g1 = gnodes G /\ arc_list g1 = arc_list G /\
    (forall u w, arc_data g1 u w = option_map format_cost (arc_data G u w)) /\
    wf g1 /\ In Source (nodes g1) /\ In Sink (nodes g1) /\
    (forall u, ~ In (u, Source) (arc_list g1)) /\ (forall u, ~ In (Sink, u) (arc_list g1)) /\
    cost_lists 1 g1 /\
    (forall u, In u (custs g1) -> In (Source, u) (arc_list g1) /\ In (u, Sink) (arc_list g1)).
  Proof.
    destruct R as [W S T NI NO Co RT].
    assert (N1 : gnodes g1 = gnodes G) by reflexivity.
    assert (A1 : arc_list g1 = arc_list G) by (apply arc_list_map_arcs).
    assert (D1 : forall u w, arc_data g1 u w = option_map format_cost (arc_data G u w)) by (intros u w; unfold format, snd; rewrite arc_data_map_arcs; reflexivity).
    assert (NN : nodes g1 = nodes G) by (unfold nodes; rewrite N1; reflexivity).
    split; [exact N1|]. split; [exact A1|]. split; [exact D1|]. split; [apply (wf_same G); auto|].
    rewrite NN, A1. split; auto. split; auto. split; auto. split; auto. split.
    - intros u w e He. rewrite D1 in He. destruct (arc_data G u w) as [e0|] eqn:E0; [|discriminate]. injection He as <-.
      unfold format_cost. specialize (Co _ _ _ E0). specialize (NE _ _ _ E0). destruct (r_cost e0) as [[q|l]|] eqn:Er; [| |congruence].
      + exists [q]. split; [reflexivity|cbn; lia].
      + exists l. split; [exact Er|]. destruct l; [congruence|cbn; lia].
    - intros u Hu. apply RT. unfold custs in *. rewrite NN in Hu. exact Hu.
  Qed.

  Lemma one_presolve : pre_solve (config_of a 1) o g1 = Ok p.
  Proof. destruct one_args as (E & _ & P & _). rewrite E in P. exact P. Qed.

  Lemma one_network : network 1 h /\ nodes h = nodes G /\ round_trips h /\
    (forall u w, In (u, w) (arc_list h) <-> In (u, w) (arc_list G) \/ (u, w) = (Source, Sink)).
  Proof.
    destruct one_graph as (N1 & A1 & D1 & W1 & S1 & T1 & NI1 & NO1 & C1 & RT1). pose proof one_presolve as P.
    destruct (presolve_copy_network (config_of a 1) o g1 p W1 S1 T1 NI1 NO1 C1 P) as (Net & N & A).
    split; [exact Net|]. split; [rewrite N; unfold nodes; rewrite N1; reflexivity|].
    split; [apply (copy_round_trips (config_of a 1) o g1 p); assumption|]. intros u w. rewrite A, A1. reflexivity.
  Qed.

  (** The figures in the working copy are those of the user. *)
  Lemma one_figures :
    (forall u, In u (custs G) -> demand_of h u = user_demand G u) /\
    (forall u, service_of h u = user_service G u) /\
    (forall u w, time_of h u w = user_time G u w) /\
    (forall u w, u <> Source -> In (u, w) (arc_list G) -> cost_of h 0 u w == user_cost G 0 u w).
  Proof.
    destruct one_graph as (N1 & A1 & D1 & W1 & S1 & T1 & NI1 & NO1 & C1 & RT1). pose proof one_presolve as P.
    destruct (pre_solve_inv _ _ _ _ P) as (g2 & _ & _ & P1 & P2 & _).
    destruct (fixed_stage_ok (config_of a 1) g1 g2 W1 C1 P1) as (W2 & N2 & N2' & A2 & C2).
    assert (S2 : In Source (nodes g2)) by (rewrite N2; exact S1). assert (T2 : In Sink (nodes g2)) by (rewrite N2; exact T1).
    destruct (update_dummy_ok _ g2 h W2 S2 T2 P2) as (N3 & W3 & F3 & A3).
    assert (ND : forall u, node_data g2 u = node_data G u) by (intro u; unfold node_data; rewrite N2', N1; reflexivity).
    assert (NO : forall u, node_data G u = None -> node_data h u = None).
    { intros u Hu. destruct (node_data h u) as [d|] eqn:E; [|reflexivity]. exfalso. assert (X : In u (nodes h)) by (apply node_data_In; eauto).
      rewrite N3 in X. apply node_data_In in X. destruct X as (r & X). rewrite ND in X. congruence. }
    assert (TM : forall u w e, arc_data G u w = Some e -> exists e2, arc_data g2 u w = Some e2 /\ r_time e2 = r_time e).
    { intros u w e He. assert (E1 : arc_data g1 u w = Some (format_cost e)) by (rewrite D1, He; reflexivity).
      assert (T0 : r_time (format_cost e) = r_time e) by (unfold format_cost; destruct (r_cost e) as [[q|l]|]; reflexivity).
      unfold fixed_stage in P1. destruct (nonempty (cf_fixed_cost (config_of a 1))); [|assert (E2 : g2 = g1) by congruence; rewrite E2; eauto].
      destruct (add_fixed_costs_ok _ _ _ _ W1 P1) as (_ & _ & _ & X1 & X2). destruct (node_eq_dec u Source) as [->|Hu].
      - destruct (X2 w _ E1) as (e' & l & l' & Y1 & Y2 & _). exists e'. split; [exact Y1|]. congruence.
      - rewrite (X1 u w Hu). eauto. }
    split; [|split; [|split]].
    - intros u Hu. apply in_custs in Hu. destruct Hu as (Hu & Hd). unfold user_demand, demand_of, nd. pose proof Hu as Hu0. apply node_data_In in Hu. destruct Hu as (r & Hr).
      rewrite Hr. destruct (F3 u r) as (d & Hd1 & F); [rewrite ND; exact Hr|]. rewrite Hd1. destruct F as (F & _).
      specialize (F _ (default_given _ _)). rewrite F. apply is_depot_false in Hd. rewrite Hd. cbn. unfold default, or_zero. destruct (r_demand r); reflexivity.
    - intro u. unfold user_service, service_of, nd. destruct (node_data G u) as [r|] eqn:Hr; [|rewrite (NO u Hr); reflexivity].
      destruct (F3 u r) as (d & Hd1 & F); [rewrite ND; exact Hr|]. rewrite Hd1. destruct F as (_ & _ & F & _).
      unfold given_or in F. unfold or_zero. destruct (r_service r); auto.
    - intros u w. unfold user_time, time_of. specialize (A3 u w). destruct (arc_data G u w) as [e|] eqn:He.
      + destruct (TM u w e He) as (e2 & E2 & T2'). rewrite E2 in A3. destruct A3 as (e' & -> & _ & F). rewrite T2' in F. unfold given_or in F. unfold or_zero. destruct (r_time e); auto.
      + destruct (arc_data g2 u w) as [e2|] eqn:E2.
        * exfalso. assert (X : In (u, w) (arc_list g2)) by (apply arc_data_In; eauto). rewrite A2, A1 in X. apply arc_data_In in X. destruct X as (x & X). congruence.
        * rewrite A3. destruct (arc_eqb (u, w) (Source, Sink)); reflexivity.
    - intros u w Hu Huw. rewrite <- A1 in Huw. rewrite (presolve_cost_frame (config_of a 1) o g1 p 0 u w W1 S1 T1 C1 P (le_n 1) Huw Hu).
      rewrite A1 in Huw. apply arc_data_In in Huw. destruct Huw as (e & He). unfold raw_cost, user_cost. rewrite He, (D1 u w), He. cbn [option_map]. unfold format_cost.
      destruct R as [_ _ _ _ _ Co _]. specialize (Co _ _ _ He). destruct (r_cost e) as [[q|l]|] eqn:Er; cbn; rewrite ?Er; reflexivity.
  Qed.

  Lemma one_fixed : nth 0 (cf_fixed_cost (config_of a 1)) 0 == fixed_price (v_args v).
  Proof.
    destruct one_args as (_ & -> & _). cbn. unfold fixed_price, fixed_arg, format_val.
    destruct (a_fixed_cost (v_args v)) as [|n|[|n l]] eqn:E; cbn [py_truthy]; try reflexivity.
    destruct (num_zero n) eqn:Z; [|reflexivity]. cbn. unfold num_zero in Z. apply Qeq_bool_iff in Z. rewrite Z. reflexivity.
  Qed.

  (** The cost of a route is what the user charges for it. *)
  Lemma one_route_cost cs : cs <> [] -> route_shape (Source :: cs ++ [Sink]) -> along (arc_list G) (Source :: cs ++ [Sink]) ->
    path_sum (cost_of h 0) (Source :: cs ++ [Sink]) == path_sum (user_cost G 0) (Source :: cs ++ [Sink]) + fixed_price (v_args v).
  Proof.
    intros N0 Sh Al. destruct one_graph as (N1 & A1 & D1 & W1 & S1 & T1 & NI1 & NO1 & C1 & RT1). pose proof one_presolve as P.
    rewrite <- A1 in Al. rewrite (presolve_cost (config_of a 1) o g1 p 0 cs W1 S1 T1 C1 P (le_n 1) N0 Sh Al). rewrite A1 in Al.
    rewrite one_fixed. assert (E : path_sum (raw_cost g1 0) (Source :: cs ++ [Sink]) == path_sum (user_cost G 0) (Source :: cs ++ [Sink])); [|rewrite E; reflexivity].
    apply path_sum_ext. intros u w Huw. apply Al in Huw. apply arc_data_In in Huw. destruct Huw as (e & He).
    unfold raw_cost, user_cost. rewrite D1, He. cbn [option_map]. unfold format_cost.
    destruct R as [_ _ _ _ _ Co _]. specialize (Co _ _ _ He). destruct (r_cost e) as [[q|l]|] eqn:Er; cbn; rewrite ?Er; reflexivity.
  Qed.

  (** The capacities after the checks. *)
  Lemma one_caps : cf_load_capacity c = caps_arg (a_load_capacity a) /\
    match caps_arg (a_load_capacity a) with
    | None => pr_max_capacity p = None
    | Some l => l <> [] /\ (forall x, In x l -> (0 < x)%Z) /\ (exists m, zmax l = Ok m /\ pr_max_capacity p = Some m) /\
        forall u, In u (nodes G) -> fits_some (Some l) (demand_of h u)
    end /\
    (forall cap, capacity_limit (v_args v) cap -> caps_arg (a_load_capacity a) = Some [cap]).
  Proof.
    destruct one_args as (EK & Ea & P & Ck). destruct one_network as (Net & Nn & _).
    assert (CC : exists u, capacity_check (format_val (a_load_capacity (v_args v))) = Ok u).
    { rewrite Ea in Ck. unfold check_arguments in Ck. apply bind_ok in Ck. destruct Ck as (x1 & _ & Ck). apply bind_ok in Ck. destruct Ck as (x2 & C2 & _).
      exists x2. exact C2. }
    destruct (safe_stages c o g1 p P) as (g2 & gc & g3 & _ & _ & _ & Z & _).
    destruct (pre_solve_inv _ _ _ _ P) as (_ & _ & _ & _ & _ & _ & F & _).
    pose proof (check_feasibility_demands _ _ _ (net_wf _ _ Net) F) as F'. cbn [cf_load_capacity config_of] in F', Z.
    split; [reflexivity|]. rewrite Ea in F', Z |- *. cbn [a_load_capacity] in *. destruct (py_truthy (a_load_capacity (v_args v))) eqn:T.
    - destruct (format_capacity _ T CC) as (l & L1 & L2 & L3 & L4). rewrite L2 in *. unfold caps_arg in *.
      assert (Em : map int_of (map PInt l) = l) by (rewrite map_map; apply map_id). rewrite Em in *. split.
      + split; [exact L1|]. split; [exact L3|]. split; [exact Z|]. intros u Hu. apply F'. rewrite Nn. exact Hu.
      + intros cap [[E _]|E]; rewrite E in L4; destruct L4 as [L4|(c0 & L4 & L5)]; try discriminate.
        * injection L4 as <-. rewrite L5. reflexivity.
        * destruct l as [|x [|y l]]; try discriminate. injection L4 as ->. reflexivity.
    - unfold format_val in *. rewrite T in *. unfold capacity_limit. destruct (a_load_capacity (v_args v)) as [|n|[|x l]] eqn:E.
      + split; [exact Z|]. intros cap [[E1 E2]|E1]; discriminate.
      + split; [exact Z|]. intros cap [[E1 E2]|E1]; [|discriminate]. injection E1 as ->. exfalso. apply E2. cbn in T. unfold num_zero in T.
        apply negb_false_iff, Qeq_bool_iff in T. unfold Qeq in T. cbn in T. lia.
      + destruct Z as (m & Z & _). discriminate.
      + discriminate.
  Qed.

  Lemma one_nonneg : nonneg_user_demands G -> nonneg_demands h.
  Proof.
    intros ND u. destruct one_network as (_ & Nn & _). destruct one_graph as (N1 & A1 & D1 & W1 & S1 & T1 & NI1 & NO1 & C1 & RT1). pose proof one_presolve as P'.
    destruct (in_dec node_eq_dec u (nodes G)) as [Hu|Hu].
    - destruct (is_depot u) eqn:Ed.
      + destruct (pre_solve_inv _ _ _ _ P') as (gg' & _ & _ & P1 & P2 & _).
        destruct (fixed_stage_ok (config_of a 1) g1 gg' W1 C1 P1) as (W2 & N2 & N2' & A2 & C2).
        assert (S2 : In Source (nodes gg')) by (rewrite N2; exact S1). assert (T2 : In Sink (nodes gg')) by (rewrite N2; exact T1).
        destruct (update_dummy_ok _ gg' h W2 S2 T2 P2) as (_ & _ & F3 & _).
        apply node_data_In in Hu. destruct Hu as (r & Hr). destruct (F3 u r) as (d & Hd1 & F0); [unfold node_data; rewrite N2', N1; exact Hr|].
        unfold demand_of, nd. rewrite Hd1. destruct F0 as (F0 & _). specialize (F0 _ (default_given _ _)). rewrite F0, Ed. cbn [andb].
        destruct (Qltb 0 (default (r_demand r) 0)) eqn:Q0; [lra|]. specialize (ND u). unfold user_demand in ND. rewrite Hr in ND. unfold or_zero in ND. unfold default. exact ND.
      + destruct one_figures as (FD & _). rewrite FD; [apply ND|]. apply in_custs. split; [exact Hu|]. apply is_depot_false. exact Ed.
    - unfold demand_of, nd. destruct (node_data h u) as [d|] eqn:Eu; [|cbn; lra]. exfalso. apply Hu. rewrite <- Nn. apply node_data_In. eauto.
  Qed.

  Lemma one_stops : nonneg_user_demands G -> v_pickup v = false -> v_both v = false ->
    o_preassignments o = [] -> v_windows v = false ->
    forall n, stop_limit (v_args v) n -> exists b, pr_num_stops p = Some b /\ (1 <= b <= n)%Z.
  Proof.
    intros ND E1 E2 E3 E4 n (En & Hn). destruct one_args as (EK & Ea & P & Ck). destruct one_network as (Net & Nn & _).
    assert (Hpos : (0 < n)%Z).
    { rewrite Ea in Ck. unfold check_arguments in Ck. apply bind_ok in Ck. destruct Ck as (x1 & C1 & _). cbn [a_num_stops] in C1. apply stops_check_ok in C1.
      rewrite En in C1. destruct C1 as [F|(z & E & Hz)]; [|injection E as ->; exact Hz]. apply falsy_iff in F. cbn in F. unfold num_zero in F.
      apply negb_false_iff, Qeq_bool_iff in F. unfold Qeq in F. cbn in F. lia. }
    assert (Ec : cf_num_stops c = Some n) by (rewrite Ea; cbn; rewrite En; reflexivity).
    destruct (pre_solve_inv _ _ _ _ P) as (gg & g2 & g3 & _ & _ & _ & F & L & Pr & St & Pen & _).
    unfold stops_stage in St. rewrite Ec in St. destruct (pr_max_capacity p) as [m|] eqn:Em; [|injection St as <-; exists n; split; [reflexivity|lia]].
    cbn [o_pickup_delivery o_distribution_collection options_of] in St. rewrite E1, E2 in St. apply bind_ok in St. destruct St as (b & B & Eb). injection Eb as <-. exists b. split; [reflexivity|].
    destruct one_graph as (N1 & A1 & D1 & W1 & S1 & T1 & NI1 & NO1 & C1 & RT1). pose proof one_presolve as P'.
    destruct (presolve_plain (config_of a 1) o g1 p W1 S1 T1 NI1 NO1 C1 RT1 P' E3 E4) as (Net3 & _ & ND3 & NN3 & _).
    destruct (penalise_ok _ _ _ Pen) as (G6 & A6 & _).
    assert (W3 : wf g3) by (destruct (net_wf _ _ Net3) as [X1 X2 X3]; unfold nodes in *; rewrite G6, A6 in *; constructor; auto).
    assert (N3 : nodes g3 = nodes h) by (unfold nodes in *; rewrite <- NN3, G6; reflexivity).
    assert (D3 : forall u, 0 <= demand_of g3 u).
    { intro u. assert (X : demand_of g3 u = demand_of h u) by (unfold demand_of, nd; rewrite <- ND3; unfold node_data; rewrite G6; reflexivity). rewrite X.
      apply one_nonneg. exact ND. }
    assert (Hm : (0 <= m)%Z).
    { destruct one_caps as (_ & Cp & _). destruct (caps_arg (a_load_capacity a)) as [l|]; [|congruence]. destruct Cp as (_ & Cp & (m' & Z & Em') & _).
      assert (m' = m) by congruence. subst m'. apply zmax_in in Z. apply Cp in Z. lia. }
    destruct (stop_bound_exact g3 m (Some n) false W3) as (k & b' & B' & Mx & m' & Sm & Eb').
    + rewrite N3, Nn. apply (rd_source _ R).
    + rewrite N3, Nn. apply (rd_sink _ R).
    + exact D3.
    + discriminate.
    + exact Hm.
    + assert (Q : b' = b) by congruence. rewrite Q in Eb'. clear Q. cbn in Sm. rewrite Sm in Eb'. assert (Z : (n =? 0)%Z = false) by (apply Z.eqb_neq; exact Hn). rewrite Z in Eb'.
      assert (1 <= k)%Z; [|lia]. destruct Mx as (_ & Mx).
      assert (HSo : In Source (nodes g3)) by (rewrite N3, Nn; apply (rd_source _ R)). unfold nodes in HSo. apply in_map_iff in HSo. destruct HSo as ((s & d) & Es & Hs). cbn in Es. subst s.
      assert (Y : demand d == 0).
      { assert (X : demand_of h Source = demand d).
        { unfold demand_of, nd. rewrite <- ND3. unfold node_data. rewrite G6. fold (node_data g3 Source). rewrite (gnodes_data g3 Source d W3 Hs). reflexivity. }
        pose proof (D3 Source) as Y1. assert (X' : demand_of g3 Source = demand_of h Source) by (unfold demand_of, nd; rewrite <- ND3; unfold node_data; rewrite G6; reflexivity).
        pose proof (copy_depot_demand (config_of a 1) o g1 p Source W1 S1 T1 C1 P' eq_refl) as Y2. rewrite X', X in Y1. rewrite X in Y2. lra. }
      specialize (Mx _ (chosen_one _ _ (in_map (fun q => qtrunc (demand (snd q))) _ _ Hs))). cbn in Mx. rewrite (qtrunc_zero _ Y) in Mx. lia.
  Qed.
End One.
