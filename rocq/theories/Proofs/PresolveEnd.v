(** What the network handed to the solution methods looks like. *)
From Verif.Base Require Import Prelude Graph.
From Verif.Spec Require Import Routes Network Inputs Feasible Prep.
From Verif.Model Require Import Args Reach Checks Preprocess.
From Verif.Proofs Require Import RouteLemmas FeasProofs PreLemmas PruneProofs KnapProofs LockProofs PresolveProofs.

Section Final.
  Variables (c : config) (o : options) (g : rgraph) (p : prepared).
  Local Notation h := (pr_copy p).
  Hypothesis W : wf g.
  Hypothesis HS : In Source (nodes g).
  Hypothesis HT : In Sink (nodes g).
  Hypothesis NI : forall u, ~ In (u, Source) (arc_list g).
  Hypothesis NO : forall v, ~ In (Sink, v) (arc_list g).
  Hypothesis C : cost_lists (cf_vehicle_types c) g.
  Hypothesis RT : forall v, In v (custs g) -> In (Source, v) (arc_list g) /\ In (v, Sink) (arc_list g).
  Hypothesis P : pre_solve c o g = Ok p.

  Lemma final_locked g2 : lock_stage c o h = Ok (g2, pr_more_routes p) ->
    wf g2 /\ In Source (nodes g2) /\ In Sink (nodes g2) /\ round_trips g2 /\
    (forall v, In v (nodes g2) -> node_data g2 v = node_data h v) /\
    (forall u v, In (u, v) (arc_list g2) -> In (u, v) (arc_list h)) /\
    (forall u v, In (u, v) (arc_list g2) -> time_of g2 u v = time_of h u v).
  Proof.
    intro H. destruct (presolve_copy_network c o g p W HS HT NI NO C P) as (Net & N & A).
    destruct Net as [Wh Sh Th Nih Noh _].
    destruct (lock_stage_ok c o h g2 _ Wh H) as (W2 & N2 & D2 & A2 & T2 & _).
    destruct (check_preassignments_depots c o h g2 _ Wh Nih Noh H) as (L1 & L2).
    assert (S2 : In Source (nodes g2)) by (apply N2; auto).
    assert (K2 : In Sink (nodes g2)) by (apply N2; auto).
    split; auto. split; auto. split; auto.
    split; [apply (lock_round_trips c o h g2 (pr_more_routes p) Wh H S2 K2); apply (copy_round_trips c o g p); assumption|].
    split; auto. split; [intros u v Huv; apply A2 in Huv; tauto|]. auto.
  Qed.

  Lemma final_capacity g2 gc : lock_stage c o h = Ok (g2, pr_more_routes p) ->
    (match pr_max_capacity p with Some m => remove_infeasible_arcs_capacities m g2 | None => Ok g2 end) = Ok gc ->
    (match cf_load_capacity c with Some l => exists m, zmax l = Ok m /\ pr_max_capacity p = Some m
     | None => pr_max_capacity p = None end) ->
    wf gc /\ In Source (nodes gc) /\ In Sink (nodes gc) /\ round_trips gc /\ nodes gc = nodes g2 /\
    (forall v, In v (nodes gc) -> node_data gc v = node_data h v) /\
    (forall u v, In (u, v) (arc_list gc) -> In (u, v) (arc_list h) /\ time_of gc u v = time_of h u v) /\
    (forall u v, In (u, v) (arc_list gc) <-> In (u, v) (arc_list g2) /\
       (forall m, pr_max_capacity p = Some m -> demand_of h u + demand_of h v <= inject_Z m)) /\
    (forall u v, In (u, v) (arc_list gc) -> arc_data gc u v = arc_data g2 u v).
  Proof.
    intros H Hc Hm. destruct (final_locked g2 H) as (W2 & S2 & T2 & R2 & D2 & I2 & Ti2).
    destruct (pr_max_capacity p) as [m|] eqn:Em.
    2:{ inversion Hc; subst. do 7 (split; [auto|]). split; [|auto]. intros u v. split; [|tauto]. intro X. split; [exact X|discriminate]. }
    destruct (cf_load_capacity c) as [caps|] eqn:Ec; [|discriminate].
    destruct Hm as (m' & Hz & Em'). inversion Em'; subst m'. clear Em'. apply zmax_ok in Hz. destruct Hz as (Hm1 & Hm2).
    destruct (capacity_prune_ok m g2 W2) as (gx & E & G & Wc & A & Dd). assert (gx = gc) by congruence. subst gx. clear E.
    assert (Nc : nodes gc = nodes g2) by (unfold nodes; rewrite G; auto).
    assert (Dc : forall v, node_data gc v = node_data g2 v) by (intro v; unfold node_data; rewrite G; auto).
    assert (DD : forall v, In v (nodes g2) -> demand_of g2 v = demand_of h v).
    { intros v Hv. unfold demand_of, nd. rewrite D2; auto. }
    split; auto. split; [rewrite Nc; auto|]. split; [rewrite Nc; auto|]. split.
    { pose proof P as P0. apply pre_solve_inv in P0. destruct P0 as (g1 & g2' & g3 & _ & _ & _ & F & _).
      rewrite Ec in F.
      destruct (presolve_copy_network c o g p W HS HT NI NO C P) as (Net & N & _).
      pose proof (check_feasibility_demands _ _ _ (net_wf _ _ Net) F) as F0. clear F. rename F0 into F. destruct Net as [Wh Sh Th Nih Noh _].
      destruct (lock_stage_ok c o h g2 _ Wh H) as (_ & N2 & _).
      apply (capacity_prune_round_trips m g2 gc); auto.
      - rewrite DD by auto. apply (copy_depot_demand c o g p Source); auto.
      - rewrite DD by auto. apply (copy_depot_demand c o g p Sink); auto.
      - intros v Hv. apply in_custs in Hv. destruct Hv as (Hv & _). rewrite DD by auto.
        destruct caps as [|c0 cl]; [destruct Hm1|].
        destruct (F v) with (c := c0) (l := cl) as (x & Hx & Hle); auto; [apply N2; auto|].
        apply Hm2 in Hx. rewrite Zle_Qle in Hx. lra. }
    split; auto. split; [intros v Hv; rewrite Dc; apply D2; rewrite <- Nc; auto|].
    split; [|split; [|exact Dd]].
    - intros u v Huv. assert (Huv2 := proj1 (proj1 (A u v) Huv)). split; auto.
      rewrite <- (Ti2 u v) by auto. unfold time_of. rewrite Dd; auto.
    - intros u v. rewrite A. split; intros [X1 X2]; (split; [exact X1|]); destruct (wf_ends g2 W2 _ _ X1) as (I1 & I2').
      + intros m' Em'. injection Em' as <-. rewrite <- !DD by auto. lra.
      + specialize (X2 m eq_refl). rewrite !DD by auto. lra.
  Qed.

  (** The attributes of the nodes left after preprocessing. *)
  Theorem presolve_nodes :
    wf (pr_graph p) /\
    (forall v, In v (nodes (pr_graph p)) <-> In v (nodes h) /\ ~ locked_away (o_preassignments o) v) /\
    (forall v, In v (nodes (pr_graph p)) ->
       demand_of (pr_graph p) v = demand_of h v /\ collect_of (pr_graph p) v = collect_of h v /\ service_of (pr_graph p) v = service_of h v /\
       (if o_time_windows o then arc_list (pr_graph p) <> [] -> lower_of (pr_graph p) v = tight_lower h v /\ upper_of (pr_graph p) v = tight_upper h v
        else lower_of (pr_graph p) v = lower_of h v /\ upper_of (pr_graph p) v = upper_of h v)) /\
    (forall u v, In (u, v) (arc_list (pr_graph p)) -> In (u, v) (arc_list h) /\ time_of (pr_graph p) u v = time_of h u v /\
       forall m, pr_max_capacity p = Some m -> demand_of h u + demand_of h v <= inject_Z m).
  Proof.
    destruct (safe_stages c o g p P) as (g2 & gc & g3 & H1 & H2 & H3 & H4 & H5 & H6).
    destruct (final_capacity g2 gc H1 H2 H4) as (Wc & Sc & Tc & Rc & Nc & Dc & Ac & Bc & Ec).
    destruct (penalise_ok _ _ _ H6) as (G6 & A6 & T6 & _).
    destruct (presolve_copy_network c o g p W HS HT NI NO C P) as (Net & N & A).
    destruct (lock_stage_ok c o h g2 _ (net_wf _ _ Net) H1) as (_ & N2 & _).
    assert (D6 : forall v, nd (pr_graph p) v = nd g3 v) by (intro v; unfold nd, node_data; rewrite G6; auto).
    assert (DN : forall v, In v (nodes gc) -> nd gc v = nd h v) by (intros v Hv; apply nd_eq; auto).
    assert (N6 : nodes (pr_graph p) = nodes g3) by (unfold nodes; rewrite G6; reflexivity).
    assert (F3 : wf g3 /\ nodes g3 = nodes gc /\
       (forall v, demand_of g3 v = demand_of gc v /\ collect_of g3 v = collect_of gc v /\ service_of g3 v = service_of gc v) /\
       (forall u v, In (u, v) (arc_list g3) -> In (u, v) (arc_list gc) /\ time_of g3 u v = time_of gc u v) /\
       (forall v, In v (nodes gc) -> if o_time_windows o then arc_list gc <> [] -> lower_of g3 v = tight_lower gc v /\ upper_of g3 v = tight_upper gc v
          else lower_of g3 v = lower_of gc v /\ upper_of g3 v = upper_of gc v)).
    { destruct (o_time_windows o).
      - destruct (tw_prune_ok gc Wc Sc Tc Rc) as (gx & E & W3 & N3 & F & L3 & A3 & E3). assert (gx = g3) by congruence. subst gx.
        split; auto. split; auto. split; auto. split; [|intros v Hv NE; apply L3; assumption].
        intros u v Huv. split; [apply A3 in Huv; tauto|]. unfold time_of. rewrite E3; auto.
      - inversion H3; subst. auto 10. }
    destruct F3 as (W3 & N3 & F3 & A3 & L3).
    split.
    { constructor; rewrite ?N6, ?A6; [apply (wf_nodes _ W3)|apply (wf_arcs _ W3)|]. apply (wf_ends _ W3). }
    split; [intro v; rewrite N6, N3, Nc; apply N2|]. split.
    - intros v Hv. rewrite N6, N3 in Hv. unfold demand_of, collect_of, service_of, lower_of, upper_of in *. rewrite D6, A6.
      destruct (F3 v) as (F1 & F2 & F4). rewrite <- (DN v Hv). split; [exact F1|]. split; [exact F2|]. split; [exact F4|].
      specialize (L3 v Hv). destruct (o_time_windows o); [|exact L3]. intro NE.
      assert (NC : arc_list gc <> []).
      { destruct (arc_list g3) as [|[a b] l] eqn:E; [congruence|]. intro Z. assert (X : In (a, b) (arc_list gc)) by (apply A3; left; reflexivity). rewrite Z in X. destruct X. }
      destruct (L3 NC) as [L1 L2]. rewrite L1, L2. unfold tight_lower, tight_upper, lower_of, upper_of. destruct (is_depot v) eqn:Ed; [rewrite (DN v Hv); auto|].
      assert (Rv : In (Source, v) (arc_list gc) /\ In (v, Sink) (arc_list gc)) by (apply Rc; apply in_custs; split; [exact Hv|destruct v; cbn in Ed; try discriminate; split; discriminate]).
      destruct Rv as [R1 R2]. rewrite (proj2 (Ac _ _ R1)), (proj2 (Ac _ _ R2)), (DN v Hv), (DN Source Sc), (DN Sink Tc). auto.
    - intros u v Huv. rewrite A6 in Huv. apply A3 in Huv. destruct Huv as [Huv Et]. destruct (Ac _ _ Huv) as [X1 X2]. split; [exact X1|].
      split; [rewrite T6, Et; exact X2|]. apply Bc in Huv. tauto.
  Qed.

  (** Without preassignments and time windows. Only the arc from Source to Sink may be penalised. *)
  Theorem presolve_plain : o_preassignments o = [] -> o_time_windows o = false ->
    network (cf_vehicle_types c) (pr_graph p) /\ round_trips (pr_graph p) /\
    (forall v, node_data (pr_graph p) v = node_data h v) /\ nodes (pr_graph p) = nodes h /\
    (forall u v, In (u, v) (arc_list (pr_graph p)) -> (u, v) <> (Source, Sink) \/ o_use_all_vehicles o = false ->
       arc_data (pr_graph p) u v = arc_data h u v) /\
    (forall u v, In (u, v) (arc_list (pr_graph p)) <-> In (u, v) (arc_list h) /\
       forall m, pr_max_capacity p = Some m -> demand_of h u + demand_of h v <= inject_Z m) /\
    pr_more_routes p = true.
  Proof.
    intros E1 E2. destruct (safe_stages c o g p P) as (g2 & gc & g3 & H1 & H2 & H3 & H4 & H5 & H6).
    destruct (final_capacity g2 gc H1 H2 H4) as (Wc & Sc & Tc & Rc & Nc & Dc & Ac & Bc & Ec).
    destruct (presolve_copy_network c o g p W HS HT NI NO C P) as (Net & N & A).
    unfold lock_stage in H1. rewrite E1 in H1. cbn in H1. injection H1 as <- MR. rewrite E2 in H3. injection H3 as ->.
    destruct (penalise_ok _ _ _ H6) as (G6 & A6 & T6 & D6).
    destruct Net as [Wh Sh Th Nih Noh Ch].
    assert (N6 : nodes (pr_graph p) = nodes g3) by (unfold nodes; rewrite G6; reflexivity).
    assert (L6 : forall u v e, arc_data (pr_graph p) u v = Some e -> exists e', arc_data g3 u v = Some e' /\ List.length (ecost e) = List.length (ecost e')).
    { intros u v e He. destruct (o_use_all_vehicles o) eqn:Eo; [|injection H6 as ->; eauto].
      unfold penalise_empty in H6. apply bind_ok in H6. destruct H6 as (x & Hx & H6). injection H6 as H6. rewrite <- H6, arc_data_map_arcs in He.
      destruct (arc_data g3 u v) as [e'|] eqn:Ee; [|discriminate]. exists e'. split; [reflexivity|]. cbn [option_map] in He.
      injection He as <-. destruct (arc_eqb (u, v) (Source, Sink)) eqn:Ea; [|reflexivity].
      apply arc_eqb_eq in Ea. injection Ea as -> ->. unfold get_arc in Hx. rewrite Ee in Hx. injection Hx as <-. cbn. apply repeat_length. }
    split; [|split].
    - constructor.
      + constructor; rewrite ?N6, ?A6; [apply (wf_nodes _ Wc)|apply (wf_arcs _ Wc)|apply (wf_ends _ Wc)].
      + rewrite N6; exact Sc.
      + rewrite N6; exact Tc.
      + intros u Hu. rewrite A6 in Hu. apply Ac in Hu. apply (Nih u). tauto.
      + intros u Hu. rewrite A6 in Hu. apply Ac in Hu. apply (Noh u). tauto.
      + intros u v e He. destruct (L6 u v e He) as (e' & He' & ->). assert (Huv : In (u, v) (arc_list g3)) by (apply arc_data_In; eauto).
        rewrite (Ec u v Huv) in He'. apply (Ch u v e' He').
    - intros v Hv. rewrite A6. apply Rc. unfold custs in *. rewrite N6 in Hv. exact Hv.
    - split; [|split; [congruence|split; [|split]]].
      + intro v. assert (X : node_data (pr_graph p) v = node_data g3 v) by (unfold node_data; rewrite G6; reflexivity). rewrite X.
        destruct (in_dec node_eq_dec v (nodes g3)) as [Hv|Hv]; [apply Dc; exact Hv|].
        destruct (node_data g3 v) as [d|] eqn:E; [exfalso; apply Hv; apply node_data_In; eauto|].
        destruct (node_data h v) as [d|] eqn:E'; [exfalso; apply Hv; rewrite Nc; apply node_data_In; eauto|reflexivity].
      + intros u v Huv Hn. rewrite A6 in Huv. rewrite <- (Ec u v Huv). destruct Hn as [Hn|Hn]; [apply D6; exact Hn|].
        rewrite Hn in H6. injection H6 as ->. reflexivity.
      + intros u v. rewrite A6. apply Bc.
      + symmetry; exact MR.
  Qed.
End Final.
