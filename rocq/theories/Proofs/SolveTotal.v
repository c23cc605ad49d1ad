(** Which plain problems solve() accepts. *)
From Verif.Base Require Import Prelude Graph.
From Verif.Spec Require Import Routes Network Inputs Feasible Prep Heuristics LinProg Plans Results.
From Verif.Model Require Import Args Reach Checks Preprocess ClarkeWright Greedy Initial Pricing
  GreedyPricing LPPricing Cspy Master Dive Hyper ColGen Post Schedule Solve.
From Verif.Proofs Require Import RouteLemmas ChecksProofs FeasProofs PreLemmas PruneProofs KnapProofs LockProofs
  PresolveProofs PresolveEnd HeurCor SolveProofs SolveHeur.

(** the same object without limits *)
Definition relaxed (v : vrp) : vrp :=
  mkVrp (v_graph v)
    (mkArgs (a_num_stops (v_args v)) PNone PNone (a_fixed_cost (v_args v)) (a_num_vehicles (v_args v))
            (a_mixed_fleet (v_args v)) (a_strategy (v_args v)))
    false false false (v_drop v) false (v_periodic v) (v_span v) (v_initial v) (v_pre v) (v_iter v) (v_noimp v)
    (v_bounds v) (v_hyper v) (v_chosen v) (v_dropped v) (v_tabu v).

Lemma pre_solve_build c o g gf h mc g3 ns g4 : fixed_stage c g = Ok gf -> update_dummy_attributes (cf_vehicle_types c) gf = Ok h ->
  check_consistency (o_cspy o) (o_pickup_delivery o) h = Ok tt ->
  check_feasibility (cf_load_capacity c) (cf_duration c) h = Ok tt -> o_preassignments o = [] ->
  prune_graph (cf_load_capacity c) (o_time_windows o) h = Ok (mc, g3) ->
  match mc with
  | Some m => if o_pickup_delivery o then Ok (cf_num_stops c)
              else let* b := num_stops_upper_bound g3 m (cf_num_stops c) (o_distribution_collection o) in Ok (Some b)
  | None => Ok (cf_num_stops c)
  end = Ok ns ->
  (if o_use_all_vehicles o then penalise_empty g3 else Ok g3) = Ok g4 ->
  exists p, pre_solve c o g = Ok p /\ pr_copy p = h.
Proof.
  intros F U C1 C2 E P N A. unfold pre_solve. unfold fixed_stage in F. rewrite F. cbn [bind]. rewrite U. cbn [bind]. rewrite C1. cbn [bind].
  rewrite C2. cbn [bind]. destruct (split_vehicles _ _) as (nv & nvs). rewrite E. cbn [nonempty bind]. rewrite P. cbn [bind]. rewrite N. cbn [bind].
  rewrite A. cbn [bind]. eexists. split; reflexivity.
Qed.

Section Total.
  Variables (v : vrp) (sa : solve_args).
  Local Notation G := (v_graph v).
  Hypothesis R : ready G.
  Hypothesis M : a_mixed_fleet (v_args v) = false.
  Hypothesis NE : no_empty_costs G.
  Hypothesis E1 : v_windows v = false.
  Hypothesis E2 : v_pickup v = false.
  Hypothesis E3 : v_both v = false.
  Hypothesis E5 : nonempty_or (sa_pre sa) (v_pre v) = [].
  Hypothesis AN : arc_list G <> [].
  Hypothesis ND : nonneg_user_demands G.
  Hypothesis NT : forall u w, 0 <= user_time G u w.

  Local Notation g1 := (snd (format (set_strategy (sa_strategy sa) (v_args v)) G)).
  Local Notation a1 := (fst (format (set_strategy (sa_strategy sa) (v_args v)) G)).

  Lemma copy_exists : exists gf h, fixed_stage (config_of a1 1) g1 = Ok gf /\ update_dummy_attributes 1 gf = Ok h.
  Proof.
    destruct (one_graph v sa R NE) as (N1 & A1 & D1 & W1 & S1 & T1 & NI1 & NO1 & C1 & RT1).
    assert (FX : exists gf, fixed_stage (config_of a1 1) g1 = Ok gf).
    { unfold fixed_stage. destruct (nonempty (cf_fixed_cost (config_of a1 1))) eqn:En; [|eauto]. apply add_fixed_costs_total; auto.
      destruct (cf_fixed_cost (config_of a1 1)); [discriminate|cbn; lia]. }
    destruct FX as (gf & FX). destruct (fixed_stage_ok (config_of a1 1) g1 gf W1 C1 FX) as (W2 & N2 & _ & _ & C2).
    destruct (update_dummy_total 1 gf W2) as (h & Hh); [rewrite N2; exact S1|rewrite N2; exact T1|intros x y e He; destruct (C2 x y e He) as (l & L1 & L2); exists l; split; [exact L1|lia]|].
    exists gf, h. auto.
  Qed.

  (** the prepared relaxed problem shares the working copy *)
  Lemma relaxed_prepared gf h : check_arguments a1 (Some 1%nat) g1 = Ok tt ->
    fixed_stage (config_of a1 1) g1 = Ok gf -> update_dummy_attributes 1 gf = Ok h ->
    exists a p, prepare (relaxed v) sa = Ok (a, 1%nat, p) /\ pr_copy p = h.
  Proof.
    intros Ck F U. unfold prepare. rewrite prepare_args_unfold. cbn [relaxed v_args v_graph set_strategy a_mixed_fleet]. rewrite M.
    set (ar := set_strategy (sa_strategy sa) (mkArgs (a_num_stops (v_args v)) PNone PNone (a_fixed_cost (v_args v)) (a_num_vehicles (v_args v)) false (a_strategy (v_args v)))).
    assert (Eg : snd (format ar G) = g1) by reflexivity. rewrite Eg.
    assert (C' : check_arguments (fst (format ar G)) (Some 1%nat) g1 = Ok tt).
    { unfold check_arguments in *. cbn [ar set_strategy format fst a_num_stops a_load_capacity a_duration a_strategy a_mixed_fleet format_val py_truthy andb raise_if bind] in *.
      apply bind_ok in Ck. destruct Ck as (x1 & C1 & Ck). rewrite C1. cbn [bind]. apply bind_ok in Ck. destruct Ck as (x2 & _ & Ck).
      apply bind_ok in Ck. destruct Ck as (x3 & _ & Ck). apply bind_ok in Ck. destruct Ck as (x4 & C4 & _). rewrite C4. reflexivity. }
    rewrite C'. cbn [bind of_opt].
    assert (P : exists p, pre_solve (config_of (fst (format ar G)) 1) (options_of (relaxed v) sa) g1 = Ok p /\ pr_copy p = h).
    { apply (pre_solve_build _ _ _ gf h None h (cf_num_stops (config_of (fst (format ar G)) 1)) h); [exact F|exact U| | |exact E5| | |]; try reflexivity.
      unfold check_consistency. cbn [options_of relaxed o_cspy o_pickup_delivery v_pickup]. rewrite andb_false_r. reflexivity. }
    destruct P as (p & P & Hp). rewrite P. cbn. eexists. exists p. split; [reflexivity|exact Hp].
  Qed.

  Lemma relaxed_ready : ready (v_graph (relaxed v)). Proof. exact R. Qed.

  Lemma capacity_values : accepted_args (set_strategy (sa_strategy sa) (v_args v)) G -> a_load_capacity (v_args v) <> PList [] ->
    match caps_arg (format_val (a_load_capacity (v_args v))) with
    | None => falsy (a_load_capacity (v_args v))
    | Some l => l <> [] /\ (forall x, In x l -> (0 < x)%Z) /\
        forall q, some_vehicle_carries (v_args v) q <-> exists x, In x l /\ q <= inject_Z x
    end.
  Proof.
    intros A NL. destruct A as [_ A _ _ _]. cbn [set_strategy a_load_capacity a_mixed_fleet] in A. unfold some_vehicle_carries, format_val.
    destruct A as [A|[(l & A & B)|(_ & z & A & B)]].
    - rewrite (proj1 (falsy_iff _) A). destruct (a_load_capacity (v_args v)) as [|n|[|x l]]; cbn in *; try assumption; try congruence.
    - rewrite A in *. destruct l as [|x l]; [congruence|]. cbn [py_truthy nonempty negb]. cbn [caps_arg]. split; [discriminate|]. 
      assert (ZZ : forall y, In y (x :: l) -> inject_Z (int_of y) = num_val y /\ (0 < int_of y)%Z).
      { intros y Hy. destruct (B y Hy) as (z & -> & Hz). split; [reflexivity|exact Hz]. }
      split.
      + intros y Hy. apply in_map_iff in Hy. destruct Hy as (n & <- & Hn). apply ZZ. exact Hn.
      + intro q. split.
        * intros (n & Hn & Hq). exists (int_of n). split; [apply in_map; exact Hn|]. destruct (ZZ n Hn) as (-> & _). exact Hq.
        * intros (y & Hy & Hq). apply in_map_iff in Hy. destruct Hy as (n & <- & Hn). exists n. split; [exact Hn|]. destruct (ZZ n Hn) as (<- & _). exact Hq.
    - rewrite A in *. assert (T : py_truthy (PNum (PInt z)) = true).
      { cbn. unfold num_zero. cbn. apply negb_true_iff. destruct (Qeq_bool (inject_Z z) 0) eqn:Q; [|reflexivity]. apply Qeq_bool_iff in Q. unfold Qeq in Q. cbn in Q. lia. }
      rewrite T. cbn. split; [discriminate|]. split; [intros x [<-|[]]; exact B|]. intro q. split.
      + intros [Q|Q]; [unfold Qeq in Q; cbn in Q; lia|]. exists z. auto.
      + intros (x & [<-|[]] & Hq). right. exact Hq.
  Qed.

  Lemma h_walks h : (forall u w, In (u, w) (arc_list h) <-> In (u, w) (arc_list G) \/ (u, w) = (Source, Sink)) ->
    (forall u w, time_of h u w = user_time G u w) -> forall u D, In u (custs G) ->
    (reachable_within h u (inject_Z D) <-> exists p1 p2, walk (arc_list G) Source u p1 /\ walk (arc_list G) u Sink p2 /\
       path_sum (user_time G) p1 + path_sum (user_time G) p2 <= inject_Z D).
  Proof.
    intros A T u D Hu. apply in_custs in Hu. destruct Hu as (_ & U1 & U2).
    assert (PS : forall q, path_sum (time_of h) q == path_sum (user_time G) q) by (intro q; apply path_sum_ext; intros; rewrite T; reflexivity).
    assert (Snk : forall q x, walk (arc_list h) Sink x q -> x = Sink).
    { intros q x Hw. inversion Hw as [|u' y w' q' Hy _]; subst; [reflexivity|]. exfalso. apply A in Hy. destruct Hy as [Hy|Hy]; [|discriminate]. exact (rd_no_out _ R _ Hy). }
    split.
    - intros (p1 & p2 & W1 & W2 & L). exists p1, p2. split; [|split; [|rewrite <- !PS; exact L]].
      + assert (Wa : forall x w q, walk (arc_list h) x w q -> w <> Sink -> walk (arc_list G) x w q).
        { clear - A Snk. intros x w q Hw. induction Hw as [x|x y w q Hxy Hq IH]; intro U2; [constructor|]. apply walk_cons with y; [|apply IH; exact U2].
          apply A in Hxy. destruct Hxy as [Hxy|Hxy]; [exact Hxy|]. injection Hxy as -> ->. exfalso. apply U2. exact (Snk _ _ Hq). }
        exact (Wa _ _ _ W1 U2).
      + assert (Wb : forall x w q, walk (arc_list h) x w q -> x <> Source -> walk (arc_list G) x w q).
        { clear - A R. intros x w q Hw. induction Hw as [x|x y w q Hxy Hq IH]; intro U1; [constructor|].
          apply A in Hxy. destruct Hxy as [Hxy|Hxy]; [|injection Hxy as -> ->; congruence]. apply walk_cons with y; [exact Hxy|].
          apply IH. intros ->. exact (rd_no_in _ R _ Hxy). }
        exact (Wb _ _ _ W2 U1).
    - intros (p1 & p2 & W1 & W2 & L). exists p1, p2. split; [eapply walk_sub; [|exact W1]; intros [x y] Hxy; apply A; left; exact Hxy|].
      split; [eapply walk_sub; [|exact W2]; intros [x y] Hxy; apply A; left; exact Hxy|]. rewrite !PS. exact L.
  Qed.

  Theorem plain_accepted :
    (exists a p, prepare v sa = Ok (a, 1%nat, p)) <->
    (accepted_args (set_strategy (sa_strategy sa) (v_args v)) G /\ a_load_capacity (v_args v) <> PList [] /\
     (forall u, In u (custs G) -> some_vehicle_carries (v_args v) (user_demand G u)) /\
     (forall D u, time_limit (v_args v) D -> In u (custs G) ->
        exists p1 p2, walk (arc_list G) Source u p1 /\ walk (arc_list G) u Sink p2 /\
          path_sum (user_time G) p1 + path_sum (user_time G) p2 <= inject_Z D)).
  Proof.
    pose proof (rd_wf _ R) as WG. split.
    - intros (a & p & H). destruct (one_args v sa a 1 p M H) as (_ & Ea & P & Ck).
      assert (Acc : accepted_args (set_strategy (sa_strategy sa) (v_args v)) G).
      { apply (prepare_args_accepts _ _ WG (rd_costed _ R) AN). destruct (prepare_inv v sa a 1 p H) as (gg & H1 & _). eauto. }
      destruct (one_caps v sa a 1 p R M NE H) as (_ & Cp & _). rewrite Ea in Cp. cbn [a_load_capacity] in Cp.
      destruct (one_figures v sa a 1 p R M NE H) as (F1 & F2 & F3 & _).
      destruct (one_network v sa a 1 p R M NE H) as (Nh & Nn & Rh & Ah).
      assert (NL : a_load_capacity (v_args v) <> PList []) by (intro Z; rewrite Z in Cp; cbn in Cp; destruct Cp as (Cp & _); congruence).
      split; [exact Acc|]. split; [exact NL|]. pose proof (capacity_values Acc NL) as CV. split.
      + intros u Hu. destruct (caps_arg (format_val (a_load_capacity (v_args v)))) as [l|].
        * apply CV. destruct Cp as (L1 & _ & _ & Fi). destruct l as [|x l]; [congruence|]. apply in_custs in Hu as Hu'.
          destruct (Fi u (proj1 Hu') x l eq_refl) as (y & Hy & Hq). exists y. split; [exact Hy|]. rewrite <- (F1 u Hu). exact Hq.
        * unfold some_vehicle_carries. destruct (a_load_capacity (v_args v)) as [|n|[|y l]] eqn:El; try exact I; [|discriminate].
          left. apply falsy_iff in CV. cbn in CV. apply negb_false_iff in CV. unfold num_zero in CV. apply Qeq_bool_iff in CV. exact CV.
      + intros D u (HD & HD0) Hu. destruct (pre_solve_inv _ _ _ _ P) as (_ & _ & _ & _ & _ & _ & F & _).
        apply (check_feasibility_ok 1) in F; [|exact Nh|exact Rh|intros x y; rewrite F3; apply NT]. destruct F as (_ & F).
        apply (h_walks (pr_copy p) Ah F3 u D Hu). apply F; [split; [|exact HD0]; rewrite Ea; cbn; rewrite HD; reflexivity|].
        unfold custs. rewrite Nn. exact Hu.
    - intros (Acc & NL & Fit & Rch). pose proof (capacity_values Acc NL) as CV.
      destruct (proj2 (prepare_args_accepts _ _ WG (rd_costed _ R) AN) Acc) as (r & Hr). rewrite prepare_args_unfold in Hr. cbn [set_strategy a_mixed_fleet] in Hr. rewrite M in Hr.
      apply bind_ok in Hr. destruct Hr as ([] & Ck & Hr).
      destruct copy_exists as (gf & h & F & U). destruct (relaxed_prepared gf h Ck F U) as (ar & pr & Pr & Eh).
      destruct (one_figures (relaxed v) sa ar 1 pr R M NE Pr) as (F1 & F2 & F3 & _).
      destruct (one_network (relaxed v) sa ar 1 pr R M NE Pr) as (Nh & Nn & Rh & Ah). 
      assert (Dp := one_nonneg (relaxed v) sa ar 1 pr R M NE Pr ND).
      assert (DD : forall u, is_depot u = true -> demand_of h u <= 0).
      { intros u Hu. destruct (one_graph (relaxed v) sa R NE) as (_ & _ & _ & W1 & S1 & T1 & _ & _ & C1 & _). pose proof (one_presolve (relaxed v) sa ar 1 pr M Pr) as P'.
        rewrite <- Eh. exact (copy_depot_demand (config_of ar 1) _ _ pr u W1 S1 T1 C1 P' Hu). }
      rewrite Eh in *. cbn [relaxed v_graph] in *.
      unfold prepare. rewrite prepare_args_unfold. cbn [set_strategy a_mixed_fleet]. rewrite M.
      change (mkArgs (a_num_stops (v_args v)) (a_load_capacity (v_args v)) (a_duration (v_args v)) (a_fixed_cost (v_args v)) (a_num_vehicles (v_args v)) false (sa_strategy sa))
        with (mkArgs (a_num_stops (v_args v)) (a_load_capacity (v_args v)) (a_duration (v_args v)) (a_fixed_cost (v_args v)) (a_num_vehicles (v_args v)) false (sa_strategy sa)).
      set (ar1 := set_strategy (sa_strategy sa) (v_args v)) in *. rewrite Ck. cbn [bind of_opt].
      assert (FE : check_feasibility (cf_load_capacity (config_of a1 1)) (cf_duration (config_of a1 1)) h = Ok tt).
      { apply (check_feasibility_ok 1); [exact Nh|exact Rh|intros x y; rewrite F3; apply NT|]. split.
        - intros u Hu x l El. change (cf_load_capacity (config_of a1 1)) with (caps_arg (format_val (a_load_capacity (v_args v)))) in El. rewrite El in CV. destruct CV as (_ & Pos & CV).
          destruct (is_depot u) eqn:Ed.
          + exists x. split; [left; reflexivity|]. assert (0 < x)%Z by (apply Pos; left; reflexivity). specialize (DD u Ed).
            assert (Y3 : 0 <= inject_Z x) by (change 0 with (inject_Z 0); rewrite <- Zle_Qle; lia). lra.
          + assert (Hc : In u (custs G)) by (apply in_custs; split; [rewrite <- Nn; exact Hu|apply is_depot_false; exact Ed]). rewrite (F1 u Hc). apply CV. apply Fit. exact Hc.
        - intros D u HD Hu. destruct HD as (HD & HD0). change (cf_duration (config_of a1 1)) with (int_arg (a_duration (v_args v))) in HD.
          assert (Hc : In u (custs G)) by (unfold custs in *; rewrite Nn in Hu; exact Hu). apply (h_walks h Ah F3 u D Hc). apply Rch; [|exact Hc].
          split; [|exact HD0]. destruct Acc as [_ _ Du _ _]. cbn [ar1 set_strategy a_duration] in Du. destruct Du as [Du|(z & Du & Hz)].
          + apply falsy_iff in Du. destruct (a_duration (v_args v)) as [|n|l]; try discriminate. cbn in Du. apply negb_false_iff in Du. unfold num_zero in Du. apply Qeq_bool_iff in Du.
            destruct n as [z|q]; cbn in HD; injection HD as <-; [unfold Qeq in Du; cbn in Du; lia|congruence].
          + rewrite Du in HD |- *. cbn in HD. injection HD as ->. reflexivity. }
      assert (PS : exists p, pre_solve (config_of a1 1) (options_of v sa) g1 = Ok p).
      {
        assert (PR : exists mc g3, prune_graph (cf_load_capacity (config_of a1 1)) false h = Ok (mc, g3) /\ wf g3 /\ gnodes g3 = gnodes h /\ (In (Source, Sink) (arc_list g3)) /\ (forall m, mc = Some m -> (0 <= m)%Z)).
        { unfold prune_graph. change (cf_load_capacity (config_of a1 1)) with (caps_arg (format_val (a_load_capacity (v_args v)))).
          assert (SS : In (Source, Sink) (arc_list h)) by (apply Ah; right; reflexivity).
          destruct (caps_arg (format_val (a_load_capacity (v_args v)))) as [l|].
          - destruct CV as (L1 & Pos & _). destruct (zmax l) as [m|e] eqn:Z; [|destruct l; [congruence|discriminate]]. cbn [bind].
            destruct (capacity_prune_ok m h (net_wf _ _ Nh)) as (g' & Hg & G1 & W1 & A1 & _). rewrite Hg. cbn [bind]. exists (Some m), g'.
            assert (Hm : (0 < m)%Z) by (apply Pos; apply zmax_in; exact Z).
            split; [reflexivity|]. split; [exact W1|]. split; [exact G1|]. split; [|intros m' Em; injection Em as <-; lia].
            apply A1. split; [exact SS|]. pose proof (DD Source eq_refl). pose proof (DD Sink eq_refl).
            assert (Y3 : 0 <= inject_Z m) by (change 0 with (inject_Z 0); rewrite <- Zle_Qle; lia). lra.
          - cbn [bind]. exists None, h. split; [reflexivity|]. split; [apply (net_wf _ _ Nh)|]. split; [reflexivity|]. split; [exact SS|discriminate]. }
        destruct PR as (mc & g3 & PR & W3 & G3 & S3 & Hm).
        assert (ST : exists ns, match mc with Some m => let* b := num_stops_upper_bound g3 m (cf_num_stops (config_of a1 1)) false in Ok (Some b) | None => Ok (cf_num_stops (config_of a1 1)) end = Ok ns).
        { destruct mc as [m|]; [|eauto]. 
          destruct (stop_bound_exact g3 m (cf_num_stops (config_of a1 1)) false W3) as (k & b & B & _).
          - unfold nodes. rewrite G3. apply (net_source _ _ Nh).
          - unfold nodes. rewrite G3. apply (net_sink _ _ Nh).
          - intro u. assert (X : demand_of g3 u = demand_of h u) by (unfold demand_of, nd, node_data; rewrite G3; reflexivity). rewrite X. apply Dp.
          - discriminate.
          - apply Hm. reflexivity.
          - rewrite B. cbn. eauto. }
        destruct ST as (ns & ST).
        assert (PE : exists g4, (if v_all v then penalise_empty g3 else Ok g3) = Ok g4).
        { destruct (v_all v); [|eauto]. unfold penalise_empty, get_arc. apply arc_data_In in S3. destruct S3 as (e & ->). cbn. eauto. }
        destruct PE as (g4 & PE).
        assert (CC : check_consistency (o_cspy (options_of v sa)) (o_pickup_delivery (options_of v sa)) h = Ok tt).
        { unfold check_consistency. cbn [options_of o_cspy o_pickup_delivery]. rewrite E2, andb_false_r. reflexivity. }
        destruct (pre_solve_build (config_of a1 1) (options_of v sa) g1 gf h mc g3 ns g4 F U CC FE E5) as (p & Hp & _); [| | |eauto].
        - cbn [options_of o_time_windows]. rewrite E1. exact PR.
        - cbn [options_of o_pickup_delivery o_distribution_collection]. rewrite E2, E3. exact ST.
        - exact PE. }
      destruct PS as (p & PS). exists (fst (format ar1 G)), p. unfold ar1. rewrite PS. reflexivity.
  Qed.
End Total.
