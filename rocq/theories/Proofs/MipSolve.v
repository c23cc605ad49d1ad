(** solve() with the MIP pricing problems ends when no cost is negative. *)
From Verif.Base Require Import Prelude Graph.
From Verif.Spec Require Import Routes Network Inputs Feasible Prep Heuristics LinProg MIP Run Plans Variants.
From Verif.Model Require Import Args Reach Checks Preprocess ClarkeWright Greedy Initial Pricing
  GreedyPricing LPPricing Cspy Master Dive Hyper ColGen Post Schedule Solve.
From Verif.Proofs Require Import RouteLemmas ChecksProofs FeasProofs PreLemmas PruneProofs KnapProofs LockProofs
  PresolveProofs PresolveEnd SolveProofs AnyProofs Ends LabelEnds MipEnds.

Section Costs.
  Variables (c : config) (o : options) (g : rgraph) (p : prepared).
  Local Notation h := (pr_copy p).
  Local Notation K := (cf_vehicle_types c).
  Hypothesis W : wf g.
  Hypothesis HS : In Source (nodes g).
  Hypothesis HT : In Sink (nodes g).
  Hypothesis NI : forall u, ~ In (u, Source) (arc_list g).
  Hypothesis NO : forall v, ~ In (Sink, v) (arc_list g).
  Hypothesis C : cost_lists K g.
  Hypothesis RT : forall v, In v (custs g) -> In (Source, v) (arc_list g) /\ In (v, Sink) (arc_list g).
  Hypothesis P : pre_solve c o g = Ok p.
  Hypothesis E1 : o_preassignments o = [].
  Hypothesis PC : forall k u v, (k < K)%nat -> 0 <= raw_cost g k u v.
  Hypothesis PF : forall k, (k < K)%nat -> 0 <= nth k (cf_fixed_cost c) 0.

  Lemma copy_nonneg k u v : (k < K)%nat -> 0 <= cost_of h k u v.
  Proof.
    intro Hk. destruct (pre_solve_inv _ _ _ _ P) as (g1 & g2 & g3 & H1 & H2 & _).
    assert (F : forall u v, 0 <= raw_cost g1 k u v).
    { intros x y. destruct (arc_data g1 x y) as [e|] eqn:Ea; [|unfold raw_cost; rewrite Ea; lra].
      unfold fixed_stage in H1. destruct (nonempty (cf_fixed_cost c)); [|injection H1 as <-; apply PC; exact Hk].
      assert (In (x, y) (arc_list g)).
      { destruct (add_fixed_costs_ok _ _ _ _ W H1) as (_ & A & _). rewrite <- A. apply arc_data_In. eauto. }
      rewrite (add_fixed_costs_cost _ _ _ _ k x y W C H1 Hk H). specialize (PC k x y Hk). specialize (PF k Hk).
      destruct (node_eqb x Source); lra. }
    destruct (fixed_stage_ok _ _ _ W C H1) as (W1 & N1 & _ & A1 & _).
    assert (S1 : In Source (nodes g1)) by (rewrite N1; exact HS). assert (T1 : In Sink (nodes g1)) by (rewrite N1; exact HT).
    destruct (update_dummy_ok _ _ _ W1 S1 T1 H2) as (_ & _ & _ & A). specialize (A u v). specialize (F u v).
    unfold raw_cost in F. unfold cost_of. destruct (arc_data g1 u v) as [e|].
    - destruct A as (e' & -> & (l & Hl & El) & _). rewrite Hl in F. rewrite El. exact F.
    - rewrite A. destruct (arc_eqb (u, v) (Source, Sink)); [|lra]. cbn [ecost]. rewrite nth_repeat. lra.
  Qed.

  Theorem presolve_nonneg k u v : (k < K)%nat -> 0 <= cost_of (pr_graph p) k u v.
  Proof.
    intro Hk. unfold cost_of. destruct (arc_data (pr_graph p) u v) as [e|] eqn:He; [|lra].
    destruct (safe_stages c o g p P) as (g2 & gc & g3 & H1 & H2 & H3 & H4 & H5 & H6).
    destruct (final_capacity c o g p W HS HT NI NO C RT P g2 gc H1 H2 H4) as (Wc & Sc & Tc & Rc & Nc & Dc & Ac & Bc & Ec).
    destruct (presolve_copy_network c o g p W HS HT NI NO C P) as (Neth & _ & _).
    unfold lock_stage in H1. rewrite E1 in H1. cbn in H1. injection H1 as <- MR.
    assert (X3 : forall x e3, arc_data g3 (fst x) (snd x) = Some e3 -> arc_data h (fst x) (snd x) = Some e3).
    { intros [x y] e3 H. cbn [fst snd] in *. assert (Hin : In (x, y) (arc_list g3)) by (apply arc_data_In; eauto).
      destruct (o_time_windows o).
      - destruct (tw_prune_ok gc Wc Sc Tc Rc) as (gx & E & W3 & N3 & F & L3 & A3 & E3). assert (gx = g3) by congruence. subst gx.
        rewrite (E3 x y Hin) in H. rewrite Ec in H; [exact H|]. apply A3 in Hin. tauto.
      - injection H3 as <-. rewrite Ec in H; [exact H|exact Hin]. }
    destruct (o_use_all_vehicles o); [|injection H6 as H6; rewrite <- H6 in He; specialize (X3 (u, v) e He); assert (Y := copy_nonneg k u v Hk); unfold cost_of in Y; cbn [fst snd] in X3; rewrite X3 in Y; exact Y].
    unfold penalise_empty in H6. apply bind_ok in H6. destruct H6 as (x & Hx & H6). injection H6 as H6. rewrite <- H6, arc_data_map_arcs in He.
    destruct (arc_data g3 u v) as [e'|] eqn:Ee; [|discriminate]. cbn [option_map] in He. injection He as <-.
    destruct (arc_eqb (u, v) (Source, Sink)).
    - cbn [ecost]. generalize (List.length (ecost x)) as n. clear. revert k. induction k as [|k IH]; intros [|n]; cbn; try lra; [|apply IH].
      unfold big_cost. change 0 with (inject_Z 0). rewrite <- Zle_Qle. lia.
    - specialize (X3 (u, v) e' Ee). assert (Y := copy_nonneg k u v Hk). unfold cost_of in Y. cbn [fst snd] in X3. rewrite X3 in Y. exact Y.
  Qed.
End Costs.

Section Solve.
  Variables (v : vrp) (sa : solve_args).
  Hypothesis R : ready (v_graph v).
  Hypothesis NE : a_mixed_fleet (v_args v) = false -> no_empty_costs (v_graph v).
  Hypothesis FR : v_iter v = 0%nat /\ v_noimp v = 0%nat /\ v_bounds v = [] /\ v_hyper v = None /\ v_pre v = [] /\ v_span v = false.
  Hypothesis PRE : sa_pre sa = [].
  Hypothesis MIP : sa_cspy sa = false.
  Hypothesis DIVE : sa_dive sa = false.
  Hypothesis PC : forall k u w, 0 <= user_cost (v_graph v) k u w.
  Hypothesis PF : forall k, 0 <= price_of (v_args v) k.

  Theorem solve_mip_ends : exists N, forall X f f2, (N <= f)%nat ->
    (forall n q, optimal_answer q (e_master (x_env X) n q)) ->
    solve X f f2 sa v = solve X N N sa v /\ solve X f f2 sa v <> Err OutOfFuel.
  Proof.
    destruct (prepare v sa) as [[[a K] p]|e] eqn:P.
    2:{ exists 0%nat. intros X f f2 _ _. unfold solve. rewrite P. cbn [bind]. split; [reflexivity|].
        assert (F := nf_Solve_prepare v sa). rewrite P in F. exact (nf_other F). }
    destruct FR as (F1 & F2 & F3 & F4 & F5 & F6).
    assert (E1 : o_preassignments (options_of v sa) = []) by (cbn; rewrite PRE, F5; reflexivity).
    destruct (any_graph v sa a K p R NE P) as (g1 & N1 & A1 & D1 & W1 & S1 & T1 & NI1 & NO1 & C1 & RT1 & P1 & _).
    assert (AF := any_fixed v sa a K p R NE P).
    destruct (presolve_any (config_of a K) _ _ _ W1 S1 T1 NI1 NO1 C1 RT1 P1 E1) as (Net & _ & MR & _).
    assert (CO : forall k u w, (k < K)%nat -> 0 <= cost_of (pr_graph p) k u w).
    { apply (presolve_nonneg (config_of a K) _ _ _ W1 S1 T1 NI1 NO1 C1 RT1 P1 E1).
      - intros k u w Hk. destruct (arc_data (v_graph v) u w) as [e|] eqn:Ea.
        + destruct (D1 u w e Ea) as (_ & _ & _ & Q). rewrite (Q k Hk). apply PC.
        + unfold raw_cost. destruct (arc_data g1 u w) as [e1|] eqn:E2; [|lra]. exfalso.
          assert (X : In (u, w) (arc_list g1)) by (apply arc_data_In; eauto). rewrite A1 in X. apply arc_data_In in X. destruct X as (z & X). congruence.
      - intros k Hk. rewrite (AF k Hk). apply PF. }
    set (B := fun X rs => mip_bound (cg_of X v sa a K p rs) (pr_graph p)).
    assert (Bc : exists N, forall X rs, B X rs = N).
    { exists (mip_bound (cg_of (mkOut (mkEnv (fun _ => 0) (fun _ _ => mkAnswer NotSolved None (fun _ => 0)) (fun _ _ => 0)
        (fun _ _ p => mkAnswer NotSolved None (fun _ => 0)) (fun _ l => l) (fun _ _ _ => mkAnswer NotSolved None (fun _ => 0)) (fun _ _ => false)
        (fun _ _ _ => []) (fun _ _ _ _ _ _ _ => None) (fun _ _ _ => 0%nat) (fun _ => 0%nat) (fun _ _ => 0)) 0 (fun _ l => l) (fun _ _ => None) (fun _ => mkAnswer NotSolved None (fun _ => 0))) v sa a K p []) (pr_graph p)).
      intros X rs. reflexivity. }
    destruct Bc as (N & BN). exists N. intros X f f2 Hf OK. unfold solve. rewrite P. cbn [bind]. cbv beta iota zeta.
    destruct (sa_heuristic sa). { split; [reflexivity|]. apply nf_bind'; [apply nf_Initial_solve_with_clarke_wright|]. intro r. apply nf_ok. }
    match goal with |- bind ?i _ = _ /\ _ => assert (FI : finishes i) by (apply nf_Initial_initialize); destruct i as [ic|e] eqn:IN end; cbn [bind]; [|split; [reflexivity|exact (nf_other FI)]].
    match goal with |- bind ?i _ = _ /\ _ => assert (FS : finishes i) by (apply nf_Solve_start); destruct i as [s|e] eqn:ST end; cbn [bind]; [|split; [reflexivity|exact (nf_other FS)]].
    set (C := cg_of X v sa a K p (covered (fst ic))) in *.
    assert (Fr : fresh C (pr_graph p) s).
    { unfold start in ST. apply bind_ok in ST. destruct ST as (m & Hm & Hs). injection Hs as <-. destruct ic as (rs0 & pool). cbn [fst snd] in *.
      constructor; cbn [s_pool s_master s_graph s_fixed s_diving dv_depth dv_level s_dive s_iter s_noimp s_more s_bounds s_hyper]; auto.
      - exists (a_mixed_fleet a), (x_perms X), (nonempty_or (sa_initial sa) (v_initial v)), rs0. exact IN.
      - rewrite F4. reflexivity. }
    assert (SP : mo_span (cg_master C) = false) by exact F6.
    assert (KK := generation_finishes C (pr_graph p) (net_wf _ _ Net) MIP SP CO (x_env X) s Fr (fun st _ => OK _ _) N).
    assert (LE : (mip_bound C (pr_graph p) <= N)%nat) by (unfold C; specialize (BN X (covered (fst ic))); unfold B in BN; lia).
    specialize (KK LE). assert (E : column_generation (x_env X) C f s = column_generation (x_env X) C N s) by (apply fuel_enough; assumption).
    unfold solve_columns. rewrite DIVE, E. split; [reflexivity|].
    apply nf_bind'.
    - apply nf_bind'; [exact KK|]. intro s1. apply nf_bind'; [apply nf_ColGen_conclude|intros; apply nf_ok].
    - intros [s1 r]. apply nf_bind'; [apply nf_Solve_post_process|]. intros [[[routes types] dr] sch]. apply nf_ok.
  Qed.
End Solve.

Theorem mip_user (g : rgraph) a w pd both drop all periodic tabu sa v :
  wf g -> (a_mixed_fleet a = false -> no_empty_costs g) ->
  (forall k u t, 0 <= user_cost g k u t) -> (forall k, 0 <= price_of a k) ->
  sa_pre sa = [] -> sa_cspy sa = false -> sa_dive sa = false ->
  create g a w pd both drop all periodic false tabu = Ok v ->
  exists N, forall X f f2, (N <= f)%nat ->
    (forall n q, sound_answer q (e_master (x_env X) n q) /\
       (a_status (e_master (x_env X) n q) = Optimal -> a_objective (e_master (x_env X) n q) <> None /\
        forall y, feasible y q -> value (a_value (e_master (x_env X) n q)) (p_obj q) <= value y (p_obj q))) ->
    solve X f f2 sa v = solve X N N sa v /\ solve X f f2 sa v <> Err OutOfFuel.
Proof.
  intros W NE PC PF PRE MIP DV CR.
  destruct (create_ok _ _ _ _ _ _ _ _ _ _ _ CR) as (CK & AR & _ & _ & _ & _ & _ & _ & SP & _ & VP & I1 & I2 & I3 & I4 & _).
  destruct (check_vrp_ready _ _ W CK) as (R & CO).
  assert (N1 : a_mixed_fleet (v_args v) = false -> no_empty_costs (v_graph v)).
  { rewrite AR. cbn [a_mixed_fleet]. intro M. apply (completion_no_empty g); auto. }
  assert (P1 : forall k u t, 0 <= user_cost (v_graph v) k u t) by (intros k u t; rewrite (completion_cost g); auto).
  assert (P2 : forall k, 0 <= price_of (v_args v) k) by (intro k; rewrite AR; apply PF).
  exact (solve_mip_ends v sa R N1 (conj I1 (conj I2 (conj I3 (conj I4 (conj VP SP))))) PRE MIP DV P1 P2).
Qed.
