(** The columns of a problem with one vehicle type and nothing but limits on load, stops and
    duration. *)
From Verif.Base Require Import Prelude Graph.
From Verif.Spec Require Import Routes Network LinProg Pricing MIP Columns Pool Master Feasible Heuristics Timing Labelling Run.
From Verif.Model Require Import Args Reach Checks Preprocess ClarkeWright Greedy Initial Pricing
  GreedyPricing LPPricing Cspy Master Dive Hyper ColGen.
From Verif.Proofs Require Import RouteLemmas PreLemmas PricingProofs LPProofs LPColumn LPComplete PricingCor
  CspyProofs CspyCall
  MasterProofs PoolProofs PoolQuality ColGenProofs PostEnd.

Lemma part_subgraph keep g : wf g -> part_of (edge_subgraph keep g) g.
Proof.
  intro W.
  assert (Hnodes : nodes (edge_subgraph keep g) = filter (fun v => mem v (map fst keep ++ map snd keep)) (nodes g)).
  { unfold nodes, edge_subgraph. simpl. apply (filter_fst_map (fun v => mem v (map fst keep ++ map snd keep))). }
  assert (Harcs : arc_list (edge_subgraph keep g) = filter (fun a => mem_arc a keep) (arc_list g)).
  { unfold arc_list, edge_subgraph. simpl. apply (filter_fst_map (fun a => mem_arc a keep)). }
  constructor.
  - destruct W as [W1 W2 W3]. constructor.
    * rewrite Hnodes. apply NoDup_filter; auto.
    * rewrite Harcs. apply NoDup_filter; auto.
    * intros u v Huv. rewrite Harcs in Huv. apply filter_In in Huv. destruct Huv as (Huv & Hm).
      apply mem_arc_In in Hm. rewrite Hnodes, !filter_In, !mem_In, !in_app_iff.
      destruct (W3 u v Huv) as (Hu & Hv).
      split; split; auto; [left|right]; apply in_map_iff; exists (u, v); auto.
  - intros v d. unfold node_data, edge_subgraph. simpl.
    rewrite (assoc_node_filter (fun v => mem v (map fst keep ++ map snd keep))).
    destruct (mem v _); [auto|discriminate].
  - intros u v e. unfold arc_data, edge_subgraph. simpl.
    rewrite (assoc_arc_filter (fun a => mem_arc a keep)).
    destruct (mem_arc (u, v) keep); [auto|discriminate].
Qed.

(** Whatever the strategy, the pricing problem is solved on a part of the network. *)
Lemma pricing_graph_part ksp p D k g hr : wf g -> pricing_graph ksp p D k g = Ok hr -> part_of (fst hr) g.
Proof.
  intros W H. destruct p as [|alpha|ratio|beta]; cbn [pricing_graph] in H.
  - injection H as <-. constructor; auto.
  - unfold remove_edges_1 in H. apply bind_ok in H. destruct H as (m & _ & H). apply bind_ok in H. destruct H as (l & _ & H).
    injection H as <-. apply part_remove. exact W.
  - unfold remove_edges_2 in H. injection H as <-. apply part_remove. exact W.
  - apply bind_ok in H. destruct H as (h & H1 & H). injection H as <-. cbn [fst]. unfold remove_edges_3 in H1.
    apply bind_ok in H1. destruct H1 as (mx & _ & H1). apply bind_ok in H1. destruct H1 as (mn & _ & H1).
    apply bind_ok in H1. destruct H1 as (t1 & _ & H1). apply bind_ok in H1. destruct H1 as (t2 & _ & H1).
    apply bind_ok in H1. destruct H1 as (t3 & _ & H1). injection H1 as <-. apply part_subgraph. exact W.
Qed.

Lemma part_network K h g : network K g -> part_of h g -> In Source (nodes h) -> In Sink (nodes h) -> network K h.
Proof.
  intros [W S T NI NO C] [PW PN PA] HS HT. 
  assert (A : forall u v, In (u, v) (arc_list h) -> In (u, v) (arc_list g)).
  { intros u v H. apply arc_data_In in H. destruct H as (e & He). apply arc_data_In. exists e. auto. }
  constructor; auto.
  - intros u Hu. exact (NI u (A _ _ Hu)).
  - intros u Hu. exact (NO u (A _ _ Hu)).
  - intros u v e He. apply (C u v). auto.
Qed.
Lemma part_custs h g v : part_of h g -> In v (custs h) -> In v (custs g).
Proof.
  intros P Hv. apply in_custs in Hv. destruct Hv as (Hv & H1 & H2). apply in_custs. split; auto.
  apply node_data_In in Hv. destruct Hv as (d & Hd). apply node_data_In. exists d. apply (part_nodes _ _ P). exact Hd.
Qed.
(** the figures of nodes and arcs of the part *)
Lemma part_arc_figures h g u v : part_of h g -> In (u, v) (arc_list h) ->
  In (u, v) (arc_list g) /\ time_of h u v = time_of g u v /\ (forall k, cost_of h k u v = cost_of g k u v).
Proof.
  intros P H. apply arc_data_In in H. destruct H as (e & He). pose proof (part_arcs _ _ P u v e He) as He'.
  split; [apply arc_data_In; eauto|]. unfold time_of, cost_of. rewrite He, He'. auto.
Qed.
Lemma part_node_figures h g v : part_of h g -> In v (nodes h) ->
  demand_of h v = demand_of g v /\ service_of h v = service_of g v.
Proof.
  intros P H. apply node_data_In in H. destruct H as (d & Hd). pose proof (part_nodes _ _ P v d Hd) as Hd'.
  unfold demand_of, service_of, nd. rewrite Hd, Hd'. auto.
Qed.
Lemma same_network K g h : network K g -> same_but_weights g h -> network K h.
Proof.
  intros [W S T NI NO C] (E1 & E2 & E3). constructor.
  - destruct W as [W1 W2 W3]. constructor; [unfold nodes in *; rewrite E1; exact W1|rewrite E2; exact W2|].
    intros u v Huv. rewrite E2 in Huv. unfold nodes in *. rewrite E1. apply W3. exact Huv.
  - unfold nodes in *. rewrite E1. exact S.
  - unfold nodes in *. rewrite E1. exact T.
  - intros u Hu. rewrite E2 in Hu. exact (NI u Hu).
  - intros u Hu. rewrite E2 in Hu. exact (NO u Hu).
  - intros u v e He. destruct (E3 u v e He) as (e0 & H0 & H1 & _). rewrite H1. exact (C u v e0 H0).
Qed.
Lemma same_figures g h : same_but_weights g h ->
  (forall v, demand_of h v = demand_of g v /\ service_of h v = service_of g v) /\
  (forall u v, In (u, v) (arc_list h) -> In (u, v) (arc_list g) /\ time_of h u v = time_of g u v /\ forall k, cost_of h k u v = cost_of g k u v).
Proof.
  intros (E1 & E2 & E3). split.
  - intro v. unfold demand_of, service_of, nd, node_data. rewrite E1. auto.
  - intros u v H. rewrite <- E2. split; [exact H|]. apply arc_data_In in H. destruct H as (e & He). destruct (E3 u v e He) as (e0 & H0 & H1 & H2).
    unfold time_of, cost_of. rewrite He, H0, H1, H2. auto.
Qed.

(** the columns of the greedy pricing have no attribute "path" *)
Lemma p_attempts_path h caps ns dur k keys fw : forall l s r,
  foldM (p_attempt h caps ns dur k keys fw) l s = Ok r -> forall c, In c (fst r) -> In c (fst s) \/ c_path c = None.
Proof.
  induction l as [|x l IH]; intros s r H c Hc; cbn in H.
  - injection H as <-. left. exact Hc.
  - apply bind_ok in H. destruct H as (s1 & H1 & H2). destruct (IH _ _ H2 c Hc) as [Hc1|Hc1]; [|right; exact Hc1]. clear H2 IH Hc.
    unfold p_attempt in H1. apply bind_ok in H1. destruct H1 as (y & _ & H1).
    destruct (snd y && _); [|injection H1 as <-; left; exact Hc1].
    apply bind_ok in H1. destruct H1 as (l1 & H1 & H2). injection H2 as <-. cbn [fst] in Hc1.
    unfold p_new_route in H1. destruct (digraph_of _) as [a b].
    apply bind_ok in H1. destruct H1 as (q & _ & H1). injection H1 as <-.
    apply in_app_or in Hc1. destruct Hc1 as [Hc1|[<-|[]]]; [left; exact Hc1|right; reflexivity].
Qed.
Lemma greedy_path h k caps ns dur keys n rnd pool pool1 more :
  greedy_pricing h caps ns dur k keys pool n rnd = Ok (pool1, more) -> forall c, In c pool1 -> In c pool \/ c_path c = None.
Proof.
  unfold greedy_pricing. intros H c Hc. apply bind_ok in H. destruct H as (s & H1 & H2).
  destruct (p_attempts_path _ _ _ _ _ _ _ _ _ _ H2 c Hc) as [Hc1|Hc1]; [|right; exact Hc1].
  exact (p_attempts_path _ _ _ _ _ _ _ _ _ _ H1 c Hc1).
Qed.

Section Pool.
  Variables (E : env) (C : cgconfig) (g : vgraph) (T : Prop).
  Hypothesis N : network 1 g.
  Hypothesis K1 : cg_types C = 1%nat.
  Hypothesis CR : cg_cspy C = true -> custom_ref (cg_options C) = false.
  Hypothesis O2 : o_pickup_delivery (cg_options C) = false.
  Hypothesis Keys : forall v, In v (custs g) -> In v (cg_keys C).
  Hypothesis Sound : cg_cspy C = false -> forall n tl p, sound_answer p (e_pricer E n tl p).
  Hypothesis NC : cg_cspy C = false -> no_circles E.
  Hypothesis LA : cg_cspy C = true -> forall n tl h, sound_labelling h (e_label E n tl h).
  Hypothesis D1 : demand_of g Source == 0.
  Hypothesis D2 : demand_of g Sink == 0.
  Hypothesis HT : T -> cg_greedy C = false /\ 0 <= service_of g Source /\
    (cg_cspy C = true -> forall v, In v (custs g) -> service_of g v == 0).

  (** A column that is a route within the limits. *)
  Record good (c : column) (cs : list node) : Prop := {
    gd_shape : route_shape (trip cs);
    gd_along : along (arc_list g) (trip cs);
    gd_nodes : Permutation (c_nodes c) (trip cs);
    gd_arcs : forall a, In a (c_arcs c) <-> In a (arcs (trip cs));
    gd_path : c_path c = None \/ c_path c = Some (trip cs);
    gd_cost : c_cost c == path_sum (cost_of g 0) (trip cs);
    gd_load : forall x, cg_caps C = Some [x] -> node_sum (demand_of g) cs <= inject_Z x;
    gd_stops : forall n, cg_stops C = Some n -> (0 < n)%Z -> (Z.of_nat (List.length cs) <= n)%Z;
    gd_time : T -> cs <> [] -> forall D, limit (cg_duration C) D -> path_sum (time_of g) (trip cs) + node_sum (service_of g) cs <= inject_Z D;
    gd_type : cg_caps C = None \/ (exists x, cg_caps C = Some [x]) -> c_type c = 0%nat
  }.

  Lemma good_untag c c' cs : untag c = untag c' -> good c cs -> good c' cs.
  Proof.
    destruct c, c'. unfold untag. cbn. intro H. injection H as -> -> -> -> -> ->. intros [G1 G2 G3 G4 G5 G6 G7 G8 G9 G10]. constructor; assumption.
  Qed.

  (** a drivable route of a part of the re-weighted network, as a column *)
  Lemma column_good h h' k cs c : same_but_weights g h -> part_of h' h -> k = 0%nat -> is_column h' k cs c -> (c_path c = None \/ c_path c = Some (trip cs)) ->
    route_shape (trip cs) -> along (arc_list h') (trip cs) ->
    within_load h' (cg_caps C) k cs ->
    (forall n, cg_stops C = Some n -> (0 < n)%Z -> (Z.of_nat (List.length cs) <= n)%Z) ->
    (T -> cs <> [] -> forall D, limit (cg_duration C) D -> path_sum (time_of h') (trip cs) + node_sum (service_of h') cs <= inject_Z D) -> In Source (nodes h') -> In Sink (nodes h') ->
    good c cs.
  Proof.
    intros Sw P -> [I1 I2 I3 I4] Pa Sh Al Lo St Du S' T'. destruct (same_figures _ _ Sw) as (F1 & F2).
    assert (A2 : forall u v, In (u, v) (arcs (trip cs)) -> In (u, v) (arc_list g) /\ time_of h' u v = time_of g u v /\ cost_of h' 0 u v = cost_of g 0 u v).
    { intros u v Huv. destruct (part_arc_figures h' h u v P (Al u v Huv)) as (B1 & B2 & B3). destruct (F2 u v B1) as (B4 & B5 & B6).
      rewrite B2, B5, B3, B6. auto. }
    assert (Nn : forall v, In v (trip cs) -> In v (nodes h')).
    { intros v Hv. eapply along_nodes; [exact (part_wf _ _ P)|exact Sh|exact Al|exact Hv]. }
    assert (F3 : forall v, In v (trip cs) -> demand_of h' v = demand_of g v /\ service_of h' v = service_of g v).
    { intros v Hv. destruct (part_node_figures h' h v P (Nn v Hv)) as (B1 & B2). destruct (F1 v) as (B3 & B4). rewrite B1, B2, B3, B4. auto. }
    constructor.
    - exact Sh.
    - intros u v Huv. apply A2. exact Huv.
    - exact I1.
    - intro a. split; apply Permutation_in; [exact I2|apply Permutation_sym; exact I2].
    - exact Pa.
    - rewrite I3. apply path_sum_ext. intros u v Huv. destruct (A2 u v Huv) as (_ & _ & ->). reflexivity.
    - intros x Hx. specialize (Lo [x] x Hx eq_refl).
      assert (Eq : node_sum (demand_of h') (cs ++ [Sink]) == node_sum (demand_of g) cs).
      { unfold node_sum. rewrite map_app, Qsum_app. cbn [map]. rewrite Qsum_cons. change (Qsum []) with 0.
        destruct (F3 Sink) as (-> & _); [right; apply in_or_app; right; left; reflexivity|]. rewrite D2.
        assert (Em : Qsum (map (demand_of h') cs) == Qsum (map (demand_of g) cs)).
        { apply (node_sum_ext (demand_of h') (demand_of g)). intros v Hv. destruct (F3 v) as (-> & _); [right; apply in_or_app; auto|reflexivity]. }
        rewrite Em. lra. }
      rewrite Eq in Lo. exact Lo.
    - exact St.
    - intros Tt Ne D HD. specialize (Du Tt Ne D HD).
      rewrite (path_sum_ext (time_of h') (time_of g)) in Du by (intros u v Huv; destruct (A2 u v Huv) as (_ & -> & _); reflexivity).
      rewrite (node_sum_ext (service_of h') (service_of g)) in Du; [exact Du|].
      intros v Hv. destruct (F3 v) as (_ & ->); [right; apply in_or_app; auto|reflexivity].
    - intros _. exact I4.
  Qed.

  Definition useable (c : column) : Prop := (exists cs, good c cs) \/ exists i, c_name c = CNonElem i.

  Lemma useable_untag c c' : untag c = untag c' -> useable c -> useable c'.
  Proof.
    intros U [(cs & G)|(i & G)]; [left; exists cs; exact (good_untag _ _ _ U G)|right; exists i].
    destruct c, c'. unfold untag in U. cbn in *. congruence.
  Qed.

  Lemma priced_good pool pool1 : (forall c, In c pool -> useable c) -> priced E C g pool pool1 ->
    forall c, In c pool1 -> useable c.
  Proof.
    intros G P. destruct P as [D k route p n h hr more Hk Ha Hg Hs|D k h n more Hk Hga Ha Hs].
    - cbv zeta in Hs. pose proof (strip_same _ _ (eq_sym (add_strip _ _ _ _ _ Ha))) as Sw.
      assert (Nh := same_network 1 g h N Sw). assert (Pt := pricing_graph_part _ _ _ _ _ _ (net_wf _ _ Nh) Hg).
      assert (k0 : k = 0%nat) by (rewrite K1 in Hk; lia).
      destruct (cg_cspy C) eqn:Ecs.
      + destruct (mem Source (nodes (fst hr)) && mem Sink (nodes (fst hr))) eqn:Est.
        2:{ apply cspy_nothing in Hs; [rewrite Hs; exact G|]. intros m ref e thr. destruct (e_label _ _ _ _ _ _ _ _) as [(q, w)|] eqn:El; [|reflexivity].
            exfalso. destruct (LA eq_refl _ _ _ _ _ _ _ _ _ El) as (Rf & _).
            destruct (walk_ends_in _ _ _ _ (part_wf _ _ Pt) (rf_walk _ _ _ _ Rf)) as (X & Y); [discriminate|].
            rewrite (proj2 (mem_In _ _) X), (proj2 (mem_In _ _) Y) in Est. discriminate. }
        apply andb_true_iff in Est. destruct Est as (S' & T'). apply mem_In in S', T'.
        assert (Nh' := part_network 1 _ _ Nh Pt S' T').
        apply (cspy_added h (fst hr) 1) in Hs; [|exact Nh'|lia|apply LA; reflexivity|exact (net_wf _ _ Nh)].
        destruct Hs as [->|(m & q & c & Hm & Rf & Fc & ->)]; [exact G|].
        intros c' Hc'. apply in_app_or in Hc'. destruct Hc' as [Hc'|[<-|[]]]; [exact (G _ Hc')|].
        destruct (no_repeat q) eqn:Eq.
        2:{ right. exists (S (List.length pool)). apply (fc_nonelem _ _ _ _ _ Fc). intro X. pose proof (proj2 (CspyProofs.no_repeat_NoDup q) X). congruence. }
        apply no_repeat_NoDup in Eq. destruct (fc_elem _ _ _ _ _ Fc Eq) as (_ & _ & cs & -> & Sh & Al & Ic). left. exists cs.
        destruct (default_sound (fst hr) 1 (cg_options C) k (cg_caps C) (cg_stops C) (cg_duration C) m Nh' Hm cs (CR eq_refl) Rf) as (L1 & L2 & L3).
        apply (column_good h (fst hr) k cs c Sw Pt k0 Ic); auto.
        * right. exact (fc_path _ _ _ _ _ Fc).
        * intros b Hb Hb0. apply (L1 b Hb). lia.
        * intros Tt Ne D' (HD & HD0). destruct (HT Tt) as (_ & _ & H0). specialize (L3 D' HD HD0).
          assert (Eq0 : node_sum (service_of (fst hr)) cs == 0).
          { rewrite (node_sum_ext _ (fun _ => 0)).
            - clear. induction cs as [|x l IH]; [reflexivity|]. unfold node_sum in *. cbn [map]. rewrite Qsum_cons, IH. lra.
            - intros v Hv. assert (Hn : In v (nodes (fst hr))).
              { eapply along_nodes; [exact (part_wf _ _ Pt)|exact Sh|exact Al|right; apply in_or_app; left; exact Hv]. }
              destruct (part_node_figures _ _ v Pt Hn) as (_ & ->). destruct (same_figures _ _ Sw) as (F1 & _). destruct (F1 v) as (_ & ->).
              apply H0; [reflexivity|]. assert (Hh : In v (custs h)).
              { apply (part_custs _ _ _ Pt). apply in_custs. split; [exact Hn|]. destruct Sh as (cs' & Ec & _ & Nd). unfold trip in Ec. injection Ec as Ec. apply app_inv_tail in Ec. subst cs'. exact (Nd v Hv). }
              unfold custs, nodes in *. destruct Sw as (E1 & _). rewrite E1 in Hh. exact Hh. }
          rewrite Eq0. lra.
      + destruct (lp_solve_inv _ _ _ _ _ _ _ _ _ _ _ _ _ _ Hs) as [X|(pr & _ & F & _)]; [injection X as -> _; exact G|].
        destruct (formulate_inv _ _ _ _ _ _ _ _ F) as (S' & T' & _).
        assert (Nh' := part_network 1 _ _ Nh Pt S' T').
        apply (lp_solve_gen _ 1) in Hs; auto.
        * destruct Hs as [(_ & ->)|(_ & _ & cs & c & -> & _ & Pa & Ic & Dr & _)]; [exact G|].
          intros c' Hc'. apply in_app_or in Hc'. destruct Hc' as [Hc'|[<-|[]]]; [exact (G _ Hc')|]. left. exists cs.
          destruct Dr as [[R1 R2 R3 R4] Q1 Q2 Q3 _ _ _].
          apply (column_good h (fst hr) k); auto.
          -- exists cs. auto.
          -- intros m Hm Hm0. apply (Q1 m Hm). lia.
          -- intros Tt Ne D' (HD & HD0). specialize (Q3 D' HD HD0). destruct (HT Tt) as (_ & H0 & _).
             destruct (part_node_figures _ _ Source Pt S') as (_ & Es). destruct (same_figures _ _ Sw) as (F1 & _). destruct (F1 Source) as (_ & Es').
             unfold node_sum in Q3. cbn [map] in Q3. rewrite Qsum_cons, Es, Es' in Q3. unfold node_sum. lra.
        * rewrite k0. lia.
        * intros v Hv. apply Keys. apply (part_custs _ _ _ Pt) in Hv. unfold custs, nodes in *. destruct Sw as (E1 & _). rewrite E1 in Hv. exact Hv.
        * intros pr' F' a HF Hv. destruct (e_negative E (S (S n)) h) eqn:En.
          -- apply (elementary_solution (fst hr) 1 k (cg_caps C) (cg_options C) (cg_stops C) (cg_duration C) true pr' (a_value a)); auto.
          -- destruct (NC eq_refl (S (S n)) (time_remaining C false (e_clock E (S n))) h (fst hr) k _ _ _ _ pr' Pt En F') as (cs & R & A); [exact HF| |].
             { rewrite (formulate_obj _ _ _ _ _ _ _ _ F'). exact Hv. }
             exists cs. split; [exact R|]. apply iff_chosen; try apply R; [exact (net_wf _ _ Nh')|exact A].
        * intros X. congruence.
    - pose proof (strip_same _ _ (eq_sym (add_strip _ _ _ _ _ Ha))) as Sw.
      assert (Nh := same_network 1 g h N Sw). destruct (same_figures _ _ Sw) as (F1 & _).
      assert (k0 : k = 0%nat) by (rewrite K1 in Hk; lia).
      destruct (greedy_columns h 1 (cg_caps C) (cg_stops C) (cg_duration C) k Nh) with (keys := cg_keys C) (pool := pool) (n := 20%nat) (rnd := e_random E n)
        as (new & more' & Hn & _ & Hc).
      + lia.
      + intros l _ Hl. destruct l; [congruence|]. rewrite k0. cbn. lia.
      + destruct (F1 Source) as (-> & _). exact D1.
      + destruct (F1 Sink) as (-> & _). exact D2.
      + intros v Hv. apply Keys. unfold custs, nodes in *. destruct Sw as (E1 & _). rewrite E1 in Hv. exact Hv.
      + rewrite Hs in Hn. injection Hn as -> _. intros c Hc'.
        destruct (greedy_path _ _ _ _ _ _ _ _ _ _ _ Hs c Hc') as [Hc0|Pa]; [exact (G _ Hc0)|].
        apply in_app_or in Hc'. destruct Hc' as [Hc'|Hc']; [exact (G _ Hc')|].
        destruct (Hc c Hc') as (cs & Ic & Sh & Al & _ & Lo & St & _). left. exists cs.
        apply (column_good h h k); auto.
        * constructor; auto. apply (net_wf _ _ Nh).
        * intro Tt. exfalso. destruct (HT Tt) as (X & _). destruct Hga as (Hga & _). rewrite X in Hga. discriminate.
        * apply (net_source _ _ Nh).
        * apply (net_sink _ _ Nh).
  Qed.
End Pool.
