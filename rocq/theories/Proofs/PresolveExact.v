(** The complete effect of preprocessing: what the copy used for the results and the network
    handed to the solution methods contain. *)
From Verif.Base Require Import Prelude Graph.
From Verif.Spec Require Import Routes Network Inputs Feasible Prep.
From Verif.Model Require Import Args Reach Checks Preprocess.
From Verif.Proofs Require Import RouteLemmas FeasProofs PreLemmas PruneProofs KnapProofs LockProofs PresolveProofs PresolveEnd.

Lemma lock_stage_len c o h g2 more : wf h -> lock_stage c o h = Ok (g2, more) ->
  forall u v, In (u, v) (arc_list g2) ->
      option_map (fun e => List.length (ecost e)) (arc_data g2 u v) =
      option_map (fun e => List.length (ecost e)) (arc_data h u v).
Proof.
  intros W. unfold lock_stage. destruct (nonempty (o_preassignments o)) eqn:E; intro H.
  - apply bind_ok in H. destruct H as (x & _ & H). apply lock_more in H. destruct H as (H & _).
    destruct (lock_loop _ _ _ _ W H) as (B0 & B1 & B2 & B3 & B4 & B5 & B6 & B7). exact B5.
  - inversion H; subst. auto.
Qed.

Lemma nth_repeat_lt {A} (x d : A) m : forall k, (k < m)%nat -> nth k (repeat x m) d = x.
Proof. induction m as [|m IH]; intros [|k] H; cbn; try lia; auto. apply IH. lia. Qed.

Section Exact.
  Variables (c : config) (o : options) (g : rgraph) (p : prepared).
  Local Notation h := (pr_copy p).
  Local Notation n := (pr_graph p).
  Hypothesis W : wf g.
  Hypothesis HS : In Source (nodes g).
  Hypothesis HT : In Sink (nodes g).
  Hypothesis NI : forall u, ~ In (u, Source) (arc_list g).
  Hypothesis NO : forall v, ~ In (Sink, v) (arc_list g).
  Hypothesis C : cost_lists (cf_vehicle_types c) g.
  Hypothesis RT : forall v, In v (custs g) -> In (Source, v) (arc_list g) /\ In (v, Sink) (arc_list g).
  Hypothesis P : pre_solve c o g = Ok p.

  Lemma copy_exact :
    nodes h = nodes g /\
    (forall v r, node_data g v = Some r -> exists d, node_data h v = Some d /\ filled v r d) /\
    (forall u v e, arc_data g u v = Some e -> exists l e', r_cost e = Some (Vec l) /\ arc_data h u v = Some e' /\
       given_or (r_time e) 0 (etime e') /\ List.length (ecost e') = List.length l /\
       forall k, (k < cf_vehicle_types c)%nat ->
         nth k (ecost e') 0 == nth k l 0 + (if node_eqb u Source then nth k (cf_fixed_cost c) 0 else 0)) /\
    (~ In (Source, Sink) (arc_list g) -> arc_data h Source Sink = Some (mkE (repeat 0 (cf_vehicle_types c)) 0 0)) /\
    (forall u v, In (u, v) (arc_list h) <-> In (u, v) (arc_list g) \/ (u, v) = (Source, Sink)).
  Proof.
    pose proof (presolve_copy_network c o g p W HS HT NI NO C P) as (Net & N & A).
    pose proof P as H. apply pre_solve_inv in H. destruct H as (g1 & g2 & g3 & H1 & H2 & _).
    destruct (fixed_stage_ok c g g1 W C H1) as (W1 & N1 & G1 & A1 & C1).
    assert (HS1 : In Source (nodes g1)) by (rewrite N1; auto).
    assert (HT1 : In Sink (nodes g1)) by (rewrite N1; auto).
    destruct (update_dummy_ok _ g1 h W1 HS1 HT1 H2) as (N2 & W2 & D2 & A2).
    split; [exact N|]. split.
    { intros v r Hr. apply D2. unfold node_data in *. rewrite G1. exact Hr. }
    split; [|split; [|exact A]].
    - intros u v e He. assert (Huv : In (u, v) (arc_list g)) by (apply arc_data_In; eauto).
      destruct (C u v e He) as (l & El & Ll). exists l. specialize (A2 u v).
      unfold fixed_stage in H1. destruct (nonempty (cf_fixed_cost c)) eqn:Ef.
      + pose proof (add_fixed_costs_ok _ _ _ _ W H1) as (_ & _ & _ & B1 & B2).
        destruct (node_eqb u Source) eqn:Eu.
        * apply node_eqb_eq in Eu. subst u. destruct (B2 v e He) as (e1 & l1 & l1' & E1 & T1 & X1 & X2 & L1 & Nt).
          rewrite E1 in A2. destruct A2 as (e' & E' & (l2 & X3 & X4) & Tm). exists e'.
          assert (l1 = l) by congruence. assert (X5 : ecost e' = l1') by congruence. subst l1. rewrite X5.
          split; [exact El|]. split; [exact E'|]. split; [rewrite <- T1; exact Tm|]. split; [exact L1|].
          intros k Hk. specialize (Nt k). rewrite (proj2 (Nat.ltb_lt k _) Hk) in Nt.
          destruct (nth_error l k) as [x|] eqn:Ex; cbn in Nt.
          -- rewrite (nth_error_nth _ _ _ Nt), (nth_error_nth _ _ _ Ex). reflexivity.
          -- apply nth_error_None in Ex. lia.
        * apply node_eqb_neq in Eu. rewrite (B1 u v Eu), He in A2. destruct A2 as (e' & E' & (l2 & X3 & X4) & Tm).
          exists e'. assert (X5 : ecost e' = l) by congruence. rewrite X5. repeat (split; [solve [auto]|]). intros; lra.
      + apply Ok_inj in H1. subst g1. rewrite He in A2. destruct A2 as (e' & E' & (l2 & X3 & X4) & Tm).
        exists e'. assert (X5 : ecost e' = l) by congruence. rewrite X5. repeat (split; [solve [auto]|]).
        intros k Hk. destruct (cf_fixed_cost c); [|discriminate]. destruct (node_eqb u Source), k; cbn; lra.
    - intro Hn. specialize (A2 Source Sink). destruct (arc_data g1 Source Sink) as [e|] eqn:E.
      + exfalso. apply Hn. rewrite <- A1. apply arc_data_In. eauto.
      + exact A2.
  Qed.

  (** The bound set for the Sink when the user gave none. *)
  Lemma copy_sink r : node_data g Sink = Some r -> (r_upper r = None \/ exists x, r_upper r = Some x /\ x == 0) ->
    (forall u t, In (u, Sink) (arc_list h) -> t <= upper_of h u ->
       t + service_of h u + time_of h u Sink <= upper_of h Sink) /\
    (forall U, (forall u t, In (u, Sink) (arc_list h) -> t <= upper_of h u ->
                  t + service_of h u + time_of h u Sink <= U) -> upper_of h Sink <= U).
  Proof.
    intros Hr Hu. pose proof P as H. apply pre_solve_inv in H. destruct H as (g1 & g2 & g3 & H1 & H2 & _).
    destruct (fixed_stage_ok c g g1 W C H1) as (W1 & N1 & G1 & A1 & C1).
    apply (update_dummy_sink (cf_vehicle_types c) g1 h r); auto.
    - rewrite N1; auto.
    - rewrite N1; auto.
    - intros v. rewrite A1. apply NO.
    - unfold node_data in *. rewrite G1. exact Hr.
  Qed.

  Lemma fits_max (x : Q) : (match cf_load_capacity c with Some l => exists m, zmax l = Ok m /\ pr_max_capacity p = Some m
     | None => pr_max_capacity p = None end) ->
    ((forall m, pr_max_capacity p = Some m -> x <= inject_Z m) <->
     (forall caps, cf_load_capacity c = Some caps -> exists cap, In cap caps /\ x <= inject_Z cap)).
  Proof.
    intro H. destruct (cf_load_capacity c) as [l|].
    - destruct H as (m & Hm & ->). apply zmax_ok in Hm. destruct Hm as (M1 & M2). split.
      + intros X caps E. inversion E; subst. exists m. split; auto.
      + intros X m' E. inversion E; subst. destruct (X l eq_refl) as (cap & Hc & Hx).
        apply M2 in Hc. rewrite Zle_Qle in Hc. lra.
    - rewrite H. split; intros _ ? E; discriminate.
  Qed.

  (** The nodes that are left and their attributes. *)
  Lemma network_nodes :
    (forall v, In v (nodes n) <-> In v (nodes g) /\ ~ locked_away (o_preassignments o) v) /\
    (forall v, In v (nodes n) ->
       demand_of n v = demand_of h v /\ collect_of n v = collect_of h v /\ service_of n v = service_of h v /\
       freq (nd n v) = freq (nd h v) /\ request (nd n v) = request (nd h v) /\
       is_aux_depot (nd n v) = is_aux_depot (nd h v) /\
       lower_of n v = (if o_time_windows o then tight_lower h v else lower_of h v) /\
       upper_of n v = (if o_time_windows o then tight_upper h v else upper_of h v)).
  Proof.
    destruct (safe_stages c o g p P) as (g2 & gc & g3 & H1 & H2 & H3 & H4 & H5 & H6).
    destruct (final_capacity c o g p W HS HT NI NO C RT P g2 gc H1 H2 H4) as (Wc & Sc & Tc & Rc & Nc & Dc & Ac & Bc & Ec).
    destruct (penalise_ok _ _ _ H6) as (G6 & A6 & T6 & _).
    destruct (presolve_copy_network c o g p W HS HT NI NO C P) as (Net & N & A).
    destruct (presolve_nodes c o g p W HS HT NI NO C RT P) as (_ & Nn & Att & _).
    destruct (lock_stage_ok c o h g2 _ (net_wf _ _ Net) H1) as (_ & N2 & _).
    assert (D6 : forall v, nd n v = nd g3 v) by (intro v; unfold nd, node_data; rewrite G6; auto).
    assert (DN : forall v, In v (nodes gc) -> nd gc v = nd h v) by (intros v Hv; apply nd_eq; auto).
    assert (N3 : nodes g3 = nodes gc).
    { destruct (o_time_windows o); [|inversion H3; auto].
      destruct (tw_prune_ok gc Wc Sc Tc Rc) as (gx & E & W3 & N3 & _). assert (gx = g3) by congruence. subst gx. auto. }
    assert (N6 : nodes n = nodes gc) by (rewrite <- N3; unfold nodes; rewrite G6; reflexivity).
    split; [intro v; rewrite <- N; apply Nn|].
    intros v Hv. destruct (Att v Hv) as (B1 & B2 & B3 & B4). rewrite N6 in Hv.
    split; [exact B1|]. split; [exact B2|]. split; [exact B3|].
    assert (R3 : freq (nd g3 v) = freq (nd gc v) /\ request (nd g3 v) = request (nd gc v) /\
                 is_aux_depot (nd g3 v) = is_aux_depot (nd gc v)).
    { destruct (o_time_windows o); [|inversion H3; auto]. apply (tw_prune_rest gc g3 Wc Sc Tc Rc H3). }
    rewrite (DN v Hv), <- (D6 v) in R3. destruct R3 as (R3a & R3b & R3c). split; [exact R3a|]. split; [exact R3b|]. split; [exact R3c|].
    destruct (o_time_windows o) eqn:Ew; [|exact B4].
    destruct (list_eq_dec arc_eq_dec (arc_list gc) []) as [E0|E0].
    - (* no arc, hence no customer *)
      assert (Hd : is_depot v = true).
      { destruct (is_depot v) eqn:Ed; auto. exfalso. destruct (Rc v) as (X & _); [|rewrite E0 in X; destruct X].
        apply in_custs. apply is_depot_false in Ed. tauto. }
      unfold tight_lower, tight_upper. rewrite Hd. unfold lower_of, upper_of. rewrite D6.
      assert (E : edges gc = []).
      { destruct (edges gc) as [|[x y] l] eqn:E; auto. exfalso. assert (X : In (x, y) (edges gc)) by (rewrite E; left; auto).
        apply in_edges in X; auto. rewrite E0 in X. destruct X. }
      unfold remove_infeasible_arcs_time_windows in H3. rewrite E in H3. cbn [foldM bind] in H3. apply Ok_inj in H3. subst g3.
      cbn [fst snd]. unfold nd at 1 3. rewrite !node_data_remove_arcs. fold (nd gc v). rewrite (DN v Hv). auto.
    - destruct (tw_prune_ok gc Wc Sc Tc Rc) as (gx & E & W3 & N3' & F & L3 & A3 & E3). assert (gx = g3) by congruence. subst gx.
      destruct (L3 E0 v Hv) as (L1 & L2). unfold lower_of, upper_of in *. rewrite D6, L1, L2.
      unfold tight_lower, tight_upper, lower_of, upper_of. destruct (is_depot v) eqn:Ed; [rewrite (DN v Hv); auto|].
      assert (Rv : In (Source, v) (arc_list gc) /\ In (v, Sink) (arc_list gc)).
      { apply Rc. apply in_custs. apply is_depot_false in Ed. tauto. }
      destruct Rv as [R1 R2]. rewrite (proj2 (Ac _ _ R1)), (proj2 (Ac _ _ R2)), (DN v Hv), (DN Source Sc), (DN Sink Tc). auto.
  Qed.

  (** The arcs that are left and their attributes. *)
  Lemma network_arcs :
    (forall u v, In (u, v) (arc_list n) ->
       In (u, v) (arc_list h) /\ ~ locked_away (o_preassignments o) u /\ ~ locked_away (o_preassignments o) v /\
       pair_fits c h u v /\
       (o_time_windows o = true -> ~ too_late (time_of h) (service_of h) (lower_of h) (upper_of h) u v)) /\
    (exists a0, forall u v, In (u, v) (arc_list n) -> (u, v) <> a0 -> o_time_windows o = true ->
       ~ too_late (time_of h) (service_of h) (tight_lower h) (tight_upper h) u v) /\
    (forall u v, In (u, v) (arc_list h) -> ~ locked_away (o_preassignments o) u -> ~ locked_away (o_preassignments o) v ->
       pair_fits c h u v ->
       (o_time_windows o = true -> ~ too_late (time_of h) (service_of h) (tight_lower h) (tight_upper h) u v) ->
       In (u, v) (arc_list n)) /\
    (forall u v, In (u, v) (arc_list n) -> time_of n u v = time_of h u v /\
       forall k, (k < cf_vehicle_types c)%nat ->
         ((u, v) = (Source, Sink) -> o_use_all_vehicles o = true -> cost_of n k u v = big_cost) /\
         ((u, v) <> (Source, Sink) \/ o_use_all_vehicles o = false -> locked_arc (o_preassignments o) (u, v) ->
            cost_of n k u v = 0) /\
         ((u, v) <> (Source, Sink) \/ o_use_all_vehicles o = false -> ~ locked_arc (o_preassignments o) (u, v) ->
            cost_of n k u v = cost_of h k u v)).
  Proof.
    destruct (safe_stages c o g p P) as (g2 & gc & g3 & H1 & H2 & H3 & H4 & H5 & H6).
    destruct (final_capacity c o g p W HS HT NI NO C RT P g2 gc H1 H2 H4) as (Wc & Sc & Tc & Rc & Nc & Dc & Ac & Bc & Ec).
    destruct (penalise_ok _ _ _ H6) as (G6 & A6 & T6 & Q6).
    destruct (presolve_copy_network c o g p W HS HT NI NO C P) as (Net & N & A).
    destruct (lock_stage_ok c o h g2 _ (net_wf _ _ Net) H1) as (W2 & N2 & D2 & A2 & T2 & K2 & F2).
    assert (DN : forall v, In v (nodes gc) -> nd gc v = nd h v) by (intros v Hv; apply nd_eq; auto).
    (* windows seen in gc *)
    assert (TL : forall u v, In (u, v) (arc_list gc) ->
      (too_late (time_of gc) (service_of gc) (lower_of gc) (upper_of gc) u v <->
       too_late (time_of h) (service_of h) (lower_of h) (upper_of h) u v) /\
      (too_late (time_of gc) (service_of gc) (tight_lower gc) (tight_upper gc) u v <->
       too_late (time_of h) (service_of h) (tight_lower h) (tight_upper h) u v)).
    { intros u v Huv. destruct (wf_ends gc Wc _ _ Huv) as (Hu & Hv). destruct (Ac _ _ Huv) as (_ & Et).
      assert (TG : forall w, In w (nodes gc) -> tight_lower gc w = tight_lower h w /\ tight_upper gc w = tight_upper h w).
      { intros w Hw. unfold tight_lower, tight_upper, lower_of, upper_of. rewrite (DN w Hw). destruct (is_depot w) eqn:Ed; auto.
        assert (Rv : In (Source, w) (arc_list gc) /\ In (w, Sink) (arc_list gc)).
        { apply Rc. apply in_custs. apply is_depot_false in Ed. tauto. }
        destruct Rv as [R1 R2]. rewrite (proj2 (Ac _ _ R1)), (proj2 (Ac _ _ R2)), (DN Source Sc), (DN Sink Tc). auto. }
      unfold too_late. rewrite Et. destruct (TG u Hu) as (-> & _). destruct (TG v Hv) as (_ & ->).
      unfold service_of, lower_of, upper_of. rewrite (DN u Hu), (DN v Hv). tauto. }
    assert (Weak : forall u v, too_late (time_of h) (service_of h) (lower_of h) (upper_of h) u v ->
                               too_late (time_of h) (service_of h) (tight_lower h) (tight_upper h) u v).
    { intros u v. unfold too_late, tight_lower, tight_upper. intro X.
      destruct (pymax2_spec (lower_of h u) (lower_of h Source + time_of h Source u)) as (X1 & _ & _).
      destruct (pymin2_spec (upper_of h v) (upper_of h Sink - time_of h v Sink)) as (X2 & _ & _).
      destruct (is_depot u), (is_depot v); lra. }
    assert (A3 : exists a0, forall u v, In (u, v) (arc_list g3) <-> In (u, v) (arc_list gc) /\
       (o_time_windows o = true -> ~ (if arc_eqb a0 (u, v) then too_late (time_of h) (service_of h) (lower_of h) (upper_of h) u v
                                      else too_late (time_of h) (service_of h) (tight_lower h) (tight_upper h) u v))).
    { destruct (o_time_windows o).
      - destruct (tw_prune_ok gc Wc Sc Tc Rc) as (gx & E & W3 & N3 & F & L3 & A3 & E3). assert (gx = g3) by congruence. subst gx.
        exists (match edges gc with a :: _ => a | [] => (Sink, Source) end). intros u v. rewrite A3. split.
        + intros (X1 & X2). split; auto. intros _ X3. apply X2. destruct (TL u v X1) as (Y1 & Y2).
          destruct (edges gc) as [|a l] eqn:Ee.
          * apply (in_edges gc u v Wc) in X1. rewrite Ee in X1. destruct X1.
          * destruct (arc_eqb a (u, v)); [apply Y1|apply Y2]; exact X3.
        + intros (X1 & X2). split; auto. intro X3. apply (X2 eq_refl). destruct (TL u v X1) as (Y1 & Y2).
          destruct (edges gc) as [|a l] eqn:Ee.
          * apply (in_edges gc u v Wc) in X1. rewrite Ee in X1. destruct X1.
          * destruct (arc_eqb a (u, v)); [apply Y1|apply Y2]; exact X3.
      - apply Ok_inj in H3. subst g3. exists (Sink, Source). intros u v. split; [intro X; split; [exact X|discriminate]|tauto]. }
    assert (D3 : forall u v, In (u, v) (arc_list g3) -> arc_data g3 u v = arc_data gc u v).
    { destruct (o_time_windows o); [|inversion H3; auto].
      destruct (tw_prune_ok gc Wc Sc Tc Rc) as (gx & E & W3 & N3 & F & L3 & A3' & E3). assert (gx = g3) by congruence. subst gx. auto. }
    destruct A3 as (a0 & A3). rewrite A6.
    assert (GC : forall u v, In (u, v) (arc_list gc) <-> In (u, v) (arc_list h) /\ ~ locked_away (o_preassignments o) u /\
                   ~ locked_away (o_preassignments o) v /\ pair_fits c h u v).
    { intros u v. rewrite Bc. unfold pair_fits. rewrite <- (fits_max _ H4), A2, !N2. split; [tauto|].
      intros (X1 & X2 & X3 & X4). destruct (wf_ends h (net_wf _ _ Net) _ _ X1). tauto. }
    split; [|split; [|split]].
    - intros u v Huv. apply A3 in Huv. destruct Huv as (X1 & X2). apply GC in X1. destruct X1 as (Y1 & Y2 & Y3 & Y4).
      do 4 (split; [assumption|]). intros E X3. apply (X2 E). destruct (arc_eqb a0 (u, v)); auto.
    - exists a0. intros u v Huv Hn E X. apply A3 in Huv. apply (proj2 Huv E).
      destruct (arc_eqb a0 (u, v)) eqn:Ea; [apply arc_eqb_eq in Ea; congruence|exact X].
    - intros u v Y1 Y2 Y3 Y4 X. apply A3. split; [apply GC; auto|]. intros E X3. apply (X E).
      destruct (arc_eqb a0 (u, v)); auto.
    - intros u v Huv. pose proof (proj1 (proj1 (A3 u v) Huv)) as Hc. pose proof (proj1 (proj1 (Bc u v) Hc)) as H2'.
      split; [rewrite T6; unfold time_of; rewrite (D3 u v Huv); fold (time_of gc u v); apply (Ac u v Hc)|].
      intros k Hk.
      assert (Low : cost_of g3 k u v = cost_of g2 k u v).
      { unfold cost_of. rewrite (D3 u v Huv), (Ec u v Hc). reflexivity. }
      assert (Same : (u, v) <> (Source, Sink) \/ o_use_all_vehicles o = false -> cost_of n k u v = cost_of g2 k u v).
      { intros [X|X].
        - rewrite <- Low. unfold cost_of. rewrite (Q6 u v X). reflexivity.
        - rewrite X in H6. apply Ok_inj in H6. rewrite <- H6. exact Low. }
      split; [|split].
      + intros E1 E2. injection E1 as -> ->. rewrite E2 in H6. unfold penalise_empty in H6. apply bind_ok in H6.
        destruct H6 as (e & He & H6). apply Ok_inj in H6. unfold cost_of. rewrite <- H6, arc_data_map_arcs.
        unfold get_arc in He. destruct (arc_data g3 Source Sink) as [e0|] eqn:E0; [|discriminate]. cbn in He. apply Ok_inj in He. subst e0.
        cbn [option_map]. rewrite arc_eqb_refl. cbn [ecost].
        assert (L : (cf_vehicle_types c <= List.length (ecost e))%nat).
        { rewrite (D3 _ _ Huv), (Ec _ _ Hc) in E0. pose proof (lock_stage_len c o h g2 _ (net_wf _ _ Net) H1 Source Sink H2') as L.
          rewrite E0 in L. cbn in L. destruct (arc_data h Source Sink) as [e1|] eqn:E1; [|discriminate]. cbn in L. injection L as ->.
          apply (net_costs _ _ Net Source Sink e1 E1). }
        apply nth_repeat_lt. lia.
      + intros X Y. rewrite (Same X). apply K2; auto.
      + intros X Y. rewrite (Same X). apply F2; auto.
  Qed.

  (** The limits handed to the solution methods. *)
  Lemma network_limits :
    (match cf_load_capacity c with
     | None => pr_max_capacity p = None
     | Some caps => exists m, pr_max_capacity p = Some m /\ In m caps /\ forall x, In x caps -> (x <= m)%Z
     end) /\
    (match cf_num_vehicles c with
     | None => pr_num_vehicles p = None /\ pr_num_vehicles_schedule p = []
     | Some l =>
         (o_periodic o = None \/ o_periodic o = Some 0%Z -> pr_num_vehicles p = Some l /\ pr_num_vehicles_schedule p = []) /\
         (forall T, o_periodic o = Some T -> T <> 0%Z -> pr_num_vehicles p = Some [] /\ pr_num_vehicles_schedule p = l)
     end) /\
    (pr_more_routes p = false <-> o_preassignments o <> [] /\ custs n = []) /\
    (cf_load_capacity c = None \/ o_pickup_delivery o = true -> pr_num_stops p = cf_num_stops c) /\
    (forall cap, o_pickup_delivery o = false -> pr_max_capacity p = Some cap -> (0 <= cap)%Z ->
       nonneg_demands h -> (o_distribution_collection o = true -> nonneg_collects h) ->
       exists m b, pr_num_stops p = Some b /\
         max_items (map (fun q => qtrunc (demand (snd q))) (gnodes n)) cap m /\
         exists m', (if o_distribution_collection o
                     then exists mc, max_items (map (fun q => qtrunc (collect (snd q))) (gnodes n)) cap mc /\ m' = Z.min m mc
                     else m' = m) /\
         b = match cf_num_stops c with Some s => if (s =? 0)%Z then m' else Z.min m' s | None => m' end).
  Proof.
    destruct (safe_stages c o g p P) as (g2 & gc & g3 & H1 & H2 & H3 & H4 & H5 & H6).
    destruct (final_capacity c o g p W HS HT NI NO C RT P g2 gc H1 H2 H4) as (Wc & Sc & Tc & Rc & Nc & Dc & Ac & Bc & Ec).
    destruct (penalise_ok _ _ _ H6) as (G6 & A6 & T6 & Q6).
    destruct (presolve_copy_network c o g p W HS HT NI NO C P) as (Net & N & A).
    assert (F3 : wf g3 /\ nodes g3 = nodes gc /\
       forall v, demand_of g3 v = demand_of gc v /\ collect_of g3 v = collect_of gc v).
    { destruct (o_time_windows o).
      - destruct (tw_prune_ok gc Wc Sc Tc Rc) as (gx & E & W3 & N3 & F & _). assert (gx = g3) by congruence. subst gx.
        split; auto. split; auto. intro v. destruct (F v) as (F1 & F2 & _). auto.
      - inversion H3; subst. auto. }
    destruct F3 as (W3 & N3 & F3).
    assert (N6 : nodes n = nodes gc) by (rewrite <- N3; unfold nodes; rewrite G6; reflexivity).
    split; [|split; [|split; [|split]]].
    - destruct (cf_load_capacity c) as [caps|]; [|exact H4]. destruct H4 as (m & Hm & ->). apply zmax_ok in Hm.
      destruct Hm as (M1 & M2). exists m. auto.
    - destruct (pre_solve_inv c o g p P) as (x1 & x2 & x3 & _ & _ & _ & _ & _ & _ & _ & _ & Sv).
      unfold split_vehicles, check_periodic_num_vehicles in Sv. destruct (cf_num_vehicles c) as [l|].
      + split.
        * intro E. assert (T : truthy (o_periodic o) = false) by (destruct E as [-> | ->]; reflexivity). rewrite T in Sv. cbn in Sv.
          inversion Sv; auto.
        * intros T E Hne. assert (Tr : truthy (o_periodic o) = true).
          { rewrite E. unfold truthy. apply negb_true_iff. apply Z.eqb_neq. exact Hne. }
          rewrite Tr in Sv. cbn [andb] in Sv. destruct l; cbn in Sv; inversion Sv; auto.
      + inversion Sv; auto.
    - assert (E6 : custs n = custs g2) by (unfold custs; rewrite N6, Nc; reflexivity). rewrite E6.
      pose proof (final_locked c o g p W HS HT NI NO C RT P g2 H1) as (W2 & S2 & T2 & _).
      unfold lock_stage in H1. destruct (o_preassignments o) as [|r0 rs] eqn:Ep.
      + cbn in H1. injection H1 as _ M. rewrite <- M. split; [discriminate|]. intros (X & _). congruence.
      + cbn [nonempty] in H1. apply bind_ok in H1. destruct H1 as (x & _ & H1).
        rewrite (lock_nothing_left _ _ _ _ _ (net_wf _ _ Net) H1 S2 T2). split; [intro X; split; [discriminate|exact X]|tauto].
    - intros E. unfold stops_stage in H5. destruct E as [E|E].
      + rewrite E in H4. rewrite H4 in H5. apply Ok_inj in H5. auto.
      + rewrite E in H5. destruct (pr_max_capacity p); apply Ok_inj in H5; auto.
    - intros cap Epd Ecap Hcap Nn Nco. unfold stops_stage in H5. rewrite Ecap, Epd in H5.
      apply bind_ok in H5. destruct H5 as (b & Hb & H5). apply Ok_inj in H5.
      assert (DN : forall v, In v (nodes gc) -> nd gc v = nd h v) by (intros v Hv; apply nd_eq; auto).
      assert (Out : forall f : ndata -> Q, f dflt_n == 0 -> (forall v, 0 <= f (nd h v)) -> forall v, 0 <= f (nd gc v)).
      { intros f Hf0 Hfp v. unfold nd. destruct (node_data gc v) as [d|] eqn:Ed; [|rewrite Hf0; lra].
        assert (Hv : In v (nodes gc)) by (apply node_data_In; eauto). specialize (Hfp v). rewrite <- DN in Hfp by auto.
        unfold nd in Hfp. rewrite Ed in Hfp. auto. }
      destruct (stop_bound_exact g3 cap (cf_num_stops c) (o_distribution_collection o)) as (m & b' & Hb' & M & m' & M' & Eb); auto.
      + rewrite N3; auto.
      + rewrite N3; auto.
      + intro v. rewrite (proj1 (F3 v)). apply (Out demand); [reflexivity|auto].
      + intros E v. rewrite (proj2 (F3 v)). apply (Out collect); [reflexivity|]. intro x. apply (Nco E x).
      + assert (b' = b) by congruence. subst b'. exists m, b. rewrite G6. split; [congruence|]. split; [exact M|]. exists m'. auto.
  Qed.
End Exact.
