(** Preprocessing as a whole. *)
From Verif.Base Require Import Prelude Graph.
From Verif.Spec Require Import Routes Network Inputs Feasible Prep.
From Verif.Model Require Import Args Reach Checks Preprocess.
From Verif.Proofs Require Import RouteLemmas FeasProofs PreLemmas PruneProofs KnapProofs LockProofs.

Definition fixed_stage (c : config) (g : rgraph) : res rgraph :=
  if nonempty (cf_fixed_cost c) then add_fixed_costs (cf_vehicle_types c) (cf_fixed_cost c) g else Ok g.

Definition lock_stage (c : config) (o : options) (h : vgraph) : res (vgraph * bool) :=
  if nonempty (o_preassignments o) then
    let* _ := check_preassignments (o_preassignments o) h in
    lock (cf_vehicle_types c) (o_preassignments o) h
  else Ok (h, true).

Definition stops_stage (c : config) (o : options) (mc : option Z) (g : vgraph) : res (option Z) :=
  match mc with
  | Some m => if o_pickup_delivery o then Ok (cf_num_stops c)
              else let* b := num_stops_upper_bound g m (cf_num_stops c) (o_distribution_collection o) in
                   Ok (Some b)
  | None => Ok (cf_num_stops c)
  end.

Lemma pre_solve_inv c o g p : pre_solve c o g = Ok p ->
  exists g1 g2 g3, fixed_stage c g = Ok g1 /\
    update_dummy_attributes (cf_vehicle_types c) g1 = Ok (pr_copy p) /\
    check_consistency (o_cspy o) (o_pickup_delivery o) (pr_copy p) = Ok tt /\
    check_feasibility (cf_load_capacity c) (cf_duration c) (pr_copy p) = Ok tt /\
    lock_stage c o (pr_copy p) = Ok (g2, pr_more_routes p) /\
    prune_graph (cf_load_capacity c) (o_time_windows o) g2 = Ok (pr_max_capacity p, g3) /\
    stops_stage c o (pr_max_capacity p) g3 = Ok (pr_num_stops p) /\
    (if o_use_all_vehicles o then penalise_empty g3 else Ok g3) = Ok (pr_graph p) /\
    split_vehicles (o_periodic o) (cf_num_vehicles c) = (pr_num_vehicles p, pr_num_vehicles_schedule p).
Proof.
  unfold pre_solve. intro H.
  apply bind_ok in H. destruct H as (g1 & H1 & H). apply bind_ok in H. destruct H as (h & H2 & H).
  apply bind_ok in H. destruct H as ([] & H3 & H). apply bind_ok in H. destruct H as ([] & H4 & H).
  destruct (split_vehicles _ _) as (nv & nvs) eqn:E.
  apply bind_ok in H. destruct H as ((g2 & more) & H5 & H). apply bind_ok in H. destruct H as ((mc & g3) & H6 & H).
  apply bind_ok in H. destruct H as (ns & H7 & H). apply bind_ok in H. destruct H as (g4 & H8 & H).
  inversion H; subst; clear H. simpl. exists g1, g2, g3.
  repeat (split; [solve [auto]|]). auto.
Qed.

Lemma fixed_stage_ok c g g1 : wf g -> cost_lists (cf_vehicle_types c) g -> fixed_stage c g = Ok g1 ->
  wf g1 /\ nodes g1 = nodes g /\ gnodes g1 = gnodes g /\ arc_list g1 = arc_list g /\ cost_lists (cf_vehicle_types c) g1.
Proof.
  intros W C. unfold fixed_stage. destruct (nonempty (cf_fixed_cost c)); intro H.
  - pose proof (add_fixed_costs_ok _ _ _ _ W H) as (A & B & D & _).
    split; auto. split; [unfold nodes; congruence|]. split; auto. split; auto.
    exact (cost_lists_fixed _ _ _ _ W C H).
  - inversion H; subst. auto.
Qed.

Lemma presolve_cost c o g p k cs : wf g -> In Source (nodes g) -> In Sink (nodes g) ->
  cost_lists (cf_vehicle_types c) g -> pre_solve c o g = Ok p -> (k < cf_vehicle_types c)%nat ->
  cs <> [] -> route_shape (Source :: cs ++ [Sink]) -> along (arc_list g) (Source :: cs ++ [Sink]) ->
  path_sum (cost_of (pr_copy p) k) (Source :: cs ++ [Sink])
  == path_sum (raw_cost g k) (Source :: cs ++ [Sink]) + nth k (cf_fixed_cost c) 0.
Proof.
  intros W HS HT C H Hk Hne Hs Ha. apply pre_solve_inv in H.
  destruct H as (g1 & g2 & g3 & H1 & H2 & _). unfold fixed_stage in H1.
  destruct (nonempty (cf_fixed_cost c)) eqn:E.
  - eapply fixed_cost_once; eauto.
  - inversion H1; subst g1. destruct (cf_fixed_cost c); [|discriminate].
    assert (X : path_sum (cost_of (pr_copy p) k) (Source :: cs ++ [Sink]) ==
                path_sum (raw_cost g k) (Source :: cs ++ [Sink])).
    { apply path_sum_ext. intros u v Huv. rewrite (update_dummy_cost (cf_vehicle_types c) g (pr_copy p) k u v); auto. reflexivity. }
    rewrite X. destruct k; simpl; lra.
Qed.

Lemma presolve_cost_frame c o g p k u v : wf g -> In Source (nodes g) -> In Sink (nodes g) ->
  cost_lists (cf_vehicle_types c) g -> pre_solve c o g = Ok p -> (k < cf_vehicle_types c)%nat ->
  In (u, v) (arc_list g) -> u <> Source -> cost_of (pr_copy p) k u v == raw_cost g k u v.
Proof.
  intros W HS HT C H Hk Hin Hne. apply pre_solve_inv in H.
  destruct H as (g1 & g2 & g3 & H1 & H2 & _). unfold fixed_stage in H1.
  destruct (nonempty (cf_fixed_cost c)) eqn:E.
  - eapply fixed_cost_frame; eauto.
  - inversion H1; subst g1. rewrite (update_dummy_cost (cf_vehicle_types c) g (pr_copy p) k u v); auto. reflexivity.
Qed.

(** The prepared network is a network in the sense of the specification. *)
Lemma presolve_copy_network c o g p : wf g -> In Source (nodes g) -> In Sink (nodes g) ->
  (forall u, ~ In (u, Source) (arc_list g)) -> (forall v, ~ In (Sink, v) (arc_list g)) ->
  cost_lists (cf_vehicle_types c) g -> pre_solve c o g = Ok p ->
  network (cf_vehicle_types c) (pr_copy p) /\ nodes (pr_copy p) = nodes g /\
  (forall u v, In (u, v) (arc_list (pr_copy p)) <-> In (u, v) (arc_list g) \/ (u, v) = (Source, Sink)).
Proof.
  intros W HS HT NI NO C H. apply pre_solve_inv in H. destruct H as (g1 & g2 & g3 & H1 & H2 & _).
  destruct (fixed_stage_ok c g g1 W C H1) as (W1 & N1 & _ & A1 & C1).
  assert (HS1 : In Source (nodes g1)) by (rewrite N1; auto).
  assert (HT1 : In Sink (nodes g1)) by (rewrite N1; auto).
  destruct (update_dummy_ok _ g1 (pr_copy p) W1 HS1 HT1 H2) as (N2 & W2 & _ & A2).
  assert (Al : forall u v, In (u, v) (arc_list (pr_copy p)) <-> In (u, v) (arc_list g) \/ (u, v) = (Source, Sink)).
  { intros u v. rewrite <- A1, <- !arc_data_In. specialize (A2 u v). destruct (arc_data g1 u v) as [e|] eqn:E.
    - destruct A2 as (e' & E' & _). split; intro; eauto.
    - destruct (arc_eqb (u, v) (Source, Sink)) eqn:Ea.
      + apply arc_eqb_eq in Ea. split; eauto.
      + apply arc_eqb_neq in Ea. split; [intros (d & Hd); congruence|]. intros [(d & Hd)|Hx]; congruence. }
  split; [|split; [congruence|auto]]. constructor; auto.
  - rewrite N2; auto.
  - rewrite N2; auto.
  - intros u Hu. apply Al in Hu. destruct Hu as [Hu|Hu]; [eapply NI; eauto|discriminate].
  - intros u Hu. apply Al in Hu. destruct Hu as [Hu|Hu]; [eapply NO; eauto|discriminate].
  - intros u v e He. specialize (A2 u v). destruct (arc_data g1 u v) as [e1|] eqn:E1.
    + destruct A2 as (e' & E' & (l & Hl & El) & _). assert (e = e') by congruence. subst.
      destruct (C1 u v e1 E1) as (l' & Hl' & L). congruence.
    + destruct (arc_eqb (u, v) (Source, Sink)); [|congruence].
      assert (e = mkE (repeat 0 (cf_vehicle_types c)) 0 0) by congruence. subst. simpl. rewrite repeat_length. auto.
Qed.

(* ------------------------------------------------------------------ *)
(** * No usable route is lost *)

Lemma lock_stage_ok c o h g2 more : wf h -> lock_stage c o h = Ok (g2, more) ->
  wf g2 /\
  (forall v, In v (nodes g2) <-> In v (nodes h) /\ ~ locked_away (o_preassignments o) v) /\
  (forall v, In v (nodes g2) -> node_data g2 v = node_data h v) /\
  (forall u v, In (u, v) (arc_list g2) <-> In (u, v) (arc_list h) /\ In u (nodes g2) /\ In v (nodes g2)) /\
  (forall u v, In (u, v) (arc_list g2) -> time_of g2 u v = time_of h u v) /\
  (forall k u v, In (u, v) (arc_list g2) -> (k < cf_vehicle_types c)%nat ->
      locked_arc (o_preassignments o) (u, v) -> cost_of g2 k u v = 0) /\
  (forall k u v, In (u, v) (arc_list g2) ->
      ~ (k < cf_vehicle_types c)%nat \/ ~ locked_arc (o_preassignments o) (u, v) ->
      cost_of g2 k u v = cost_of h k u v).
Proof.
  intros W. unfold lock_stage. destruct (nonempty (o_preassignments o)) eqn:E; intro H.
  - apply bind_ok in H. destruct H as (x & _ & H). apply lock_more in H. destruct H as (H & _).
    destruct (lock_loop _ _ _ _ W H) as (B0 & B1 & B2 & B3 & B4 & B5 & B6 & B7). auto 10.
  - inversion H; subst. destruct (o_preassignments o); [|discriminate]. split; auto. split.
    { intro v. split; [|tauto]. intro Hv. split; auto. intros (q & [] & _). }
    split; auto. split.
    { intros u v. split; [|tauto]. intro Huv. split; auto. apply wf_ends; auto. }
    split; auto. split; auto. intros k u v _ _ (q & [] & _).
Qed.

Lemma penalise_ok (b : bool) g3 g4 : (if b then penalise_empty g3 else Ok g3) = Ok g4 ->
  gnodes g4 = gnodes g3 /\ arc_list g4 = arc_list g3 /\ (forall u v, time_of g4 u v = time_of g3 u v) /\
  (forall u v, (u, v) <> (Source, Sink) -> arc_data g4 u v = arc_data g3 u v).
Proof.
  destruct b; intro H; [|inversion H; subst; auto].
  unfold penalise_empty in H. apply bind_ok in H. destruct H as (e & He & H). inversion H; subst; clear H.
  split; [reflexivity|]. split; [apply arc_list_map_arcs|]. split.
  - intros u v. unfold time_of. rewrite arc_data_map_arcs. destruct (arc_data g3 u v); simpl; auto.
    destruct (arc_eqb (u, v) (Source, Sink)); auto.
  - intros u v Hn. rewrite arc_data_map_arcs. apply arc_eqb_neq in Hn. rewrite Hn.
    destruct (arc_data g3 u v); auto.
Qed.

Lemma nd_eq (g g' : vgraph) v : node_data g' v = node_data g v -> nd g' v = nd g v.
Proof. unfold nd. intros ->. auto. Qed.

Lemma zmax_in l m : zmax l = Ok m -> In m l.
Proof. intro H. apply zmax_ok in H. tauto. Qed.

(** a node kept by locking keeps its round trip *)
Lemma lock_round_trips c o h g2 more : wf h -> lock_stage c o h = Ok (g2, more) ->
  In Source (nodes g2) -> In Sink (nodes g2) -> round_trips h -> round_trips g2.
Proof.
  intros W H HS HT R v Hv. destruct (lock_stage_ok c o h g2 more W H) as (_ & N & _ & A & _).
  apply in_custs in Hv. destruct Hv as (Hv & Hd). assert (Hv' := Hv). apply N in Hv'.
  destruct (R v) as (R1 & R2); [apply in_custs; tauto|]. split; apply A; auto.
Qed.

Lemma running_loads_ext d d' r : (forall v, In v r -> d v = d' v) ->
  forall acc, running_loads d acc r = running_loads d' acc r.
Proof.
  induction r as [|v r IH]; intros H acc; simpl; auto. rewrite (H v (or_introl eq_refl)). f_equal.
  apply IH. intros; apply H; right; auto.
Qed.

Lemma check_preassignments_depots c o h g2 more : wf h ->
  (forall u, ~ In (u, Source) (arc_list h)) -> (forall v, ~ In (Sink, v) (arc_list h)) ->
  lock_stage c o h = Ok (g2, more) ->
  ~ locked_away (o_preassignments o) Source /\ ~ locked_away (o_preassignments o) Sink.
Proof.
  intros W NI NO H. unfold lock_stage in H. destruct (nonempty (o_preassignments o)) eqn:E.
  2:{ destruct (o_preassignments o); [|discriminate]. split; intros (q & [] & _). }
  apply bind_ok in H. destruct H as ([] & H & _). rewrite check_preassignments_ok in H.
  split; intros (q & Hq & Hin); specialize (H _ Hq); apply in_split in Hin; destruct Hin as (q1 & q2 & ->).
  - destruct q1 as [|x q1] using rev_ind.
    + apply (NI Source). apply H. simpl. auto.
    + apply (NI x). apply H. apply arcs_in. exists (Source :: q1), (q2 ++ [Sink]).
      rewrite <- app_assoc. simpl. rewrite <- app_assoc. simpl. auto.
  - destruct q2 as [|x q2].
    + apply (NO Sink). apply H. apply arcs_in. exists (Source :: q1), []. rewrite <- app_assoc. simpl. auto.
    + apply (NO x). apply H. apply arcs_in. exists (Source :: q1), (q2 ++ [Sink]).
      rewrite <- app_assoc. simpl. auto.
Qed.

Lemma copy_depot_demand c o g p v : wf g -> In Source (nodes g) -> In Sink (nodes g) ->
  cost_lists (cf_vehicle_types c) g -> pre_solve c o g = Ok p -> is_depot v = true ->
  demand_of (pr_copy p) v <= 0.
Proof.
  intros W HS HT C H Hv. apply pre_solve_inv in H. destruct H as (g1 & g2 & g3 & H1 & H2 & _).
  destruct (fixed_stage_ok c g g1 W C H1) as (W1 & N1 & _ & A1 & C1).
  assert (HS1 : In Source (nodes g1)) by (rewrite N1; auto).
  assert (HT1 : In Sink (nodes g1)) by (rewrite N1; auto).
  destruct (update_dummy_ok _ g1 (pr_copy p) W1 HS1 HT1 H2) as (N2 & W2 & F & A2).
  assert (Hin : In v (nodes g1)) by (destruct v; simpl in Hv; try discriminate; auto).
  apply node_data_In in Hin. destruct Hin as (r & Hr). destruct (F v r Hr) as (d & Hd & Fd).
  unfold demand_of, nd. rewrite Hd. destruct Fd as (Fd & _).
  specialize (Fd (default (r_demand r) 0) (default_given _ _)). rewrite Hv in Fd. simpl in Fd.
  rewrite Fd. destruct (Qltb 0 (default (r_demand r) 0)) eqn:E; [lra|]. apply Qltb_ge in E. auto.
Qed.

Lemma loads_within_mono d c1 c2 r : c1 <= c2 -> loads_within d c1 r -> loads_within d c2 r.
Proof. intros H L x Hx. destruct (L x Hx). split; lra. Qed.

Section Safe.
  Variables (c : config) (o : options) (g : rgraph) (p : prepared).
  Local Notation h := (pr_copy p).
  Hypothesis W : wf g.
  Hypothesis HS : In Source (nodes g).
  Hypothesis HT : In Sink (nodes g).
  Hypothesis NI : forall u, ~ In (u, Source) (arc_list g).
  Hypothesis NO : forall v, ~ In (Sink, v) (arc_list g).
  Hypothesis C : cost_lists (cf_vehicle_types c) g.
  Hypothesis RT : forall v, In v (custs g) -> In (Source, v) (arc_list g) /\ In (v, Sink) (arc_list g).
  Hypothesis P : pre_solve c o g = Ok p.
  Variable r : list node.
  Hypothesis Hr : route_shape r.
  Hypothesis Ha : along (arc_list h) r.
  Hypothesis Hk : forall v, In v r -> ~ locked_away (o_preassignments o) v.
  Hypothesis Hl : load_fits c (o_pickup_delivery o) h r.

  Lemma copy_round_trips : round_trips h.
  Proof.
    destruct (presolve_copy_network c o g p W HS HT NI NO C P) as (_ & N & A).
    intros v Hv. destruct (RT v) as (R1 & R2); [unfold custs in *; rewrite N in Hv; auto|].
    split; apply A; auto.
  Qed.

  Lemma safe_stages : exists g2 gc g3,
    lock_stage c o h = Ok (g2, pr_more_routes p) /\
    (match pr_max_capacity p with Some m => remove_infeasible_arcs_capacities m g2 | None => Ok g2 end) = Ok gc /\
    (if o_time_windows o then remove_infeasible_arcs_time_windows gc else Ok gc) = Ok g3 /\
    (match cf_load_capacity c with Some l => exists m, zmax l = Ok m /\ pr_max_capacity p = Some m
     | None => pr_max_capacity p = None end) /\
    stops_stage c o (pr_max_capacity p) g3 = Ok (pr_num_stops p) /\
    (if o_use_all_vehicles o then penalise_empty g3 else Ok g3) = Ok (pr_graph p).
  Proof.
    destruct (pre_solve_inv c o g p P) as (g1 & g2 & g3 & _ & _ & _ & _ & H5 & H6 & H7 & H8 & _).
    unfold prune_graph in H6. apply bind_ok in H6. destruct H6 as (mc & M & H6).
    apply bind_ok in H6. destruct H6 as (gc & Hc & H6). apply bind_ok in H6. destruct H6 as (g3' & Ht & H6).
    inversion H6; subst. exists g2, gc, g3. repeat (split; [assumption|]). split; auto.
    destruct (cf_load_capacity c) as [l|].
    - apply bind_ok in M. destruct M as (m & M1 & M2). inversion M2; subst. exists m; auto.
    - congruence.
  Qed.

  (** attributes seen after locking *)
  Lemma locked_facts g2 : lock_stage c o h = Ok (g2, pr_more_routes p) ->
    wf g2 /\ In Source (nodes g2) /\ In Sink (nodes g2) /\ round_trips g2 /\
    (forall v, In v (nodes g2) -> nd g2 v = nd h v) /\
    (forall u v, In (u, v) (arc_list g2) -> In (u, v) (arc_list h)) /\
    (forall u v, In (u, v) (arc_list g2) -> time_of g2 u v = time_of h u v) /\
    along (arc_list g2) r /\ (forall v, In v r -> In v (nodes g2)).
  Proof.
    intro H. destruct (presolve_copy_network c o g p W HS HT NI NO C P) as (Net & N & A).
    destruct Net as [Wh Sh Th Nih Noh _].
    destruct (lock_stage_ok c o h g2 _ Wh H) as (W2 & N2 & D2 & A2 & T2 & _).
    destruct (check_preassignments_depots c o h g2 _ Wh Nih Noh H) as (L1 & L2).
    assert (S2 : In Source (nodes g2)) by (apply N2; auto).
    assert (K2 : In Sink (nodes g2)) by (apply N2; auto).
    assert (Hin : forall v, In v r -> In v (nodes g2)).
    { intros v Hv. apply N2. split; auto. eapply route_in_graph; eauto. }
    split; auto. split; auto. split; auto.
    split; [apply (lock_round_trips c o h g2 (pr_more_routes p) Wh H S2 K2 copy_round_trips)|].
    split; [intros v Hv; apply nd_eq; auto|].
    split; [intros u v Huv; apply A2 in Huv; tauto|]. split; auto. split; auto.
    intros u v Huv. apply A2. split; [apply Ha; auto|]. apply arcs_in_nodes in Huv. destruct Huv. auto.
  Qed.

  Lemma safe_capacity g2 gc : lock_stage c o h = Ok (g2, pr_more_routes p) ->
    (match pr_max_capacity p with Some m => remove_infeasible_arcs_capacities m g2 | None => Ok g2 end) = Ok gc ->
    (match cf_load_capacity c with Some l => exists m, zmax l = Ok m /\ pr_max_capacity p = Some m
     | None => pr_max_capacity p = None end) ->
    wf gc /\ In Source (nodes gc) /\ In Sink (nodes gc) /\ round_trips gc /\ nodes gc = nodes g2 /\
    (forall v, In v (nodes gc) -> nd gc v = nd h v) /\
    (forall u v, In (u, v) (arc_list gc) -> In (u, v) (arc_list h) /\ time_of gc u v = time_of h u v) /\
    along (arc_list gc) r /\ (forall v, In v r -> In v (nodes gc)).
  Proof.
    intros H Hc Hm. destruct (locked_facts g2 H) as (W2 & S2 & T2 & R2 & D2 & I2 & Ti2 & A2 & V2).
    destruct (pr_max_capacity p) as [m|] eqn:Em.
    2:{ inversion Hc; subst. auto 12. }
    destruct (cf_load_capacity c) as [caps|] eqn:Ec; [|discriminate].
    destruct Hm as (m' & Hz & Em'). inversion Em'; subst m'. clear Em'. apply zmax_ok in Hz. destruct Hz as (Hm1 & Hm2).
    destruct (capacity_prune_ok m g2 W2) as (gx & E & G & Wc & A & Dd). assert (gx = gc) by congruence. subst gx. clear E.
    assert (Nc : nodes gc = nodes g2) by (unfold nodes; rewrite G; auto).
    assert (Dc : forall v, node_data gc v = node_data g2 v) by (intro v; unfold node_data; rewrite G; auto).
    assert (Hcap : exists cap, In cap caps /\
       if o_pickup_delivery o then loads_within (demand_of h) (inject_Z cap) r
       else nonneg_demands h /\ node_sum (demand_of h) r <= inject_Z cap) by (apply Hl; auto).
    assert (Dr : forall v, In v r -> demand_of g2 v = demand_of h v).
    { intros v Hv. unfold demand_of. rewrite D2; auto. }
    split; auto. split; [rewrite Nc; auto|]. split; [rewrite Nc; auto|]. split.
    { (* round trips survive *)
      pose proof P as P0. apply pre_solve_inv in P0. destruct P0 as (g1 & g2' & g3 & _ & _ & _ & F & _).
      rewrite Ec in F.
      destruct (presolve_copy_network c o g p W HS HT NI NO C P) as (Net & N & _).
      pose proof (check_feasibility_demands _ _ _ (net_wf _ _ Net) F) as F0. clear F. rename F0 into F. destruct Net as [Wh Sh Th Nih Noh _].
      destruct (lock_stage_ok c o h g2 _ Wh H) as (_ & N2 & _).
      apply (capacity_prune_round_trips m g2 gc); auto.
      - unfold demand_of. rewrite D2 by auto. apply (copy_depot_demand c o g p Source); auto.
      - unfold demand_of. rewrite D2 by auto. apply (copy_depot_demand c o g p Sink); auto.
      - intros v Hv. apply in_custs in Hv. destruct Hv as (Hv & _). unfold demand_of. rewrite D2 by auto.
        fold (demand_of h v). destruct caps as [|c0 cl]; [destruct Hm1|].
        destruct (F v) with (c := c0) (l := cl) as (x & Hx & Hle); auto; [apply N2; auto|].
        apply Hm2 in Hx. rewrite Zle_Qle in Hx. lra. }
    split; auto. split; [intros v Hv; rewrite (nd_eq g2 gc v) by auto; apply D2; rewrite <- Nc; auto|].
    split.
    { intros u v Huv. assert (Huv2 := proj1 (proj1 (A u v) Huv)). split; auto.
      rewrite <- (Ti2 u v) by auto. unfold time_of. rewrite Dd; auto. }
    split; [|intros v Hv; rewrite Nc; auto].
    apply (capacity_prune_keeps m g2 gc r); auto.
    destruct Hcap as (cap & Hin & Hf). apply Hm2 in Hin. rewrite Zle_Qle in Hin.
    destruct (o_pickup_delivery o).
    - right. intros l Hx. rewrite (running_loads_ext _ (demand_of h)) in Hx by auto.
      apply (loads_within_mono _ _ _ _ Hin Hf). auto.
    - left. destruct Hf as (Nn & Hs). split.
      + intro v. unfold demand_of, nd. destruct (node_data g2 v) as [d|] eqn:Ed; [|simpl; lra].
        assert (Hv : In v (nodes g2)) by (apply node_data_In; eauto).
        specialize (Nn v). unfold demand_of in Nn. rewrite <- D2 in Nn by auto. unfold nd in Nn. rewrite Ed in Nn. auto.
      + rewrite (node_sum_ext _ (demand_of h)); [lra|]. intros v Hv. rewrite Dr by auto. reflexivity.
  Qed.

  Lemma safe_windows gc g3 : wf gc -> In Source (nodes gc) -> In Sink (nodes gc) -> round_trips gc ->
    (forall v, In v (nodes gc) -> nd gc v = nd h v) ->
    (forall u v, In (u, v) (arc_list gc) -> In (u, v) (arc_list h) /\ time_of gc u v = time_of h u v) ->
    along (arc_list gc) r -> (forall v, In v r -> In v (nodes gc)) ->
    remove_infeasible_arcs_time_windows gc = Ok g3 ->
    direct_is_fastest h -> nonneg_services h ->
    (forall u, ~ In (u, Source) (arc_list h)) -> (forall v, ~ In (Sink, v) (arc_list h)) ->
    forall T, timetable (time_of h) (service_of h) (lower_of h) (upper_of h) r T ->
    along (arc_list g3) r /\ timetable (time_of g3) (service_of g3) (lower_of g3) (upper_of g3) r T.
  Proof.
    intros Wc Sc Tc Rc Dc Ac Ar Vr Ht (D1 & D2) Ps NIh NOh T Htt.
    apply (tw_prune_keeps gc g3 r T); auto.
    - assert (X : forall u v, In (u, v) (arc_list gc) -> u <> Source -> v <> Sink ->
                  In (Source, u) (arc_list gc) /\ In (Source, v) (arc_list gc) /\
                  In (u, Sink) (arc_list gc) /\ In (v, Sink) (arc_list gc) /\ service_of gc u = service_of h u).
      { intros u v Huv Hu Hv. destruct (wf_ends gc Wc _ _ Huv) as (Iu & Iv).
        assert (Hu' : u <> Sink) by (intro; subst; eapply NOh; apply (proj1 (Ac _ _ Huv))).
        assert (Hv' : v <> Source) by (intro; subst; eapply NIh; apply (proj1 (Ac _ _ Huv))).
        destruct (Rc u) as (Y1 & Y2); [apply in_custs; auto|]. destruct (Rc v) as (Y3 & Y4); [apply in_custs; auto|].
        unfold service_of. rewrite Dc by auto. auto 10. }
      split; intros u v Huv Hu Hv; destruct (X u v Huv Hu Hv) as (X1 & X2 & X3 & X4 & X5);
        destruct (Ac _ _ Huv) as (Huv' & Et); rewrite X5, Et.
      + rewrite (proj2 (Ac _ _ X1)), (proj2 (Ac _ _ X2)). apply D1; auto.
      + rewrite (proj2 (Ac _ _ X3)), (proj2 (Ac _ _ X4)). apply D2; auto.
    - intro v. unfold service_of, nd. destruct (node_data gc v) as [d|] eqn:Ed; [|simpl; lra].
      assert (Hv : In v (nodes gc)) by (apply node_data_In; eauto).
      specialize (Ps v). unfold service_of in Ps. rewrite <- Dc in Ps by auto. unfold nd in Ps. rewrite Ed in Ps. auto.
    - apply (timetable_ext (time_of h) _ (service_of h) _ (lower_of h) _ (upper_of h)); auto.
      + intros u v Huv. symmetry. apply Ac. apply Ar; auto.
      + intros v Hv. unfold service_of, lower_of, upper_of. rewrite Dc by auto. auto.
  Qed.

  Lemma presolve_safe : forall T,
    (o_time_windows o = true -> direct_is_fastest h /\ nonneg_services h /\
       timetable (time_of h) (service_of h) (lower_of h) (upper_of h) r T) ->
    (o_distribution_collection o = true -> nonneg_collects h /\ forall caps, cf_load_capacity c = Some caps ->
       exists cap, In cap caps /\ node_sum (collect_of h) (stops r) <= inject_Z cap) ->
    (forall s, limit (cf_num_stops c) s -> (Z.of_nat (List.length (stops r)) <= s)%Z) ->
    (forall caps x, cf_load_capacity c = Some caps -> In x caps -> (0 <= x)%Z) ->
    along (arc_list (pr_graph p)) r /\
    (o_time_windows o = true -> timetable (time_of (pr_graph p)) (service_of (pr_graph p))
                                          (lower_of (pr_graph p)) (upper_of (pr_graph p)) r T) /\
    (forall s, limit (pr_num_stops p) s -> (Z.of_nat (List.length (stops r)) <= s)%Z).
  Proof.
    intros T Htw Hsdc Hst Hpos.
    destruct (presolve_copy_network c o g p W HS HT NI NO C P) as (Net & N & A).
    destruct Net as [Wh Sh Th Nih Noh _].
    destruct safe_stages as (g2 & gc & g3 & H1 & H2 & H3 & H4 & H5 & H6).
    destruct (safe_capacity g2 gc H1 H2 H4) as (Wc & Sc & Tc & Rc & Nc & Dc & Ac & Ar & Vr).
    destruct (penalise_ok _ _ _ H6) as (G6 & A6 & T6 & _).
    assert (D6 : forall v, nd (pr_graph p) v = nd g3 v) by (intro v; unfold nd, node_data; rewrite G6; auto).
    assert (X : along (arc_list g3) r /\
       (o_time_windows o = true -> timetable (time_of g3) (service_of g3) (lower_of g3) (upper_of g3) r T)).
    { destruct (o_time_windows o) eqn:Ew.
      - destruct (Htw eq_refl) as (D & Ps & Ht).
        destruct (safe_windows gc g3 Wc Sc Tc Rc Dc Ac Ar Vr H3 D Ps Nih Noh T Ht). auto.
      - inversion H3; subst. split; auto. discriminate. }
    destruct X as (X1 & X2). split; [rewrite A6; auto|]. split.
    { intro E. specialize (X2 E).
      apply (timetable_ext (time_of g3) _ (service_of g3) _ (lower_of g3) _ (upper_of g3)); auto.
      intros v _. unfold service_of, lower_of, upper_of. rewrite D6. auto. }
    (* the stop bound *)
    intros s Hs. unfold stops_stage in H5. destruct (pr_max_capacity p) as [m|] eqn:Em.
    2:{ inversion H5 as [E5]. rewrite <- E5 in Hs. auto. }
    destruct (o_pickup_delivery o) eqn:Epd.
    { inversion H5 as [E5]. rewrite <- E5 in Hs. auto. }
    apply bind_ok in H5. destruct H5 as (b & Hb & H5). inversion H5 as [E5]. rewrite <- E5 in Hs.
    destruct Hs as (Hs & _). inversion Hs; subst s. clear Hs.
    destruct (cf_load_capacity c) as [caps|] eqn:Ec; [|discriminate].
    destruct H4 as (m' & Hz & Em'). inversion Em'; subst m'. clear Em'. apply zmax_ok in Hz. destruct Hz as (Hm1 & Hm2).
    assert (F3 : wf g3 /\ nodes g3 = nodes gc /\
       forall v, demand_of g3 v = demand_of gc v /\ collect_of g3 v = collect_of gc v).
    { destruct (o_time_windows o).
      - destruct (tw_prune_ok gc Wc Sc Tc Rc) as (gx & E & W3 & N3 & F & _). assert (gx = g3) by congruence. subst gx.
        split; auto. split; auto. intro v. destruct (F v) as (F1 & F2 & _). auto.
      - inversion H3; subst. auto. }
    destruct F3 as (W3 & N3 & F3).
    assert (Dm : forall v, In v (nodes gc) -> demand_of gc v = demand_of h v /\ collect_of gc v = collect_of h v).
    { intros v Hv. unfold demand_of, collect_of. rewrite Dc; auto. }
    destruct (Hl caps Ec) as (cap & Hcap & Hf). destruct Hf as (Nn & Hsum).
    assert (Hcap' := Hm2 cap Hcap). rewrite Zle_Qle in Hcap'.
    assert (Sr : forall v, In v (stops r) -> In v r) by (intros v Hv; apply filter_In in Hv; tauto).
    assert (Out : forall f : ndata -> Q, f dflt_n == 0 -> (forall v, 0 <= f (nd h v)) -> forall v, 0 <= f (nd gc v)).
    { intros f Hf0 Hfp v. unfold nd. destruct (node_data gc v) as [d|] eqn:Ed; [|rewrite Hf0; lra].
      assert (Hv : In v (nodes gc)) by (apply node_data_In; eauto). specialize (Hfp v). rewrite <- Dc in Hfp by auto.
      unfold nd in Hfp. rewrite Ed in Hfp. auto. }
    apply (stop_bound_keeps g3 m (cf_num_stops c) (o_distribution_collection o) b r); auto.
    - rewrite N3; auto.
    - rewrite N3; auto.
    - intro v. rewrite (proj1 (F3 v)). apply (Out demand); [reflexivity|auto].
    - intro E. destruct (Hsdc E) as (Pc & _). intro v. rewrite (proj2 (F3 v)). apply (Out collect); [reflexivity|auto].
    - apply (Hpos caps); auto.
    - intros v Hv. rewrite N3. auto.
    - rewrite (node_sum_ext _ (demand_of h)).
      + assert (Le : node_sum (demand_of h) (stops r) <= node_sum (demand_of h) r).
        { clear - Nn. unfold stops. induction r as [|x l IH]; simpl; [rewrite node_sum_nil; lra|].
          destruct (is_cust x); rewrite ?node_sum_cons; specialize (Nn x); lra. }
        lra.
      + intros v Hv. rewrite (proj1 (F3 v)), (proj1 (Dm v (Vr v (Sr v Hv)))). reflexivity.
    - intro E. destruct (Hsdc E) as (Pc & Q1). destruct (Q1 caps eq_refl) as (cap2 & Hc2 & Hs2).
      apply Hm2 in Hc2. rewrite Zle_Qle in Hc2. rewrite (node_sum_ext _ (collect_of h)); [lra|].
      intros v Hv. rewrite (proj2 (F3 v)), (proj2 (Dm v (Vr v (Sr v Hv)))). reflexivity.
  Qed.
End Safe.

Lemma presolve_copy_same c o o' g p p' : pre_solve c o g = Ok p -> pre_solve c o' g = Ok p' -> pr_copy p = pr_copy p'.
Proof.
  intros H H'. apply pre_solve_inv in H. apply pre_solve_inv in H'.
  destruct H as (g1 & g2 & g3 & H1 & H2 & _). destruct H' as (g1' & g2' & g3' & H1' & H2' & _).
  assert (g1 = g1') by congruence. subst. congruence.
Qed.
