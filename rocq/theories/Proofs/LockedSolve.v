(** solve() with complete preassigned routes is solve() of what is left. *)
From Verif.Base Require Import Prelude Graph.
From Verif.Spec Require Import Routes Network Inputs Feasible Prep LinProg Plans Variants Locked.
From Verif.Model Require Import Args Reach Checks Preprocess ClarkeWright Greedy Initial Pricing
  GreedyPricing LPPricing Cspy Master Dive Hyper ColGen Post Schedule Solve.
From Verif.Proofs Require Import RouteLemmas ReachLemmas ChecksProofs FeasProofs PreLemmas LockProofs PresolveProofs PostProofs SolveProofs AnyProofs LockedProofs.

(** the same times *)
Lemma clocked_same g g' : gnodes g' = gnodes g -> arc_list g' = arc_list g ->
  (forall u w, option_map r_time (arc_data g' u w) = option_map r_time (arc_data g u w)) -> clocked g -> clocked g'.
Proof.
  intros N A D. assert (ND : forall u, node_data g' u = node_data g u) by (intro u; unfold node_data; rewrite N; reflexivity).
  assert (Tm : forall u w, user_time g' u w = user_time g u w).
  { intros u w. specialize (D u w). unfold user_time. destruct (arc_data g' u w), (arc_data g u w); cbn in D; try discriminate; [injection D as ->|]; reflexivity. }
  assert (Cu : custs g' = custs g) by (unfold custs, nodes; rewrite N; reflexivity).
  intros [(u & H1 & H2 & H3)|[H|(H1 & H2)]].
  - left. exists u. rewrite Cu, A, Tm. unfold user_upper, user_service in *. rewrite ND. auto.
  - right. left. unfold user_upper in *. rewrite ND. exact H.
  - right. right. split; [intros u r Hr; rewrite ND in Hr; eauto|]. intros u w e He. specialize (D u w). rewrite He in D.
    destruct (arc_data g u w) as [e0|] eqn:E0; [|discriminate]. cbn in D. injection D as ->. eauto.
Qed.

Lemma fixed_times c g g1 : wf g -> fixed_stage c g = Ok g1 -> forall u w, option_map r_time (arc_data g1 u w) = option_map r_time (arc_data g u w).
Proof.
  intros W H u w. unfold fixed_stage in H. destruct (nonempty (cf_fixed_cost c)); [|injection H as ->; reflexivity].
  destruct (map_arcsM_ok _ _ _ W H) as (_ & _ & X). specialize (X u w). destruct (arc_data g u w) as [e|]; [|rewrite X; reflexivity].
  destruct X as (e' & X & ->). cbn. f_equal. destruct (mem_arc _ _); [|injection X as ->; reflexivity]. unfold add_fixed_cost_arc in X.
  destruct (r_cost e) as [[q|l]|]; try discriminate. apply bind_ok in X. destruct X as (l' & _ & X). injection X as <-. reflexivity.
Qed.

(** the customers of a complete route *)
Lemma inside_between (cs : list node) a b x : In x cs -> exists y z, In (y, x) (arcs (a :: cs ++ [b])) /\ In (x, z) (arcs (a :: cs ++ [b])).
Proof.
  revert a. induction cs as [|c cs IH]; intros a []; [subst c|].
  - exists a. destruct cs as [|d cs]; cbn; eauto 8.
  - destruct (IH c H) as (y & z & H1 & H2). exists y, z. cbn [app]. rewrite !arcs_cons2. split; right; assumption.
Qed.

Lemma complete_stops A cs : (forall u, ~ In (u, Source) A) -> (forall u, ~ In (Sink, u) A) -> along A (Source :: cs ++ [Sink]) ->
  stops (Source :: cs ++ [Sink]) = cs /\ forall x, In x cs -> x <> Source /\ x <> Sink.
Proof.
  intros NI NO Al. assert (In2 : forall x, In x cs -> x <> Source /\ x <> Sink).
  { intros x Hx. destruct (inside_between cs Source Sink x Hx) as (y & z & H1 & H2). split; intros ->; [exact (NI y (Al _ _ H1))|exact (NO z (Al _ _ H2))]. }
  split; [|exact In2]. unfold stops. cbn [filter is_cust is_depot negb]. rewrite filter_app. cbn [filter is_cust is_depot negb]. rewrite app_nil_r.
  clear Al. induction cs as [|c cs IH]; [reflexivity|]. cbn [filter]. rewrite (proj2 (is_cust_true c) (In2 c (or_introl eq_refl))).
  rewrite IH; [reflexivity|]. intros x Hx. apply In2. right. exact Hx.
Qed.

Lemma lock_riders K A pre (h : vgraph) g2 more : (forall u, ~ In (u, Source) A) -> (forall u, ~ In (Sink, u) A) ->
  all_complete pre -> (forall r, In r pre -> along A r) ->
  lock K pre h = Ok (g2, more) -> g2 = remove_nodes (riders pre) h.
Proof.
  intros NI NO AC Al H. apply lock_more in H. destruct H as (H & _). revert h H AC Al.
  induction pre as [|r pre IH]; intros h H AC Al; cbn in H; [injection H as <-; symmetry; apply remove_none|].
  destruct (AC r (or_introl eq_refl)) as (cs & ->). rewrite lock_complete in H. cbn [bind] in H.
  destruct (complete_stops A cs NI NO (Al _ (or_introl eq_refl))) as (Es & _).
  rewrite (IH _ H); [|intros x Hx; apply AC; right; exact Hx|intros x Hx; apply Al; right; exact Hx].
  rewrite remove_nodes_app. unfold riders. cbn [flat_map]. rewrite Es. reflexivity.
Qed.

(* ------------------------------------------------------------------ *)
(** ** Preprocessing *)
Section Pre.
  Variables (c : config) (o : options) (g : rgraph) (p : prepared).
  Local Notation K := (cf_vehicle_types c).
  Local Notation pre := (o_preassignments o).
  Local Notation L := (riders (o_preassignments o)).
  Local Notation h := (pr_copy p).
  Hypothesis W : wf g.
  Hypothesis HS : In Source (nodes g).
  Hypothesis HT : In Sink (nodes g).
  Hypothesis NI : forall u, ~ In (u, Source) (arc_list g).
  Hypothesis NO : forall v, ~ In (Sink, v) (arc_list g).
  Hypothesis C : cost_lists K g.
  Hypothesis RT : forall u, In u (custs g) -> In (Source, u) (arc_list g) /\ In (u, Sink) (arc_list g).
  Hypothesis Ck : clocked g.
  Hypothesis AC : all_complete pre.
  Hypothesis P : pre_solve c o g = Ok p.
  Hypothesis Left : exists u, In u (custs g) /\ ~ In u L.
  Hypothesis Dur : forall D, limit (cf_duration c) D -> nonneg_times h /\
    forall u, In u (custs g) -> ~ In u L -> time_of h Source u + time_of h u Sink <= inject_Z D.
  Hypothesis Req : o_pickup_delivery o = true -> exists u d, node_data h u = Some d /\ ~ In u L /\ request d <> None.

  Let no_pre : options := mkOptions (o_time_windows o) (o_pickup_delivery o) (o_distribution_collection o) (o_use_all_vehicles o)
    (o_periodic o) (o_cspy o) [].

  Lemma presolve_locked : ~ In Source L /\ ~ In Sink L /\ (forall r, In r pre -> along (arc_list h) r) /\
    exists T, (~ user_upper g 0 Sink == 0 -> T = None) /\
    pre_solve c no_pre (closing T (others L g)) =
      Ok (mkPrepared (pr_graph p) (remove_nodes L h) (pr_num_stops p) (pr_max_capacity p) (pr_num_vehicles p)
            (pr_num_vehicles_schedule p) true) /\ pr_more_routes p = true.
  Proof.
    destruct (presolve_copy_network c o g p W HS HT NI NO C P) as (Nh & Nn & Ah).
    destruct (pre_solve_inv c o g p P) as (g1 & g2 & g3 & P1 & P2 & P3 & P4 & P5 & P6 & P7 & P8 & P9).
    assert (Al : forall r, In r pre -> along (arc_list h) r).
    { unfold lock_stage in P5. destruct pre as [|r0 pre0] eqn:Ep; [intros r []|]. cbn [nonempty] in P5. apply bind_ok in P5. destruct P5 as ([] & P5 & _).
      apply check_preassignments_ok. exact P5. }
    destruct Nh as [Wh Sh Th NIh NOh Ch].
    assert (LC : forall u, In u L -> u <> Source /\ u <> Sink).
    { intros u Hu. unfold riders in Hu. apply in_flat_map in Hu. destruct Hu as (r & _ & Hu). unfold stops in Hu. apply filter_In in Hu. apply is_cust_true. tauto. }
    assert (LS : ~ In Source L) by (intro Hx; apply LC in Hx; tauto). assert (LT : ~ In Sink L) by (intro Hx; apply LC in Hx; tauto).
    split; [exact LS|]. split; [exact LT|]. split; [exact Al|].
    destruct (fixed_stage_ok c g g1 W C P1) as (W1 & N1 & N1' & A1 & C1).
    assert (Ck1 : clocked g1) by (apply (clocked_same g g1 N1' A1); [exact (fixed_times c g g1 W P1)|exact Ck]).
    destruct (others_dummy L LS LT K g1 h W1 ltac:(rewrite N1; exact HS) ltac:(rewrite N1; exact HT) Ck1 P2) as (T & HTm & HTn).
    exists T. split.
    { intro Hn. apply HTn. unfold user_upper in *. unfold node_data in *. rewrite N1'. exact Hn. }
    (* locking *)
    assert (Lk : g2 = remove_nodes L h /\ pr_more_routes p = true).
    { unfold lock_stage in P5. destruct (nonempty pre) eqn:Ep.
      - apply bind_ok in P5. destruct P5 as (_ & _ & P5). pose proof (lock_riders K (arc_list h) pre h g2 _ NIh NOh AC Al P5) as E2. split; [exact E2|].
        apply lock_more in P5. destruct P5 as (_ & ->). apply negb_true_iff, Nat.eqb_neq. intro El. destruct Left as (u & Hu & Hl). apply in_custs in Hu. destruct Hu as (Hu & Hc1 & Hc2).
        rewrite <- Nn in Hu. assert (Inc : incl [Source; Sink; u] (nodes g2)).
        { rewrite E2. intros x [<-|[<-|[<-|[]]]]; apply in_nodes_remove_nodes; auto. }
        assert (ND : NoDup [Source; Sink; u]).
        { constructor; [intros [Hx|[Hx|[]]]; [discriminate|apply Hc1; auto]|]. constructor; [intros [Hx|[]]; apply Hc2; auto|]. constructor; [intros []|constructor]. }
        pose proof (NoDup_incl_length ND Inc) as Hle. cbn in Hle. lia.
      - injection P5 as <- <-. destruct pre; [|discriminate]. cbn. rewrite remove_none. auto. }
    destruct Lk as (-> & More). split; [|exact More].
    (* the other checks *)
    assert (Wr : wf (remove_nodes L h)) by (apply wf_remove_nodes; exact Wh).
    assert (Cr : custs (remove_nodes L h) = filter (fun u => negb (mem u L)) (custs h)).
    { unfold custs. rewrite nodes_remove_nodes. generalize (nodes h). intro l. induction l as [|x l IH]; [reflexivity|]. cbn [filter].
      destruct (negb (mem x L)) eqn:E1, (is_cust x) eqn:E2; cbn [filter]; rewrite ?E1, ?E2; cbn; rewrite ?IH; reflexivity. }
    assert (Q3 : check_consistency (o_cspy o) (o_pickup_delivery o) (remove_nodes L h) = Ok tt).
    { unfold check_consistency in *. apply bind_ok in P3. destruct P3 as ([] & -> & P3). cbn [bind]. destruct (o_pickup_delivery o); [|reflexivity].
      destruct (Req eq_refl) as (u & d & Hd & Hl & Hr).
      assert (Ex : existsb (fun x => match request (snd x) with Some _ => true | None => false end) (gnodes (remove_nodes L h)) = true); [|rewrite Ex; reflexivity].
      apply existsb_exists. exists (u, d). split.
      - cbn. apply filter_In. split; [apply assoc_node_In; exact Hd|]. cbn. apply negb_true_iff, mem_false. exact Hl.
      - cbn. destruct (request d); [reflexivity|congruence]. }
    assert (Q4 : check_feasibility (cf_load_capacity c) (cf_duration c) (remove_nodes L h) = Ok tt).
    { rewrite check_feasibility_unfold in P4 |- *. apply bind_ok in P4. destruct P4 as ([] & P4 & P4').
      assert (F : feas_demand (cf_load_capacity c) (remove_nodes L h) = Ok tt).
      { apply (feas_demand_ok _ _ tt Wr). intros u Hu. apply in_nodes_remove_nodes in Hu. destruct Hu as (Hu & Hl).
        assert (E : demand_of (remove_nodes L h) u = demand_of h u); [|rewrite E; apply (feas_demand_ok _ _ tt Wh); [exact P4|exact Hu]].
        unfold demand_of, nd. rewrite node_data_remove_nodes. apply mem_false in Hl. rewrite Hl. reflexivity. }
      rewrite F. cbn [bind]. destruct (truthy (cf_duration c)) eqn:Et; [|reflexivity]. apply iterM_ok. intros u Hu.
      destruct (is_depot u) eqn:Ed; [unfold feas_node; rewrite Ed; reflexivity|].
      destruct (cf_duration c) as [D|] eqn:ED; [|discriminate]. apply truthy_Some in Et. destruct (Dur D (conj eq_refl Et)) as (Pt & Hd).
      apply in_nodes_remove_nodes in Hu. destruct Hu as (Hu & Hl). assert (Hc : In u (custs g)) by (apply in_custs; rewrite <- Nn; split; [exact Hu|apply is_depot_false; exact Ed]).
      destruct (RT u Hc) as (R1 & R2).
      assert (B1 : In (Source, u) (arc_list (remove_nodes L h))) by (apply in_arcs_remove_nodes; split; [apply Ah; left; exact R1|auto]).
      assert (B2 : In (u, Sink) (arc_list (remove_nodes L h))) by (apply in_arcs_remove_nodes; split; [apply Ah; left; exact R2|auto]).
      assert (Tm : forall x y, time_of (remove_nodes L h) x y == (if mem x L || mem y L then 0 else time_of h x y)).
      { intros x y. unfold time_of. rewrite arc_data_remove_nodes. destruct (mem x L || mem y L); reflexivity. }
      assert (Pt' : nonneg_times (remove_nodes L h)) by (intros x y; rewrite Tm; destruct (mem x L || mem y L); [lra|apply Pt]).
      destruct (check_feasibility_node (remove_nodes L h) D u Wr Pt' ltac:(apply in_nodes_remove_nodes; auto) ltac:(apply in_nodes_remove_nodes; auto)
                  ltac:(apply in_nodes_remove_nodes; auto) B1 B2 Ed) as [(X & _)|(_ & X)]; [exact X|].
      exfalso. apply X. exists [Source; u], [u; Sink]. split; [repeat econstructor; exact B1|]. split; [repeat econstructor; exact B2|].
      unfold path_sum, arcs. cbn [map Qsum fold_right fst snd]. rewrite !Tm. pose proof LS as L1. pose proof LT as L2. pose proof Hl as L3. apply mem_false in L1, L2, L3. rewrite L1, L2, L3. cbn [orb].
      specialize (Hd u Hc Hl). lra. }
    unfold pre_solve. fold (fixed_stage c (closing T (others L g))). rewrite (others_fixed L T c g g1 P1). cbn [bind]. rewrite HTm. cbn [bind].
    cbn [no_pre o_time_windows o_pickup_delivery o_distribution_collection o_use_all_vehicles o_periodic o_cspy o_preassignments nonempty].
    rewrite Q3. cbn [bind]. rewrite Q4. cbn [bind]. rewrite P9. cbn [bind]. rewrite P6. cbn [bind]. unfold stops_stage in P7. rewrite P7. cbn [bind]. rewrite P8. reflexivity.
  Qed.
End Pre.

(* ------------------------------------------------------------------ *)
(** ** solve() *)

Definition without_pre (sa : solve_args) : solve_args :=
  mkSA (sa_initial sa) [] (sa_strategy sa) (sa_cspy sa) (sa_elementary sa) (sa_time_limit sa) (sa_dive sa) (sa_greedy sa)
    (sa_max_iter sa) (sa_run_exact sa) (sa_heuristic sa).
Definition on_graph (g : rgraph) (v : vrp) : vrp :=
  mkVrp g (v_args v) (v_windows v) (v_pickup v) (v_both v) (v_drop v) (v_all v) (v_periodic v) (v_span v) (v_initial v) (v_pre v)
    (v_iter v) (v_noimp v) (v_bounds v) (v_hyper v) (v_chosen v) (v_dropped v) (v_tabu v).

Lemma locked_numbers h caps K : forall pre id rs ts, all_complete pre -> locked_lists h caps K id pre = Ok (rs, ts) ->
  rs = combine (seq id (List.length pre)) pre /\ forall i k, In (i, k) ts -> (id <= i)%nat.
Proof.
  induction pre as [|r pre IH]; intros id rs ts AC H; cbn in H.
  - injection H as <- <-. split; [reflexivity|intros i k []].
  - destruct (AC r (or_introl eq_refl)) as (cs & Er). apply bind_ok in H. destruct H as (b & Hb & H).
    assert (b = true) by (apply (is_complete_spec r b Hb); eauto). subst b.
    apply bind_ok in H. destruct H as (k & Hk & H). apply bind_ok in H. destruct H as ((rs2 & ts2) & H2 & H). injection H as <- <-.
    destruct (IH (S id) rs2 ts2 ltac:(intros x Hx; apply AC; right; exact Hx) H2) as (-> & Ht). cbn [fst snd List.length seq combine]. split; [reflexivity|].
    intros i k' Hi. destruct k as [k|]; [destruct Hi as [Hi|Hi]; [injection Hi as <- <-; lia|]|]; apply Ht in Hi; lia.
Qed.

Lemma mapM_each {A B} (f : A -> res B) l : forall bs, mapM f l = Ok bs -> forall x, In x l -> exists b, f x = Ok b.
Proof.
  induction l as [|y l IH]; intros bs H x Hx; [destruct Hx|]. cbn [mapM] in H. apply bind_ok in H. destruct H as (b & Hb & H).
  apply bind_ok in H. destruct H as (bs' & Hbs & _). destruct Hx as [<-|Hx]; [eauto|exact (IH _ Hbs x Hx)].
Qed.
(** the schedule of some of the routes can be formulated if that of all can *)
Lemma schedule_prefix g z ra rb ta tb nv days n d : schedule_routes g z (ra ++ rb) (ta ++ tb) nv days = Ok d ->
  (forall i r, In (i, r) ra -> (i <= n)%nat) -> (forall i k, In (i, k) tb -> (n < i)%nat) ->
  exists d2, schedule_routes g z ra ta nv days = Ok d2.
Proof.
  intros H Ha Hb. unfold schedule_routes in *. apply bind_ok in H. destruct H as (p & Hp & _).
  unfold formulate_schedule in *. apply bind_ok in Hp. destruct Hp as (fl & Hf & _).
  destruct (nonempty nv); [|cbn [bind]; eauto].
  enough (E : exists fl2, fleet_rows z ta ra nv = Ok fl2) by (destruct E as (fl2 & ->); cbn [bind]; eauto).
  unfold fleet_rows in *. apply bind_ok in Hf. destruct Hf as (l & Hl & _).
  assert (Ty : forall i r, In (i, r) ra -> (forall k t q, In (k, q) (combine (seq 0 (List.length nv)) nv) -> In t (Schedule.days z) ->
    exists row, fleet_row (ta ++ tb) (ra ++ rb) k t q = Ok row) -> forall k t q, In (k, q) (combine (seq 0 (List.length nv)) nv) -> In t (Schedule.days z) -> exists j, dget Nat.eqb i ta = Some j).
  { intros i r Hi F k t q Hk Ht. destruct (F k t q Hk Ht) as (row & Hr). unfold fleet_row in Hr. apply bind_ok in Hr. destruct Hr as (rs & Hr & _).
    assert (G : forall l acc rs0, foldM (fun acc0 p0 => let* j := of_opt KeyError (dget Nat.eqb (fst p0) (ta ++ tb)) in Ok (if (j =? k)%nat then acc0 ++ [fst p0] else acc0)) l acc = Ok rs0 ->
      In (i, r) l -> exists j, dget Nat.eqb i (ta ++ tb) = Some j).
    { induction l0 as [|x l0 IH]; intros acc rs0 Hl0 Hin; [destruct Hin|]. cbn [foldM] in Hl0. apply bind_ok in Hl0. destruct Hl0 as (y & Hy & Hl0).
      destruct Hin as [Hin|Hin]; [subst x; cbn [fst] in Hy|exact (IH _ _ Hl0 Hin)].
      destruct (dget Nat.eqb i (ta ++ tb)) as [j|]; [eauto|discriminate]. }
    destruct (G _ _ _ Hr ltac:(apply in_or_app; left; exact Hi)) as (j & Hj). exists j. rewrite dget_app in Hj.
    destruct (dget Nat.eqb i ta) as [j'|]; [exact Hj|]. exfalso. rewrite dget_none in Hj; [discriminate|]. intros k0 Hk0. apply Hb in Hk0. pose proof (Ha i r Hi). lia. }
  assert (F1 : forall k q, In (k, q) (combine (seq 0 (List.length nv)) nv) -> forall t, In t (Schedule.days z) -> exists row, fleet_row (ta ++ tb) (ra ++ rb) k t q = Ok row).
  { intros k q Hk t Ht. destruct (mapM_each _ _ _ Hl (k, q) Hk) as (rows & Hrows). cbn [fst snd] in Hrows. exact (mapM_each _ _ _ Hrows t Ht). }
  assert (F2 : forall k q, In (k, q) (combine (seq 0 (List.length nv)) nv) -> forall t, In t (Schedule.days z) -> exists row, fleet_row ta ra k t q = Ok row).
  { intros k q Hk t Ht. unfold fleet_row. enough (E : forall l acc, incl l ra -> exists rs0, foldM (fun acc0 p0 => let* j := of_opt KeyError (dget Nat.eqb (fst p0) ta) in Ok (if (j =? k)%nat then acc0 ++ [fst p0] else acc0)) l acc = Ok rs0)
      by (destruct (E ra [] (incl_refl _)) as (rs0 & ->); cbn [bind]; eauto).
    induction l0 as [|[i r] l0 IH]; intros acc Inc; cbn [foldM]; [eauto|]. destruct (Ty i r (Inc _ (or_introl eq_refl)) (fun k0 t0 q0 A B => F1 k0 q0 A t0 B) k t q Hk Ht) as (j & Hj).
    cbn [fst]. rewrite Hj. cbn [of_opt bind]. apply IH. intros x Hx. apply Inc. right. exact Hx. }
  enough (E : exists l2, mapM (fun kn => mapM (fun t => fleet_row ta ra (fst kn) t (snd kn)) (Schedule.days z)) (combine (seq 0 (List.length nv)) nv) = Ok l2) by (destruct E as (l2 & ->); cbn [bind]; eauto).
  apply mapM_total. intros [k q] Hk. apply mapM_total. intros t Ht. cbn [fst snd]. exact (F2 k q Hk t Ht).
Qed.

Section Red.
  Variables (X : outside) (fuel fuel2 : nat) (sa : solve_args) (v v' : vrp) (out : outcome).
  Local Notation G := (v_graph v).
  Local Notation pre := (sa_pre sa).
  Local Notation L := (riders (sa_pre sa)).
  Hypothesis R : ready G.
  Hypothesis NE : a_mixed_fleet (v_args v) = false -> no_empty_costs G.
  Hypothesis NP : v_pre v = [].
  Hypothesis AC : all_complete pre.
  Hypothesis Ck : clocked G.
  Hypothesis Left : exists u, In u (custs G) /\ ~ In u L.
  Hypothesis Dur : forall D, time_limit (v_args v) D ->
    (forall u w, 0 <= user_time G u w) /\
    forall u, In u (custs G) -> ~ In u L -> user_time G Source u + user_time G u Sink <= inject_Z D.
  Hypothesis Req : v_pickup v = true -> exists u d, ~ In u L /\ user_pair G u d.
  Hypothesis H : solve X fuel fuel2 sa v = Ok (v', out).

  Lemma solve_locked : exists T v2 out2 ts,
    (~ user_upper G 0 Sink == 0 -> T = None) /\
    solve X fuel fuel2 (without_pre sa) (on_graph (closing T (others L G)) v) = Ok (v2, out2) /\
    sv_routes (out_solved out) = sv_routes (out_solved out2) ++
      (if sa_heuristic sa then [] else combine (seq (S (List.length (sv_routes (out_solved out2)))) (List.length pre)) pre) /\
    sv_types (out_solved out) = sv_types (out_solved out2) ++ ts /\
    (forall i k, In (i, k) ts -> (List.length (sv_routes (out_solved out2)) < i)%nat) /\
    sv_dropped (out_solved out) = sv_dropped (out_solved out2) /\
    out_value out = out_value out2 /\
    (forall r, In r pre -> along (arc_list G) r \/ r = [Source; Sink]) /\
    remove_nodes L (sv_copy (out_solved out)) = sv_copy (out_solved out2) /\
    sv_drop (out_solved out) = sv_drop (out_solved out2) /\ sv_span (out_solved out) = sv_span (out_solved out2) /\
    (truthy (v_periodic v) = false -> out_schedule out = out_schedule out2) /\
    exists a K p, prepare v sa = Ok (a, K, p) /\ sv_copy (out_solved out) = pr_copy p /\
      (sa_heuristic sa = false -> exists rb, locked_lists (pr_copy p) (caps_arg (a_load_capacity a)) K
         (S (List.length (sv_routes (out_solved out2)))) pre = Ok (rb, ts)).
  Proof.
    unfold solve in H. apply bind_ok in H. destruct H as (((a & K) & p) & Hp & H1). clear H.
    destruct (any_graph_args v sa a K p R NE Hp) as (g1 & N1 & A1 & D1 & W1 & S1 & T1 & NI1 & NO1 & C1 & RT1 & P & HK & As & Ad & Am & _ & _ & _ & Pa).
    destruct (any_figures v sa a K p R NE Hp) as (F1 & F2 & F3 & F4 & F5 & F6).
    destruct (any_network v sa a K p R NE Hp) as (Nh & Nn & Ah).
    assert (Ep : o_preassignments (options_of v sa) = pre) by (cbn; unfold nonempty_or; rewrite NP; destruct pre; reflexivity).
    assert (Tm : forall u w, option_map r_time (arc_data g1 u w) = option_map r_time (arc_data G u w)).
    { intros u w. destruct (arc_data G u w) as [e|] eqn:E; [destruct (D1 u w e E) as (e1 & -> & X1 & _); cbn; congruence|].
      destruct (arc_data g1 u w) as [e|] eqn:E1; [|reflexivity]. exfalso. assert (In2 : In (u, w) (arc_list g1)) by (apply arc_data_In; eauto).
      rewrite A1 in In2. apply arc_data_In in In2. destruct In2 as (e2 & E2). congruence. }
    assert (Cu : custs g1 = custs G) by (unfold custs, nodes; rewrite N1; reflexivity).
    pose proof (presolve_locked (config_of a K) (options_of v sa) g1 p W1 S1 T1 NI1 NO1 C1 RT1 (clocked_same G g1 N1 A1 Tm Ck)) as PL.
    rewrite Ep in PL. cbn [cf_duration config_of o_pickup_delivery options_of] in PL.
    destruct PL as (LS & LT & Al & T & Tn & Q & More).
    { exact AC. } { exact P. } { rewrite Cu. exact Left. }
    { intros D (E & HD). assert (TL : time_limit (v_args v) D).
      { rewrite Ad in E. unfold int_arg in E. unfold time_limit. destruct (a_duration (v_args v)) as [|[z|q]|l]; try discriminate; injection E as <-; [auto|congruence]. }
      destruct (Dur D TL) as (X1 & X2). split; [intros u w; rewrite F6; apply X1|]. intros u Hu Hl. rewrite !F6. apply X2; [rewrite <- Cu; exact Hu|exact Hl]. }
    { intro Pd. destruct (Req Pd) as (u & d & Hl & Hu). apply F4 in Hu. destruct Hu as (n & Hn & Hr). exists u, n. split; [exact Hn|]. split; [exact Hl|]. congruence. }
    cbn [options_of o_time_windows o_distribution_collection o_use_all_vehicles o_periodic o_cspy] in Q.
    set (p2 := mkPrepared _ _ _ _ _ _ _) in Q. set (v1 := on_graph (closing T (others L G)) v).
    assert (Eo : options_of v1 (without_pre sa) = mkOptions (v_windows v) (v_pickup v) (v_both v) (v_all v) (v_periodic v) (sa_cspy sa) []).
    { unfold options_of, v1. cbn. rewrite NP. reflexivity. }
    assert (Hp2 : prepare v1 (without_pre sa) = Ok (a, K, p2)).
    { unfold prepare. rewrite Eo. change (v_graph v1) with (closing T (others L G)). change (v_args v1) with (v_args v). change (sa_strategy (without_pre sa)) with (sa_strategy sa).
      destruct R as [W _ _ _ _ _ _]. destruct (others_args L T _ G _ _ _ W Pa) as (-> & _). cbn [bind of_opt]. rewrite Q. reflexivity. }
    assert (RA : forall r, In r pre -> along (arc_list G) r \/ r = [Source; Sink]).
    { intros r Hr. destruct (AC r Hr) as (cs & ->). pose proof (Al _ Hr) as Ar. destruct cs as [|c cs]; [right; reflexivity|left].
      intros x y Hxy. pose proof (Ar x y Hxy) as Hh. apply Ah in Hh. destruct Hh as [Hh|Hh]; [exact Hh|]. exfalso. injection Hh as -> ->.
      destruct Nh as [_ _ _ NIh NOh _]. destruct (complete_stops (arc_list (pr_copy p)) (c :: cs) NIh NOh Ar) as (_ & Ins).
      cbn [app] in Hxy. rewrite arcs_cons2 in Hxy. destruct Hxy as [Hxy|Hxy].
      - injection Hxy as Hxy. destruct (Ins c (or_introl eq_refl)). congruence.
      - apply arcs_in_nodes in Hxy. destruct Hxy as (Hs & _). change (c :: cs ++ [Sink]) with ((c :: cs) ++ [Sink]) in Hs. apply in_app_or in Hs. destruct Hs as [Hs|[Hs|[]]]; [|discriminate].
        destruct (Ins _ Hs). congruence. }
    destruct (sa_heuristic sa) eqn:Eh.
    - apply bind_ok in H1. destruct H1 as (r & Hr & H1). injection H1 as _ <-.
      assert (S2 : solve X fuel fuel2 (without_pre sa) v1 = solve X fuel fuel2 (without_pre sa) v1) by reflexivity. unfold solve in S2 at 2. rewrite Hp2 in S2. cbn [bind] in S2.
      change (sa_heuristic (without_pre sa)) with (sa_heuristic sa) in S2. rewrite Eh in S2. change (pr_graph p2) with (pr_graph p) in S2. change (pr_num_stops p2) with (pr_num_stops p) in S2.
      assert (Hr2 : solve_with_clarke_wright (options_of v1 (without_pre sa)) (a_mixed_fleet a) (caps_arg (a_load_capacity a)) (int_arg (a_duration a)) (pr_num_stops p) (x_perms X 10) (pr_graph p) = Ok r)
        by (rewrite Eo; exact Hr).
      rewrite Hr2 in S2. cbn [bind] in S2.
      exists T. do 2 eexists. exists []. split; [intro Hn; apply Tn; unfold user_upper, node_data in *; rewrite N1; exact Hn|]. split; [exact S2|].
      cbn [out_solved solved_of sv_routes sv_types sv_dropped sv_copy sv_drop sv_span out_value out_schedule v1 on_graph v_dropped v_drop v_span]. rewrite !app_nil_r. repeat (split; [solve [reflexivity | intros ? ? []|exact RA|intros _; reflexivity]|]). exists a, K, p. split; [exact Hp|]. split; [reflexivity|]. discriminate.
    - apply bind_ok in H1. destruct H1 as (ic & Hic & H1). apply bind_ok in H1. destruct H1 as (s & Hs & H1). apply bind_ok in H1. destruct H1 as (e & He & H1).
      apply bind_ok in H1. destruct H1 as ((((rs & ts) & dr) & sch) & Hpp & H1). injection H1 as _ <-.
      unfold post_process in Hpp. apply bind_ok in Hpp. destruct Hpp as (dr0 & Hdr & Hpp). apply bind_ok in Hpp. destruct Hpp as (nl & Hnl & Hpp).
      apply bind_ok in Hpp. destruct Hpp as (sch0 & Hsch & Hpp). injection Hpp as <- <- -> <-.
      unfold node_lists in Hnl. apply bind_ok in Hnl. destruct Hnl as ((ra & ta) & Hca & Hnl). apply bind_ok in Hnl. destruct Hnl as ((rb & tb) & Hlb & Hnl). injection Hnl as <-.
      assert (Epre : nonempty_or pre (v_pre v) = pre) by (unfold nonempty_or; rewrite NP; destruct pre; reflexivity). rewrite Epre in Hlb.
      destruct (locked_numbers _ _ _ _ _ _ _ AC Hlb) as (-> & Htb). destruct (column_lists_ok _ _ _ _ _ Hca) as (Hids & _ & _).
      assert (Len : List.length ra = List.length (match snd e with Some t => snd (fst t) | None => v_chosen v end)).
      { rewrite <- (map_length fst ra), Hids, seq_length. reflexivity. }
      assert (S2 : solve X fuel fuel2 (without_pre sa) v1 = solve X fuel fuel2 (without_pre sa) v1) by reflexivity. unfold solve in S2 at 2. rewrite Hp2 in S2. cbn [bind] in S2.
      change (sa_heuristic (without_pre sa)) with (sa_heuristic sa) in S2. rewrite Eh in S2. change (pr_graph p2) with (pr_graph p) in S2. change (pr_num_stops p2) with (pr_num_stops p) in S2.
      assert (Hic2 : initialize (options_of v1 (without_pre sa)) (a_mixed_fleet a) (caps_arg (a_load_capacity a)) (int_arg (a_duration a)) (pr_num_stops p) (x_perms X)
         (nonempty_or (sa_initial (without_pre sa)) (v_initial v1)) (pr_graph p) = Ok ic) by (rewrite Eo; exact Hic).
      rewrite Hic2 in S2. cbn [bind] in S2.
      assert (Hs2 : start v1 (without_pre sa) (cg_of X v1 (without_pre sa) a K p2 (covered (fst ic))) p2 (snd ic) = Ok s).
      { unfold start in *. change (cg_master (cg_of X v1 (without_pre sa) a K p2 (covered (fst ic)))) with (cg_master (cg_of X v sa a K p (covered (fst ic)))).
        change (pr_graph p2) with (pr_graph p). change (pr_more_routes p2) with true. rewrite More in Hs. exact Hs. }
      rewrite Hs2 in S2. cbn [bind] in S2.
      assert (He2 : solve_columns (x_env X) (cg_of X v1 (without_pre sa) a K p2 (covered (fst ic))) fuel fuel2 (sa_dive (without_pre sa)) s = Ok e).
      { rewrite <- He. unfold cg_of. rewrite Eo. reflexivity. }
      rewrite He2 in S2. cbn [bind] in S2.
      unfold post_process in S2. change (v_drop v1) with (v_drop v) in S2. change (v_dropped v1) with (v_dropped v) in S2. rewrite Hdr in S2. cbn [bind] in S2.
      unfold node_lists in S2. change (v_chosen v1) with (v_chosen v) in S2. rewrite Hca in S2. cbn [bind] in S2.
      change (nonempty_or (sa_pre (without_pre sa)) (v_pre v1)) with (v_pre v) in S2. rewrite NP in S2. cbn [locked_lists bind fst snd] in S2. rewrite !app_nil_r in S2.
      change (v_periodic v1) with (v_periodic v) in S2. change (pr_num_vehicles_schedule p2) with (pr_num_vehicles_schedule p) in S2.
      assert (Sch2 : exists sch2, (if truthy (v_periodic v) then let* s0 := of_opt TypeError (v_periodic v) in let* d := schedule_routes (s_graph (fst e)) s0 ra ta (pr_num_vehicles_schedule p) (x_days X) in Ok (Some d)
        else Ok None) = Ok sch2 /\ (truthy (v_periodic v) = false -> sch0 = sch2)).
      { destruct (truthy (v_periodic v)) eqn:Et; [|exists None; split; [reflexivity|intros _; congruence]].
        apply bind_ok in Hsch. destruct Hsch as (z & -> & Hsch). apply bind_ok in Hsch. destruct Hsch as (d & Hd & _). cbn [fst snd] in Hd. cbn [bind].
        destruct (schedule_prefix _ _ _ _ _ _ _ _ (List.length ra) _ Hd) as (d2 & ->).
        - intros i r Hi. assert (Hm : In i (map fst ra)) by (apply in_map_iff; exists (i, r); auto). rewrite Hids in Hm. apply in_seq in Hm. lia.
        - intros i k Hi. apply Htb in Hi. lia.
        - eexists. split; [reflexivity|discriminate]. }
      destruct Sch2 as (sch2 & Sch2 & Sch3). cbn [fst snd] in S2. rewrite Sch2 in S2. cbn [bind] in S2.
      exists T. do 2 eexists. exists tb. split; [intro Hn; apply Tn; unfold user_upper, node_data in *; rewrite N1; exact Hn|]. split; [exact S2|].
      cbn [out_solved solved_of sv_routes sv_types sv_dropped sv_copy sv_drop sv_span out_value out_schedule v1 on_graph v_dropped v_drop v_span fst snd]. rewrite <- Len in *.
      repeat (split; [solve [reflexivity|exact RA|exact Sch3|intros i k Hi; apply Htb in Hi; lia]|]). exists a, K, p. split; [exact Hp|]. split; [reflexivity|]. intros _. eexists. exact Hlb.
  Qed.
End Red.
