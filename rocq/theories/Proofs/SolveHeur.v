(** solve(heuristic_only=True) *)
From Verif.Base Require Import Prelude Graph.
From Verif.Spec Require Import Routes Network Inputs Feasible Prep Heuristics LinProg Plans Results.
From Verif.Model Require Import Args Reach Checks Preprocess ClarkeWright Greedy Initial Pricing
  GreedyPricing LPPricing Cspy Master Dive Hyper ColGen Post Schedule Solve.
From Verif.Proofs Require Import RouteLemmas ChecksProofs FeasProofs PreLemmas PruneProofs KnapProofs LockProofs
  PresolveProofs PresolveEnd HeurCor PostProofs PostCor PostEnd SolveProofs.

Lemma map_snd_combine {A B} (l : list A) (l' : list B) : List.length l = List.length l' -> map snd (combine l l') = l'.
Proof. revert l'. induction l as [|a l IH]; intros [|b l'] H; try discriminate; cbn; [reflexivity|]. f_equal. apply IH. cbn in H. lia. Qed.
Lemma map_fst_combine {A B} (l : list A) (l' : list B) : List.length l = List.length l' -> map fst (combine l l') = l.
Proof. revert l'. induction l as [|a l IH]; intros [|b l'] H; try discriminate; cbn; [reflexivity|]. f_equal. apply IH. cbn in H. lia. Qed.

Lemma dget_seq n : forall s i, (s <= i < s + n)%nat -> dget Nat.eqb i (map (fun k => (k, 0%nat)) (seq s n)) = Some 0%nat.
Proof.
  induction n as [|n IH]; intros s i H; [lia|]. cbn. destruct (Nat.eqb_spec s i) as [E|E]; [reflexivity|]. apply IH. lia.
Qed.

Lemma route_shape_stops r : route_shape r -> exists cs, r = Source :: cs ++ [Sink] /\ stops r = cs.
Proof.
  intros (cs & -> & _ & Hc). exists cs. split; [reflexivity|]. unfold stops. cbn [filter is_cust].
  rewrite filter_app. cbn. rewrite app_nil_r. clear - Hc. induction cs as [|x cs IH]; cbn; [reflexivity|].
  assert (E : is_cust x = true) by (destruct (Hc x (or_introl eq_refl)); destruct x; cbn; congruence). rewrite E. f_equal. apply IH. intros; apply Hc; right; assumption.
Qed.

(** an arc of a route that visits somebody does not go from Source to Sink *)
Lemma no_direct cs u w : cs <> [] -> (forall x, In x cs -> x <> Source /\ x <> Sink) -> In (u, w) (arcs (Source :: cs ++ [Sink])) -> (u, w) <> (Source, Sink).
Proof.
  intros N C Hi E. injection E as -> ->. destruct cs as [|x cs]; [congruence|]. cbn [app arcs] in Hi.
  destruct Hi as [E|Hi]; [injection E as E; destruct (C x (or_introl eq_refl)); congruence|].
  assert (X : In Source (removelast (x :: cs ++ [Sink]))).
  { clear - Hi. revert x Hi. induction (cs ++ [Sink]) as [|y l IH]; intros x Hi; [destruct Hi|]. cbn [arcs] in Hi. cbn [removelast].
    destruct Hi as [E|Hi]; [injection E as -> _; left; reflexivity|]. right. apply IH. exact Hi. }
  change (x :: cs ++ [Sink]) with ((x :: cs) ++ [Sink]) in X. rewrite removelast_last in X. destruct (C Source X). congruence.
Qed.

Section Heur.
  Variables (X : outside) (fuel fuel2 : nat) (sa : solve_args) (v : vrp) (a : rargs) (K : nat) (p : prepared).
  Local Notation G := (v_graph v).
  Local Notation h := (pr_copy p).
  Local Notation o := (options_of v sa).
  Hypothesis R : ready G.
  Hypothesis M : a_mixed_fleet (v_args v) = false.
  Hypothesis NE : no_empty_costs G.
  Hypothesis E1 : v_windows v = false.
  Hypothesis E2 : v_pickup v = false.
  Hypothesis E3 : v_both v = false.
  Hypothesis E4 : truthy (v_periodic v) = false.
  Hypothesis E5 : nonempty_or (sa_pre sa) (v_pre v) = [].
  Hypothesis E6 : sa_heuristic sa = true.
  Hypothesis HP : forall l, Permutation l (x_perms X 10 l).
  Hypothesis H : prepare v sa = Ok (a, K, p).

  (** The network after preprocessing. *)
  Lemma plain_network : network 1 (pr_graph p) /\ round_trips (pr_graph p) /\ custs (pr_graph p) = custs G /\
    (forall u, In u (custs G) -> demand_of (pr_graph p) u = user_demand G u) /\
    (forall u, service_of (pr_graph p) u = user_service G u) /\
    (forall u w, In (u, w) (arc_list (pr_graph p)) -> In (u, w) (arc_list G) \/ (u, w) = (Source, Sink)) /\
    (forall u w, In (u, w) (arc_list (pr_graph p)) -> time_of (pr_graph p) u w = user_time G u w) /\
    In (Source, Sink) (arc_list (pr_graph p)) /\ caps_arg (a_load_capacity a) <> Some [] /\ pr_more_routes p = true /\
    (forall v, node_data (pr_graph p) v = node_data h v) /\
    (forall u w, In (u, w) (arc_list (pr_graph p)) -> (u, w) <> (Source, Sink) \/ v_all v = false -> arc_data (pr_graph p) u w = arc_data h u w) /\
    (forall u w, In (u, w) (arc_list (pr_graph p)) <-> In (u, w) (arc_list h) /\
       forall m, pr_max_capacity p = Some m -> demand_of h u + demand_of h w <= inject_Z m).
  Proof.
    destruct (one_network v sa a K p R M NE H) as (Nh & Nn & Rh & Ah).
    destruct (one_figures v sa a K p R M NE H) as (F1 & F2 & F3 & F4).
    destruct (one_graph v sa R NE) as (N1 & A1 & D1 & W1 & S1 & T1 & NI1 & NO1 & C1 & RT1). pose proof (one_presolve v sa a K p M H) as P'.
    destruct (presolve_plain (config_of a 1) o _ p W1 S1 T1 NI1 NO1 C1 RT1 P' E5 E1) as (Net3 & R3 & ND3 & NN3 & AD3 & A3 & MR).
    destruct (one_caps v sa a K p R M NE H) as (_ & Cp & _).
    assert (TT : forall u w, In (u, w) (arc_list (pr_graph p)) -> time_of (pr_graph p) u w = time_of h u w).
    { destruct (presolve_nodes (config_of a 1) o _ p W1 S1 T1 NI1 NO1 C1 RT1 P') as (_ & _ & _ & B3). intros u w Huw. apply B3 in Huw. tauto. }
    split; [exact Net3|]. split; [exact R3|]. split; [unfold custs; rewrite NN3, Nn; reflexivity|].
    split; [intros u Hu; rewrite <- (F1 u Hu); unfold demand_of, nd; rewrite ND3; reflexivity|].
    split; [intros u; rewrite <- (F2 u); unfold service_of, nd; rewrite ND3; reflexivity|].
    split; [intros u w Huw; apply A3 in Huw; apply Ah; tauto|].
    split; [intros u w Huw; rewrite <- (F3 u w); apply TT; exact Huw|].
    split; [|split; [|split; [exact MR|split; [exact ND3|split; [exact AD3|exact A3]]]]].
    - apply A3. split; [apply Ah; right; reflexivity|]. intros m Hm. destruct (caps_arg (a_load_capacity a)) as [l|]; [|congruence].
      destruct Cp as (_ & Cp & (m' & Z & Em) & _). assert (m' = m) by congruence. subst m'. apply zmax_in in Z. apply Cp in Z.
      pose proof (copy_depot_demand (config_of a 1) o _ p Source W1 S1 T1 C1 P' eq_refl) as Y1.
      pose proof (copy_depot_demand (config_of a 1) o _ p Sink W1 S1 T1 C1 P' eq_refl) as Y2.
      assert (Y3 : 0 <= inject_Z m) by (change 0 with (inject_Z 0); rewrite <- Zle_Qle; lia). lra.
    - intro Z. rewrite Z in Cp. destruct Cp as (Cp & _). congruence.
  Qed.

  Lemma user_route r : route_shape r -> along (arc_list (pr_graph p)) r -> stops r <> [] -> along (arc_list G) r.
  Proof.
    intros Sh Al Ns. destruct plain_network as (_ & _ & _ & _ & _ & A & _). destruct (route_shape_stops r Sh) as (cs & -> & Es). rewrite Es in Ns.
    destruct Sh as (cs' & E & _ & Hc). injection E as E. apply app_inv_tail in E. subst cs'.
    intros u w Huw. destruct (A u w (Al u w Huw)) as [Y|Y]; [exact Y|]. exfalso. exact (no_direct cs u w Ns Hc Huw Y).
  Qed.

  Lemma heuristic_limits r : nonneg_user_demands G ->
    (forall v, In v (stops r) -> In v (custs G)) ->
    (forall c l, caps_arg (a_load_capacity a) = Some (c :: l) -> c <> 0%Z ->
         (forall v, In v (custs (pr_graph p)) -> demand_of (pr_graph p) v <= inject_Z c) ->
         node_sum (demand_of (pr_graph p)) (stops r) <= inject_Z c) ->
    (forall n, pr_num_stops p = Some n -> (1 <= n)%Z -> (Z.of_nat (List.length (stops r)) <= n)%Z) ->
    within_limits G (v_args v) r.
  Proof.
    intros ND Hin L1 L2. destruct plain_network as (_ & _ & Cu & FD & _).
    destruct (one_caps v sa a K p R M NE H) as (_ & Cp & Cl). constructor.
    - intros c Hc. specialize (Cl c Hc). rewrite Cl in Cp. destruct Cp as (_ & Cp & _ & Fi).
      rewrite (node_sum_ext _ (demand_of (pr_graph p))); [|intros u Hu; rewrite FD by (apply Hin; exact Hu); reflexivity].
      assert (Hpos : (0 < c)%Z) by (apply Cp; left; reflexivity).
      apply (L1 c []); [exact Cl|lia|]. intros u Hu. rewrite Cu in Hu. rewrite (FD u Hu).
      destruct (one_figures v sa a K p R M NE H) as (F1 & _). rewrite <- (F1 u Hu). apply in_custs in Hu. destruct (Fi u (proj1 Hu) c [] eq_refl) as (x & [->|[]] & Hx). exact Hx.
    - intros n Hn. destruct (one_stops v sa a K p R M NE H ND E2 E3 E5 E1 n Hn) as (b & Eb & Hb). specialize (L2 b Eb). lia.
  Qed.

  Theorem heuristic_plan : nonneg_user_demands G ->
    exists v' out, solve X fuel fuel2 sa v = Ok (v', out) /\
      let rs := map snd (sv_routes (out_solved out)) in
      each_once (custs G) rs /\ only_visits (custs G) rs /\
      (forall r, In r rs -> route_shape r /\ along (arc_list G) r /\ stops r <> [] /\ within_limits G (v_args v) r) /\
      (forall i r, In (i, r) (sv_routes (out_solved out)) -> dget Nat.eqb i (sv_types (out_solved out)) = Some 0%nat) /\
      map fst (sv_routes (out_solved out)) = seq 0 (List.length rs) /\
      out_schedule out = None /\
      (v_span v = false -> v_dropped v = [] -> exists q, best_value (out_solved out) = Ok q /\ q == plan_price G (v_args v) rs) /\
      (forall D, time_limit (v_args v) D ->
         (forall u, In u (custs G) -> user_time G u Sink == user_time G Source u) ->
         (forall u w, In u (custs G) -> In w (custs G) -> In (u, w) (arc_list G) -> In (w, u) (arc_list G) -> user_time G w u == user_time G u w) ->
         (forall u, In u (custs G) -> user_time G Source u + user_time G u Sink + user_service G u <= inject_Z D) ->
         forall r, In r rs -> path_sum (user_time G) r + node_sum (user_service G) (stops r) <= inject_Z D).
  Proof.
    intro ND. destruct plain_network as (Net & RT & Cu & FD & FS & FA & FT & SS & HC & _).
    destruct (one_args v sa a K p M H) as (EK & Ea & _ & _).
    destruct (cw_visits (pr_graph p) 1 (caps_arg (a_load_capacity a)) (int_arg (a_duration a)) (pr_num_stops p) Net (le_n 1) RT HC 1 _ HP) as (rs & q & Hcw & V1 & V2 & V3).
    pose proof (cw_limits (pr_graph p) 1 (caps_arg (a_load_capacity a)) (int_arg (a_duration a)) (pr_num_stops p) Net (le_n 1) RT HC 1 _ HP rs q Hcw) as V4.
    pose proof (fun D => cw_duration (pr_graph p) 1 (caps_arg (a_load_capacity a)) (int_arg (a_duration a)) (pr_num_stops p) Net (le_n 1) RT HC 1 _ HP rs q D Hcw) as V5.
    rewrite Cu in V1, V2, V5.
    assert (Em : a_mixed_fleet a = false) by (rewrite Ea; reflexivity).
    assert (Hs : solve_with_clarke_wright o (a_mixed_fleet a) (caps_arg (a_load_capacity a)) (int_arg (a_duration a)) (pr_num_stops p) (x_perms X 10) (pr_graph p)
      = Ok (combine (seq 0 (List.length rs)) rs, map (fun k => (k, 0%nat)) (seq 0 (List.length rs)))).
    { unfold solve_with_clarke_wright. cbn [o_time_windows o_pickup_delivery o_distribution_collection o_periodic options_of]. rewrite E1, E2, E3, Em.
      unfold check_clarke_wright_compatibility. rewrite E4. cbn [orb raise_if bind]. rewrite Hcw. reflexivity. }
    unfold solve. rewrite H. cbn [bind]. rewrite E6, Hs. cbn [bind fst snd]. eexists. eexists. split; [reflexivity|].
    cbn [out_solved solved_of sv_routes sv_types out_schedule]. rewrite map_snd_combine, map_fst_combine by apply seq_length. cbv zeta.
    assert (St : forall r, In r rs -> forall x, In x (stops r) -> In x (custs G)).
    { intros r Hr x Hx. unfold stops in Hx. apply filter_In in Hx. destruct Hx as (Hx & Ic). apply (V2 r x Hr Hx); intros ->; discriminate. }
    assert (RR : forall r, In r rs -> route_shape r /\ along (arc_list G) r /\ stops r <> [] /\ within_limits G (v_args v) r).
    { intros r Hr. destruct (V3 r Hr) as (Y1 & Y2 & Y3). destruct (V4 r Hr) as (Y4 & Y5). split; [exact Y1|]. split; [apply user_route; assumption|]. split; [exact Y3|].
      apply heuristic_limits; auto. apply St. exact Hr. }
    assert (TY : forall i r, In (i, r) (combine (seq 0 (List.length rs)) rs) -> dget Nat.eqb i (map (fun k => (k, 0%nat)) (seq 0 (List.length rs))) = Some 0%nat).
    { intros i r Hir. apply dget_seq. apply in_combine_l in Hir. apply in_seq in Hir. lia. }
    split; [exact V1|]. split; [exact V2|]. split; [exact RR|]. split; [exact TY|]. split; [reflexivity|]. split; [reflexivity|]. split.
    - intros Sp Dr. match goal with |- context [best_value ?s] => set (s0 := s) end.
      destruct (one_network v sa a K p R M NE H) as (Nh & Nn & Rh & Ah).
      assert (KN : forall i r, In (i, r) (sv_routes s0) -> knows 1 (sv_copy s0) r /\ exists k, dget Nat.eqb i (sv_types s0) = Some k /\ (k < 1)%nat).
      { intros i r Hir. assert (Hr : In r rs) by (exact (in_combine_r _ _ _ _ Hir)). destruct (RR r Hr) as (Y1 & Y2 & Y3 & _). split.
        - assert (Y4 : along (arc_list h) r) by (intros x y Hxy; apply Ah; left; apply Y2; exact Hxy).
          split; [|split; [exact Y4|apply (net_costs _ _ Nh)]]. intros x Hx. eapply along_nodes; [apply (net_wf _ _ Nh)|exact Y1|exact Y4|exact Hx].
        - exists 0%nat. split; [exact (TY i r Hir)|lia]. }
      destruct (results_total 1 s0 KN) as (_ & _ & _ & Vt). destruct (Vt (or_intror Sp)) as (q0 & Hq0). exists q0. split; [exact Hq0|].
      destruct (value_ok s0 q0 Hq0) as (d & m & Hd & Hm & _ & Hq). specialize (Hm Sp). rewrite Hq, Hm. unfold s0 at 1 2. cbn [sv_drop sv_dropped]. rewrite Dr. cbn [List.length].
      assert (Z : match v_drop v with Some x => x * inject_Z (Z.of_nat 0) | None => 0 end == 0) by (destruct (v_drop v); [change (inject_Z (Z.of_nat 0)) with 0; lra|reflexivity]).
      rewrite Z, Qplus_0_r. apply cost_ok in Hd. unfold reports in Hd. unfold plan_price.
      assert (EQ : forall (L : list (nat * list node)) d, (forall i r, In (i, r) L -> In (i, r) (sv_routes s0)) ->
        Forall2 (fun x y => fst y = fst x /\ cost_report s0 (fst x) (snd x) (snd y)) L d ->
        Qsum (map snd d) == Qsum (map (fun r => path_sum (user_cost G 0) r + fixed_price (v_args v)) (map snd L))).
      { clear - RR TY R M NE H. induction L as [|[i r] L IH]; intros d HL F; inversion F as [|x y L' d' F1 F2]; subst; [reflexivity|]. cbn [map snd].
        rewrite !Qsum_cons. rewrite (IH d' (fun i0 r0 Hi => HL i0 r0 (or_intror Hi)) F2). destruct F1 as (_ & k & F1 & F3). cbn [fst snd] in *.
        assert (Hir : In (i, r) (sv_routes s0)) by (apply HL; left; reflexivity). change (In (i, r) (combine (seq 0 (List.length rs)) rs)) in Hir.
        change (dget Nat.eqb i (map (fun k => (k, 0%nat)) (seq 0 (List.length rs))) = Some k) in F1. rewrite (TY i r Hir) in F1. injection F1 as <-. rewrite F3. unfold s0. cbn [sv_copy].
        destruct (RR r (in_combine_r _ _ _ _ Hir)) as (Y1 & Y2 & Y3 & _). destruct (route_shape_stops r Y1) as (cs & Er & Es). rewrite Es in Y3. rewrite Er in Y1, Y2 |- *.
        rewrite (one_route_cost v sa a K p R M NE H cs Y3 Y1 Y2). reflexivity. }
      rewrite (EQ (sv_routes s0) d (fun _ _ Hi => Hi) Hd). change (sv_routes s0) with (combine (seq 0 (List.length rs)) rs). rewrite map_snd_combine by apply seq_length. reflexivity.
    - intros D HD T1 T2 T3 r Hr. destruct (RR r Hr) as (Y1 & Y2 & Y3 & _). destruct (V3 r Hr) as (_ & Z2 & _).
      rewrite (path_sum_ext _ (time_of (pr_graph p))); [|intros x y Hxy; rewrite (FT x y (Z2 x y Hxy)); reflexivity].
      rewrite (node_sum_ext _ (service_of (pr_graph p))); [|intros x Hx; rewrite FS; reflexivity].
      apply (V5 D); auto.
      + destruct HD as (HD & Hn). split; [|exact Hn]. rewrite Ea. cbn. rewrite HD. reflexivity.
      + split.
        * intros x Hx. rewrite Cu in Hx. destruct (RT x) as (RT1 & RT2); [rewrite Cu; exact Hx|]. rewrite (FT _ _ RT1), (FT _ _ RT2). apply T1. exact Hx.
        * intros x y Hx Hy Hxy Hyx. rewrite Cu in Hx, Hy. rewrite (FT _ _ Hxy), (FT _ _ Hyx). apply in_custs in Hx as Hx'. apply in_custs in Hy as Hy'. apply T2; auto.
          -- destruct (FA _ _ Hxy) as [Q|Q]; [exact Q|]. injection Q as -> ->. tauto.
          -- destruct (FA _ _ Hyx) as [Q|Q]; [exact Q|]. injection Q as -> ->. tauto.
      + intros x Hx. destruct (RT x) as (RT1 & RT2); [rewrite Cu; exact Hx|]. specialize (T3 x Hx). unfold path_sum. cbn [arcs map fst snd]. rewrite !Qsum_cons. change (Qsum []) with 0.
        rewrite (FT _ _ RT1), (FT _ _ RT2), FS. lra.
  Qed.
End Heur.
