(** From the user's graph and arguments to what solve() returns. *)
From Verif.Base Require Import Prelude Graph.
From Verif.Spec Require Import Routes Network Inputs Feasible Prep Heuristics LinProg Plans Results.
From Verif.Model Require Import Args Reach Checks Preprocess ClarkeWright Greedy Initial Pricing
  GreedyPricing LPPricing Cspy Master Dive Hyper ColGen Post Schedule Solve.
From Verif.Proofs Require Import RouteLemmas ChecksProofs FeasProofs PreLemmas PruneProofs KnapProofs LockProofs
  PresolveProofs PresolveEnd HeurCor SolveProofs SolveHeur SolveTotal.

Lemma completion_custs g g' : completion g g' -> custs g' = custs g.
Proof. intro C. unfold custs. rewrite (completion_nodes _ _ C). reflexivity. Qed.
Lemma completion_arcs_iff g g' : wf g -> completion g g' -> forall e, In e (arc_list g') <-> In e (arc_list g ++ depot_arcs g).
Proof. intros W C e. apply (completion_arcs g g' C). Qed.

Lemma walk_iff A B : (forall e, In e A <-> In e B) -> forall u v p, walk A u v p <-> walk B u v p.
Proof. intros H u v p. split; apply walk_sub; intros x Hx; apply H; exact Hx. Qed.

Lemma connected_arcs (g : rgraph) : (exists p, walk (arc_list g) Source Sink p) -> arc_list g <> [].
Proof. intros (p & H) E. rewrite E in H. inversion H; subst; contradiction. Qed.

Lemma single_args a n s g g' : a_mixed_fleet a = false ->
  accepted_args (mkArgs (a_num_stops a) (a_load_capacity a) (a_duration a) (a_fixed_cost a) n (a_mixed_fleet a) s) g <->
  accepted_args (with_strategy a s) g'.
Proof. intro M. split; intros [A1 A2 A3 A4 _]; constructor; cbn in *; auto; congruence. Qed.

(** Both steps before the search succeed exactly on acceptable problems. *)
Theorem accepted_exactly g a drop all per span tabu sa : wf g -> a_mixed_fleet a = false -> no_empty_costs g ->
  nonneg_user_demands g -> (forall u w, 0 <= user_time g u w) -> sa_pre sa = [] ->
  (exists v r, create g a false false false drop all per span tabu = Ok v /\ prepare v sa = Ok r) <->
  acceptable g a (sa_strategy sa).
Proof.
  intros W M NE ND NT Pre.
  assert (Core : forall v, create g a false false false drop all per span tabu = Ok v ->
    ((exists a' p, prepare v sa = Ok (a', 1%nat, p)) <->
     accepted_args (with_strategy a (sa_strategy sa)) g /\ a_load_capacity a <> PList [] /\
     (forall u, In u (custs g) -> some_vehicle_carries a (user_demand g u)) /\
     (forall D u, time_limit a D -> In u (custs g) -> reached_within g u D)) /\
    a_mixed_fleet (v_args v) = false).
  { intros v C. apply create_ok in C. destruct C as (Ck & Ea & E1 & E2 & E3 & _ & _ & E4 & _ & _ & Ep & _).
    destruct (check_vrp_ready g _ W Ck) as (R & Cp). destruct (check_vrp_inv g _ W Ck) as ([_ _ _ _ Cn _] & _).
    assert (Mv : a_mixed_fleet (v_args v) = false) by (rewrite Ea; exact M).
    assert (Aiff := completion_arcs_iff g _ W Cp).
    assert (AN : arc_list (v_graph v) <> []).
    { apply connected_arcs. destruct Cn as (q & Hq). exists q. apply (walk_iff _ _ Aiff). exact Hq. }
    split; [|exact Mv].
    rewrite (plain_accepted v sa R Mv (completion_no_empty _ _ Cp NE) E1 E2 E3); [| |exact AN| |].
    - assert (Q1 : accepted_args (set_strategy (sa_strategy sa) (v_args v)) (v_graph v) <-> accepted_args (with_strategy a (sa_strategy sa)) g).
      { rewrite Ea. unfold set_strategy. cbn. apply single_args. exact M. }
      assert (Q2 : a_load_capacity (v_args v) = a_load_capacity a) by (rewrite Ea; reflexivity).
      assert (Q3 : forall q, some_vehicle_carries (v_args v) q <-> some_vehicle_carries a q) by (intro q; unfold some_vehicle_carries; rewrite Q2; reflexivity).
      assert (Q4 : forall D, time_limit (v_args v) D <-> time_limit a D) by (intro D; unfold time_limit; rewrite Ea; reflexivity).
      rewrite Q1, Q2. assert (Q5 : custs (v_graph v) = custs g) by (apply completion_custs; exact Cp). rewrite Q5.
      assert (PS : forall q, path_sum (user_time (v_graph v)) q == path_sum (user_time g) q) by (intro q; apply path_sum_ext; intros; rewrite (completion_time _ _ _ _ Cp); reflexivity).
      split; intros (X1 & X2 & X3 & X4); (split; [exact X1|split; [exact X2|split]]).
      + intros u Hu. rewrite <- (completion_demand _ _ u Cp). apply Q3. apply X3. exact Hu.
      + intros D u HD Hu. destruct (X4 D u (proj2 (Q4 D) HD) Hu) as (p1 & p2 & W1 & W2 & L). exists p1, p2.
        split; [apply (walk_iff _ _ Aiff); exact W1|]. split; [apply (walk_iff _ _ Aiff); exact W2|]. rewrite <- !PS. exact L.
      + intros u Hu. rewrite (completion_demand _ _ u Cp). apply Q3. apply X3. exact Hu.
      + intros D u HD Hu. destruct (X4 D u (proj1 (Q4 D) HD) Hu) as (p1 & p2 & W1 & W2 & L). exists p1, p2.
        split; [apply (walk_iff _ _ Aiff); exact W1|]. split; [apply (walk_iff _ _ Aiff); exact W2|]. rewrite !PS. exact L.
    - unfold nonempty_or. rewrite Pre, Ep. reflexivity.
    - intro u. rewrite (completion_demand _ _ u Cp). apply ND.
    - intros u w. rewrite (completion_time _ _ u w Cp). apply NT. }
  split.
  - intros (v & ((a' & K) & p) & C & H). destruct (Core v C) as (I & Mv). destruct (one_args v sa a' K p Mv H) as (-> & _).
    destruct (proj1 I (ex_intro _ a' (ex_intro _ p H))) as (X1 & X2 & X3 & X4). 
    pose proof (create_ok _ _ _ _ _ _ _ _ _ _ _ C) as (Ck & _). constructor; auto. apply (check_vrp_accepts g W). eauto.
  - intros [A1 A2 A3 A4 A5]. destruct (proj2 (check_vrp_accepts g W) A1) as (g' & Hg).
    assert (C : exists v, create g a false false false drop all per span tabu = Ok v) by (unfold create; rewrite Hg; cbn; eauto).
    destruct C as (v & C). destruct (Core v C) as (I & _). destruct (proj2 I) as (a' & p & H); [auto|]. exists v, (a', 1%nat, p). auto.
Qed.

(** What heuristic-only solving returns, in the user's terms. *)
Theorem heuristic_user X fuel fuel2 sa g a drop all per span tabu : wf g -> a_mixed_fleet a = false -> no_empty_costs g ->
  nonneg_user_demands g -> (forall u w, 0 <= user_time g u w) -> truthy per = false ->
  sa_pre sa = [] -> sa_heuristic sa = true -> (forall l, Permutation l (x_perms X 10 l)) ->
  acceptable g a (sa_strategy sa) ->
  exists v v' out, create g a false false false drop all per span tabu = Ok v /\ solve X fuel fuel2 sa v = Ok (v', out) /\
    let rs := map snd (sv_routes (out_solved out)) in
    serves g rs /\ (forall r, In r rs -> within_limits g a r) /\
    map fst (sv_routes (out_solved out)) = seq 0 (List.length rs) /\
    (forall i, (i < List.length rs)%nat -> dget Nat.eqb i (sv_types (out_solved out)) = Some 0%nat) /\
    out_schedule out = None /\ sv_dropped (out_solved out) = [] /\
    (span = false -> exists q, best_value (out_solved out) = Ok q /\ q == plan_price g a rs) /\
    ((forall u, In u (custs g) -> user_time g u Sink == user_time g Source u) ->
     (forall u w, In u (custs g) -> In w (custs g) -> In (u, w) (arc_list g) -> In (w, u) (arc_list g) -> user_time g w u == user_time g u w) ->
     (forall D u, time_limit a D -> In u (custs g) -> user_time g Source u + user_time g u Sink + user_service g u <= inject_Z D) ->
     forall r, In r rs -> within_time g a r).
Proof.
  intros W M NE ND NT Per Pre He HP Acc.
  destruct (proj2 (accepted_exactly g a drop all per span tabu sa W M NE ND NT Pre) Acc) as (v & ((a' & K) & p) & C & H).
  pose proof (create_ok _ _ _ _ _ _ _ _ _ _ _ C) as (Ck & Ea & E1 & E2 & E3 & Ed & Eal & E4 & Esp & _ & Ep & _ & _ & _ & _ & _ & Edr & _).
  destruct (check_vrp_ready g _ W Ck) as (R & Cp). assert (Mv : a_mixed_fleet (v_args v) = false) by (rewrite Ea; exact M).
  assert (Pre' : nonempty_or (sa_pre sa) (v_pre v) = []) by (unfold nonempty_or; rewrite Pre, Ep; reflexivity).
  assert (ND' : nonneg_user_demands (v_graph v)) by (intro u; rewrite (completion_demand _ _ u Cp); apply ND).
  assert (Per' : truthy (v_periodic v) = false) by (rewrite E4; exact Per).
  destruct (heuristic_plan X fuel fuel2 sa v a' K p R Mv (completion_no_empty _ _ Cp NE) E1 E2 E3 Per' Pre' He HP H ND')
    as (v' & out & Hs & P1 & P2 & P3 & P4 & P5 & P6 & P7 & P8).
  assert (Q5 : custs (v_graph v) = custs g) by (apply completion_custs; exact Cp). rewrite Q5 in *.
  assert (Aiff := completion_arcs_iff g _ W Cp).
  exists v, v', out. split; [exact C|]. split; [exact Hs|]. cbv zeta.
  assert (Lim : forall r, within_limits (v_graph v) (v_args v) r -> within_limits g a r).
  { intros r [L1 L2]. constructor.
    - intros c Hc. rewrite (node_sum_ext _ (user_demand (v_graph v))); [|intros; rewrite (completion_demand _ _ _ Cp); reflexivity]. apply L1. rewrite Ea. exact Hc.
    - intros n Hn. apply L2. rewrite Ea. exact Hn. }
  split; [|split; [|split; [exact P5|split; [|split; [exact P6|split; [|split]]]]]].
  - constructor; [exact P1|exact P2|]. intros r Hr. destruct (P3 r Hr) as (Y1 & Y2 & Y3 & _). split; [exact Y1|]. split; [|exact Y3].
    intros x y Hxy. apply Aiff. apply Y2. exact Hxy.
  - intros r Hr. destruct (P3 r Hr) as (_ & _ & _ & Y). apply Lim. exact Y.
  - intros i Hi. assert (Hn : In i (map fst (sv_routes (out_solved out)))) by (rewrite P5; apply in_seq; lia).
    apply in_map_iff in Hn. destruct Hn as ((i' & r) & Ei & Hr). cbn in Ei. subst i'. apply (P4 i r Hr).
  - unfold solve in Hs. rewrite H in Hs. cbn [bind] in Hs. rewrite He in Hs. apply bind_ok in Hs. destruct Hs as (rr & _ & Hs). injection Hs as _ <-. cbn. exact Edr.
  - intro Sp. destruct P7 as (q & Hq & Eq); [rewrite Esp; exact Sp|exact Edr|]. exists q. split; [exact Hq|]. rewrite Eq. unfold plan_price.
    assert (FP : fixed_price (v_args v) = fixed_price a) by (rewrite Ea; reflexivity). rewrite FP.
    clear - Cp. induction (map snd (sv_routes (out_solved out))) as [|r rs IH]; [reflexivity|]. cbn [map]. rewrite !Qsum_cons, IH.
    rewrite (path_sum_ext (user_cost (v_graph v) 0) (user_cost g 0)); [reflexivity|]. intros; rewrite (completion_cost _ _ _ _ _ Cp); reflexivity.
  - intros T1 T2 T3 r Hr D HD. 
    rewrite (path_sum_ext _ (user_time (v_graph v))); [|intros; rewrite (completion_time _ _ _ _ Cp); reflexivity].
    rewrite (node_sum_ext _ (user_service (v_graph v))); [|intros; rewrite (completion_service _ _ _ Cp); reflexivity].
    apply (P8 D); auto.
    + unfold time_limit. rewrite Ea. exact HD.
    + intros u Hu. rewrite !(completion_time _ _ _ _ Cp). apply T1. exact Hu.
    + intros u w Hu Hw Huw Hwu. rewrite !(completion_time _ _ _ _ Cp). apply Aiff in Huw, Hwu. apply in_app_iff in Huw, Hwu.
      assert (ND2 : forall x y, In x (custs g) -> In y (custs g) -> ~ In (x, y) (depot_arcs g)).
      { intros x y Hx Hy Z. apply depot_arcs_inv in Z. apply in_custs in Hx, Hy. destruct Z as [(-> & _)|(-> & _)]; tauto. }
      destruct Huw as [Huw|Huw]; [|exfalso; exact (ND2 _ _ Hu Hw Huw)]. destruct Hwu as [Hwu|Hwu]; [|exfalso; exact (ND2 _ _ Hw Hu Hwu)]. apply T2; auto.
    + intros u Hu. rewrite !(completion_time _ _ _ _ Cp), (completion_service _ _ _ Cp). apply (T3 D u HD Hu).
Qed.

Lemma strategy_names : forall X v sa a K p keys, let C := cg_of X v sa a K p keys in
  (sa_strategy sa = "Exact" -> cg_strategy C = Some Exact) /\
  (sa_strategy sa = "BestPaths" -> cg_strategy C = Some BestPaths) /\
  (sa_strategy sa = "BestEdges1" -> cg_strategy C = Some BestEdges1) /\
  (sa_strategy sa = "BestEdges2" -> cg_strategy C = Some BestEdges2) /\
  (sa_strategy sa = "Hyper" -> cg_strategy C = None) /\
  cg_cspy C = sa_cspy sa /\ cg_greedy C = sa_greedy sa /\ cg_max_iter C = sa_max_iter sa /\
  cg_run_exact C = sa_run_exact sa /\ cg_time_limit C = sa_time_limit sa /\
  cg_elementary C = orb (sa_dive sa) (sa_elementary sa).
Proof.
  intros X v sa a K p keys C. unfold C, cg_of. cbn.
  repeat split; try (intros ->; reflexivity).
Qed.
