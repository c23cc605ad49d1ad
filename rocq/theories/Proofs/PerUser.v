(** solve() on a periodic problem. *)
From Verif.Base Require Import Prelude Graph.
From Verif.Spec Require Import Routes Network Inputs Feasible Prep Heuristics LinProg Pricing MIP Columns Timing Labelling Pool Master Run Plans Results Variants Periodic.
From Verif.Model Require Import Args Reach Checks Preprocess ClarkeWright Greedy Initial Pricing
  GreedyPricing LPPricing Cspy Master Dive Hyper ColGen Post Schedule Solve.
From Verif.Proofs Require Import RouteLemmas ChecksProofs FeasProofs PreLemmas PruneProofs KnapProofs LockProofs
  PresolveProofs PresolveEnd InitialProofs HeurCor PricingProofs LPProofs LPColumn LPComplete PricingCor PoolProofs PoolQuality SelectProofs MasterEnd ColGenProofs RunProofs ColGenCor ColGenEnd
  PostProofs PostCor PostEnd SolveProofs SolveHeur SolveUser ExactPool SolveExact PlanGen AnyProofs AnyPool Warm AnyBound AnyUser PresolveExact ScheduleProofs PerBest PerGen.

Section Facts.
  Variables (v : vrp) (sa : solve_args) (a : rargs) (K : nat) (p : prepared).
  Hypothesis R : ready (v_graph v).
  Hypothesis NE : a_mixed_fleet (v_args v) = false -> no_empty_costs (v_graph v).
  Hypothesis H : prepare v sa = Ok (a, K, p).

  Lemma per_freq u x : node_data (pr_graph p) u = Some x -> freq x = user_freq (v_graph v) u.
  Proof.
    intro Hx. destruct (any_graph v sa a K p R NE H) as (g1 & N1 & A1 & D1 & W1 & S1 & T1 & NI1 & NO1 & C1 & RT1 & P & _).
    destruct (network_nodes (config_of a K) (options_of v sa) g1 p W1 S1 T1 NI1 NO1 C1 RT1 P) as (Nn & Att).
    assert (Hu : In u (nodes (pr_graph p))) by (apply node_data_In; eauto).
    destruct (Att u Hu) as (_ & _ & _ & Ef & _). apply Nn in Hu. destruct Hu as (Hu & _).
    destruct (pre_solve_inv _ _ _ _ P) as (g2 & _ & _ & P1 & P2 & _).
    destruct (fixed_stage_ok (config_of a K) g1 g2 W1 C1 P1) as (W2 & N2 & N2' & A2 & C2).
    assert (S2 : In Source (nodes g2)) by (rewrite N2; exact S1). assert (T2 : In Sink (nodes g2)) by (rewrite N2; exact T1).
    destruct (update_dummy_ok _ g2 (pr_copy p) W2 S2 T2 P2) as (_ & _ & F3 & _).
    assert (ND : node_data g2 u = node_data (v_graph v) u) by (unfold node_data; rewrite N2', N1; reflexivity).
    apply node_data_In in Hu. destruct Hu as (r & Hr). assert (Hr2 : node_data g2 u = Some r) by (unfold node_data in *; rewrite N2'; exact Hr).
    destruct (F3 u r Hr2) as (d & Hd & _ & _ & _ & _ & _ & Ff & _). unfold nd in Ef. rewrite Hx, Hd in Ef. rewrite Ef.
    unfold user_freq. rewrite <- ND, Hr2. unfold given_or in Ff. destruct (r_freq r); exact Ff.
  Qed.

  Lemma per_fleet k n : truthy (v_periodic v) = true -> number_of (v_args v) k n -> nth_error (pr_num_vehicles_schedule p) k = Some n.
  Proof.
    intros Per Hn. pose proof (mixed_lists v sa a K p H) as ML.
    destruct (any_graph v sa a K p R NE H) as (g1 & N1 & A1 & D1 & W1 & S1 & T1 & NI1 & NO1 & C1 & RT1 & P & K1 & _ & _ & Mx & KO & (f & Ef & _ & _ & Nv) & Ck).
    destruct (pre_solve_inv _ _ _ _ P) as (_ & _ & _ & _ & _ & _ & _ & _ & _ & _ & _ & Sp). cbn [o_periodic options_of cf_num_vehicles config_of] in Sp.
    unfold split_vehicles, check_periodic_num_vehicles in Sp.
    assert (Q : exists l, fleet_arg (a_num_vehicles a) = Some l /\ nth_error l k = Some n).
    2:{ destruct Q as (l & Q1 & Q2). rewrite Q1, Per in Sp. destruct l as [|x l]; [destruct k; discriminate|]. cbn in Sp.
        assert (E : pr_num_vehicles_schedule p = x :: l) by congruence. rewrite E. exact Q2. }
    rewrite Nv. destruct Hn as [(x & E & Hx & -> & ->)|(l & x & E & Hk & ->)]; rewrite E in *.
    - assert (T : py_truthy (PNum x) = true).
      { cbn. apply negb_true_iff. unfold num_zero. destruct (Qeq_bool (num_val x) 0) eqn:Ez; [|reflexivity]. apply Qeq_bool_iff in Ez. contradiction. }
      destruct (a_mixed_fleet (v_args v)) eqn:M.
      + destruct (ML eq_refl (PNum x)) as (l & L & _); [right; right; congruence|exact T|discriminate].
      + rewrite Ef. unfold format_val. rewrite T. exists [num_val x]. split; reflexivity.
    - assert (Ea' : f (PList l) = PList l) by (rewrite Ef; destruct (a_mixed_fleet (v_args v)); [reflexivity|unfold format_val; destruct (py_truthy (PList l)); reflexivity]).
      rewrite Ea'. exists (map num_val l). split; [reflexivity|]. rewrite nth_error_map, Hk. reflexivity.
  Qed.

  Lemma per_fleet_inv k n : truthy (v_periodic v) = true -> nth_error (pr_num_vehicles_schedule p) k = Some n -> number_of (v_args v) k n.
  Proof.
    intros Per Hn. pose proof (mixed_lists v sa a K p H) as ML.
    destruct (any_graph v sa a K p R NE H) as (g1 & N1 & A1 & D1 & W1 & S1 & T1 & NI1 & NO1 & C1 & RT1 & P & K1 & _ & _ & Mx & KO & (f & Ef & _ & _ & Nv) & Ck).
    destruct (pre_solve_inv _ _ _ _ P) as (_ & _ & _ & _ & _ & _ & _ & _ & _ & _ & _ & Sp). cbn [o_periodic options_of cf_num_vehicles config_of] in Sp.
    unfold split_vehicles, check_periodic_num_vehicles in Sp.
    assert (Q : exists l, fleet_arg (a_num_vehicles a) = Some l /\ nth_error l k = Some n).
    { destruct (fleet_arg (a_num_vehicles a)) as [l|]; rewrite ?Per in Sp; cbn in Sp.
      - exists l. split; [reflexivity|]. destruct l as [|x l]; cbn in Sp; [assert (E : pr_num_vehicles_schedule p = []) by congruence; rewrite E in Hn; destruct k; discriminate|].
        assert (E : pr_num_vehicles_schedule p = x :: l) by congruence. rewrite E in Hn. exact Hn.
      - assert (E : pr_num_vehicles_schedule p = []) by congruence. rewrite E in Hn. destruct k; discriminate. }
    destruct Q as (l & Q & Hl). rewrite Nv, Ef in Q. unfold number_of. unfold format_val, fleet_arg in Q.
    destruct (a_num_vehicles (v_args v)) as [|x|q] eqn:E; destruct (a_mixed_fleet (v_args v)) eqn:M; cbn in Q.
    - discriminate.
    - discriminate.
    - exfalso. destruct (py_truthy (PNum x)) eqn:T; [|cbn in T; apply negb_false_iff in T; rewrite ?T in Q; discriminate].
      destruct (ML eq_refl (PNum x)) as (l' & L & _); [right; right; congruence|exact T|discriminate].
    - left. exists x. destruct (num_zero x) eqn:Z; cbn in Q; [discriminate|]. injection Q as <-. destruct k as [|[|k]]; [|discriminate|discriminate].
      injection Hl as <-. split; [reflexivity|]. split; [|auto]. intro Hz. unfold num_zero in Z. pose proof (Qeq_eq_bool _ _ Hz) as Hz'. congruence.
    - right. exists q. assert (Q' : map num_val q = l) by congruence. subst l. rewrite nth_error_map in Hl. destruct (nth_error q k) as [x|]; [|discriminate].
      exists x. split; [reflexivity|]. split; [reflexivity|]. injection Hl as <-. reflexivity.
    - right. exists q. assert (Q' : map num_val q = l) by (destruct q; cbn in Q |- *; congruence). subst l. rewrite nth_error_map in Hl. destruct (nth_error q k) as [x|]; [|discriminate].
      exists x. split; [reflexivity|]. split; [reflexivity|]. injection Hl as <-. reflexivity.
  Qed.
End Facts.

Theorem per_user X fuel fuel2 sa g a w pd both drop all period span tabu v v' out :
  wf g -> (a_mixed_fleet a = false -> no_empty_costs g) ->
  (forall r, In r (sa_initial sa) -> route_shape r /\ stops r <> []) ->
  (forall u r, node_data g u = Some r -> r_aux_depot r = false) ->
  period <> 0%Z -> truthyQ drop = false -> sa_pre sa = [] -> sa_dive sa = false -> sa_heuristic sa = false ->
  sa_greedy sa = false \/ w || pd || both = true ->
  0 <= user_demand g Source -> 0 <= user_demand g Sink -> 0 <= user_service g Source ->
  (pd = false -> nonneg_user_demands g) -> (pd = false -> both = true -> forall u, 0 <= user_collect g u) ->
  (pd = true -> proper_pairs g) ->
  (forall r k, first_route (sa_initial sa) g pd r -> first_carrier a (node_sum (user_demand g) (stops r)) k ->
     (forall c, capacity_of a k c -> node_sum (user_demand g) (stops r) <= inject_Z c) ->
     (forall n, stop_limit a n -> (0 < n)%Z) -> (forall l n, a_load_capacity a = PList l -> In n l -> 0 < num_val n) ->
     respects g a w pd both k r) ->
  (forall n q, sound_answer q (e_master (x_env X) n q)) ->
  (sa_cspy sa = false -> (forall n tl q, sound_answer q (e_pricer (x_env X) n tl q)) /\ (pd = false -> no_circles (x_env X) \/ (w = true /\ takes_time g))) ->
  (sa_cspy sa = true -> (forall n tl h, sound_labelling h (e_label (x_env X) n tl h)) /\
     (w = true -> user_lower g Source <= user_upper g 0 Source /\ (user_lower g Source <= 0 \/ user_service g Source <= 0)) /\
     (w || pd || both = false -> forall D, time_limit a D -> forall u, user_service g u == 0)) ->
  (forall q, sound_answer q (x_days X q)) ->
  finds_paths (x_path X) ->
  create g a w pd both drop all (Some period) span tabu = Ok v -> solve X fuel fuel2 sa v = Ok (v', out) ->
  let routes := sv_routes (out_solved out) in
  let rs := map snd routes in
  exists ks d, List.length ks = List.length rs /\
    map fst routes = seq 1 (List.length rs) /\
    (forall i k, nth_error ks i = Some k -> dget Nat.eqb (S i) (sv_types (out_solved out)) = Some k) /\
    Forall2 (fun k r => route_shape r /\ (stops r <> [] -> along (arc_list g ++ depot_arcs g) r /\ respects g a w pd both k r)) ks rs /\
    (sa_cspy sa = false -> forall r, In r rs -> stops r <> []) /\
    (forall u, In u (custs g) -> (Z.of_nat (visits u rs) <= user_freq g u)%Z /\
       ((user_freq g u <= 1)%Z -> Z.of_nat (visits u rs) = user_freq g u)) /\
    only_visits (custs g) rs /\ sv_dropped (out_solved out) = [] /\
    out_schedule out = Some d /\
    (d = [] \/ exists day, good_week g a period routes (fun i => dget Nat.eqb i (sv_types (out_solved out))) day /\ describes routes day d /\
       ((forall q, right_answer q (x_days X q)) ->
        forall day', good_week g a period routes (fun i => dget Nat.eqb i (sv_types (out_solved out))) day' ->
        forall m, spread_within period (map fst routes) day' m -> spread_within period (map fst routes) day m)) /\
    (span = false -> (forall r, In r rs -> stops r <> []) -> a_mixed_fleet a = true \/ (forall x y l, a_load_capacity a <> PList (x :: y :: l)) ->
     exists q, best_value (out_solved out) = Ok q /\ q == fleet_price g a (combine ks rs)) /\
    (forall rs1 rest, (forall n q, right_answer q (e_master (x_env X) n q)) -> span = false -> (forall r, In r rs -> stops r <> []) ->
       a_mixed_fleet a = false -> (forall x y l, a_load_capacity a <> PList (x :: y :: l)) ->
       sa_initial sa <> [] -> Permutation (sa_initial sa) (rs1 ++ rest) ->
       (forall u, In u (custs g) -> (Z.of_nat (visits u rs1) <= user_freq g u)%Z /\ ((user_freq g u <= 1)%Z -> Z.of_nat (visits u rs1) = user_freq g u)) ->
       fleet_price g a (combine ks rs) + (10000000000 # 1) * inject_Z (missing g rs)
       <= Qsum (map (route_price g a) rs1) + (10000000000 # 1) * inject_Z (missing g rs1)).
Proof.
  intros W NE GV AUX Per Drp Pre Di He Gr DS DT SS ND NC PP IR S1 S2 S3 SCH SP C So.
  assert (Gr0 : sa_greedy sa = false \/ w || pd || both = true \/ (forall D, ~ time_limit a D)) by tauto.
  set (busy := sa_cspy sa = false).
  pose proof (create_ok _ _ _ _ _ _ _ _ _ _ _ C) as (Ck & Ea & E1 & E2 & E3 & Ed & Eal & E4 & Esp & Ei & Ep & Eit & Eno & Ebo & Ehy & Ech & Edr & _).
  destruct (check_vrp_ready g _ W Ck) as (R & Cp).
  assert (Pre' : nonempty_or (sa_pre sa) (v_pre v) = []) by (unfold nonempty_or; rewrite Pre, Ep; reflexivity).
  assert (Ini' : nonempty_or (sa_initial sa) (v_initial v) = sa_initial sa) by (unfold nonempty_or; rewrite Ei; destruct (sa_initial sa); reflexivity).
  assert (Mv : a_mixed_fleet (v_args v) = a_mixed_fleet a) by (rewrite Ea; reflexivity).
  assert (Lv : a_load_capacity (v_args v) = a_load_capacity a) by (rewrite Ea; reflexivity).
  assert (NE' : a_mixed_fleet (v_args v) = false -> no_empty_costs (v_graph v)) by (rewrite Mv; intro M; apply (completion_no_empty _ _ Cp), NE; exact M).
  assert (Gn : gnodes (v_graph v) = gnodes g) by (destruct Cp as (Cp & _); exact Cp).
  assert (N1 : forall u, node_data (v_graph v) u = node_data g u) by (intro u; unfold node_data; rewrite Gn; reflexivity).
  assert (Q5 : custs (v_graph v) = custs g) by (apply completion_custs; exact Cp).
  assert (Aiff := completion_arcs_iff g _ W Cp).
  assert (UD : forall u, user_demand (v_graph v) u = user_demand g u) by (intro u; apply completion_demand; exact Cp).
  assert (UT : forall x y, user_time (v_graph v) x y = user_time g x y) by (intros; apply completion_time; exact Cp).
  assert (PPv : forall x y, user_pair (v_graph v) x y <-> user_pair g x y) by (intros; unfold user_pair; rewrite N1; tauto).
  assert (Rv : forall k r, respects (v_graph v) (v_args v) w pd both k r <-> respects g a w pd both k r).
  { intros k r. split; apply respects_same; auto; try (rewrite Ea; reflexivity); intros; symmetry; apply UT. }
  assert (Tp : truthy (Some period) = true) by (cbn; apply negb_true_iff, Z.eqb_neq; exact Per).
  assert (Odd' : nonempty_or (sa_initial sa) (v_initial v) = [] -> v_windows v || v_pickup v || v_both v || a_mixed_fleet (v_args v) || truthy (v_periodic v) = true) by (rewrite Ini', E1, E2, E3, Mv; intros _; rewrite E4, Tp; apply orb_true_r).
  assert (GV' : forall r, In r (nonempty_or (sa_initial sa) (v_initial v)) -> route_shape r /\ stops r <> []) by (rewrite Ini'; exact GV).
  assert (FRv : forall r, first_route (sa_initial sa) (v_graph v) (v_pickup v) r <-> first_route (sa_initial sa) g pd r).
  { intro r. unfold first_route. destruct (sa_initial sa); [|tauto]. rewrite E2. unfold alone. destruct pd; [|rewrite Q5; tauto].
    split; intros (x & y & Hr); exists x, y; [rewrite <- PPv|rewrite PPv]; exact Hr. }
  assert (PPx : v_pickup v = true -> proper_pairs (v_graph v)).
  { rewrite E2. intro Z. destruct (PP Z) as [Y1 Y2 Y3 Y4 Y5]. constructor.
    - intros x y Hx. rewrite Q5. apply Y1, PPv. exact Hx.
    - intros x y z Hx. rewrite PPv. apply (Y2 x), PPv. exact Hx.
    - intros x y z Hx Hy. apply (Y3 x y z); apply PPv; assumption.
    - intros x Hx. rewrite Q5 in Hx. destruct (Y4 x Hx) as (z & Hz). exists z. rewrite !PPv. exact Hz.
    - intros x y Hx. rewrite !UD. apply Y5, PPv. exact Hx. }
  assert (IR' : forall r k, first_route (nonempty_or (sa_initial sa) (v_initial v)) (v_graph v) (v_pickup v) r -> first_carrier (v_args v) (node_sum (user_demand (v_graph v)) (stops r)) k ->
    (forall c, capacity_of (v_args v) k c -> node_sum (user_demand (v_graph v)) (stops r) <= inject_Z c) ->
    (forall n, stop_limit (v_args v) n -> (0 < n)%Z) -> (forall l n, a_load_capacity (v_args v) = PList l -> In n l -> 0 < num_val n) -> respects (v_graph v) (v_args v) (v_windows v) (v_pickup v) (v_both v) k r).
  { rewrite Ini'. intros r k Hr. apply FRv in Hr. rewrite E1, E2, E3. intros Hk Hc Hst Hcp.
    assert (SD : node_sum (user_demand (v_graph v)) (stops r) == node_sum (user_demand g) (stops r)) by (apply node_sum_ext; intros; rewrite UD; reflexivity).
    assert (Sv : a_num_stops (v_args v) = a_num_stops a) by (rewrite Ea; reflexivity).
    apply Rv. apply IR.
    - exact Hr.
    - apply (first_carrier_ext _ _ _ _ SD). unfold first_carrier in *. rewrite Lv in Hk. exact Hk.
    - intros c Hc'. rewrite <- SD. apply Hc. unfold capacity_of in *. rewrite Lv. exact Hc'.
    - intros n Hn. apply Hst. unfold stop_limit in *. rewrite Sv. exact Hn.
    - intros l n. rewrite <- Lv. apply Hcp. }
  assert (START : forall a' K p, prepare v sa = Ok (a', K, p) -> forall rs pool,
     initialize (options_of v sa) (a_mixed_fleet a') (caps_arg (a_load_capacity a')) (int_arg (a_duration a')) (pr_num_stops p) (x_perms X) (nonempty_or (sa_initial sa) (v_initial v)) (pr_graph p) = Ok (rs, pool) ->
     starts v busy rs).
  { intros a' K p Hp rs pool I. exact (routes_start X sa v a' K p R NE' Hp Pre' Odd' GV' PPx IR' rs pool I _). }
  assert (Hp : exists a' K p, prepare v sa = Ok (a', K, p)).
  { unfold solve in So. apply bind_ok in So. destruct So as (((a' & K) & p) & Hp & _). eauto. }
  destruct Hp as (a' & K & p & Hp).
  destruct (any_prepared v sa a' K p R NE' Hp Pre') as (Net & NG & CG & MR & AX & FD & FZ & _ & _ & _ & FA & _).
  set (OK := ok v K busy).
  assert (Gr' : sa_greedy sa = false \/ v_windows v || v_pickup v || v_both v = true \/ (forall D, ~ time_limit (v_args v) D)) by (rewrite E1, E2, E3, Ea; exact Gr0).
  assert (DS' : 0 <= user_demand (v_graph v) Source) by (rewrite UD; exact DS).
  assert (DT' : 0 <= user_demand (v_graph v) Sink) by (rewrite UD; exact DT).
  assert (SS' : 0 <= user_service (v_graph v) Source) by (rewrite (completion_service _ _ _ Cp); exact SS).
  assert (ND' : v_pickup v = false -> nonneg_user_demands (v_graph v)) by (rewrite E2; intros Z u; rewrite UD; apply ND; exact Z).
  assert (NC' : v_pickup v = false -> v_both v = true -> forall u, 0 <= user_collect (v_graph v) u).
  { rewrite E2, E3. intros Z1 Z2 u. unfold user_collect. rewrite N1. apply (NC Z1 Z2 u). }
  assert (PP' : v_pickup v = true -> proper_pairs (v_graph v)).
  { rewrite E2. intro Z. destruct (PP Z) as [Y1 Y2 Y3 Y4 Y5]. constructor.
    - intros x y Hx. rewrite Q5. apply Y1, PPv. exact Hx.
    - intros x y z Hx. rewrite PPv. apply (Y2 x), PPv. exact Hx.
    - intros x y z Hx Hy. apply (Y3 x y z); apply PPv; assumption.
    - intros x Hx. rewrite Q5 in Hx. destruct (Y4 x Hx) as (z & Hz). exists z. rewrite !PPv. exact Hz.
    - intros x y Hx. rewrite !UD. apply Y5, PPv. exact Hx. }
  assert (S2' : sa_cspy sa = false -> v_pickup v = false -> no_circles (x_env X) \/ (v_windows v = true /\ takes_time (v_graph v))).
  { rewrite E1, E2. intros Z Zp. destruct (proj2 (S2 Z) Zp) as [Y|(Y1 & Y2)]; [left; exact Y|right; split; [exact Y1|]].
    intros x y Hx Hy Hxy. rewrite (completion_service _ _ _ Cp), UT. rewrite Q5 in Hx, Hy. apply Y2; [exact Hx|exact Hy|].
    apply Aiff, in_app_or in Hxy. destruct Hxy as [Hxy|Hxy]; [exact Hxy|]. unfold depot_arcs in Hxy. apply in_flat_map in Hxy.
    destruct Hxy as (z & _ & [Q|[Q|[]]]); injection Q as <- <-; apply in_custs in Hx, Hy; tauto. }
  assert (LW : sa_cspy sa = true -> v_windows v = true -> user_lower (v_graph v) Source <= user_upper (v_graph v) 0 Source /\
    (user_lower (v_graph v) Source <= 0 \/ user_service (v_graph v) Source <= 0)).
  { rewrite E1. intros Z Hw. unfold user_lower, user_upper, user_service. rewrite N1. apply (S3 Z). exact Hw. }
  assert (LD : sa_cspy sa = true -> v_windows v || v_pickup v || v_both v = false -> forall D, time_limit (v_args v) D ->
    forall u, user_service (v_graph v) u == 0).
  { rewrite E1, E2, E3. intros Z Ho D HD u. rewrite (completion_service _ _ _ Cp). destruct (S3 Z) as (_ & _ & Z3). apply (Z3 Ho D). unfold time_limit in *. rewrite Ea in HD. exact HD. }
  assert (AX' : forall u d, node_data (pr_graph p) u = Some d -> is_aux_depot d = false).
  { intros u d Hd. destruct (AX u d Hd) as (r & Hr & ->). apply (AUX u). rewrite <- N1. exact Hr. }
  assert (BZ' : busy -> sa_cspy sa = false /\ (sa_greedy sa = false \/ v_windows v || v_pickup v || v_both v = true)) by (rewrite E1, E2, E3; intro Z; split; [exact Z|exact Gr]).
  assert (IG : forall rs pool,
    initialize (options_of v sa) (a_mixed_fleet a') (caps_arg (a_load_capacity a')) (int_arg (a_duration a')) (pr_num_stops p) (x_perms X) (nonempty_or (sa_initial sa) (v_initial v)) (pr_graph p) = Ok (rs, pool) ->
    forall c, In c pool -> usable p OK (one_type v) c).
  { intros rs pool I. exact (initial_usable X sa v a' K p R NE' Hp Pre' Gr' DS' DT' busy (fun rs pool I => START a' K p Hp rs pool I) rs pool I). }
  assert (PG : forall rs pool,
    initialize (options_of v sa) (a_mixed_fleet a') (caps_arg (a_load_capacity a')) (int_arg (a_duration a')) (pr_num_stops p) (x_perms X) (nonempty_or (sa_initial sa) (v_initial v)) (pr_graph p) = Ok (rs, pool) ->
    forall p1 p2, (forall c, In c p1 -> usable p OK (one_type v) c) ->
    priced (x_env X) (cg_of X v sa a' K p (covered rs)) (pr_graph p) p1 p2 -> forall c, In c p2 -> usable p OK (one_type v) c).
  { intros rs pool I p1 p2 U Pr. eapply (priced_usable X sa v a' K p); eauto; intro Z; [exact (proj1 (S2 Z))|exact (proj1 (S3 Z))]. }
  destruct (per_plan X fuel fuel2 sa v v' out a' K p OK (one_type v) period Net) as (rs & ks & d & P1 & P2 & P3 & P4 & P5 & P6 & DR0 & P12 & Sch & P13 & P14 & P15 & rs0 & pool & HI & Bst); auto; [rewrite Ed; exact Drp|].
  cbv zeta. rewrite P2. rewrite map_snd_combine, map_fst_combine by apply seq_length. rewrite <- P2.
  assert (DR : sv_dropped (out_solved out) = []) by (rewrite DR0; exact Edr).
  pose proof CG as CG0. rewrite CG, Q5 in P5, P6. rewrite Q5 in FD.
  assert (F : Forall2 (fun k r => route_shape r /\ (busy -> stops r <> []) /\
    (stops r <> [] -> along (arc_list (v_graph v)) r /\ respects g a w pd both k r) /\
    (a_mixed_fleet a = true \/ (forall x y l, a_load_capacity a <> PList (x :: y :: l)) -> (k < K)%nat)) ks rs).
  { clear - P4 FA Rv Mv Lv E1 E2 E3. induction P4 as [|k r ks rs (Y1 & Y2 & Y3 & Y4 & Y5) F IH]; constructor; [|exact IH].
    rewrite Mv, Lv in Y5. destruct (route_shape_stops r Y1) as (cs & Er & Es). rewrite E1, E2, E3 in Y4. rewrite Es in Y4. unfold trip in Y4. rewrite <- Er in Y4.
    split; [exact Y1|]. split; [exact Y3|]. split; [|exact Y5]. rewrite Es. intro Ne. split; [|apply Rv; exact (Y4 Ne)].
    intros x y Hxy. destruct (FA x y (Y2 x y Hxy)) as [Z|Z]; [exact Z|]. exfalso. rewrite Er in Hxy. destruct Y1 as (cs' & Ec & _ & Nd).
    assert (cs' = cs) by (rewrite Er in Ec; unfold trip in Ec; injection Ec as Ec; apply app_inv_tail in Ec; congruence). subst cs'. exact (no_direct cs x y Ne Nd Hxy Z). }
  exists ks, d. split; [exact P1|]. split; [reflexivity|]. split; [exact P3|]. split.
  { clear - F Aiff. induction F as [|k r ks rs (Y1 & Y2 & Y3 & Y5) F IH]; constructor; [|exact IH]. split; [exact Y1|]. intro Ne. destruct (Y3 Ne) as (Z1 & Z2). split; [|exact Z2].
    intros x y Hxy. apply Aiff. exact (Z1 x y Hxy). }
  split.
  { intro Eb. clear - F Eb. induction F as [|k r ks rs (Y1 & Y2 & _) F IH]; [intros r []|]. intros r' [<-|Hr]; [exact (Y2 Eb)|exact (IH r' Hr)]. }
  split.
  { intros u Hu. assert (Hn : In u (nodes (pr_graph p))) by (rewrite NG; apply in_custs; rewrite Q5; exact Hu).
    apply node_data_In in Hn. destruct Hn as (x & Hx). pose proof (per_freq v sa a' K p R NE' Hp u x Hx) as Ef.
    assert (Eu : user_freq (v_graph v) u = user_freq g u) by (unfold user_freq; rewrite N1; reflexivity). rewrite <- Eu, <- Ef. exact (P5 u x Hx Hu). }
  split; [exact P6|]. split; [exact DR|]. split; [exact P12|]. split.
  { assert (NR : NoDup (map fst (sv_routes (out_solved out)))) by (rewrite P2, map_fst_combine by apply seq_length; apply seq_NoDup).
    destruct (schedule_right (pr_graph p) period _ _ _ _ d (net_wf _ _ Net) NR Sch SCH) as [Z|(day & [G1 G2 G3] & De & Le)]; [left; exact Z|right].
    exists day. split; [constructor|].
    - exact G1.
    - intros u i j r r' Hu Hd. apply G2; [rewrite NG; apply in_custs; rewrite Q5; exact Hu|]. rewrite FD by exact Hu. rewrite UD. exact Hd.
    - intros k n t Hn. apply G3. apply (per_fleet v sa a' K p R NE' Hp); [rewrite E4; exact Tp|]. rewrite Ea. unfold number_of in *. cbn [a_num_vehicles].
      destruct Hn as [(x & Z1 & Z2)|(l & x & Z1 & Z2)]; rewrite Z1; [left; exists x; auto|right; exists l, x; auto].
    - split; [exact De|]. assert (MF : map fst (sv_routes (out_solved out)) = seq 1 (List.length rs)) by (rewrite P2; apply map_fst_combine, seq_length).
      rewrite <- MF. intros RA day' [B1 B2 B3]. apply (Le RA). constructor.
      + exact B1.
      + intros u i j r r' Hu Hd. assert (Cu : In u (custs g)).
        { rewrite <- Q5. apply in_custs. split; [rewrite <- NG; exact Hu|]. split; intros ->; [rewrite FZ in Hd|rewrite FZ in Hd]; [discriminate|reflexivity|exact DS'|discriminate|reflexivity|exact DT']. }
        apply B2; [exact Cu|]. rewrite FD in Hd by exact Cu. rewrite UD in Hd. exact Hd.
      + intros k n t Hk. apply B3. apply (per_fleet_inv v sa a' K p R NE' Hp) in Hk; [|rewrite E4; exact Tp].
        rewrite Ea in Hk. unfold number_of in *. cbn [a_num_vehicles] in Hk. destruct Hk as [(x & Z1 & Z2)|(l & x & Z1 & Z2)]; [left|right].
        * exists x. split; [|exact Z2]. destruct (a_num_vehicles a); cbn in Z1; congruence.
        * exists l, x. split; [|exact Z2]. destruct (a_num_vehicles a); [|congruence|congruence]. injection Z1 as <-. destruct Z2 as (Z2 & _). destruct k; discriminate. }
  split.
  2:{ intros rs1 rest RA Sp Busy M0 Cap Ne0 Pm V1.
      assert (OT : one_type v) by (split; [rewrite Mv; exact M0|intros x y l; rewrite Lv; apply Cap]).
      destruct (any_types v sa a' K p R NE' Hp) as (K1 & K2 & _).
      assert (Er0 : rs0 = sa_initial sa /\ convert_from (pr_graph p) (caps_arg (a_load_capacity a')) 1 rs0 = Ok pool).
      { unfold initialize in HI. apply bind_ok in HI. destruct HI as (x & Hx & HI). apply bind_ok in HI. destruct HI as (y & Hy & HI). injection HI as <- <-. split; [|exact Hy].
        rewrite Ini' in Hx. destruct (sa_initial sa) as [|r0 l0]; [congruence|]. cbn [nonempty] in Hx. apply bind_ok in Hx. destruct Hx as (z & _ & Hx). injection Hx as <-. reflexivity. }
      destruct Er0 as (Er0 & Cv). 
      assert (Al0 : forall r, In r rs0 -> along (arc_list (pr_graph p)) r) by (intros r Hr; exact (convert_along _ _ _ _ _ Cv r Hr)).
      assert (Sh0 : forall r, In r rs0 -> route_shape r /\ along (arc_list (pr_graph p)) r) by (intros r Hr; split; [apply GV; rewrite <- Er0; exact Hr|exact (Al0 r Hr)]).
      assert (Nc : custs (pr_graph p) <> []).
      { destruct (sa_initial sa) as [|r l] eqn:Ei0; [congruence|]. assert (Hr : In r rs0) by (rewrite Er0; left; reflexivity).
        destruct (GV r) as (G1 & G2); [left; reflexivity|]. destruct (stops r) as [|u q] eqn:Es; [congruence|].
        assert (Hu : In u (stops r)) by (rewrite Es; left; reflexivity). unfold stops in Hu. apply filter_In in Hu. destruct Hu as (Hu & Ic).
        assert (Hc : In u (custs (pr_graph p))).
        { apply in_custs. split; [|split; intros ->; discriminate]. eapply along_nodes; [exact (net_wf _ _ Net)|exact G1|exact (Al0 r Hr)|exact Hu]. }
        intro Z. rewrite Z in Hc. destruct Hc. }
      assert (CGg : custs (pr_graph p) = custs g) by (rewrite <- Q5; exact CG0).
      destruct (Bst Nc RA) as (art & A1 & A2); [rewrite Esp; exact Sp|exact OT|].
      assert (FQ : forall u x, customer (pr_graph p) u x -> freq x = user_freq g u /\ In u (custs g)).
      { intros u x (Hx & U1 & U2 & _). assert (Hd : node_data (pr_graph p) u = Some x) by (apply gnodes_data; [exact (net_wf _ _ Net)|exact Hx]).
        split; [rewrite (per_freq v sa a' K p R NE' Hp u x Hd); unfold user_freq; rewrite N1; reflexivity|].
        rewrite <- CGg. apply in_custs. split; [apply node_data_In; eauto|auto]. }
      assert (CU : forall u, In u (custs g) -> exists x, customer (pr_graph p) u x).
      { intros u Hu. rewrite <- CGg in Hu. apply in_custs in Hu. destruct Hu as (Hu & U1 & U2). apply node_data_In in Hu. destruct Hu as (d0 & Hd). exists d0.
        split; [apply assoc_node_In; exact Hd|]. split; [exact U1|]. split; [exact U2|]. exact (AX' u d0 Hd). }
      set (art1 := fun u => Z.to_nat (user_freq g u - Z.of_nat (visits u rs1))).
      destruct (week_first (pr_graph p) K _ rs0 pool rs1 rest art1 Net K1 Cv Sh0) as (sel1 & W1 & Cs1).
      { rewrite Er0. exact Pm. }
      { intros u x Hx. destruct (FQ u x Hx) as (-> & Hu). destruct (V1 u Hu) as (B1 & B2). unfold art1. split; [lia|]. intro Z. rewrite (B2 Z). lia. }
      specialize (A2 sel1 art1 W1). unfold week_cost in A2. rewrite Cs1, CGg in A2.
      assert (MS : forall f (r : list (list node)), (forall u, In u (custs g) -> Z.of_nat (f u) = (user_freq g u - Z.of_nat (visits u r))%Z) ->
        Qsum_over (custs g) (fun u => inject_Z (Z.of_nat (f u))) == inject_Z (missing g r)).
      { intros f r. unfold missing, Qsum_over. generalize (custs g). induction l as [|u l IH]; intro Hf; [reflexivity|]. cbn [map fold_right]. rewrite Qsum_cons, IH by (intros; apply Hf; right; assumption).
        rewrite inject_Z_plus, (Hf u (or_introl eq_refl)). reflexivity. }
      rewrite (MS art rs), (MS art1 rs1) in A2.
      2:{ intros u Hu. destruct (V1 u Hu). unfold art1. lia. }
      2:{ intros u Hu. destruct (CU u Hu) as (x & Hx). destruct (A1 u x Hx) as (B1 & _). destruct (FQ u x Hx) as (<- & _). lia. }
      assert (PRC : forall k r, (k < K)%nat -> route_shape r -> along (arc_list (pr_graph p)) r -> stops r <> [] -> path_sum (cost_of (pr_graph p) k) r == path_sum (user_cost g k) r + price_of a k).
      { intros k r Hk Shr Alr Ne. destruct (route_shape_stops r Shr) as (cs & Ers & Es). rewrite Es in Ne.
        assert (ND0 : forall x y, In (x, y) (arcs r) -> (x, y) <> (Source, Sink)).
        { intros x y Hxy. rewrite Ers in Hxy. destruct Shr as (cs' & Ec & _ & Nd). assert (cs' = cs) by (rewrite Ers in Ec; injection Ec as Ec; apply app_inv_tail in Ec; congruence). subst cs'.
          intro Z. exact (no_direct cs x y Ne Nd Hxy Z). }
        rewrite (path_sum_ext (cost_of (pr_graph p) k) (cost_of (pr_copy p) k)) by (intros x y Hxy; rewrite (any_costs v sa a' K p R NE' Hp k x y Pre' (Alr x y Hxy)); [reflexivity|right; exact (ND0 x y Hxy)]).
        rewrite Ers. rewrite (any_route_cost v sa a' K p R NE' Hp k cs Hk Ne).
        - assert (FP : price_of (v_args v) k = price_of a k) by (rewrite Ea; reflexivity). rewrite FP.
          rewrite (path_sum_ext (user_cost (v_graph v) k) (user_cost g k)); [reflexivity|]. intros; rewrite (completion_cost _ _ _ _ _ Cp); reflexivity.
        - unfold trip in *. rewrite <- Ers. exact Shr.
        - unfold trip. rewrite <- Ers. intros x y Hxy. destruct (FA x y (Alr x y Hxy)) as [Z|Z]; [exact Z|]. exfalso. exact (ND0 x y Hxy Z). }
      assert (L1 : fleet_price g a (combine ks rs) == Qsum (map (fun x => path_sum (cost_of (pr_graph p) (fst x)) (snd x)) (combine ks rs))).
      { unfold fleet_price. apply Qsum_map_ext. intros (k & r) Hkr. cbn [fst snd]. symmetry.
        assert (Q : route_shape r /\ along (arc_list (pr_graph p)) r /\ (k < K)%nat).
        { clear - P4 F Hkr M0 Cap. revert F Hkr. induction P4 as [|k0 r0 ks rs (Y1 & Y2 & _) P4 IH]; intros F Hkr; [destruct Hkr|]. inversion F as [|? ? ? ? F1 F2]; subst.
          destruct Hkr as [E|Hkr]; [injection E as -> ->|exact (IH F2 Hkr)]. split; [exact Y1|]. split; [exact Y2|]. apply F1. right. exact Cap. }
        destruct Q as (Z1 & Z2 & Z3). apply PRC; auto. apply Busy. exact (in_combine_r _ _ _ _ Hkr). }
      assert (L2 : Qsum (map (path_sum (cost_of (pr_graph p) 0)) rs1) == Qsum (map (route_price g a) rs1)).
      { apply Qsum_map_ext. intros r Hr. assert (Hr0 : In r rs0) by (rewrite Er0; apply (Permutation_in _ (Permutation_sym Pm)), in_or_app; left; exact Hr).
        destruct (Sh0 r Hr0) as (Z1 & Z2). apply PRC; [lia|exact Z1|exact Z2|]. apply GV. rewrite <- Er0. exact Hr0. }
      rewrite L1, <- L2. exact A2. }
  intros Sp Busy Cap. set (s0 := out_solved out) in *.
  destruct (any_network v sa a' K p R NE' Hp) as (Nh & Nn & Ah).
  assert (TY : forall i r, In (i, r) (sv_routes s0) -> exists k, In (k, r) (combine ks rs) /\ dget Nat.eqb i (sv_types s0) = Some k /\ route_shape r /\ stops r <> [] /\ along (arc_list (v_graph v)) r /\ (k < K)%nat).
  { intros i r Hir. rewrite P2 in Hir. apply In_nth_error in Hir. destruct Hir as (j & Hj).
    assert (Hr : nth_error rs j = Some r /\ i = S j).
    { assert (G : forall (l : list (list node)) s j, nth_error (combine (seq s (List.length l)) l) j = Some (i, r) -> nth_error l j = Some r /\ i = (s + j)%nat).
      { clear. induction l as [|x l IH]; intros s [|j] Hj; cbn in Hj; try discriminate.
        - injection Hj as <- <-. split; [reflexivity|lia].
        - destruct (IH (S s) j Hj) as (Q1 & Q2). split; [exact Q1|lia]. }
      destruct (G rs 1%nat j Hj) as (Q1 & Q2). split; [exact Q1|lia]. }
    destruct Hr as (Hr & ->). assert (Hk : exists k, nth_error ks j = Some k).
    { destruct (nth_error ks j) as [k|] eqn:Ek; [eauto|]. apply nth_error_None in Ek. assert (j < List.length rs)%nat by (apply nth_error_Some; congruence). lia. }
    destruct Hk as (k & Hk). exists k. split; [|split; [exact (P3 j k Hk)|]].
    - clear - Hr Hk. revert Hr Hk. generalize rs ks. clear rs ks. induction j as [|j IH]; intros [|x rs] [|y ks] Hr Hk; cbn in *; try discriminate; [left; congruence|right; eapply IH; eauto].
    - assert (Fj : (fun k r => route_shape r /\ (busy -> stops r <> []) /\
        (stops r <> [] -> along (arc_list (v_graph v)) r /\ respects g a w pd both k r) /\
        (a_mixed_fleet a = true \/ (forall x y l, a_load_capacity a <> PList (x :: y :: l)) -> (k < K)%nat)) k r).
      { clear - F Hr Hk. revert F Hr Hk. generalize ks rs. clear ks rs. induction j as [|j IH]; intros ks rs F Hr Hk; inversion F; subst; cbn in *; try discriminate; [congruence|eapply IH; eauto]. }
      cbv beta in Fj. destruct Fj as (Z1 & _ & Z3 & Z5). assert (Ne : stops r <> []) by (apply Busy; exact (nth_error_In _ _ Hr)). destruct (Z3 Ne) as (Z4 & _). auto. }
  assert (KN : forall i r, In (i, r) (sv_routes s0) -> knows K (sv_copy s0) r /\ exists k, dget Nat.eqb i (sv_types s0) = Some k /\ (k < K)%nat).
  { intros i r Hir. destruct (TY i r Hir) as (k & _ & Ti & Y1 & Y2 & Y3 & Y5). split; [|exists k; auto]. rewrite P13.
    assert (Y4 : along (arc_list (pr_copy p)) r) by (intros x y Hxy; apply Ah; left; exact (Y3 x y Hxy)).
    split; [|split; [exact Y4|apply (net_costs _ _ Nh)]]. intros x Hx. eapply along_nodes; [apply (net_wf _ _ Nh)|exact Y1|exact Y4|exact Hx]. }
  assert (Sp0 : sv_span s0 = false) by (rewrite P14, Esp; exact Sp).
  destruct (results_total K s0 KN) as (_ & _ & _ & Vt). destruct (Vt (or_intror Sp0)) as (q0 & Hq0). exists q0. split; [exact Hq0|].
  destruct (value_ok s0 q0 Hq0) as (dc & m & Hd & Hm & _ & Hq). specialize (Hm Sp0). rewrite Hq, Hm, P15, Ed, DR. cbn [List.length].
  assert (Z0 : match drop with Some x => x * inject_Z (Z.of_nat 0) | None => 0 end == 0) by (destruct drop; [unfold inject_Z; cbn; ring|reflexivity]). rewrite Z0, Qplus_0_r.
  clear Z0. apply cost_ok in Hd. unfold reports in Hd. unfold fleet_price.
  assert (EQ : forall L (ks : list nat) (d : list (nat * Q)), List.length ks = List.length L -> (forall j i r k, nth_error L j = Some (i, r) -> nth_error ks j = Some k -> In (i, r) (sv_routes s0) /\ dget Nat.eqb i (sv_types s0) = Some k) ->
    Forall2 (fun x y => fst y = fst x /\ cost_report s0 (fst x) (snd x) (snd y)) L d ->
    Qsum (map snd d) == Qsum (map (fun x => path_sum (user_cost g (fst x)) (snd x) + price_of a (fst x)) (combine ks (map snd L)))).
  { clear - TY R NE' Hp Cp P13 Ea. induction L as [|(i & r) L IH]; intros ks0 d Ln HL Fd; inversion Fd as [|x y L' d' F1 F2]; subst; [destruct ks0; [reflexivity|discriminate]|].
    destruct ks0 as [|k ks0]; [discriminate|]. cbn [map snd combine fst]. rewrite !Qsum_cons. cbn [fst snd].
    rewrite (IH ks0 d'); [|cbn in Ln; lia|intros j; exact (HL (S j))|exact F2]. apply Qplus_comp; [|reflexivity].
    destruct (HL 0%nat i r k eq_refl eq_refl) as (Hir & Ti). destruct F1 as (_ & k' & F1 & F3). cbn [fst snd] in *. assert (k' = k) by congruence. subst k'. rewrite F3, P13.
    destruct (TY i r Hir) as (k2 & _ & Ti2 & Y1 & Y2 & Y3 & Y5). assert (k2 = k) by congruence. subst k2.
    destruct (route_shape_stops r Y1) as (cs & Er & Es). rewrite Es in Y2. rewrite Er in Y1, Y3 |- *.
    rewrite (any_route_cost v sa a' K p R NE' Hp k cs Y5 Y2 Y1 Y3).
    assert (FP : price_of (v_args v) k = price_of a k) by (rewrite Ea; reflexivity). rewrite FP.
    rewrite (path_sum_ext (user_cost (v_graph v) k) (user_cost g k)); [reflexivity|]. intros; rewrite (completion_cost _ _ _ _ _ Cp); reflexivity. }
  rewrite (EQ (sv_routes s0) ks dc); [|rewrite P2, combine_length, seq_length; lia| |exact Hd].
  - rewrite P2, map_snd_combine by apply seq_length. reflexivity.
  - intros j i r k Hj Hk. split; [exact (nth_error_In _ _ Hj)|]. rewrite P2 in Hj.
    assert (G : forall (l : list (list node)) s j, nth_error (combine (seq s (List.length l)) l) j = Some (i, r) -> i = (s + j)%nat).
    { clear. induction l as [|x l IH]; intros s [|j] Hj; cbn in Hj; try discriminate; [injection Hj as <- _; lia|]. specialize (IH (S s) j Hj). lia. }
    rewrite (G rs 1%nat j Hj). apply P3. exact Hk.
Qed.

(** The routes. *)
Theorem per_routes X fuel fuel2 sa g a w pd both drop all period span tabu v v' out :
  wf g -> (a_mixed_fleet a = false -> no_empty_costs g) ->
  (forall r, In r (sa_initial sa) -> route_shape r /\ stops r <> []) ->
  (forall u r, node_data g u = Some r -> r_aux_depot r = false) ->
  period <> 0%Z -> truthyQ drop = false -> sa_pre sa = [] -> sa_dive sa = false -> sa_heuristic sa = false ->
  sa_greedy sa = false \/ w || pd || both = true ->
  0 <= user_demand g Source -> 0 <= user_demand g Sink -> 0 <= user_service g Source ->
  (pd = false -> nonneg_user_demands g) -> (pd = false -> both = true -> forall u, 0 <= user_collect g u) ->
  (pd = true -> proper_pairs g) ->
  (forall r k, first_route (sa_initial sa) g pd r -> first_carrier a (node_sum (user_demand g) (stops r)) k ->
     (forall c, capacity_of a k c -> node_sum (user_demand g) (stops r) <= inject_Z c) ->
     (forall n, stop_limit a n -> (0 < n)%Z) -> (forall l n, a_load_capacity a = PList l -> In n l -> 0 < num_val n) ->
     respects g a w pd both k r) ->
  (forall n q, sound_answer q (e_master (x_env X) n q)) ->
  (sa_cspy sa = false -> (forall n tl q, sound_answer q (e_pricer (x_env X) n tl q)) /\ (pd = false -> no_circles (x_env X) \/ (w = true /\ takes_time g))) ->
  (sa_cspy sa = true -> (forall n tl h, sound_labelling h (e_label (x_env X) n tl h)) /\
     (w = true -> user_lower g Source <= user_upper g 0 Source /\ (user_lower g Source <= 0 \/ user_service g Source <= 0)) /\
     (w || pd || both = false -> forall D, time_limit a D -> forall u, user_service g u == 0)) ->
  (forall q, sound_answer q (x_days X q)) ->
  finds_paths (x_path X) ->
  create g a w pd both drop all (Some period) span tabu = Ok v -> solve X fuel fuel2 sa v = Ok (v', out) ->
  let routes := sv_routes (out_solved out) in
  let rs := map snd routes in
  exists ks, List.length ks = List.length rs /\
    map fst routes = seq 1 (List.length rs) /\
    (forall i k, nth_error ks i = Some k -> dget Nat.eqb (S i) (sv_types (out_solved out)) = Some k) /\
    Forall2 (fun k r => route_shape r /\ (stops r <> [] -> along (arc_list g ++ depot_arcs g) r /\ respects g a w pd both k r)) ks rs /\
    (sa_cspy sa = false -> forall r, In r rs -> stops r <> []) /\
    (forall u, In u (custs g) -> (Z.of_nat (visits u rs) <= user_freq g u)%Z /\
       ((user_freq g u <= 1)%Z -> Z.of_nat (visits u rs) = user_freq g u)) /\
    only_visits (custs g) rs /\ sv_dropped (out_solved out) = [] /\
    (span = false -> (forall r, In r rs -> stops r <> []) -> a_mixed_fleet a = true \/ (forall x y l, a_load_capacity a <> PList (x :: y :: l)) ->
     exists q, best_value (out_solved out) = Ok q /\ q == fleet_price g a (combine ks rs)).
Proof.
  intros H1 H2 H3 H4 H5 H6 H7 H8 H9 H10 H11 H12 H13 H14 H15 H16 H17 H18 H19 H20 H21 H22 H23 H24. cbv zeta.
  destruct (per_user _ _ _ _ _ _ _ _ _ _ _ _ _ _ _ _ _ H1 H2 H3 H4 H5 H6 H7 H8 H9 H10 H11 H12 H13 H14 H15 H16 H17 H18 H19 H20 H21 H22 H23 H24)
    as (ks & d & P1 & P2 & P3 & P4 & P5 & P6 & P7 & P8 & P9 & P10 & P11 & P12).
  exists ks. auto 20.
Qed.

(** The schedule. *)
Theorem per_days X fuel fuel2 sa g a w pd both drop all period span tabu v v' out :
  wf g -> (a_mixed_fleet a = false -> no_empty_costs g) ->
  (forall r, In r (sa_initial sa) -> route_shape r /\ stops r <> []) ->
  (forall u r, node_data g u = Some r -> r_aux_depot r = false) ->
  period <> 0%Z -> truthyQ drop = false -> sa_pre sa = [] -> sa_dive sa = false -> sa_heuristic sa = false ->
  sa_greedy sa = false \/ w || pd || both = true ->
  0 <= user_demand g Source -> 0 <= user_demand g Sink -> 0 <= user_service g Source ->
  (pd = false -> nonneg_user_demands g) -> (pd = false -> both = true -> forall u, 0 <= user_collect g u) ->
  (pd = true -> proper_pairs g) ->
  (forall r k, first_route (sa_initial sa) g pd r -> first_carrier a (node_sum (user_demand g) (stops r)) k ->
     (forall c, capacity_of a k c -> node_sum (user_demand g) (stops r) <= inject_Z c) ->
     (forall n, stop_limit a n -> (0 < n)%Z) -> (forall l n, a_load_capacity a = PList l -> In n l -> 0 < num_val n) ->
     respects g a w pd both k r) ->
  (forall n q, sound_answer q (e_master (x_env X) n q)) ->
  (sa_cspy sa = false -> (forall n tl q, sound_answer q (e_pricer (x_env X) n tl q)) /\ (pd = false -> no_circles (x_env X) \/ (w = true /\ takes_time g))) ->
  (sa_cspy sa = true -> (forall n tl h, sound_labelling h (e_label (x_env X) n tl h)) /\
     (w = true -> user_lower g Source <= user_upper g 0 Source /\ (user_lower g Source <= 0 \/ user_service g Source <= 0)) /\
     (w || pd || both = false -> forall D, time_limit a D -> forall u, user_service g u == 0)) ->
  (forall q, sound_answer q (x_days X q)) ->
  finds_paths (x_path X) ->
  create g a w pd both drop all (Some period) span tabu = Ok v -> solve X fuel fuel2 sa v = Ok (v', out) ->
  let routes := sv_routes (out_solved out) in
  let type := fun i => dget Nat.eqb i (sv_types (out_solved out)) in
  exists d, out_schedule out = Some d /\
    (d = [] \/ exists day, good_week g a period routes type day /\ describes routes day d /\
       ((forall q, right_answer q (x_days X q)) ->
        forall day', good_week g a period routes type day' ->
        forall m, spread_within period (map fst routes) day' m -> spread_within period (map fst routes) day m)).
Proof.
  intros H1 H2 H3 H4 H5 H6 H7 H8 H9 H10 H11 H12 H13 H14 H15 H16 H17 H18 H19 H20 H21 H22 H23 H24. cbv zeta.
  destruct (per_user _ _ _ _ _ _ _ _ _ _ _ _ _ _ _ _ _ H1 H2 H3 H4 H5 H6 H7 H8 H9 H10 H11 H12 H13 H14 H15 H16 H17 H18 H19 H20 H21 H22 H23 H24)
    as (ks & d & P1 & P2 & P3 & P4 & P5 & P6 & P7 & P8 & P9 & P10 & P11 & P12).
  exists d. auto.
Qed.

(** Given routes are a floor for the result. *)
Theorem per_warm X fuel fuel2 sa g a w pd both drop all period span tabu v v' out :
  wf g -> (a_mixed_fleet a = false -> no_empty_costs g) ->
  (forall r, In r (sa_initial sa) -> route_shape r /\ stops r <> []) ->
  (forall u r, node_data g u = Some r -> r_aux_depot r = false) ->
  period <> 0%Z -> truthyQ drop = false -> span = false -> a_mixed_fleet a = false -> (forall x y l, a_load_capacity a <> PList (x :: y :: l)) ->
  sa_initial sa <> [] -> sa_pre sa = [] -> sa_dive sa = false -> sa_heuristic sa = false ->
  sa_greedy sa = false \/ w || pd || both = true ->
  0 <= user_demand g Source -> 0 <= user_demand g Sink -> 0 <= user_service g Source ->
  (pd = false -> nonneg_user_demands g) -> (pd = false -> both = true -> forall u, 0 <= user_collect g u) ->
  (pd = true -> proper_pairs g) ->
  (forall r k, first_route (sa_initial sa) g pd r -> first_carrier a (node_sum (user_demand g) (stops r)) k ->
     (forall c, capacity_of a k c -> node_sum (user_demand g) (stops r) <= inject_Z c) ->
     (forall n, stop_limit a n -> (0 < n)%Z) -> (forall l n, a_load_capacity a = PList l -> In n l -> 0 < num_val n) ->
     respects g a w pd both k r) ->
  (forall n q, right_answer q (e_master (x_env X) n q)) ->
  (sa_cspy sa = false -> (forall n tl q, sound_answer q (e_pricer (x_env X) n tl q)) /\ (pd = false -> no_circles (x_env X) \/ (w = true /\ takes_time g))) ->
  (sa_cspy sa = true -> (forall n tl h, sound_labelling h (e_label (x_env X) n tl h)) /\
     (w = true -> user_lower g Source <= user_upper g 0 Source /\ (user_lower g Source <= 0 \/ user_service g Source <= 0)) /\
     (w || pd || both = false -> forall D, time_limit a D -> forall u, user_service g u == 0)) ->
  (forall q, sound_answer q (x_days X q)) ->
  finds_paths (x_path X) ->
  create g a w pd both drop all (Some period) span tabu = Ok v -> solve X fuel fuel2 sa v = Ok (v', out) ->
  let rs := map snd (sv_routes (out_solved out)) in
  (forall r, In r rs -> stops r <> []) ->
  forall rs1 rest, Permutation (sa_initial sa) (rs1 ++ rest) ->
  (forall u, In u (custs g) -> (Z.of_nat (visits u rs1) <= user_freq g u)%Z /\ ((user_freq g u <= 1)%Z -> Z.of_nat (visits u rs1) = user_freq g u)) ->
  exists q, best_value (out_solved out) = Ok q /\
    q + (10000000000 # 1) * inject_Z (missing g rs) <= Qsum (map (route_price g a) rs1) + (10000000000 # 1) * inject_Z (missing g rs1) /\
    (missing g rs1 = 0%Z -> Qsum (map (route_price g a) rs1) < q + (10000000000 # 1) ->
     q <= Qsum (map (route_price g a) rs1) /\ forall u, In u (custs g) -> Z.of_nat (visits u rs) = user_freq g u).
Proof.
  intros H1 H2 H3 H4 H5 H6 Hs Hm Hc Hi H7 H8 H9 H10 H11 H12 H13 H14 H15 H16 H17 H18 H19 H20 H21 H22 H23 H24. cbv zeta. intros Busy rs1 rest Pm V1.
  destruct (per_user _ _ _ _ _ _ _ _ _ _ _ _ _ _ _ _ _ H1 H2 H3 H4 H5 H6 H7 H8 H9 H10 H11 H12 H13 H14 H15 H16 H17 (fun n q => ra_sound _ _ (H18 n q)) H19 H20 H21 H22 H23 H24)
    as (ks & d & P1 & P2 & P3 & P4 & P5 & P6 & P7 & P8 & P9 & P10 & P11 & P12).
  destruct (P11 Hs Busy (or_intror Hc)) as (q & Q1 & Q2). exists q. split; [exact Q1|].
  assert (Le := P12 rs1 rest H18 Hs Busy Hm Hc Hi Pm V1). rewrite <- Q2 in Le. split; [exact Le|]. intros Z Lt. rewrite Z in Le. change (inject_Z 0) with 0 in Le.
  set (rs := map snd (sv_routes (out_solved out))) in *.
  assert (NN : forall l, (forall u, In u l -> In u (custs g)) -> (0 <= fold_right Z.add 0 (map (fun u => user_freq g u - Z.of_nat (visits u rs)) l))%Z /\
    (fold_right Z.add 0%Z (map (fun u => (user_freq g u - Z.of_nat (visits u rs))%Z) l) = 0%Z -> forall u, In u l -> Z.of_nat (visits u rs) = user_freq g u)).
  { induction l as [|u l IH]; intro Hl; [split; [cbn; lia|intros _ u []]|]. cbn [map fold_right]. destruct IH as (I1 & I2); [intros; apply Hl; right; assumption|].
    destruct (P6 u (Hl u (or_introl eq_refl))) as (B1 & _). split; [lia|]. intros E x [<-|Hx]; [lia|]. apply I2; [lia|exact Hx]. }
  destruct (NN (custs g) (fun u H => H)) as (M1 & M2). fold (missing g rs) in M1, M2.
  assert (M0 : missing g rs = 0%Z).
  { destruct (Z.eq_dec (missing g rs) 0) as [E|E]; [exact E|exfalso]. assert (L1 : inject_Z 1 <= inject_Z (missing g rs)) by (rewrite <- Zle_Qle; lia). change (inject_Z 1) with 1 in L1. lra. }
  split; [rewrite M0 in Le; change (inject_Z 0) with 0 in Le; lra|exact (M2 M0)].
Qed.
