(** solve() on a problem with time windows, pickups and deliveries, distribution and
    collection or several vehicle types. *)
From Verif.Base Require Import Prelude Graph.
From Verif.Spec Require Import Routes Network Inputs Feasible Prep Heuristics LinProg Pricing MIP Columns Timing Labelling Pool Master Run Plans Results Variants.
From Verif.Model Require Import Args Reach Checks Preprocess ClarkeWright Greedy Initial Pricing
  GreedyPricing LPPricing Cspy Master Dive Hyper ColGen Post Schedule Solve.
From Verif.Proofs Require Import RouteLemmas ChecksProofs FeasProofs PreLemmas PruneProofs KnapProofs LockProofs
  PresolveProofs PresolveEnd InitialProofs HeurCor PricingProofs LPProofs LPColumn LPComplete PricingCor PoolProofs PoolQuality SelectProofs MasterEnd ColGenProofs RunProofs ColGenCor ColGenEnd
  PostProofs PostCor PostEnd SolveProofs SolveHeur SolveUser ExactPool SolveExact PlanGen AnyProofs AnyPool Warm AnyBound.

(** the same figures and limits *)
Lemma respects_same g g' a a' w pd both k r : gnodes g' = gnodes g ->
  (forall x y, user_time g' x y = user_time g x y) ->
  a_load_capacity a' = a_load_capacity a -> a_num_stops a' = a_num_stops a -> a_duration a' = a_duration a ->
  respects g' a' w pd both k r -> respects g a w pd both k r.
Proof.
  intros En Et El Es Ed [Q1 Q2 Q3 Q4 Q5 Q6 Q7 Q8].
  assert (N1 : forall u, node_data g' u = node_data g u) by (intro u; unfold node_data; rewrite En; reflexivity).
  assert (ED : forall u, user_demand g' u = user_demand g u) by (intro u; unfold user_demand; rewrite N1; reflexivity).
  assert (EC : forall u, user_collect g' u = user_collect g u) by (intro u; unfold user_collect; rewrite N1; reflexivity).
  assert (ES : forall u, user_service g' u = user_service g u) by (intro u; unfold user_service; rewrite N1; reflexivity).
  assert (EP : forall u d, user_pair g u d -> user_pair g' u d) by (intros u d (x & Hx & Hr); exists x; rewrite N1; auto).
  assert (SD : forall l, node_sum (user_demand g) l == node_sum (user_demand g') l) by (intro l; apply node_sum_ext; intros; rewrite ED; reflexivity).
  assert (SC : forall l, node_sum (user_collect g) l == node_sum (user_collect g') l) by (intro l; apply node_sum_ext; intros; rewrite EC; reflexivity).
  assert (CL : forall c, capacity_of a k c -> capacity_of a' k c) by (intros c Hc; unfold capacity_of in *; rewrite El; exact Hc).
  constructor.
  - intros c Hc. rewrite SD. apply Q1, CL. exact Hc.
  - intros n Hn. apply Q2. unfold stop_limit in *. rewrite Es. exact Hn.
  - intros D HD. rewrite (path_sum_ext _ (user_time g')) by (intros; rewrite Et; reflexivity). rewrite (node_sum_ext _ (user_service g')) by (intros; rewrite ES; reflexivity).
    apply Q3. unfold time_limit in *. rewrite Ed. exact HD.
  - intro Hw. destruct (Q4 Hw) as (T & t & Ht). exists T, t. eapply timetable_ext; [| |exact Ht]; [intros; apply Et|].
    intros u _. rewrite ES. unfold user_lower, user_upper. rewrite N1. auto.
  - intros Hp u d Hd. apply Q5; auto.
  - intros Hp u d Hd. apply Q6; auto.
  - intros Hp c Hc. destruct (Q7 Hp c (CL c Hc)) as (L1 & L2). split; [|rewrite SD; exact L2]. eapply loads_ext; [|exact L1]. intros; rewrite ED; reflexivity.
  - intros Hb c Hc c1 c2 Ec. rewrite SD, SC. apply (Q8 Hb c (CL c Hc) c1 c2 Ec).
Qed.

Theorem any_core (First : list node -> Prop) (Few busy : Prop) X fuel fuel2 sa g a w pd both drop all per span tabu v v' out :
  wf g -> (a_mixed_fleet a = false -> no_empty_costs g) ->
  (forall u r, node_data g u = Some r -> r_aux_depot r = false) ->
  truthy per = false -> sa_pre sa = [] -> sa_dive sa = false -> sa_heuristic sa = false ->
  sa_greedy sa = false \/ w || pd || both = true \/ (forall D, ~ time_limit a D) ->
  0 <= user_demand g Source -> 0 <= user_demand g Sink -> 0 <= user_service g Source ->
  (pd = false -> nonneg_user_demands g) -> (pd = false -> both = true -> forall u, 0 <= user_collect g u) ->
  (pd = true -> proper_pairs g) ->
  (forall n q, sound_answer q (e_master (x_env X) n q)) ->
  (sa_cspy sa = false -> (forall n tl q, sound_answer q (e_pricer (x_env X) n tl q)) /\ (pd = false -> no_circles (x_env X) \/ (w = true /\ takes_time g))) ->
  (sa_cspy sa = true -> (forall n tl h, sound_labelling h (e_label (x_env X) n tl h)) /\
     (w = true -> user_lower g Source <= user_upper g 0 Source /\ (user_lower g Source <= 0 \/ user_service g Source <= 0)) /\
     (w || pd || both = false -> forall D, time_limit a D -> forall u, user_service g u == 0)) ->
  finds_paths (x_path X) ->
  create g a w pd both drop all per span tabu = Ok v ->
  (busy -> sa_cspy sa = false /\ (sa_greedy sa = false \/ w || pd || both = true)) ->
  (forall a' K p, prepare v sa = Ok (a', K, p) -> forall rs pool,
     initialize (options_of v sa) (a_mixed_fleet a') (caps_arg (a_load_capacity a')) (int_arg (a_duration a')) (pr_num_stops p) (x_perms X) (nonempty_or (sa_initial sa) (v_initial v)) (pr_graph p) = Ok (rs, pool) ->
     starts v busy rs /\ (forall r, First r -> In r rs /\ stops r <> []) /\ (Few -> (List.length rs <= 74)%nat)) ->
  solve X fuel fuel2 sa v = Ok (v', out) ->
  let rs := map snd (sv_routes (out_solved out)) in
  let dropped := sv_dropped (out_solved out) in
  exists ks, List.length ks = List.length rs /\
    map fst (sv_routes (out_solved out)) = seq 1 (List.length rs) /\
    (forall i k, nth_error ks i = Some k -> dget Nat.eqb (S i) (sv_types (out_solved out)) = Some k) /\
    Forall2 (fun k r => route_shape r /\ (stops r <> [] -> along (arc_list g ++ depot_arcs g) r /\ respects g a w pd both k r)) ks rs /\
    (busy -> forall r, In r rs -> stops r <> []) /\
    (forall u, In u (custs g) -> (visits u rs = 1%nat /\ ~ In u dropped) \/ (visits u rs = 0%nat /\ In u dropped)) /\
    only_visits (custs g) rs /\ NoDup dropped /\ (forall u, In u dropped -> In u (custs g)) /\
    (truthyQ drop = false -> dropped = []) /\
    (custs g <> [] -> forall k n, number_of a k n -> inject_Z (Z.of_nat (count_occ Nat.eq_dec ks k)) <= n /\
       (all = true -> inject_Z (Z.of_nat (count_occ Nat.eq_dec ks k)) == n)) /\
    out_schedule out = None /\
    (span = false -> (forall r, In r rs -> stops r <> []) -> a_mixed_fleet a = true \/ (forall x y l, a_load_capacity a <> PList (x :: y :: l)) ->
     exists q, best_value (out_solved out) = Ok q /\
       q == fleet_price g a (combine ks rs) + match drop with Some x => x * inject_Z (Z.of_nat (List.length dropped)) | None => 0 end) /\
    (a_mixed_fleet a = false -> (forall x y l, a_load_capacity a <> PList (x :: y :: l)) ->
     (forall n q, right_answer q (e_master (x_env X) n q)) -> custs g <> [] ->
     (all = true -> forall i r, In (i, r) (sv_routes (out_solved out)) -> stops r <> []) ->
     forall rs1 dr1, (forall r, In r rs1 -> First r) ->
     (forall u, In u (custs g) -> (visits u rs1 = 1%nat /\ ~ In u dr1) \/ (visits u rs1 = 0%nat /\ In u dr1)) ->
     (NoDup dr1 /\ (forall u, In u dr1 -> In u (custs g)) /\ (truthyQ drop = false -> dr1 = [])) ->
     (forall k n, number_of a k n ->
        inject_Z (Z.of_nat (if (k =? 0)%nat then List.length rs1 else 0)) <= n /\
        (all = true -> inject_Z (Z.of_nat (if (k =? 0)%nat then List.length rs1 else 0)) == n)) ->
     (span = false -> exists q, best_value (out_solved out) = Ok q /\
        q <= Qsum (map (route_price g a) rs1) + match drop with Some x => x * inject_Z (Z.of_nat (List.length dr1)) | None => 0 end) /\
     (span = true -> Few -> forall q, best_value (out_solved out) = Ok q ->
        q <= dearest g a rs1 + match drop with Some x => x * inject_Z (Z.of_nat (List.length dr1)) | None => 0 end)).
Proof.
  intros W NE AUX Per Pre Di He Gr DS DT SS ND NC PP S1 S2 S3 SP C BZ START So.
  pose proof (create_ok _ _ _ _ _ _ _ _ _ _ _ C) as (Ck & Ea & E1 & E2 & E3 & Ed & Eal & E4 & Esp & Ei & Ep & Eit & Eno & Ebo & Ehy & Ech & Edr & _).
  destruct (check_vrp_ready g _ W Ck) as (R & Cp).
  assert (Pre' : nonempty_or (sa_pre sa) (v_pre v) = []) by (unfold nonempty_or; rewrite Pre, Ep; reflexivity).
  assert (Ini' : nonempty_or (sa_initial sa) (v_initial v) = sa_initial sa) by (unfold nonempty_or; rewrite Ei; destruct (sa_initial sa); reflexivity).
  assert (Per' : truthy (v_periodic v) = false) by (rewrite E4; exact Per).
  assert (Mv : a_mixed_fleet (v_args v) = a_mixed_fleet a) by (rewrite Ea; reflexivity).
  assert (Lv : a_load_capacity (v_args v) = a_load_capacity a) by (rewrite Ea; reflexivity).
  assert (NE' : a_mixed_fleet (v_args v) = false -> no_empty_costs (v_graph v)) by (rewrite Mv; intro M; apply (completion_no_empty _ _ Cp), NE; exact M).
  assert (Gn : gnodes (v_graph v) = gnodes g) by (destruct Cp as (Cp & _); exact Cp).
  assert (N1 : forall u, node_data (v_graph v) u = node_data g u) by (intro u; unfold node_data; rewrite Gn; reflexivity).
  assert (Q5 : custs (v_graph v) = custs g) by (apply completion_custs; exact Cp).
  assert (Aiff := completion_arcs_iff g _ W Cp).
  assert (UD : forall u, user_demand (v_graph v) u = user_demand g u) by (intro u; apply completion_demand; exact Cp).
  assert (UT : forall x y, user_time (v_graph v) x y = user_time g x y) by (intros; apply completion_time; exact Cp).
  assert (PPv : forall x y, user_pair (v_graph v) x y <-> user_pair g x y) by (intros; unfold user_pair; rewrite N1; tauto).
  assert (Rv : forall k r, respects (v_graph v) (v_args v) w pd both k r <-> respects g a w pd both k r).
  { intros k r. split; apply respects_same; auto; try (rewrite Ea; reflexivity); intros; symmetry; apply UT. }
  assert (Hp : exists a' K p, prepare v sa = Ok (a', K, p)).
  { unfold solve in So. apply bind_ok in So. destruct So as (((a' & K) & p) & Hp & _). eauto. }
  destruct Hp as (a' & K & p & Hp).
  destruct (any_prepared v sa a' K p R NE' Hp Pre') as (Net & NG & CG & MR & AX & _ & _ & _ & _ & _ & FA & _).
  set (OK := ok v K busy).
  assert (Gr' : sa_greedy sa = false \/ v_windows v || v_pickup v || v_both v = true \/ (forall D, ~ time_limit (v_args v) D)) by (rewrite E1, E2, E3, Ea; exact Gr).
  assert (DS' : 0 <= user_demand (v_graph v) Source) by (rewrite UD; exact DS).
  assert (DT' : 0 <= user_demand (v_graph v) Sink) by (rewrite UD; exact DT).
  assert (SS' : 0 <= user_service (v_graph v) Source) by (rewrite (completion_service _ _ _ Cp); exact SS).
  assert (ND' : v_pickup v = false -> nonneg_user_demands (v_graph v)) by (rewrite E2; intros Z u; rewrite UD; apply ND; exact Z).
  assert (NC' : v_pickup v = false -> v_both v = true -> forall u, 0 <= user_collect (v_graph v) u).
  { rewrite E2, E3. intros Z1 Z2 u. unfold user_collect. rewrite N1. apply (NC Z1 Z2 u). }
  assert (PP' : v_pickup v = true -> proper_pairs (v_graph v)).
  { rewrite E2. intro Z. destruct (PP Z) as [Y1 Y2 Y3 Y4 Y5]. constructor.
    - intros x y Hx. rewrite Q5. apply Y1, PPv. exact Hx.
    - intros x y z Hx. rewrite PPv. apply (Y2 x), PPv. exact Hx.
    - intros x y z Hx Hy. apply (Y3 x y z); apply PPv; assumption.
    - intros x Hx. rewrite Q5 in Hx. destruct (Y4 x Hx) as (z & Hz). exists z. rewrite !PPv. exact Hz.
    - intros x y Hx. rewrite !UD. apply Y5, PPv. exact Hx. }
  assert (S2' : sa_cspy sa = false -> v_pickup v = false -> no_circles (x_env X) \/ (v_windows v = true /\ takes_time (v_graph v))).
  { rewrite E1, E2. intros Z Zp. destruct (proj2 (S2 Z) Zp) as [Y|(Y1 & Y2)]; [left; exact Y|right; split; [exact Y1|]].
    intros x y Hx Hy Hxy. rewrite (completion_service _ _ _ Cp), UT. rewrite Q5 in Hx, Hy. apply Y2; [exact Hx|exact Hy|].
    apply Aiff, in_app_or in Hxy. destruct Hxy as [Hxy|Hxy]; [exact Hxy|]. unfold depot_arcs in Hxy. apply in_flat_map in Hxy.
    destruct Hxy as (z & _ & [Q|[Q|[]]]); injection Q as <- <-; apply in_custs in Hx, Hy; tauto. }
  assert (LW : sa_cspy sa = true -> v_windows v = true -> user_lower (v_graph v) Source <= user_upper (v_graph v) 0 Source /\
    (user_lower (v_graph v) Source <= 0 \/ user_service (v_graph v) Source <= 0)).
  { rewrite E1. intros Z Hw. unfold user_lower, user_upper, user_service. rewrite N1. apply (S3 Z). exact Hw. }
  assert (LD : sa_cspy sa = true -> v_windows v || v_pickup v || v_both v = false -> forall D, time_limit (v_args v) D ->
    forall u, user_service (v_graph v) u == 0).
  { rewrite E1, E2, E3. intros Z Ho D HD u. rewrite (completion_service _ _ _ Cp). destruct (S3 Z) as (_ & _ & Z3). apply (Z3 Ho D). unfold time_limit in *. rewrite Ea in HD. exact HD. }
  assert (AX' : forall u d, node_data (pr_graph p) u = Some d -> is_aux_depot d = false).
  { intros u d Hd. destruct (AX u d Hd) as (r & Hr & ->). apply (AUX u). rewrite <- N1. exact Hr. }
  assert (BZ' : busy -> sa_cspy sa = false /\ (sa_greedy sa = false \/ v_windows v || v_pickup v || v_both v = true)) by (rewrite E1, E2, E3; exact BZ).
  assert (IG : forall rs pool,
    initialize (options_of v sa) (a_mixed_fleet a') (caps_arg (a_load_capacity a')) (int_arg (a_duration a')) (pr_num_stops p) (x_perms X) (nonempty_or (sa_initial sa) (v_initial v)) (pr_graph p) = Ok (rs, pool) ->
    forall c, In c pool -> usable p OK (one_type v) c).
  { intros rs pool I. exact (initial_usable X sa v a' K p R NE' Hp Pre' Gr' DS' DT' busy (fun rs pool I => proj1 (START a' K p Hp rs pool I)) rs pool I). }
  assert (PG : forall rs pool,
    initialize (options_of v sa) (a_mixed_fleet a') (caps_arg (a_load_capacity a')) (int_arg (a_duration a')) (pr_num_stops p) (x_perms X) (nonempty_or (sa_initial sa) (v_initial v)) (pr_graph p) = Ok (rs, pool) ->
    forall p1 p2, (forall c, In c p1 -> usable p OK (one_type v) c) ->
    priced (x_env X) (cg_of X v sa a' K p (covered rs)) (pr_graph p) p1 p2 -> forall c, In c p2 -> usable p OK (one_type v) c).
  { intros rs pool I p1 p2 U Pr. eapply (priced_usable X sa v a' K p); eauto; [intro Z|intro Z|intros; eapply (START a' K p Hp); eassumption]; [exact (proj1 (S2 Z))|exact (proj1 (S3 Z))]. }
  assert (BND : a_mixed_fleet a = false -> (forall x y l, a_load_capacity a <> PList (x :: y :: l)) ->
     (forall n q, right_answer q (e_master (x_env X) n q)) -> custs g <> [] ->
     (all = true -> forall i r, In (i, r) (sv_routes (out_solved out)) -> stops r <> []) ->
     forall rs1 dr1, (forall r, In r rs1 -> First r) ->
     (forall u, In u (custs g) -> (visits u rs1 = 1%nat /\ ~ In u dr1) \/ (visits u rs1 = 0%nat /\ In u dr1)) ->
     (NoDup dr1 /\ (forall u, In u dr1 -> In u (custs g)) /\ (truthyQ drop = false -> dr1 = [])) ->
     (forall k n, number_of a k n ->
        inject_Z (Z.of_nat (if (k =? 0)%nat then List.length rs1 else 0)) <= n /\
        (all = true -> inject_Z (Z.of_nat (if (k =? 0)%nat then List.length rs1 else 0)) == n)) ->
     (span = false -> exists q, best_value (out_solved out) = Ok q /\
        q <= Qsum (map (route_price g a) rs1) + match drop with Some x => x * inject_Z (Z.of_nat (List.length dr1)) | None => 0 end) /\
     (span = true -> Few -> forall q, best_value (out_solved out) = Ok q ->
        q <= dearest g a rs1 + match drop with Some x => x * inject_Z (Z.of_nat (List.length dr1)) | None => 0 end)).
  { intros Am Ac Ex Nc Bz rs1 dr1 B1 B2 B3 B4.
    assert (OT : one_type v) by (split; [rewrite Mv; exact Am|rewrite Lv; exact Ac]).
    assert (OK0 : forall k cs, OK k cs -> one_type v -> (k < K)%nat) by (intros k cs (_ & _ & Z) (_ & Z2); apply Z; right; exact Z2).
    assert (FR : forall rs pool,
      initialize (options_of v sa) (a_mixed_fleet a') (caps_arg (a_load_capacity a')) (int_arg (a_duration a')) (pr_num_stops p) (x_perms X) (nonempty_or (sa_initial sa) (v_initial v)) (pr_graph p) = Ok (rs, pool) ->
      (forall r, In r rs -> route_shape r) /\ (forall r, First r -> In r rs /\ stops r <> []) /\ (Few -> (List.length rs <= 74)%nat)).
    { intros rs pool I. destruct (START a' K p Hp rs pool I) as ((St & _) & Fi & Fw).
      split; [intros r Hr; destruct (St r Hr) as (cs & -> & _ & Z & _); exact Z|]. split; [exact Fi|exact Fw]. }
    assert (NVi : forall k n, number_of (v_args v) k n -> number_of a k n).
    { intros k n. rewrite Ea. unfold number_of. cbn [a_num_vehicles]. intros [(x & Z1 & Z2)|(l & x & Z1 & Z2)]; [left|right].
      - exists x. split; [|exact Z2]. destruct (a_num_vehicles a); cbn in Z1; congruence.
      - exists l, x. split; [|exact Z2]. destruct (a_num_vehicles a); [|congruence|congruence]. injection Z1 as <-. destruct Z2 as (Z2 & _). destruct k; discriminate. }
    assert (RPe : forall r, route_price (v_graph v) (v_args v) r == route_price g a r).
    { intro r. unfold route_price. replace (price_of (v_args v) 0) with (price_of a 0) by (rewrite Ea; reflexivity).
      rewrite (path_sum_ext (user_cost (v_graph v) 0) (user_cost g 0)); [reflexivity|]. intros; rewrite (completion_cost _ _ _ _ _ Cp); reflexivity. }
    assert (RPs : Qsum (map (route_price (v_graph v) (v_args v)) rs1) == Qsum (map (route_price g a) rs1)).
    { clear - RPe. induction rs1 as [|r l IH]; [reflexivity|]. cbn [map]. rewrite !Qsum_cons, IH, RPe. reflexivity. }
    assert (RPd : dearest (v_graph v) (v_args v) rs1 == dearest g a rs1).
    { clear - RPe. induction rs1 as [|r l IH]; [reflexivity|]. cbn [dearest fold_right]. fold (dearest (v_graph v) (v_args v) l). fold (dearest g a l).
      destruct (Qltb (dearest (v_graph v) (v_args v) l) (route_price (v_graph v) (v_args v) r)) eqn:T1, (Qltb (dearest g a l) (route_price g a r)) eqn:T2; auto;
        exfalso; [apply Qltb_lt in T1; apply Qltb_ge in T2|apply Qltb_ge in T1; apply Qltb_lt in T2]; specialize (RPe r); lra. }
    destruct (bound X fuel fuel2 sa v v' out a' K p OK R NE' Hp Pre' AX' Per' He Di (conj Eit (conj Eno (conj Ebo (conj Ehy Ech)))) Edr Ex SP IG PG OK0
      First Few FR So OT) with (rs1 := rs1) (dr1 := dr1) as (Z1 & Z2).
    - rewrite Q5. exact Nc.
    - rewrite Eal. exact Bz.
    - exact B1.
    - rewrite Q5. exact B2.
    - rewrite Q5, Ed. exact B3.
    - rewrite Eal. intros k n Hn. apply B4, NVi. exact Hn.
    - rewrite Esp, Ed in Z1, Z2. split.
      + intro Hs. destruct (Z1 Hs) as (q & Y1 & Y2). exists q. split; [exact Y1|]. rewrite <- RPs. exact Y2.
      + intros Hs Hf q Hq. rewrite <- RPd. apply Z2; [exact Hs|exact Hf|exact Hq]. }
  destruct (generic_plan X fuel fuel2 sa v v' out a' K p OK (one_type v) Net) as (rs & ks & dr & P1 & P2 & P3 & P4 & P5 & P6 & P7 & P8 & P9 & P10 & P11 & P12 & P13 & P14 & P15); auto.
  rewrite P2. rewrite P2 in BND. rewrite map_snd_combine, map_fst_combine by apply seq_length. cbv zeta.
  assert (DR : sv_dropped (out_solved out) = dr).
  { rewrite P10. destruct (truthyQ (v_drop v)) eqn:Et; [reflexivity|]. rewrite (P9 eq_refl). exact Edr. }
  rewrite DR, CG, Q5 in *.
  assert (F : Forall2 (fun k r => route_shape r /\ (busy -> stops r <> []) /\
    (stops r <> [] -> along (arc_list (v_graph v)) r /\ respects g a w pd both k r) /\
    (a_mixed_fleet a = true \/ (forall x y l, a_load_capacity a <> PList (x :: y :: l)) -> (k < K)%nat)) ks rs).
  { clear - P4 FA Rv Mv Lv E1 E2 E3. induction P4 as [|k r ks rs (Y1 & Y2 & Y3 & Y4 & Y5) F IH]; constructor; [|exact IH].
    rewrite Mv, Lv in Y5. destruct (route_shape_stops r Y1) as (cs & Er & Es). rewrite E1, E2, E3 in Y4. rewrite Es in Y4. unfold trip in Y4. rewrite <- Er in Y4.
    split; [exact Y1|]. split; [exact Y3|]. split; [|exact Y5]. rewrite Es. intro Ne. split; [|apply Rv; exact (Y4 Ne)].
    intros x y Hxy. destruct (FA x y (Y2 x y Hxy)) as [Z|Z]; [exact Z|]. exfalso. rewrite Er in Hxy. destruct Y1 as (cs' & Ec & _ & Nd).
    assert (cs' = cs) by (rewrite Er in Ec; unfold trip in Ec; injection Ec as Ec; apply app_inv_tail in Ec; congruence). subst cs'. exact (no_direct cs x y Ne Nd Hxy Z). }
  exists ks. split; [exact P1|]. split; [reflexivity|]. split; [exact P3|]. split.
  { clear - F Aiff. induction F as [|k r ks rs (Y1 & Y2 & Y3 & Y5) F IH]; constructor; [|exact IH]. split; [exact Y1|]. intro Ne. destruct (Y3 Ne) as (Z1 & Z2). split; [|exact Z2].
    intros x y Hxy. apply Aiff. exact (Z1 x y Hxy). }
  split.
  { intro Eb. clear - F Eb. induction F as [|k r ks rs (Y1 & Y2 & _) F IH]; [intros r []|]. intros r' [<-|Hr]; [exact (Y2 Eb)|exact (IH r' Hr)]. }
  split; [exact P5|]. split; [exact P6|]. split; [exact P7|]. split; [exact P8|]. split; [rewrite <- Ed; exact P9|]. split.
  { intros Nc k n Hn. assert (Hn' : number_of (v_args v) k n).
    { rewrite Ea. unfold number_of in *. cbn [a_num_vehicles]. destruct Hn as [(x & Z1 & Z2)|(l & x & Z1 & Z2)]; rewrite Z1; [left; exists x; auto|right; exists l, x; auto]. }
    destruct (any_fleet v sa a' K p R NE' Hp k n Per' Hn') as (l & L1 & L2). rewrite Eal in P11. apply (P11 Nc l L1); [intros ->; destruct k; discriminate|exact L2]. }
  split; [exact P12|]. split; [|exact BND]. intros Sp Busy Cap. set (s0 := out_solved out) in *.
  destruct (any_network v sa a' K p R NE' Hp) as (Nh & Nn & Ah).
  assert (TY : forall i r, In (i, r) (sv_routes s0) -> exists k, In (k, r) (combine ks rs) /\ dget Nat.eqb i (sv_types s0) = Some k /\ route_shape r /\ stops r <> [] /\ along (arc_list (v_graph v)) r /\ (k < K)%nat).
  { intros i r Hir. rewrite P2 in Hir. apply In_nth_error in Hir. destruct Hir as (j & Hj).
    assert (Hr : nth_error rs j = Some r /\ i = S j).
    { assert (G : forall (l : list (list node)) s j, nth_error (combine (seq s (List.length l)) l) j = Some (i, r) -> nth_error l j = Some r /\ i = (s + j)%nat).
      { clear. induction l as [|x l IH]; intros s [|j] Hj; cbn in Hj; try discriminate.
        - injection Hj as <- <-. split; [reflexivity|lia].
        - destruct (IH (S s) j Hj) as (Q1 & Q2). split; [exact Q1|lia]. }
      destruct (G rs 1%nat j Hj) as (Q1 & Q2). split; [exact Q1|lia]. }
    destruct Hr as (Hr & ->). assert (Hk : exists k, nth_error ks j = Some k).
    { destruct (nth_error ks j) as [k|] eqn:Ek; [eauto|]. apply nth_error_None in Ek. assert (j < List.length rs)%nat by (apply nth_error_Some; congruence). lia. }
    destruct Hk as (k & Hk). exists k. split; [|split; [exact (P3 j k Hk)|]].
    - clear - Hr Hk. revert Hr Hk. generalize rs ks. clear rs ks. induction j as [|j IH]; intros [|x rs] [|y ks] Hr Hk; cbn in *; try discriminate; [left; congruence|right; eapply IH; eauto].
    - assert (Fj : (fun k r => route_shape r /\ (busy -> stops r <> []) /\
        (stops r <> [] -> along (arc_list (v_graph v)) r /\ respects g a w pd both k r) /\
        (a_mixed_fleet a = true \/ (forall x y l, a_load_capacity a <> PList (x :: y :: l)) -> (k < K)%nat)) k r).
      { clear - F Hr Hk. revert F Hr Hk. generalize ks rs. clear ks rs. induction j as [|j IH]; intros ks rs F Hr Hk; inversion F; subst; cbn in *; try discriminate; [congruence|eapply IH; eauto]. }
      cbv beta in Fj. destruct Fj as (Z1 & _ & Z3 & Z5). assert (Ne : stops r <> []) by (apply Busy; exact (nth_error_In _ _ Hr)). destruct (Z3 Ne) as (Z4 & _). auto. }
  assert (KN : forall i r, In (i, r) (sv_routes s0) -> knows K (sv_copy s0) r /\ exists k, dget Nat.eqb i (sv_types s0) = Some k /\ (k < K)%nat).
  { intros i r Hir. destruct (TY i r Hir) as (k & _ & Ti & Y1 & Y2 & Y3 & Y5). split; [|exists k; auto]. rewrite P13.
    assert (Y4 : along (arc_list (pr_copy p)) r) by (intros x y Hxy; apply Ah; left; exact (Y3 x y Hxy)).
    split; [|split; [exact Y4|apply (net_costs _ _ Nh)]]. intros x Hx. eapply along_nodes; [apply (net_wf _ _ Nh)|exact Y1|exact Y4|exact Hx]. }
  assert (Sp0 : sv_span s0 = false) by (rewrite P14, Esp; exact Sp).
  destruct (results_total K s0 KN) as (_ & _ & _ & Vt). destruct (Vt (or_intror Sp0)) as (q0 & Hq0). exists q0. split; [exact Hq0|].
  destruct (value_ok s0 q0 Hq0) as (d & m & Hd & Hm & _ & Hq). specialize (Hm Sp0). rewrite Hq, Hm, DR, P15, Ed.
  apply Qplus_comp; [|reflexivity]. apply cost_ok in Hd. unfold reports in Hd. unfold fleet_price.
  assert (EQ : forall L (ks : list nat) (d : list (nat * Q)), List.length ks = List.length L -> (forall j i r k, nth_error L j = Some (i, r) -> nth_error ks j = Some k -> In (i, r) (sv_routes s0) /\ dget Nat.eqb i (sv_types s0) = Some k) ->
    Forall2 (fun x y => fst y = fst x /\ cost_report s0 (fst x) (snd x) (snd y)) L d ->
    Qsum (map snd d) == Qsum (map (fun x => path_sum (user_cost g (fst x)) (snd x) + price_of a (fst x)) (combine ks (map snd L)))).
  { clear - TY R NE' Hp Cp P13 Ea. induction L as [|(i & r) L IH]; intros ks0 d Ln HL Fd; inversion Fd as [|x y L' d' F1 F2]; subst; [destruct ks0; [reflexivity|discriminate]|].
    destruct ks0 as [|k ks0]; [discriminate|]. cbn [map snd combine fst]. rewrite !Qsum_cons. cbn [fst snd].
    rewrite (IH ks0 d'); [|cbn in Ln; lia|intros j; exact (HL (S j))|exact F2]. apply Qplus_comp; [|reflexivity].
    destruct (HL 0%nat i r k eq_refl eq_refl) as (Hir & Ti). destruct F1 as (_ & k' & F1 & F3). cbn [fst snd] in *. assert (k' = k) by congruence. subst k'. rewrite F3, P13.
    destruct (TY i r Hir) as (k2 & _ & Ti2 & Y1 & Y2 & Y3 & Y5). assert (k2 = k) by congruence. subst k2.
    destruct (route_shape_stops r Y1) as (cs & Er & Es). rewrite Es in Y2. rewrite Er in Y1, Y3 |- *.
    rewrite (any_route_cost v sa a' K p R NE' Hp k cs Y5 Y2 Y1 Y3).
    assert (FP : price_of (v_args v) k = price_of a k) by (rewrite Ea; reflexivity). rewrite FP.
    rewrite (path_sum_ext (user_cost (v_graph v) k) (user_cost g k)); [reflexivity|]. intros; rewrite (completion_cost _ _ _ _ _ Cp); reflexivity. }
  rewrite (EQ (sv_routes s0) ks d); [|rewrite P2, combine_length, seq_length; lia| |exact Hd].
  - rewrite P2, map_snd_combine by apply seq_length. reflexivity.
  - intros j i r k Hj Hk. split; [exact (nth_error_In _ _ Hj)|]. rewrite P2 in Hj.
    assert (G : forall (l : list (list node)) s j, nth_error (combine (seq s (List.length l)) l) j = Some (i, r) -> i = (s + j)%nat).
    { clear. induction l as [|x l IH]; intros s [|j] Hj; cbn in Hj; try discriminate; [injection Hj as <- _; lia|]. specialize (IH (S s) j Hj). lia. }
    rewrite (G rs 1%nat j Hj). apply P3. exact Hk.
Qed.

Theorem any_user X fuel fuel2 sa g a w pd both drop all per span tabu v v' out :
  wf g -> (a_mixed_fleet a = false -> no_empty_costs g) ->
  (sa_initial sa = [] -> w || pd || both || a_mixed_fleet a = true) ->
  (forall r, In r (sa_initial sa) -> route_shape r /\ stops r <> []) ->
  (forall u r, node_data g u = Some r -> r_aux_depot r = false) ->
  truthy per = false -> sa_pre sa = [] -> sa_dive sa = false -> sa_heuristic sa = false ->
  sa_greedy sa = false \/ w || pd || both = true ->
  0 <= user_demand g Source -> 0 <= user_demand g Sink -> 0 <= user_service g Source ->
  (pd = false -> nonneg_user_demands g) -> (pd = false -> both = true -> forall u, 0 <= user_collect g u) ->
  (pd = true -> proper_pairs g) ->
  (forall r k, first_route (sa_initial sa) g pd r -> first_carrier a (node_sum (user_demand g) (stops r)) k ->
     (forall c, capacity_of a k c -> node_sum (user_demand g) (stops r) <= inject_Z c) ->
     (forall n, stop_limit a n -> (0 < n)%Z) -> (forall l n, a_load_capacity a = PList l -> In n l -> 0 < num_val n) ->
     respects g a w pd both k r) ->
  (forall n q, sound_answer q (e_master (x_env X) n q)) ->
  (sa_cspy sa = false -> (forall n tl q, sound_answer q (e_pricer (x_env X) n tl q)) /\ (pd = false -> no_circles (x_env X) \/ (w = true /\ takes_time g))) ->
  (sa_cspy sa = true -> (forall n tl h, sound_labelling h (e_label (x_env X) n tl h)) /\
     (w = true -> user_lower g Source <= user_upper g 0 Source /\ (user_lower g Source <= 0 \/ user_service g Source <= 0)) /\
     (w || pd || both = false -> forall D, time_limit a D -> forall u, user_service g u == 0)) ->
  finds_paths (x_path X) ->
  create g a w pd both drop all per span tabu = Ok v -> solve X fuel fuel2 sa v = Ok (v', out) ->
  let rs := map snd (sv_routes (out_solved out)) in
  let dropped := sv_dropped (out_solved out) in
  exists ks, List.length ks = List.length rs /\
    map fst (sv_routes (out_solved out)) = seq 1 (List.length rs) /\
    (forall i k, nth_error ks i = Some k -> dget Nat.eqb (S i) (sv_types (out_solved out)) = Some k) /\
    Forall2 (fun k r => route_shape r /\ (stops r <> [] -> along (arc_list g ++ depot_arcs g) r /\ respects g a w pd both k r)) ks rs /\
    (sa_cspy sa = false -> forall r, In r rs -> stops r <> []) /\
    (forall u, In u (custs g) -> (visits u rs = 1%nat /\ ~ In u dropped) \/ (visits u rs = 0%nat /\ In u dropped)) /\
    only_visits (custs g) rs /\ NoDup dropped /\ (forall u, In u dropped -> In u (custs g)) /\
    (truthyQ drop = false -> dropped = []) /\
    (custs g <> [] -> forall k n, number_of a k n -> inject_Z (Z.of_nat (count_occ Nat.eq_dec ks k)) <= n /\
       (all = true -> inject_Z (Z.of_nat (count_occ Nat.eq_dec ks k)) == n)) /\
    out_schedule out = None /\
    (span = false -> (forall r, In r rs -> stops r <> []) -> a_mixed_fleet a = true \/ (forall x y l, a_load_capacity a <> PList (x :: y :: l)) ->
     exists q, best_value (out_solved out) = Ok q /\
       q == fleet_price g a (combine ks rs) + match drop with Some x => x * inject_Z (Z.of_nat (List.length dropped)) | None => 0 end) /\
    (a_mixed_fleet a = false -> (forall x y l, a_load_capacity a <> PList (x :: y :: l)) ->
     (forall n q, right_answer q (e_master (x_env X) n q)) -> custs g <> [] ->
     (all = true -> forall i r, In (i, r) (sv_routes (out_solved out)) -> stops r <> []) ->
     forall rs1 dr1, starting_plan g a pd drop all (sa_initial sa) rs1 dr1 ->
     (span = false -> exists q, best_value (out_solved out) = Ok q /\
        q <= Qsum (map (route_price g a) rs1) + match drop with Some x => x * inject_Z (Z.of_nat (List.length dr1)) | None => 0 end) /\
     (span = true -> few_first (sa_initial sa) g -> forall q, best_value (out_solved out) = Ok q ->
        q <= dearest g a rs1 + match drop with Some x => x * inject_Z (Z.of_nat (List.length dr1)) | None => 0 end)).
Proof.
  intros W NE Odd GV AUX Per Pre Di He Gr DS DT SS ND NC PP IR S1 S2 S3 SP C So.
  assert (Gr0 : sa_greedy sa = false \/ w || pd || both = true \/ (forall D, ~ time_limit a D)) by tauto.
  destruct (any_core (first_route (sa_initial sa) g pd) (few_first (sa_initial sa) g) (sa_cspy sa = false) X fuel fuel2 sa g a w pd both drop all per span tabu v v' out
    W NE AUX Per Pre Di He Gr0 DS DT SS ND NC PP S1 S2 S3 SP C (fun Z => conj Z Gr)) as (ks & P1 & P2 & P3 & P4 & PI & P5 & P6 & P7 & P8 & P9 & P10 & P11 & P12 & P13); [|exact So|].
  - pose proof (create_ok _ _ _ _ _ _ _ _ _ _ _ C) as (Ck & Ea & E1 & E2 & E3 & Ed & Eal & E4 & Esp & Ei & Ep & Eit & Eno & Ebo & Ehy & Ech & Edr & _).
  destruct (check_vrp_ready g _ W Ck) as (R & Cp).
  assert (Pre' : nonempty_or (sa_pre sa) (v_pre v) = []) by (unfold nonempty_or; rewrite Pre, Ep; reflexivity).
  assert (Ini' : nonempty_or (sa_initial sa) (v_initial v) = sa_initial sa) by (unfold nonempty_or; rewrite Ei; destruct (sa_initial sa); reflexivity).
  assert (Per' : truthy (v_periodic v) = false) by (rewrite E4; exact Per).
  assert (Mv : a_mixed_fleet (v_args v) = a_mixed_fleet a) by (rewrite Ea; reflexivity).
  assert (Lv : a_load_capacity (v_args v) = a_load_capacity a) by (rewrite Ea; reflexivity).
  assert (NE' : a_mixed_fleet (v_args v) = false -> no_empty_costs (v_graph v)) by (rewrite Mv; intro M; apply (completion_no_empty _ _ Cp), NE; exact M).
  assert (Gn : gnodes (v_graph v) = gnodes g) by (destruct Cp as (Cp & _); exact Cp).
  assert (N1 : forall u, node_data (v_graph v) u = node_data g u) by (intro u; unfold node_data; rewrite Gn; reflexivity).
  assert (Q5 : custs (v_graph v) = custs g) by (apply completion_custs; exact Cp).
  assert (Aiff := completion_arcs_iff g _ W Cp).
  assert (UD : forall u, user_demand (v_graph v) u = user_demand g u) by (intro u; apply completion_demand; exact Cp).
  assert (UT : forall x y, user_time (v_graph v) x y = user_time g x y) by (intros; apply completion_time; exact Cp).
  assert (PPv : forall x y, user_pair (v_graph v) x y <-> user_pair g x y) by (intros; unfold user_pair; rewrite N1; tauto).
  assert (Rv : forall k r, respects (v_graph v) (v_args v) w pd both k r <-> respects g a w pd both k r).
  { intros k r. split; apply respects_same; auto; try (rewrite Ea; reflexivity); intros; symmetry; apply UT. }
  assert (Odd' : nonempty_or (sa_initial sa) (v_initial v) = [] -> v_windows v || v_pickup v || v_both v || a_mixed_fleet (v_args v) || truthy (v_periodic v) = true) by (rewrite Ini', E1, E2, E3, Mv; intro Z; rewrite (Odd Z); reflexivity).
  assert (GV' : forall r, In r (nonempty_or (sa_initial sa) (v_initial v)) -> route_shape r /\ stops r <> []) by (rewrite Ini'; exact GV).
  assert (FRv : forall r, first_route (sa_initial sa) (v_graph v) (v_pickup v) r <-> first_route (sa_initial sa) g pd r).
  { intro r. unfold first_route. destruct (sa_initial sa); [|tauto]. rewrite E2. unfold alone. destruct pd; [|rewrite Q5; tauto].
    split; intros (x & y & Hr); exists x, y; [rewrite <- PPv|rewrite PPv]; exact Hr. }
  assert (PPx : v_pickup v = true -> proper_pairs (v_graph v)).
  { rewrite E2. intro Z. destruct (PP Z) as [Y1 Y2 Y3 Y4 Y5]. constructor.
    - intros x y Hx. rewrite Q5. apply Y1, PPv. exact Hx.
    - intros x y z Hx. rewrite PPv. apply (Y2 x), PPv. exact Hx.
    - intros x y z Hx Hy. apply (Y3 x y z); apply PPv; assumption.
    - intros x Hx. rewrite Q5 in Hx. destruct (Y4 x Hx) as (z & Hz). exists z. rewrite !PPv. exact Hz.
    - intros x y Hx. rewrite !UD. apply Y5, PPv. exact Hx. }
  assert (IR' : forall r k, first_route (nonempty_or (sa_initial sa) (v_initial v)) (v_graph v) (v_pickup v) r -> first_carrier (v_args v) (node_sum (user_demand (v_graph v)) (stops r)) k ->
    (forall c, capacity_of (v_args v) k c -> node_sum (user_demand (v_graph v)) (stops r) <= inject_Z c) ->
    (forall n, stop_limit (v_args v) n -> (0 < n)%Z) -> (forall l n, a_load_capacity (v_args v) = PList l -> In n l -> 0 < num_val n) -> respects (v_graph v) (v_args v) (v_windows v) (v_pickup v) (v_both v) k r).
  { rewrite Ini'. intros r k Hr. apply FRv in Hr. rewrite E1, E2, E3. intros Hk Hc Hst Hcp.
    assert (SD : node_sum (user_demand (v_graph v)) (stops r) == node_sum (user_demand g) (stops r)) by (apply node_sum_ext; intros; rewrite UD; reflexivity).
    assert (Sv : a_num_stops (v_args v) = a_num_stops a) by (rewrite Ea; reflexivity).
    apply Rv. apply IR.
    - exact Hr.
    - apply (first_carrier_ext _ _ _ _ SD). unfold first_carrier in *. rewrite Lv in Hk. exact Hk.
    - intros c Hc'. rewrite <- SD. apply Hc. unfold capacity_of in *. rewrite Lv. exact Hc'.
    - intros n Hn. apply Hst. unfold stop_limit in *. rewrite Sv. exact Hn.
    - intros l n. rewrite <- Lv. apply Hcp. }
  intros a' K p Hp rs pool I.
  destruct (routes_of X sa v a' K p R NE' Hp Pre' Odd' PPx rs pool I) as (Al & _).
  split; [exact (routes_start X sa v a' K p R NE' Hp Pre' Odd' GV' PPx IR' rs pool I _)|]. split.
  + intros r Hr. assert (Hin : In r rs) by (apply Al; rewrite Ini'; apply FRv; exact Hr). split; [exact Hin|].
    destruct (routes_shape X sa v a' K p R NE' Hp Pre' Odd' GV' PPx IR' rs pool I r Hin) as (cs & -> & Z1 & Z & _). rewrite (stops_trip cs Z). exact Z1.
  + intro Hf. apply (routes_few X sa v a' K p R NE' Hp Pre' Odd' PPx rs pool I). rewrite Ini'. unfold few_first, nodes in *. rewrite Gn. exact Hf.
  - exists ks. cbv zeta. split; [exact P1|]. split; [exact P2|]. split; [exact P3|]. split; [exact P4|]. split; [exact PI|].
    split; [exact P5|]. split; [exact P6|]. split; [exact P7|]. split; [exact P8|]. split; [exact P9|]. split; [exact P10|]. split; [exact P11|]. split; [exact P12|].
    intros Am Ac Ex Nc Bz rs1 dr1 [B1 B2 B3 B4]. exact (P13 Am Ac Ex Nc Bz rs1 dr1 B1 B2 B3 B4).
Qed.
