(** The routes of solve(dive=True). *)
From Verif.Base Require Import Prelude Graph.
From Verif.Spec Require Import Routes Network Inputs Feasible Prep Heuristics LinProg Pricing MIP Columns Timing Labelling Pool Master Run Plans Results Variants Plain Diving.
From Verif.Model Require Import Args Reach Checks Preprocess ClarkeWright Greedy Initial Pricing
  GreedyPricing LPPricing Cspy Master Dive Hyper ColGen Post Schedule Solve.
From Verif.Proofs Require Import RouteLemmas ChecksProofs FeasProofs PreLemmas PruneProofs KnapProofs LockProofs
  PresolveProofs PresolveEnd InitialProofs HeurCor PricingProofs LPProofs LPColumn LPComplete PricingCor PoolProofs PoolQuality SelectProofs MasterEnd ColGenProofs RunProofs ColGenCor ColGenEnd
  PostProofs PostCor PostEnd SolveProofs SolveHeur SolveUser ExactPool SolveExact PlanGen AnyProofs AnyPool Warm AnyBound AnyUser AnyCases PlainStart PlainUser DiveEnd PlanDive.

Theorem dive_core (busy : Prop) X fuel fuel2 sa g a w pd both drop all per span tabu v v' out :
  wf g -> (a_mixed_fleet a = false -> no_empty_costs g) ->
  (forall u r, node_data g u = Some r -> r_aux_depot r = false) ->
  truthy per = false -> sa_pre sa = [] -> sa_dive sa = true -> sa_heuristic sa = false ->
  sa_greedy sa = false \/ w || pd || both = true \/ (forall D, ~ time_limit a D) ->
  0 <= user_demand g Source -> 0 <= user_demand g Sink -> 0 <= user_service g Source ->
  (pd = false -> nonneg_user_demands g) -> (pd = false -> both = true -> forall u, 0 <= user_collect g u) ->
  (pd = true -> proper_pairs g) ->
  (forall n q, sound_answer q (e_master (x_env X) n q)) ->
  (forall n i q, sound_answer q (e_dive (x_env X) n i q)) -> (forall n l z, In z (e_order (x_env X) n l) -> In z l) ->
  (sa_cspy sa = false -> (forall n tl q, sound_answer q (e_pricer (x_env X) n tl q)) /\ (pd = false -> no_circles (x_env X) \/ (w = true /\ takes_time g))) ->
  (sa_cspy sa = true -> (forall n tl h, sound_labelling h (e_label (x_env X) n tl h)) /\
     (w = true -> user_lower g Source <= user_upper g 0 Source /\ (user_lower g Source <= 0 \/ user_service g Source <= 0)) /\
     (w || pd || both = false -> forall D, time_limit a D -> forall u, user_service g u == 0)) ->
  finds_paths (x_path X) ->
  create g a w pd both drop all per span tabu = Ok v ->
  (busy -> sa_cspy sa = false /\ (sa_greedy sa = false \/ w || pd || both = true)) ->
  (forall a' K p, prepare v sa = Ok (a', K, p) -> forall rs pool,
     initialize (options_of v sa) (a_mixed_fleet a') (caps_arg (a_load_capacity a')) (int_arg (a_duration a')) (pr_num_stops p) (x_perms X) (nonempty_or (sa_initial sa) (v_initial v)) (pr_graph p) = Ok (rs, pool) ->
     starts v busy rs) ->
  solve X fuel fuel2 sa v = Ok (v', out) ->
  let rs := map snd (sv_routes (out_solved out)) in
  let dropped := sv_dropped (out_solved out) in
  exists ks, List.length ks = List.length rs /\
    map fst (sv_routes (out_solved out)) = seq 1 (List.length rs) /\
    (forall i k, nth_error ks i = Some k -> dget Nat.eqb (S i) (sv_types (out_solved out)) = Some k) /\
    Forall2 (fun k r => route_shape r /\ (stops r <> [] -> along (arc_list g ++ depot_arcs g) r /\ respects g a w pd both k r)) ks rs /\
    (busy -> forall r, In r rs -> stops r <> []) /\
    ((exists n q x, feasible x q /\ a_status (e_master (x_env X) n q) <> Optimal) \/
     forall u, In u (custs g) -> (1 <= visits u rs)%nat \/ In u dropped) /\
    only_visits (custs g) rs /\ NoDup dropped /\ (forall u, In u dropped -> In u (custs g)) /\
    (truthyQ drop = false -> dropped = []) /\
    out_schedule out = None /\
    (span = false -> (forall r, In r rs -> stops r <> []) -> a_mixed_fleet a = true \/ (forall x y l, a_load_capacity a <> PList (x :: y :: l)) ->
     exists q, best_value (out_solved out) = Ok q /\
       q == fleet_price g a (combine ks rs) + match drop with Some x => x * inject_Z (Z.of_nat (List.length dropped)) | None => 0 end).
Proof.
  intros W NE AUX Per Pre Di He Gr DS DT SS ND NC PP S1 SD OR S2 S3 SP C BZ START So.
  pose proof (create_ok _ _ _ _ _ _ _ _ _ _ _ C) as (Ck & Ea & E1 & E2 & E3 & Ed & Eal & E4 & Esp & Ei & Ep & Eit & Eno & Ebo & Ehy & Ech & Edr & _).
  destruct (check_vrp_ready g _ W Ck) as (R & Cp).
  assert (Pre' : nonempty_or (sa_pre sa) (v_pre v) = []) by (unfold nonempty_or; rewrite Pre, Ep; reflexivity).
  assert (Ini' : nonempty_or (sa_initial sa) (v_initial v) = sa_initial sa) by (unfold nonempty_or; rewrite Ei; destruct (sa_initial sa); reflexivity).
  assert (Per' : truthy (v_periodic v) = false) by (rewrite E4; exact Per).
  assert (Mv : a_mixed_fleet (v_args v) = a_mixed_fleet a) by (rewrite Ea; reflexivity).
  assert (Lv : a_load_capacity (v_args v) = a_load_capacity a) by (rewrite Ea; reflexivity).
  assert (NE' : a_mixed_fleet (v_args v) = false -> no_empty_costs (v_graph v)) by (rewrite Mv; intro M; apply (completion_no_empty _ _ Cp), NE; exact M).
  assert (Gn : gnodes (v_graph v) = gnodes g) by (destruct Cp as (Cp & _); exact Cp).
  assert (N1 : forall u, node_data (v_graph v) u = node_data g u) by (intro u; unfold node_data; rewrite Gn; reflexivity).
  assert (Q5 : custs (v_graph v) = custs g) by (apply completion_custs; exact Cp).
  assert (Aiff := completion_arcs_iff g _ W Cp).
  assert (UD : forall u, user_demand (v_graph v) u = user_demand g u) by (intro u; apply completion_demand; exact Cp).
  assert (UT : forall x y, user_time (v_graph v) x y = user_time g x y) by (intros; apply completion_time; exact Cp).
  assert (PPv : forall x y, user_pair (v_graph v) x y <-> user_pair g x y) by (intros; unfold user_pair; rewrite N1; tauto).
  assert (Rv : forall k r, respects (v_graph v) (v_args v) w pd both k r <-> respects g a w pd both k r).
  { intros k r. split; apply respects_same; auto; try (rewrite Ea; reflexivity); intros; symmetry; apply UT. }
  assert (Hp : exists a' K p, prepare v sa = Ok (a', K, p)).
  { unfold solve in So. apply bind_ok in So. destruct So as (((a' & K) & p) & Hp & _). eauto. }
  destruct Hp as (a' & K & p & Hp).
  destruct (any_prepared v sa a' K p R NE' Hp Pre') as (Net & NG & CG & MR & AX & _ & _ & _ & _ & _ & FA & _).
  set (OK := ok v K busy).
  assert (Gr' : sa_greedy sa = false \/ v_windows v || v_pickup v || v_both v = true \/ (forall D, ~ time_limit (v_args v) D)) by (rewrite E1, E2, E3, Ea; exact Gr).
  assert (DS' : 0 <= user_demand (v_graph v) Source) by (rewrite UD; exact DS).
  assert (DT' : 0 <= user_demand (v_graph v) Sink) by (rewrite UD; exact DT).
  assert (SS' : 0 <= user_service (v_graph v) Source) by (rewrite (completion_service _ _ _ Cp); exact SS).
  assert (ND' : v_pickup v = false -> nonneg_user_demands (v_graph v)) by (rewrite E2; intros Z u; rewrite UD; apply ND; exact Z).
  assert (NC' : v_pickup v = false -> v_both v = true -> forall u, 0 <= user_collect (v_graph v) u).
  { rewrite E2, E3. intros Z1 Z2 u. unfold user_collect. rewrite N1. apply (NC Z1 Z2 u). }
  assert (PP' : v_pickup v = true -> proper_pairs (v_graph v)).
  { rewrite E2. intro Z. destruct (PP Z) as [Y1 Y2 Y3 Y4 Y5]. constructor.
    - intros x y Hx. rewrite Q5. apply Y1, PPv. exact Hx.
    - intros x y z Hx. rewrite PPv. apply (Y2 x), PPv. exact Hx.
    - intros x y z Hx Hy. apply (Y3 x y z); apply PPv; assumption.
    - intros x Hx. rewrite Q5 in Hx. destruct (Y4 x Hx) as (z & Hz). exists z. rewrite !PPv. exact Hz.
    - intros x y Hx. rewrite !UD. apply Y5, PPv. exact Hx. }
  assert (S2' : sa_cspy sa = false -> v_pickup v = false -> no_circles (x_env X) \/ (v_windows v = true /\ takes_time (v_graph v))).
  { rewrite E1, E2. intros Z Zp. destruct (proj2 (S2 Z) Zp) as [Y|(Y1 & Y2)]; [left; exact Y|right; split; [exact Y1|]].
    intros x y Hx Hy Hxy. rewrite (completion_service _ _ _ Cp), UT. rewrite Q5 in Hx, Hy. apply Y2; [exact Hx|exact Hy|].
    apply Aiff, in_app_or in Hxy. destruct Hxy as [Hxy|Hxy]; [exact Hxy|]. unfold depot_arcs in Hxy. apply in_flat_map in Hxy.
    destruct Hxy as (z & _ & [Q|[Q|[]]]); injection Q as <- <-; apply in_custs in Hx, Hy; tauto. }
  assert (LW : sa_cspy sa = true -> v_windows v = true -> user_lower (v_graph v) Source <= user_upper (v_graph v) 0 Source /\
    (user_lower (v_graph v) Source <= 0 \/ user_service (v_graph v) Source <= 0)).
  { rewrite E1. intros Z Hw. unfold user_lower, user_upper, user_service. rewrite N1. apply (S3 Z). exact Hw. }
  assert (LD : sa_cspy sa = true -> v_windows v || v_pickup v || v_both v = false -> forall D, time_limit (v_args v) D ->
    forall u, user_service (v_graph v) u == 0).
  { rewrite E1, E2, E3. intros Z Ho D HD u. rewrite (completion_service _ _ _ Cp). destruct (S3 Z) as (_ & _ & Z3). apply (Z3 Ho D). unfold time_limit in *. rewrite Ea in HD. exact HD. }
  assert (AX' : forall u d, node_data (pr_graph p) u = Some d -> is_aux_depot d = false).
  { intros u d Hd. destruct (AX u d Hd) as (r & Hr & ->). apply (AUX u). rewrite <- N1. exact Hr. }
  assert (BZ' : busy -> sa_cspy sa = false /\ (sa_greedy sa = false \/ v_windows v || v_pickup v || v_both v = true)) by (rewrite E1, E2, E3; exact BZ).
  assert (IG : forall rs pool,
    initialize (options_of v sa) (a_mixed_fleet a') (caps_arg (a_load_capacity a')) (int_arg (a_duration a')) (pr_num_stops p) (x_perms X) (nonempty_or (sa_initial sa) (v_initial v)) (pr_graph p) = Ok (rs, pool) ->
    forall c, In c pool -> usable p OK (one_type v) c).
  { intros rs pool I. exact (initial_usable X sa v a' K p R NE' Hp Pre' Gr' DS' DT' busy (START a' K p Hp) rs pool I). }
  assert (PG : forall rs pool,
    initialize (options_of v sa) (a_mixed_fleet a') (caps_arg (a_load_capacity a')) (int_arg (a_duration a')) (pr_num_stops p) (x_perms X) (nonempty_or (sa_initial sa) (v_initial v)) (pr_graph p) = Ok (rs, pool) ->
    forall p1 p2, (forall c, In c p1 -> usable p OK (one_type v) c) ->
    priced (x_env X) (cg_of X v sa a' K p (covered rs)) (pr_graph p) p1 p2 -> forall c, In c p2 -> usable p OK (one_type v) c).
  { intros rs pool I p1 p2 U Pr. eapply (priced_usable X sa v a' K p); eauto; [intro Z; exact (proj1 (S2 Z))|intro Z; exact (proj1 (S3 Z))]. }
  destruct (dive_plan X fuel fuel2 sa v v' out a' K p OK (one_type v) Net AX' MR Per' Pre' He Di (conj Eit (conj Eno (conj Ebo (conj Ehy Ech)))) S1 SD OR (fun Z => proj1 (S3 Z)) SP Hp IG PG So)
    as (rs & ks & dr & P1 & P2 & P3 & P4 & P6 & P7 & P8 & P9 & P10 & P5 & P12 & P13 & P14 & P15).
  rewrite P2. rewrite map_snd_combine, map_fst_combine by apply seq_length. cbv zeta.
  assert (DR : sv_dropped (out_solved out) = dr).
  { rewrite P10. destruct (truthyQ (v_drop v)) eqn:Et; [reflexivity|]. rewrite (P9 eq_refl). exact Edr. }
  rewrite DR, CG, Q5 in *.
  assert (F : Forall2 (fun k r => route_shape r /\ (busy -> stops r <> []) /\
    (stops r <> [] -> along (arc_list (v_graph v)) r /\ respects g a w pd both k r) /\
    (a_mixed_fleet a = true \/ (forall x y l, a_load_capacity a <> PList (x :: y :: l)) -> (k < K)%nat)) ks rs).
  { clear - P4 FA Rv Mv Lv E1 E2 E3. induction P4 as [|k r ks rs (Y1 & Y2 & Y3 & Y4 & Y5) F IH]; constructor; [|exact IH].
    rewrite Mv, Lv in Y5. destruct (route_shape_stops r Y1) as (cs & Er & Es). rewrite E1, E2, E3 in Y4. rewrite Es in Y4. unfold trip in Y4. rewrite <- Er in Y4.
    split; [exact Y1|]. split; [exact Y3|]. split; [|exact Y5]. rewrite Es. intro Ne. split; [|apply Rv; exact (Y4 Ne)].
    intros x y Hxy. destruct (FA x y (Y2 x y Hxy)) as [Z|Z]; [exact Z|]. exfalso. rewrite Er in Hxy. destruct Y1 as (cs' & Ec & _ & Nd).
    assert (cs' = cs) by (rewrite Er in Ec; unfold trip in Ec; injection Ec as Ec; apply app_inv_tail in Ec; congruence). subst cs'. exact (no_direct cs x y Ne Nd Hxy Z). }
  exists ks. split; [exact P1|]. split; [reflexivity|]. split; [exact P3|]. split.
  { clear - F Aiff. induction F as [|k r ks rs (Y1 & Y2 & Y3 & Y5) F IH]; constructor; [|exact IH]. split; [exact Y1|]. intro Ne. destruct (Y3 Ne) as (Z1 & Z2). split; [|exact Z2].
    intros x y Hxy. apply Aiff. exact (Z1 x y Hxy). }
  split.
  { intro Eb. clear - F Eb. induction F as [|k r ks rs (Y1 & Y2 & _) F IH]; [intros r []|]. intros r' [<-|Hr]; [exact (Y2 Eb)|exact (IH r' Hr)]. }
  split; [exact P5|]. split; [exact P6|]. split; [exact P7|]. split; [exact P8|]. split; [rewrite <- Ed; exact P9|].
  split; [exact P12|]. intros Sp Busy Cap. set (s0 := out_solved out) in *.
  destruct (any_network v sa a' K p R NE' Hp) as (Nh & Nn & Ah).
  assert (TY : forall i r, In (i, r) (sv_routes s0) -> exists k, In (k, r) (combine ks rs) /\ dget Nat.eqb i (sv_types s0) = Some k /\ route_shape r /\ stops r <> [] /\ along (arc_list (v_graph v)) r /\ (k < K)%nat).
  { intros i r Hir. rewrite P2 in Hir. apply In_nth_error in Hir. destruct Hir as (j & Hj).
    assert (Hr : nth_error rs j = Some r /\ i = S j).
    { assert (G : forall (l : list (list node)) s j, nth_error (combine (seq s (List.length l)) l) j = Some (i, r) -> nth_error l j = Some r /\ i = (s + j)%nat).
      { clear. induction l as [|x l IH]; intros s [|j] Hj; cbn in Hj; try discriminate.
        - injection Hj as <- <-. split; [reflexivity|lia].
        - destruct (IH (S s) j Hj) as (Q1 & Q2). split; [exact Q1|lia]. }
      destruct (G rs 1%nat j Hj) as (Q1 & Q2). split; [exact Q1|lia]. }
    destruct Hr as (Hr & ->). assert (Hk : exists k, nth_error ks j = Some k).
    { destruct (nth_error ks j) as [k|] eqn:Ek; [eauto|]. apply nth_error_None in Ek. assert (j < List.length rs)%nat by (apply nth_error_Some; congruence). lia. }
    destruct Hk as (k & Hk). exists k. split; [|split; [exact (P3 j k Hk)|]].
    - clear - Hr Hk. revert Hr Hk. generalize rs ks. clear rs ks. induction j as [|j IH]; intros [|x rs] [|y ks] Hr Hk; cbn in *; try discriminate; [left; congruence|right; eapply IH; eauto].
    - assert (Fj : (fun k r => route_shape r /\ (busy -> stops r <> []) /\
        (stops r <> [] -> along (arc_list (v_graph v)) r /\ respects g a w pd both k r) /\
        (a_mixed_fleet a = true \/ (forall x y l, a_load_capacity a <> PList (x :: y :: l)) -> (k < K)%nat)) k r).
      { clear - F Hr Hk. revert F Hr Hk. generalize ks rs. clear ks rs. induction j as [|j IH]; intros ks rs F Hr Hk; inversion F; subst; cbn in *; try discriminate; [congruence|eapply IH; eauto]. }
      cbv beta in Fj. destruct Fj as (Z1 & _ & Z3 & Z5). assert (Ne : stops r <> []) by (apply Busy; exact (nth_error_In _ _ Hr)). destruct (Z3 Ne) as (Z4 & _). auto. }
  assert (KN : forall i r, In (i, r) (sv_routes s0) -> knows K (sv_copy s0) r /\ exists k, dget Nat.eqb i (sv_types s0) = Some k /\ (k < K)%nat).
  { intros i r Hir. destruct (TY i r Hir) as (k & _ & Ti & Y1 & Y2 & Y3 & Y5). split; [|exists k; auto]. rewrite P13.
    assert (Y4 : along (arc_list (pr_copy p)) r) by (intros x y Hxy; apply Ah; left; exact (Y3 x y Hxy)).
    split; [|split; [exact Y4|apply (net_costs _ _ Nh)]]. intros x Hx. eapply along_nodes; [apply (net_wf _ _ Nh)|exact Y1|exact Y4|exact Hx]. }
  assert (Sp0 : sv_span s0 = false) by (rewrite P14, Esp; exact Sp).
  destruct (results_total K s0 KN) as (_ & _ & _ & Vt). destruct (Vt (or_intror Sp0)) as (q0 & Hq0). exists q0. split; [exact Hq0|].
  destruct (value_ok s0 q0 Hq0) as (d & m & Hd & Hm & _ & Hq). specialize (Hm Sp0). rewrite Hq, Hm, DR, P15, Ed.
  apply Qplus_comp; [|reflexivity]. apply cost_ok in Hd. unfold reports in Hd. unfold fleet_price.
  assert (EQ : forall L (ks : list nat) (d : list (nat * Q)), List.length ks = List.length L -> (forall j i r k, nth_error L j = Some (i, r) -> nth_error ks j = Some k -> In (i, r) (sv_routes s0) /\ dget Nat.eqb i (sv_types s0) = Some k) ->
    Forall2 (fun x y => fst y = fst x /\ cost_report s0 (fst x) (snd x) (snd y)) L d ->
    Qsum (map snd d) == Qsum (map (fun x => path_sum (user_cost g (fst x)) (snd x) + price_of a (fst x)) (combine ks (map snd L)))).
  { clear - TY R NE' Hp Cp P13 Ea. induction L as [|(i & r) L IH]; intros ks0 d Ln HL Fd; inversion Fd as [|x y L' d' F1 F2]; subst; [destruct ks0; [reflexivity|discriminate]|].
    destruct ks0 as [|k ks0]; [discriminate|]. cbn [map snd combine fst]. rewrite !Qsum_cons. cbn [fst snd].
    rewrite (IH ks0 d'); [|cbn in Ln; lia|intros j; exact (HL (S j))|exact F2]. apply Qplus_comp; [|reflexivity].
    destruct (HL 0%nat i r k eq_refl eq_refl) as (Hir & Ti). destruct F1 as (_ & k' & F1 & F3). cbn [fst snd] in *. assert (k' = k) by congruence. subst k'. rewrite F3, P13.
    destruct (TY i r Hir) as (k2 & _ & Ti2 & Y1 & Y2 & Y3 & Y5). assert (k2 = k) by congruence. subst k2.
    destruct (route_shape_stops r Y1) as (cs & Er & Es). rewrite Es in Y2. rewrite Er in Y1, Y3 |- *.
    rewrite (any_route_cost v sa a' K p R NE' Hp k cs Y5 Y2 Y1 Y3).
    assert (FP : price_of (v_args v) k = price_of a k) by (rewrite Ea; reflexivity). rewrite FP.
    rewrite (path_sum_ext (user_cost (v_graph v) k) (user_cost g k)); [reflexivity|]. intros; rewrite (completion_cost _ _ _ _ _ Cp); reflexivity. }
  rewrite (EQ (sv_routes s0) ks d); [|rewrite P2, combine_length, seq_length; lia| |exact Hd].
  - rewrite P2, map_snd_combine by apply seq_length. reflexivity.
  - intros j i r k Hj Hk. split; [exact (nth_error_In _ _ Hj)|]. rewrite P2 in Hj.
    assert (G : forall (l : list (list node)) s j, nth_error (combine (seq s (List.length l)) l) j = Some (i, r) -> i = (s + j)%nat).
    { clear. induction l as [|x l IH]; intros s [|j] Hj; cbn in Hj; try discriminate; [injection Hj as <- _; lia|]. specialize (IH (S s) j Hj). lia. }
    rewrite (G rs 1%nat j Hj). apply P3. exact Hk.
Qed.

Theorem dive_any X fuel fuel2 sa g a w pd both drop all per span tabu v v' out :
  wf g -> (a_mixed_fleet a = false -> no_empty_costs g) ->
  (sa_initial sa = [] -> w || pd || both || a_mixed_fleet a = true) ->
  (forall r, In r (sa_initial sa) -> route_shape r /\ stops r <> []) ->
  (forall u r, node_data g u = Some r -> r_aux_depot r = false) ->
  truthy per = false -> sa_pre sa = [] -> sa_dive sa = true -> sa_heuristic sa = false ->
  sa_greedy sa = false \/ w || pd || both = true ->
  0 <= user_demand g Source -> 0 <= user_demand g Sink -> 0 <= user_service g Source ->
  (pd = false -> nonneg_user_demands g) -> (pd = false -> both = true -> forall u, 0 <= user_collect g u) ->
  (pd = true -> proper_pairs g) ->
  (forall r k, first_route (sa_initial sa) g pd r -> first_carrier a (node_sum (user_demand g) (stops r)) k ->
     (forall c, capacity_of a k c -> node_sum (user_demand g) (stops r) <= inject_Z c) ->
     (forall n, stop_limit a n -> (0 < n)%Z) -> (forall l n, a_load_capacity a = PList l -> In n l -> 0 < num_val n) ->
     respects g a w pd both k r) ->
  (forall n q, sound_answer q (e_master (x_env X) n q)) ->
  (forall n i q, sound_answer q (e_dive (x_env X) n i q)) -> (forall n l z, In z (e_order (x_env X) n l) -> In z l) ->
  (sa_cspy sa = false -> (forall n tl q, sound_answer q (e_pricer (x_env X) n tl q)) /\ (pd = false -> no_circles (x_env X) \/ (w = true /\ takes_time g))) ->
  (sa_cspy sa = true -> (forall n tl h, sound_labelling h (e_label (x_env X) n tl h)) /\
     (w = true -> user_lower g Source <= user_upper g 0 Source /\ (user_lower g Source <= 0 \/ user_service g Source <= 0)) /\
     (w || pd || both = false -> forall D, time_limit a D -> forall u, user_service g u == 0)) ->
  finds_paths (x_path X) ->
  create g a w pd both drop all per span tabu = Ok v -> solve X fuel fuel2 sa v = Ok (v', out) ->
  let rs := map snd (sv_routes (out_solved out)) in
  let dropped := sv_dropped (out_solved out) in
  exists ks, List.length ks = List.length rs /\
    map fst (sv_routes (out_solved out)) = seq 1 (List.length rs) /\
    (forall i k, nth_error ks i = Some k -> dget Nat.eqb (S i) (sv_types (out_solved out)) = Some k) /\
    Forall2 (fun k r => route_shape r /\ (stops r <> [] -> along (arc_list g ++ depot_arcs g) r /\ respects g a w pd both k r)) ks rs /\
    (sa_cspy sa = false -> forall r, In r rs -> stops r <> []) /\
    ((exists n q x, feasible x q /\ a_status (e_master (x_env X) n q) <> Optimal) \/
     forall u, In u (custs g) -> (1 <= visits u rs)%nat \/ In u dropped) /\
    only_visits (custs g) rs /\ NoDup dropped /\ (forall u, In u dropped -> In u (custs g)) /\
    (truthyQ drop = false -> dropped = []) /\
    out_schedule out = None /\
    (span = false -> (forall r, In r rs -> stops r <> []) -> a_mixed_fleet a = true \/ (forall x y l, a_load_capacity a <> PList (x :: y :: l)) ->
     exists q, best_value (out_solved out) = Ok q /\
       q == fleet_price g a (combine ks rs) + match drop with Some x => x * inject_Z (Z.of_nat (List.length dropped)) | None => 0 end).
Proof.
  intros W NE Odd GV AUX Per Pre Di He Gr DS DT SS ND NC PP IR S1 SDV OR S2 S3 SP C So.
  assert (Gr0 : sa_greedy sa = false \/ w || pd || both = true \/ (forall D, ~ time_limit a D)) by tauto.
  destruct (dive_core (sa_cspy sa = false) X fuel fuel2 sa g a w pd both drop all per span tabu v v' out
    W NE AUX Per Pre Di He Gr0 DS DT SS ND NC PP S1 SDV OR S2 S3 SP C (fun Z => conj Z Gr)) as (ks & P1 & P2 & P3 & P4 & PI & P5 & P6 & P7 & P8 & P9 & P11 & P12); [|exact So|].
  - pose proof (create_ok _ _ _ _ _ _ _ _ _ _ _ C) as (Ck & Ea & E1 & E2 & E3 & Ed & Eal & E4 & Esp & Ei & Ep & Eit & Eno & Ebo & Ehy & Ech & Edr & _).
  destruct (check_vrp_ready g _ W Ck) as (R & Cp).
  assert (Pre' : nonempty_or (sa_pre sa) (v_pre v) = []) by (unfold nonempty_or; rewrite Pre, Ep; reflexivity).
  assert (Ini' : nonempty_or (sa_initial sa) (v_initial v) = sa_initial sa) by (unfold nonempty_or; rewrite Ei; destruct (sa_initial sa); reflexivity).
  assert (Per' : truthy (v_periodic v) = false) by (rewrite E4; exact Per).
  assert (Mv : a_mixed_fleet (v_args v) = a_mixed_fleet a) by (rewrite Ea; reflexivity).
  assert (Lv : a_load_capacity (v_args v) = a_load_capacity a) by (rewrite Ea; reflexivity).
  assert (NE' : a_mixed_fleet (v_args v) = false -> no_empty_costs (v_graph v)) by (rewrite Mv; intro M; apply (completion_no_empty _ _ Cp), NE; exact M).
  assert (Gn : gnodes (v_graph v) = gnodes g) by (destruct Cp as (Cp & _); exact Cp).
  assert (N1 : forall u, node_data (v_graph v) u = node_data g u) by (intro u; unfold node_data; rewrite Gn; reflexivity).
  assert (Q5 : custs (v_graph v) = custs g) by (apply completion_custs; exact Cp).
  assert (Aiff := completion_arcs_iff g _ W Cp).
  assert (UD : forall u, user_demand (v_graph v) u = user_demand g u) by (intro u; apply completion_demand; exact Cp).
  assert (UT : forall x y, user_time (v_graph v) x y = user_time g x y) by (intros; apply completion_time; exact Cp).
  assert (PPv : forall x y, user_pair (v_graph v) x y <-> user_pair g x y) by (intros; unfold user_pair; rewrite N1; tauto).
  assert (Rv : forall k r, respects (v_graph v) (v_args v) w pd both k r <-> respects g a w pd both k r).
  { intros k r. split; apply respects_same; auto; try (rewrite Ea; reflexivity); intros; symmetry; apply UT. }
  assert (Odd' : nonempty_or (sa_initial sa) (v_initial v) = [] -> v_windows v || v_pickup v || v_both v || a_mixed_fleet (v_args v) || truthy (v_periodic v) = true) by (rewrite Ini', E1, E2, E3, Mv; intro Z; rewrite (Odd Z); reflexivity).
  assert (GV' : forall r, In r (nonempty_or (sa_initial sa) (v_initial v)) -> route_shape r /\ stops r <> []) by (rewrite Ini'; exact GV).
  assert (FRv : forall r, first_route (sa_initial sa) (v_graph v) (v_pickup v) r <-> first_route (sa_initial sa) g pd r).
  { intro r. unfold first_route. destruct (sa_initial sa); [|tauto]. rewrite E2. unfold alone. destruct pd; [|rewrite Q5; tauto].
    split; intros (x & y & Hr); exists x, y; [rewrite <- PPv|rewrite PPv]; exact Hr. }
  assert (PPx : v_pickup v = true -> proper_pairs (v_graph v)).
  { rewrite E2. intro Z. destruct (PP Z) as [Y1 Y2 Y3 Y4 Y5]. constructor.
    - intros x y Hx. rewrite Q5. apply Y1, PPv. exact Hx.
    - intros x y z Hx. rewrite PPv. apply (Y2 x), PPv. exact Hx.
    - intros x y z Hx Hy. apply (Y3 x y z); apply PPv; assumption.
    - intros x Hx. rewrite Q5 in Hx. destruct (Y4 x Hx) as (z & Hz). exists z. rewrite !PPv. exact Hz.
    - intros x y Hx. rewrite !UD. apply Y5, PPv. exact Hx. }
  assert (IR' : forall r k, first_route (nonempty_or (sa_initial sa) (v_initial v)) (v_graph v) (v_pickup v) r -> first_carrier (v_args v) (node_sum (user_demand (v_graph v)) (stops r)) k ->
    (forall c, capacity_of (v_args v) k c -> node_sum (user_demand (v_graph v)) (stops r) <= inject_Z c) ->
    (forall n, stop_limit (v_args v) n -> (0 < n)%Z) -> (forall l n, a_load_capacity (v_args v) = PList l -> In n l -> 0 < num_val n) -> respects (v_graph v) (v_args v) (v_windows v) (v_pickup v) (v_both v) k r).
  { rewrite Ini'. intros r k Hr. apply FRv in Hr. rewrite E1, E2, E3. intros Hk Hc Hst Hcp.
    assert (SD : node_sum (user_demand (v_graph v)) (stops r) == node_sum (user_demand g) (stops r)) by (apply node_sum_ext; intros; rewrite UD; reflexivity).
    assert (Sv : a_num_stops (v_args v) = a_num_stops a) by (rewrite Ea; reflexivity).
    apply Rv. apply IR.
    - exact Hr.
    - apply (first_carrier_ext _ _ _ _ SD). unfold first_carrier in *. rewrite Lv in Hk. exact Hk.
    - intros c Hc'. rewrite <- SD. apply Hc. unfold capacity_of in *. rewrite Lv. exact Hc'.
    - intros n Hn. apply Hst. unfold stop_limit in *. rewrite Sv. exact Hn.
    - intros l n. rewrite <- Lv. apply Hcp. }
  intros a' K p Hp rs pool I.
  exact (routes_start X sa v a' K p R NE' Hp Pre' Odd' GV' PPx IR' rs pool I _).
  - exists ks. cbv zeta. split; [exact P1|]. split; [exact P2|]. split; [exact P3|]. split; [exact P4|]. split; [exact PI|].
    split; [exact P5|]. split; [exact P6|]. split; [exact P7|]. split; [exact P8|]. split; [exact P9|]. split; [exact P11|]. exact P12.
Qed.

Lemma visited_route u (routes : list (nat * list node)) : (1 <= visits u (map snd routes))%nat -> exists i r, In (i, r) routes /\ In u r.
Proof.
  induction routes as [|(i & r) l IH]; cbn [map visits snd]; intro H; [lia|].
  destruct (in_dec node_eq_dec u r) as [Hu|Hu]; [exists i, r; split; [left; reflexivity|exact Hu]|].
  destruct IH as (j & r' & H1 & H2); [|exists j, r'; split; [right; exact H1|exact H2]].
  rewrite (proj1 (count_occ_not_In _ _ _) Hu) in H. exact H.
Qed.

Theorem dive_user X fuel fuel2 sa g a w pd both drop all per span tabu v v' out :
  wf g -> (a_mixed_fleet a = false -> no_empty_costs g) ->
  (sa_initial sa = [] -> w || pd || both || a_mixed_fleet a = true) ->
  (forall r, In r (sa_initial sa) -> route_shape r /\ stops r <> []) ->
  (forall u r, node_data g u = Some r -> r_aux_depot r = false) ->
  truthy per = false -> sa_pre sa = [] -> sa_dive sa = true -> sa_heuristic sa = false ->
  sa_greedy sa = false \/ w || pd || both = true ->
  0 <= user_demand g Source -> 0 <= user_demand g Sink -> 0 <= user_service g Source ->
  (pd = false -> nonneg_user_demands g) -> (pd = false -> both = true -> forall u, 0 <= user_collect g u) ->
  (pd = true -> proper_pairs g) ->
  (forall r k, first_route (sa_initial sa) g pd r -> first_carrier a (node_sum (user_demand g) (stops r)) k ->
     respects g a w pd both k r) ->
  (forall n q, sound_answer q (e_master (x_env X) n q)) ->
  (forall n i q, sound_answer q (e_dive (x_env X) n i q)) ->
  (forall n l z, In z (e_order (x_env X) n l) -> In z l) ->
  (sa_cspy sa = false -> (forall n tl q, sound_answer q (e_pricer (x_env X) n tl q)) /\
     (pd = false -> no_circles (x_env X) \/ (w = true /\ takes_time g))) ->
  (sa_cspy sa = true -> (forall n tl h, sound_labelling h (e_label (x_env X) n tl h)) /\
     (w = true -> opens_well g) /\
     (w || pd || both = false -> forall D, time_limit a D -> forall u, user_service g u == 0)) ->
  finds_paths (x_path X) ->
  create g a w pd both drop all per span tabu = Ok v -> solve X fuel fuel2 sa v = Ok (v', out) ->
  let s := out_solved out in
  exists ks, driven g a w pd both drop (sv_routes s) (fun i => dget Nat.eqb i (sv_types s)) (sv_dropped s) ks /\
    (sa_cspy sa = false -> nobody_idle (sv_routes s)) /\
    ((exists n q x, feasible x q /\ a_status (e_master (x_env X) n q) <> Optimal) \/
     nobody_lost g (sv_routes s) (sv_dropped s)) /\
    out_schedule out = None /\
    (span = false -> nobody_idle (sv_routes s) -> a_mixed_fleet a = true \/ (forall x y l, a_load_capacity a <> PList (x :: y :: l)) ->
     exists q, best_value s = Ok q /\ q == plan_cost g a drop ks (sv_routes s) (sv_dropped s)).
Proof.
  intros W NE Odd GV AUX Per Pre Di He Gr DS DT SS ND NC PP IR S1 SDV OR S2 S3 SP C So s.
  destruct (dive_any X fuel fuel2 sa g a w pd both drop all per span tabu v v' out W NE Odd GV AUX Per Pre Di He Gr DS DT SS ND NC PP
    (fun r k Hr Hk _ _ _ => IR r k Hr Hk) S1 SDV OR S2 S3 SP C So) as (ks & P1 & P2 & P3 & P4 & PI & P5 & P6 & P7 & P8 & P9 & P11 & P12).
  fold s in P1, P2, P3, P4, PI, P5, P6, P7, P8, P9, P12.
  exists ks. rewrite map_length in P1, P2. split; [constructor; auto|]. split; [intro Z; apply idle_routes, PI; exact Z|].
  split; [destruct P5 as [P5|P5]; [left; exact P5|right; intros u Hu; destruct (P5 u Hu) as [Q|Q]; [left; exact (visited_route u _ Q)|right; exact Q]]|].
  split; [exact P11|]. intros Z1 Z2. apply P12; [exact Z1|]. apply idle_routes. exact Z2.
Qed.

Theorem dive_plain X fuel fuel2 sa g a drop all per span tabu v v' out :
  wf g -> a_mixed_fleet a = false -> no_empty_costs g -> nonneg_user_demands g ->
  (forall u r, node_data g u = Some r -> r_aux_depot r = false) ->
  truthy per = false -> sa_pre sa = [] -> sa_initial sa = [] -> sa_dive sa = true -> sa_heuristic sa = false ->
  sa_greedy sa = false \/ (forall D, ~ time_limit a D) ->
  0 <= user_service g Source -> fair_times g a ->
  (forall x l, Permutation l (x_perms X x l)) ->
  (forall n q, sound_answer q (e_master (x_env X) n q)) ->
  (forall n i q, sound_answer q (e_dive (x_env X) n i q)) ->
  (forall n l z, In z (e_order (x_env X) n l) -> In z l) ->
  (sa_cspy sa = false -> (forall n tl q, sound_answer q (e_pricer (x_env X) n tl q)) /\ no_circles (x_env X)) ->
  (sa_cspy sa = true -> (forall n tl h, sound_labelling h (e_label (x_env X) n tl h)) /\
     (forall D, time_limit a D -> forall u, user_service g u == 0)) ->
  finds_paths (x_path X) ->
  create g a false false false drop all per span tabu = Ok v -> solve X fuel fuel2 sa v = Ok (v', out) ->
  let s := out_solved out in
  exists ks, driven g a false false false drop (sv_routes s) (fun i => dget Nat.eqb i (sv_types s)) (sv_dropped s) ks /\
    (sa_cspy sa = false -> sa_greedy sa = false -> (forall x y l, a_load_capacity a <> PList (x :: y :: l)) ->
     nobody_idle (sv_routes s)) /\
    ((exists n q x, feasible x q /\ a_status (e_master (x_env X) n q) <> Optimal) \/
     nobody_lost g (sv_routes s) (sv_dropped s)) /\
    out_schedule out = None /\
    (span = false -> nobody_idle (sv_routes s) -> (forall x y l, a_load_capacity a <> PList (x :: y :: l)) ->
     exists q, best_value s = Ok q /\ q == plan_cost g a drop ks (sv_routes s) (sv_dropped s)).
Proof.
  intros W M NE ND AUX Per Pre Ini Di He Gr SS FA HP S1 SDV OR S2 S3 SP C So s.
  destruct (dive_core (all_busy sa a) X fuel fuel2 sa g a false false false drop all per span tabu v v' out W (fun _ => NE) AUX Per Pre Di He) as (ks & P1 & P2 & P3 & P4 & PI & P5 & P6 & P7 & P8 & P9 & P11 & P12); auto; try discriminate.
  { destruct Gr as [Z|Z]; auto. }
  { intro Z. split; [apply (S2 Z)|]. intros _. left. apply (S2 Z). }
  { intro Z. split; [apply (S3 Z)|]. split; [discriminate|]. intros _. apply (S3 Z). }
  { intros (Z1 & Z2 & _). auto. }
  { intros a' K p Hp rs pool I. apply (plain_start X sa g a drop all per span tabu v W M NE ND Per Pre Ini FA HP C a' K p Hp rs pool I). }
  fold s in P1, P2, P3, P4, PI, P5, P6, P7, P8, P9, P12.
  exists ks. rewrite map_length in P1, P2. split; [constructor; auto|]. split; [intros Z1 Z2 Z3; apply idle_routes, PI; repeat split; auto|].
  split; [destruct P5 as [P5|P5]; [left; exact P5|right; intros u Hu; destruct (P5 u Hu) as [Q|Q]; [left; exact (visited_route u _ Q)|right; exact Q]]|].
  split; [exact P11|]. intros Z1 Z2 Z3. apply P12; [exact Z1| |right; exact Z3]. apply idle_routes. exact Z2.
Qed.
