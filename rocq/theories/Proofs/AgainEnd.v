(** The second call of solve() on an object. *)
From Verif.Base Require Import Prelude Graph.
From Verif.Spec Require Import Routes Network Inputs Feasible Prep LinProg Plans Run.
From Verif.Model Require Import Args Reach Checks Preprocess ClarkeWright Greedy Initial Pricing
  GreedyPricing LPPricing Cspy Master Dive Hyper ColGen Post Schedule Solve.
From Verif.Proofs Require Import RouteLemmas ChecksProofs FeasProofs PreLemmas PresolveProofs HeurCor ColGenProofs RunProofs
  BoundProofs SolveProofs SolveHeur SolveUser AgainProofs.

(** What a call leaves in the object. *)
Lemma solve_object X fuel fuel2 sa v v1 out : solve X fuel fuel2 sa v = Ok (v1, out) ->
  exists a K p gx, prepare v sa = Ok (a, K, p) /\ v_graph v1 = raw_of gx /\ strip gx = strip (pr_graph p) /\
    v_args v1 = args_after a (v_pickup v) (v_periodic v) p /\
    v_windows v1 = v_windows v /\ v_pickup v1 = v_pickup v /\ v_both v1 = v_both v /\ v_drop v1 = v_drop v /\
    v_all v1 = v_all v /\ v_periodic v1 = v_periodic v /\ v_span v1 = v_span v /\
    v_initial v1 = nonempty_or (sa_initial sa) (v_initial v) /\ v_pre v1 = nonempty_or (sa_pre sa) (v_pre v).
Proof.
  intro H. unfold solve in H. apply bind_ok in H. destruct H as (((a & K) & p) & HP & H). exists a, K, p.
  destruct (sa_heuristic sa).
  - apply bind_ok in H. destruct H as (r & _ & H). cbv zeta in H. apply Ok_inj in H. apply (f_equal fst) in H. cbn [fst] in H. subst v1.
    exists (pr_graph p). cbn. repeat (split; [solve [auto]|]). auto.
  - apply bind_ok in H. destruct H as ((rs & pool) & HI & H). apply bind_ok in H. destruct H as (s & Hs & H).
    apply bind_ok in H. destruct H as (e & He & H). apply bind_ok in H. destruct H as ((((routes & types) & dr) & sch) & _ & H).
    apply Ok_inj in H. apply (f_equal fst) in H. cbn [fst] in H. subst v1. exists (s_graph (fst e)).
    cbn [v_graph v_args v_windows v_pickup v_both v_drop v_all v_periodic v_span v_initial v_pre]. split; [exact HP|]. split; [reflexivity|].
    split; [|repeat (split; [reflexivity|]); reflexivity]. cbn [fst snd] in Hs, He.
    set (C := cg_of X v sa a K p (covered rs)) in *. unfold start in Hs. apply bind_ok in Hs. destruct Hs as (m & Hm & Hs).
    assert (I : inv C (pr_graph p) s) by (injection Hs as <-; eapply initial_inv; [exact HI|exact Hm|reflexivity|reflexivity|reflexivity]).
    clear Hs. unfold solve_columns in He. apply bind_ok in He. destruct He as (s1 & H1 & He). apply bind_ok in He. destruct He as (r & _ & He).
    apply Ok_inj in He. subst e. cbn [fst]. destruct (sa_dive sa).
    + unfold generate_and_dive in H1. apply bind_ok in H1. destruct H1 as (s0 & H0 & H1).
      apply generation_is_run in H0. destruct H0 as (n & _ & H0). apply generation_is_run in H1. destruct H1 as (n' & _ & H1).
      destruct (run_ok _ _ _ _ _ _ H0 I) as (I0 & _). destruct (run_ok _ _ _ _ _ _ H1 (inv_dive _ _ _ I0)) as (I1 & _). exact (iv_graph _ _ _ I1).
    + apply generation_is_run in H1. destruct H1 as (n & _ & H1). destruct (run_ok _ _ _ _ _ _ H1 I) as (I1 & _). exact (iv_graph _ _ _ I1).
Qed.

Section User.
  Variables (X : outside) (fuel fuel2 : nat) (sa : solve_args) (g : rgraph) (a0 : rargs).
  Variables (pickup both : bool) (drop : option Q) (all : bool) (periodic : option Z) (span : bool) (tabu : list mvar).
  Variables (v v1 : vrp) (out : outcome).
  Hypothesis W : wf g.
  Hypothesis C : create g a0 false pickup both drop all periodic span tabu = Ok v.
  Hypothesis H : solve X fuel fuel2 sa v = Ok (v1, out).
  Hypothesis PA : sa_pre sa = [].
  Hypothesis FC : py_truthy (a_fixed_cost a0) = false.
  Hypothesis NV : truthy periodic && py_truthy (a_num_vehicles a0) = false.
  Hypothesis DU : forall D, time_limit a0 D -> (forall u w, 0 <= user_time g u w) /\
    forall u, In u (custs g) -> user_time g Source u + user_time g u Sink <= inject_Z D.

  Lemma second_prepare : exists a1 K p, prepare v sa = Ok (a1, K, p) /\
    prepare v1 sa = Ok (args_after a1 pickup periodic p, K, same_prepared p) /\
    v_graph v1 = raw_of (pr_graph p) /\ v_args v1 = args_after a1 pickup periodic p /\
    wf (pr_graph p) /\ truthy periodic && py_truthy (a_num_vehicles a1) = false /\
    options_of v1 sa = options_of v sa /\ v_windows v1 = false /\ v_pickup v1 = pickup /\ v_both v1 = both /\
    v_drop v1 = drop /\ v_all v1 = all /\ v_periodic v1 = periodic /\ v_span v1 = span /\
    v_initial v1 = sa_initial sa /\ v_pre v1 = [].
  Proof.
    pose proof (create_ok _ _ _ _ _ _ _ _ _ _ _ C) as (Ck & Ea & E1 & E2 & E3 & Ed & Eal & E4 & Esp & Ei & Ep & _).
    destruct (check_vrp_ready g _ W Ck) as (R & Cp).
    destruct (solve_object _ _ _ _ _ _ _ H) as (a1 & K & p & gx & HP & G1 & G2 & A1 & B1 & B2 & B3 & B4 & B5 & B6 & B7 & B8 & B9).
    assert (PA' : nonempty_or (sa_pre sa) (v_pre v) = []) by (unfold nonempty_or; rewrite PA, Ep; reflexivity).
    assert (Op : options_of v1 sa = options_of v sa).
    { unfold options_of. rewrite B1, B2, B3, B5, B6, B9, PA'. rewrite PA. reflexivity. }
    assert (FC' : py_truthy (a_fixed_cost (v_args v)) = false) by (rewrite Ea; exact FC).
    assert (NV' : truthy (v_periodic v) && py_truthy (a_num_vehicles (v_args v)) = false).
    { rewrite Ea, E4. cbn [a_num_vehicles]. destruct (a_num_vehicles a0); exact NV. }
    assert (DU' : forall D, time_limit (v_args v) D -> (forall u w, 0 <= user_time (v_graph v) u w) /\
      forall u, In u (custs (v_graph v)) -> user_time (v_graph v) Source u + user_time (v_graph v) u Sink <= inject_Z D).
    { intros D HD. rewrite Ea in HD. destruct (DU D HD) as (D1 & D2). rewrite (completion_custs _ _ Cp).
      split; [intros u w; rewrite (completion_time _ _ _ _ Cp); apply D1|]. intros u Hu. rewrite !(completion_time _ _ _ _ Cp). apply D2. exact Hu. }
    pose proof (prepare_again v sa a1 K p R HP E1 PA' FC' NV' DU' v1 gx G1 G2 A1 Op) as PA2. rewrite E2, E4 in PA2. rewrite E2, E4 in A1.
    exists a1, K, p. split; [exact HP|]. split; [exact PA2|]. split; [rewrite G1; apply strip_raw; exact G2|]. split; [exact A1|].
    destruct (formatted v sa a1 K p HP FC') as (F1 & F2 & F3 & F4 & F5 & F6 & F7 & g1 & Hp & HC & _ & _ & Gn & Ar & Tm).
    split.
    - assert (N1 : nodes g1 = nodes (v_graph v)) by (unfold nodes; rewrite Gn; reflexivity).
      assert (W1 : wf g1) by (apply (wf_same (v_graph v)); [exact N1|exact Ar|exact (rd_wf _ R)]).
      assert (Cu : custs g1 = custs (v_graph v)) by (unfold custs; rewrite N1; reflexivity).
      rewrite check_arguments_unfold in HC. apply bind_ok in HC. destruct HC as ([] & C1 & _).
      refine (proj1 (proj2 (proj2 (presolve_again (config_of a1 K) (options_of v sa) g1 p W1 _ _ _ _ (fixed_falsy _ F5) E1 PA' (int_arg_nonneg _ _ C1) _ Hp)))).
      + rewrite N1. exact (rd_source _ R).
      + rewrite N1. exact (rd_sink _ R).
      + rewrite Ar. exact (rd_no_out _ R).
      + rewrite Ar, Cu. exact (rd_trips _ R).
      + intros D (E & ND). cbn [config_of cf_duration] in E. rewrite F4 in E. destruct (DU' D) as (D1 & D2).
        * destruct (a_duration (v_args v)) as [|[z|q]|l] eqn:Edu; try discriminate; injection E as <-; [|congruence]. split; [exact Edu|exact ND].
        * split; [intros u w; rewrite Tm; apply D1|]. intros u Hu. rewrite !Tm. apply D2. rewrite <- Cu. exact Hu.
    - split; [rewrite F6, <- E4; exact NV'|]. split; [exact Op|].
      split; [congruence|]. split; [congruence|]. split; [congruence|]. split; [congruence|]. split; [congruence|]. split; [congruence|]. split; [congruence|].
      split; [|congruence]. rewrite B8. unfold nonempty_or. rewrite Ei. destruct (sa_initial sa); reflexivity.
  Qed.

  (** The same problem is solved again. *)
  Theorem second_solve : exists a1 a2 K p1 p2, prepare v sa = Ok (a1, K, p1) /\ prepare v1 sa = Ok (a2, K, p2) /\
    pr_graph p2 = pr_graph p1 /\ pr_num_stops p2 = pr_num_stops p1 /\ pr_max_capacity p2 = pr_max_capacity p1 /\
    pr_num_vehicles p2 = pr_num_vehicles p1 /\ pr_num_vehicles_schedule p2 = pr_num_vehicles_schedule p1 /\
    pr_more_routes p2 = pr_more_routes p1 /\
    a_load_capacity a2 = a_load_capacity a1 /\ a_duration a2 = a_duration a1 /\ a_fixed_cost a2 = a_fixed_cost a1 /\
    a_num_vehicles a2 = a_num_vehicles a1 /\ a_mixed_fleet a2 = a_mixed_fleet a1 /\ a_strategy a2 = a_strategy a1 /\
    options_of v1 sa = options_of v sa /\ v_drop v1 = v_drop v /\ v_span v1 = v_span v /\
    v_initial v1 = sa_initial sa /\ v_pre v1 = [].
  Proof.
    destruct second_prepare as (a1 & K & p & HP & HP2 & _ & _ & _ & NV1 & Op & _ & _ & _ & Bd & _ & _ & Bs & Bi & Bp).
    pose proof (create_ok _ _ _ _ _ _ _ _ _ _ _ C) as (_ & _ & _ & _ & _ & Ed & _ & _ & Esp & _).
    exists a1, (args_after a1 pickup periodic p), K, p, (same_prepared p). cbn [same_prepared pr_graph pr_num_stops pr_max_capacity pr_num_vehicles pr_num_vehicles_schedule pr_more_routes
      args_after a_load_capacity a_duration a_fixed_cost a_num_vehicles a_mixed_fleet a_strategy].
    rewrite NV1. repeat (split; [solve [auto]|]). split; [congruence|]. split; [congruence|]. auto.
  Qed.
End User.

Lemma mapM_ext {A B} (f h : A -> res B) l : (forall x, In x l -> f x = h x) -> mapM f l = mapM h l.
Proof. intro H. induction l as [|x l IH]; [reflexivity|]. cbn [mapM]. rewrite H by (left; reflexivity). rewrite IH by (intros; apply H; right; assumption). reflexivity. Qed.

Lemma route_cost_frame (g h : vgraph) k r : (forall u w, In (u, w) (arcs r) -> arc_data g u w = arc_data h u w) -> route_cost g k r = route_cost h k r.
Proof.
  intro H. unfold route_cost. f_equal. apply mapM_ext. intros [u w] Hi. unfold arc_cost, get_arc. cbn [fst snd]. rewrite (H u w Hi). reflexivity.
Qed.

Lemma args_after_twice a pickup periodic p : truthy periodic && py_truthy (a_num_vehicles a) = false ->
  args_after (args_after a pickup periodic p) pickup periodic (same_prepared p) = args_after a pickup periodic p.
Proof.
  intro N. unfold args_after. cbn [a_num_stops a_load_capacity a_duration a_fixed_cost a_num_vehicles a_mixed_fleet a_strategy same_prepared pr_max_capacity pr_num_stops].
  rewrite N. rewrite N. f_equal. destruct (pr_max_capacity p); [|reflexivity]. destruct (pr_num_stops p); [|reflexivity]. destruct pickup; reflexivity.
Qed.

(** heuristic_only again: the same routes at the same value, and an object that no longer changes. *)
Theorem second_heuristic X fuel fuel2 sa g a drop all periodic span tabu v v1 out :
  wf g -> a_mixed_fleet a = false -> no_empty_costs g -> truthy periodic = false ->
  create g a false false false drop all periodic span tabu = Ok v -> solve X fuel fuel2 sa v = Ok (v1, out) ->
  sa_pre sa = [] -> sa_heuristic sa = true -> (forall l, Permutation l (x_perms X 10 l)) ->
  py_truthy (a_fixed_cost a) = false ->
  (forall D, time_limit a D -> (forall u w, 0 <= user_time g u w) /\
     forall u, In u (custs g) -> user_time g Source u + user_time g u Sink <= inject_Z D) ->
  exists out2, solve X fuel fuel2 sa v1 = Ok (v1, out2) /\
    sv_routes (out_solved out2) = sv_routes (out_solved out) /\ sv_types (out_solved out2) = sv_types (out_solved out) /\
    sv_dropped (out_solved out2) = sv_dropped (out_solved out) /\
    best_value (out_solved out2) = best_value (out_solved out).
Proof.
  intros W M NE Per C H PA He HPm FC DU.
  assert (NV : truthy periodic && py_truthy (a_num_vehicles a) = false) by (rewrite Per; reflexivity).
  destruct (second_prepare X fuel fuel2 sa g a false false drop all periodic span tabu v v1 out W C H PA FC NV DU)
    as (a1 & K & p & HP & HP2 & G1 & A1 & W4 & NV1 & Op & B1 & B2 & B3 & B4 & B5 & B6 & B7 & B8 & B9).
  pose proof (create_ok _ _ _ _ _ _ _ _ _ _ _ C) as (Ck & Ea & E1 & E2 & E3 & Ed & Eal & E4 & Esp & Ei & Ep & _).
  destruct (check_vrp_ready g _ W Ck) as (R & Cp).
  assert (Mv : a_mixed_fleet (v_args v) = false) by (rewrite Ea; exact M).
  assert (PA' : nonempty_or (sa_pre sa) (v_pre v) = []) by (unfold nonempty_or; rewrite PA, Ep; reflexivity).
  assert (Per' : truthy (v_periodic v) = false) by (rewrite E4; exact Per).
  destruct (plain_network sa v a1 K p R Mv (completion_no_empty _ _ Cp NE) E1 PA' HP)
    as (Net & RT & Cu & _ & _ & _ & _ & _ & HC & _ & _ & Fr & _).
  destruct (cw_visits (pr_graph p) 1 (caps_arg (a_load_capacity a1)) (int_arg (a_duration a1)) (pr_num_stops p) Net (le_n 1) RT HC 1 _ HPm) as (rs & q & Hcw & _ & _ & V3).
  unfold solve in H. rewrite HP in H. cbn [bind] in H. rewrite He in H. apply bind_ok in H. destruct H as (r & Hr & H). cbv zeta in H.
  assert (Er : r = (combine (seq 0 (List.length rs)) rs, map (fun k => (k, 0%nat)) (seq 0 (List.length rs)))).
  { unfold solve_with_clarke_wright in Hr. apply bind_ok in Hr. destruct Hr as (u & _ & Hr). rewrite Hcw in Hr. cbn [bind fst] in Hr. congruence. }
  apply Ok_inj in H. pose proof (f_equal fst H) as V1. pose proof (f_equal snd H) as Ou. cbn [fst snd] in V1, Ou. clear H.
  unfold solve. rewrite HP2. cbn [bind]. rewrite He.
  assert (Hr2 : solve_with_clarke_wright (options_of v1 sa) (a_mixed_fleet (args_after a1 false periodic p)) (caps_arg (a_load_capacity (args_after a1 false periodic p)))
      (int_arg (a_duration (args_after a1 false periodic p))) (pr_num_stops (same_prepared p)) (x_perms X 10) (pr_graph (same_prepared p)) = Ok r).
  { rewrite Op. exact Hr. }
  rewrite Hr2. cbn [bind]. cbv zeta. eexists. split; [apply f_equal, f_equal2; [|reflexivity]|].
  - rewrite B1, B2, B3, B4, B5, B6, B7, B8, B9. rewrite args_after_twice by exact NV1. cbn [same_prepared pr_graph]. rewrite <- V1.
    cbn [v_iter v_noimp v_bounds v_chosen v_dropped v_tabu v_hyper]. rewrite PA, E1, E2, E3, E4, Ed, Eal, Esp, Ei, Ep. unfold nonempty_or. cbn [nonempty].
    destruct (sa_initial sa); cbn [nonempty]; destruct (strategy_of (sa_strategy sa)); reflexivity.
  - rewrite <- Ou. cbn [out_solved solved_of sv_routes sv_types sv_dropped]. split; [reflexivity|]. split; [reflexivity|].
    assert (Dr : v_dropped v1 = v_dropped v) by (rewrite <- V1; reflexivity). split; [exact Dr|].
    unfold best_value, best_routes_cost, per_route. cbn [solved_of sv_routes sv_types sv_dropped sv_drop sv_span sv_copy].
    rewrite Dr, B4, B7, <- Ed, <- Esp. cbn [same_prepared pr_copy].
    match goal with |- (let* c := ?x in _) = (let* c := ?y in _) => assert (E : x = y); [|rewrite E; reflexivity] end.
    apply mapM_ext. intros [i rt] Hi. cbn [fst snd]. unfold type_of, solved_of. cbn [sv_types].
    destruct (of_opt KeyError (dget Nat.eqb i (snd r))) as [k|]; [|reflexivity]. cbn [bind].
    rewrite (route_cost_frame (pr_graph p) (pr_copy p) k rt); [reflexivity|]. intros u w Huw. rewrite Er in Hi. cbn [fst] in Hi. apply in_combine_r in Hi.
    destruct (V3 rt Hi) as (Y1 & Y2 & Y3). apply Fr; [apply Y2; exact Huw|]. left. destruct (route_shape_stops rt Y1) as (cs & Ert & Es). rewrite Es in Y3. rewrite Ert in Huw, Y1.
    destruct Y1 as (cs' & E & _ & Hcs). injection E as E. apply app_inv_tail in E. subst cs'. exact (no_direct cs u w Y3 Hcs Huw).
Qed.
