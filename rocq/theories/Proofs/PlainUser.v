(** solve() on plain problems, and its value against that of solve(heuristic_only=True). *)
From Verif.Base Require Import Prelude Graph.
From Verif.Spec Require Import Routes Network Inputs Feasible Prep Heuristics LinProg Pricing MIP Columns Timing Labelling Pool Master Run Plans Results Variants Plain.
From Verif.Model Require Import Args Reach Checks Preprocess ClarkeWright Greedy Initial Pricing
  GreedyPricing LPPricing Cspy Master Dive Hyper ColGen Post Schedule Solve.
From Verif.Proofs Require Import RouteLemmas ChecksProofs FeasProofs PreLemmas PruneProofs KnapProofs LockProofs
  PresolveProofs PresolveEnd CWProofs GreedyProofs InitialProofs HeurCor PostProofs PostCor PostEnd SolveProofs SolveHeur SolveUser SolveExact AnyProofs AnyPool AnyUser PlainStart.

Lemma fair_same g g' a a' : wf g -> completion g g' -> a_duration a' = a_duration a -> fair_times g a -> fair_times g' a'.
Proof.
  intros W Cp Ed FA D (HD & HD0). rewrite Ed in HD. destruct (FA D (conj HD HD0)) as (T1 & T2 & T3).
  assert (Q5 : custs g' = custs g) by (apply completion_custs; exact Cp). assert (Aiff := completion_arcs_iff g _ W Cp). rewrite Q5. split; [|split].
  - intros u Hu. rewrite !(completion_time _ _ _ _ Cp). apply T1. exact Hu.
  - intros u w Hu Hw H1 H2. rewrite !(completion_time _ _ _ _ Cp).
    assert (U : forall x y, In x (custs g) -> In y (custs g) -> In (x, y) (arc_list g') -> In (x, y) (arc_list g)).
    { clear - Aiff. intros x y Hx Hy Hxy. apply in_custs in Hx, Hy. 
      apply Aiff in Hxy. apply in_app_iff in Hxy. destruct Hxy as [Q|Q]; [exact Q|]. apply depot_arcs_inv in Q. destruct Q as [(-> & _)|(-> & _)]; tauto. }
    apply T2; auto.
  - intros u Hu. rewrite !(completion_time _ _ _ _ Cp), (completion_service _ _ _ Cp). apply T3. exact Hu.
Qed.

Lemma idle_routes routes : (forall r, In r (map snd routes) -> stops r <> []) <-> nobody_idle routes.
Proof.
  unfold nobody_idle. split; [intros Z i r Hr; apply Z, in_map_iff; exists (i, r); auto|].
  intros Z r Hr. apply in_map_iff in Hr. destruct Hr as ((i & r') & <- & Hr). exact (Z i r' Hr).
Qed.

Lemma price_fixed a : price_of a 0 = fixed_price a.
Proof. unfold price_of, fixed_price. destruct (a_fixed_cost a) as [|n|[|n l]]; reflexivity. Qed.

Section User.
  Variables (X : outside) (fuel fuel2 : nat) (sa : solve_args) (g : rgraph) (a : rargs) (drop : option Q) (all : bool) (per : option Z) (span : bool) (tabu : list mvar) (v v' : vrp) (out : outcome).
  Hypothesis W : wf g.
  Hypothesis M : a_mixed_fleet a = false.
  Hypothesis NE : no_empty_costs g.
  Hypothesis ND : nonneg_user_demands g.
  Hypothesis AUX : forall u r, node_data g u = Some r -> r_aux_depot r = false.
  Hypothesis Per : truthy per = false.
  Hypothesis Pre : sa_pre sa = [].
  Hypothesis Ini : sa_initial sa = [].
  Hypothesis Di : sa_dive sa = false.
  Hypothesis He : sa_heuristic sa = false.
  Hypothesis Gr : sa_greedy sa = false \/ (forall D, ~ time_limit a D).
  Hypothesis SS : 0 <= user_service g Source.
  Hypothesis FA : fair_times g a.
  Hypothesis HP : forall x l, Permutation l (x_perms X x l).
  Hypothesis S1 : forall n q, sound_answer q (e_master (x_env X) n q).
  Hypothesis S2 : sa_cspy sa = false -> (forall n tl q, sound_answer q (e_pricer (x_env X) n tl q)) /\ no_circles (x_env X).
  Hypothesis S3 : sa_cspy sa = true -> (forall n tl h, sound_labelling h (e_label (x_env X) n tl h)) /\
    (forall D, time_limit a D -> forall u, user_service g u == 0).
  Hypothesis SP : finds_paths (x_path X).
  Hypothesis C : create g a false false false drop all per span tabu = Ok v.
  Hypothesis So : solve X fuel fuel2 sa v = Ok (v', out).

  Definition all_busy : Prop := sa_cspy sa = false /\ sa_greedy sa = false /\ forall x y l, a_load_capacity a <> PList (x :: y :: l).
  Definition one_run (r : list node) : Prop := exists a' K p l q, prepare v sa = Ok (a', K, p) /\
    clarke_wright (pr_graph p) (caps_arg (a_load_capacity a')) (int_arg (a_duration a')) (pr_num_stops p) 1 (x_perms X 10) = Ok (l, q) /\ In r l.

  Lemma plain_start a' K p : prepare v sa = Ok (a', K, p) -> forall rs pool,
    initialize (options_of v sa) (a_mixed_fleet a') (caps_arg (a_load_capacity a')) (int_arg (a_duration a')) (pr_num_stops p) (x_perms X) (nonempty_or (sa_initial sa) (v_initial v)) (pr_graph p) = Ok (rs, pool) ->
    starts v all_busy rs /\ (forall r, one_run r -> In r rs /\ stops r <> []) /\ (False -> (List.length rs <= 74)%nat).
  Proof.
    intros Hp rs pool I.
    pose proof (create_ok _ _ _ _ _ _ _ _ _ _ _ C) as (Ck & Ea & E1 & E2 & E3 & Ed & Eal & E4 & Esp & Ei & Ep & _).
    destruct (check_vrp_ready g _ W Ck) as (R & Cp). assert (Mv : a_mixed_fleet (v_args v) = false) by (rewrite Ea; exact M).
    assert (Pre' : nonempty_or (sa_pre sa) (v_pre v) = []) by (unfold nonempty_or; rewrite Pre, Ep; reflexivity).
    assert (Ini' : nonempty_or (sa_initial sa) (v_initial v) = []) by (unfold nonempty_or; rewrite Ini, Ei; reflexivity).
    assert (ND' : nonneg_user_demands (v_graph v)) by (intro u; rewrite (completion_demand _ _ u Cp); apply ND).
    assert (Per' : truthy (v_periodic v) = false) by (rewrite E4; exact Per).
    assert (NE' := completion_no_empty _ _ Cp NE).
    assert (FA' : fair_times (v_graph v) (v_args v)) by (apply (fair_same g _ a); auto; rewrite Ea; reflexivity).
    rewrite Ini' in I. split; [|split; [|intros []]].
    - apply (plain_starts X sa v a' K p R Mv NE' E1 E2 E3 Per' Pre' ND' HP FA' Hp rs pool I). intros (_ & _ & B). rewrite Ea. exact B.
    - intros r (a2 & K2 & p2 & l & q & Hp2 & Hl & Hr). rewrite Hp in Hp2. injection Hp2 as <- <- <-.
      exact (plain_first X sa v a' K p R Mv NE' E1 E2 E3 Per' Pre' HP Hp rs pool I l q Hl r Hr).
  Qed.

  Definition core := any_core one_run False all_busy X fuel fuel2 sa g a false false false drop all per span tabu v v' out W (fun _ => NE) AUX Per Pre Di He
    (match Gr with or_introl x => or_introl x | or_intror x => or_intror (or_intror x) end) (ND Source) (ND Sink) SS (fun _ => ND)
    (fun _ e => match Bool.diff_false_true e with end) (fun e => match Bool.diff_false_true e with end) S1
    (fun e => conj (proj1 (S2 e)) (fun _ => or_introl (proj2 (S2 e))))
    (fun e => conj (proj1 (S3 e)) (conj (fun e' => match Bool.diff_false_true e' with end) (fun _ => proj2 (S3 e)))) SP C
    (fun b => conj (proj1 b) (or_introl (proj1 (proj2 b)))) plain_start So.

  Theorem plain_user : let s := out_solved out in
    exists ks, planned g a false false false drop all (sv_routes s) (fun i => dget Nat.eqb i (sv_types s)) (sv_dropped s) ks /\
      (sa_cspy sa = false -> sa_greedy sa = false -> (forall x y l, a_load_capacity a <> PList (x :: y :: l)) -> nobody_idle (sv_routes s)) /\
      out_schedule out = None /\
      (span = false -> nobody_idle (sv_routes s) -> (forall x y l, a_load_capacity a <> PList (x :: y :: l)) ->
       exists q, best_value s = Ok q /\ q == plan_cost g a drop ks (sv_routes s) (sv_dropped s)).
  Proof.
    intro s. destruct core as (ks & P1 & P2 & P3 & P4 & PI & P5 & P6 & P7 & P8 & P9 & P10 & P11 & P12 & _).
    fold s in P1, P2, P3, P4, PI, P5, P6, P7, P8, P9, P12.
    exists ks. rewrite map_length in P1, P2. split; [constructor; auto|]. split; [intros Z1 Z2 Z3; apply idle_routes, PI; repeat split; auto|].
    split; [exact P11|]. intros Z1 Z2 Z3. apply P12; [exact Z1| |right; exact Z3]. apply idle_routes. exact Z2.
  Qed.

  Theorem beats_heuristic fuel' fuel2' sh vh outh : (forall n q, right_answer q (e_master (x_env X) n q)) -> span = false -> custs g <> [] ->
    (forall x y l, a_load_capacity a <> PList (x :: y :: l)) ->
    (all = true -> nobody_idle (sv_routes (out_solved out))) ->
    sa_heuristic sh = true -> sa_pre sh = [] -> sa_strategy sh = sa_strategy sa -> sa_cspy sh = sa_cspy sa ->
    solve X fuel' fuel2' sh v = Ok (vh, outh) ->
    (forall k n, number_of a k n -> k = 0%nat /\ inject_Z (Z.of_nat (List.length (sv_routes (out_solved outh)))) <= n /\
       (all = true -> inject_Z (Z.of_nat (List.length (sv_routes (out_solved outh)))) == n)) ->
    exists q qh, best_value (out_solved out) = Ok q /\ best_value (out_solved outh) = Ok qh /\ q <= qh.
  Proof.
    intros RA Sp Cu OT Bz Hh Preh Est Ecs Sh Fl.
    destruct core as (ks & _ & _ & _ & _ & _ & _ & _ & _ & _ & _ & _ & _ & _ & B).
    specialize (B M OT RA Cu Bz).
    pose proof (create_ok _ _ _ _ _ _ _ _ _ _ _ C) as (Ck & Ea & E1 & E2 & E3 & Ed & Eal & E4 & Esp & Ei & Ep & Eit & Eno & Ebo & Ehy & Ech & Edr & _).
    destruct (check_vrp_ready g _ W Ck) as (R & Cp). assert (Mv : a_mixed_fleet (v_args v) = false) by (rewrite Ea; exact M).
    assert (Pre' : nonempty_or (sa_pre sh) (v_pre v) = []) by (unfold nonempty_or; rewrite Preh, Ep; reflexivity).
    assert (ND' : nonneg_user_demands (v_graph v)) by (intro u; rewrite (completion_demand _ _ u Cp); apply ND).
    assert (Per' : truthy (v_periodic v) = false) by (rewrite E4; exact Per).
    assert (NE' := completion_no_empty _ _ Cp NE).
    assert (Q5 : custs (v_graph v) = custs g) by (apply completion_custs; exact Cp).
    assert (Hp : exists a' K p, prepare v sh = Ok (a', K, p)).
    { unfold solve in Sh. apply bind_ok in Sh. destruct Sh as (((a' & K) & p) & Hp & _). eauto. }
    destruct Hp as (a' & K & p & Hp).
    assert (Hs : prepare v sa = Ok (a', K, p)).
    { rewrite <- Hp. unfold prepare, options_of. rewrite Est, Ecs, Preh, Pre. reflexivity. }
    destruct (heuristic_plan X fuel' fuel2' sh v a' K p R Mv NE' E1 E2 E3 Per' Pre' Hh (HP 10%nat) Hp ND') as (vh' & outh' & Sh' & Q1 & Q2 & Q3 & Q4 & _ & _ & Q7 & _).
    rewrite Sh in Sh'. injection Sh' as <- <-.
    destruct (Q7 (eq_trans Esp Sp) Edr) as (qh & Hqh & Eqh). rewrite Q5 in Q1, Q2.
    destruct (B (map snd (sv_routes (out_solved outh))) []) as (B1 & _).
    - intros r Hr. unfold solve in Sh. rewrite Hp in Sh. cbn [bind] in Sh. rewrite Hh in Sh. apply bind_ok in Sh. destruct Sh as (rr & Hw & So').
      assert (Eo : outh = mkOutcome (solved_of v a' p (pr_graph p) (fst rr) (snd rr) (v_dropped v)) None None) by (injection So' as _ <-; reflexivity).
      rewrite Eo in Hr. cbn [out_solved solved_of sv_routes] in Hr. unfold solve_with_clarke_wright in Hw.
      apply bind_ok in Hw. destruct Hw as (u & _ & Hw). apply bind_ok in Hw. destruct Hw as ((l & q) & Hl & Hw). cbn [fst] in Hw. injection Hw as <-. cbn [fst] in Hr.
      rewrite map_snd_combine in Hr by apply seq_length. exists a', K, p, l, q. auto.
    - intros u Hu. left. split; [apply Q1; exact Hu|intros []].
    - split; [constructor|]. split; [intros u []|reflexivity].
    - intros k n Hk. destruct (Fl k n Hk) as (-> & F1 & F2). cbn [Nat.eqb]. rewrite map_length. auto.
    - destruct (B1 Sp) as (q & Hq & Lq). exists q, qh. split; [exact Hq|]. split; [exact Hqh|]. rewrite Eqh.
      eapply Qle_trans; [exact Lq|]. change (Z.of_nat (List.length (@nil node))) with 0%Z.
      assert (Z : match drop with Some x => x * inject_Z 0 | None => 0 end == 0) by (destruct drop; [change (inject_Z 0) with 0; lra|reflexivity]).
      cbn [List.length]. change (Z.of_nat 0) with 0%Z. rewrite Z, Qplus_0_r. unfold plan_price. match goal with |- ?x <= ?y => enough (x == y) as -> by apply Qle_refl end.
      clear - Ea Cp. generalize (map snd (sv_routes (out_solved outh))) as rs. induction rs as [|r rs IH]; cbn [map]; [reflexivity|]. rewrite !Qsum_cons, IH. unfold route_price.
      rewrite price_fixed. assert (FP : fixed_price (v_args v) = fixed_price a) by (rewrite Ea; reflexivity). rewrite FP.
      rewrite (path_sum_ext (user_cost (v_graph v) 0) (user_cost g 0)); [reflexivity|]. intros; rewrite (completion_cost _ _ _ _ _ Cp); reflexivity.
  Qed.
End User.

Theorem beats_user X fuel fuel2 sa g a drop all per tabu v v' out fuel' fuel2' sh vh outh :
  wf g -> a_mixed_fleet a = false -> no_empty_costs g -> nonneg_user_demands g ->
  (forall x y l, a_load_capacity a <> PList (x :: y :: l)) ->
  (forall u r, node_data g u = Some r -> r_aux_depot r = false) ->
  truthy per = false -> sa_pre sa = [] -> sa_initial sa = [] -> sa_dive sa = false -> sa_heuristic sa = false ->
  sa_greedy sa = false \/ (forall D, ~ time_limit a D) ->
  0 <= user_service g Source -> fair_times g a ->
  (forall x l, Permutation l (x_perms X x l)) ->
  (forall n q, right_answer q (e_master (x_env X) n q)) ->
  (sa_cspy sa = false -> (forall n tl q, sound_answer q (e_pricer (x_env X) n tl q)) /\ no_circles (x_env X)) ->
  (sa_cspy sa = true -> (forall n tl h, sound_labelling h (e_label (x_env X) n tl h)) /\
     (forall D, time_limit a D -> forall u, user_service g u == 0)) ->
  finds_paths (x_path X) -> custs g <> [] ->
  create g a false false false drop all per false tabu = Ok v -> solve X fuel fuel2 sa v = Ok (v', out) ->
  (all = true -> nobody_idle (sv_routes (out_solved out))) ->
  sa_heuristic sh = true -> sa_pre sh = [] -> sa_strategy sh = sa_strategy sa -> sa_cspy sh = sa_cspy sa ->
  solve X fuel' fuel2' sh v = Ok (vh, outh) ->
  (forall k n, number_of a k n -> k = 0%nat /\
     inject_Z (Z.of_nat (List.length (sv_routes (out_solved outh)))) <= n /\
     (all = true -> inject_Z (Z.of_nat (List.length (sv_routes (out_solved outh)))) == n)) ->
  exists q qh, best_value (out_solved out) = Ok q /\ best_value (out_solved outh) = Ok qh /\ q <= qh.
Proof.
  intros W M NE ND OT AUX Per Pre Ini Di He Gr SS FA HP S1 S2 S3 SP Cu C So Bz Hh Preh Est Ecs Sh Fl.
  exact (beats_heuristic X fuel fuel2 sa g a drop all per false tabu v v' out W M NE ND AUX Per Pre Ini Di He Gr SS FA HP (fun n q => ra_sound _ _ (S1 n q)) S2 S3 SP C So
    fuel' fuel2' sh vh outh S1 eq_refl Cu OT Bz Hh Preh Est Ecs Sh Fl).
Qed.
