(** solve() returns when it is given a plan to start from. *)
From Verif.Base Require Import Prelude Graph.
From Verif.Spec Require Import Routes Network Inputs Feasible Prep Heuristics LinProg Pricing MIP Columns Timing Labelling Pool Master Run Plans Results Variants Returning.
From Verif.Model Require Import Args Reach Checks Preprocess ClarkeWright Greedy Initial Pricing
  GreedyPricing LPPricing Cspy Master Dive Hyper ColGen Post Schedule Solve.
From Verif.Proofs Require Import RouteLemmas ChecksProofs FeasProofs PreLemmas PruneProofs KnapProofs LockProofs
  PresolveProofs PresolveEnd CWProofs GreedyProofs InitialProofs HeurCor PoolProofs PoolQuality SelectProofs MasterCor MasterEnd ColGenProofs RunProofs ColGenCor ColGenEnd
  BoundProofs PostProofs PostCor PostEnd SolveProofs SolveHeur SolveUser ExactPool SolveExact AnyProofs PlanGen Warm LockedUser LabelEnds MipSolve AnyUser AnyGiven Returns ReturnsUser.

Lemma count_zeros {A} (l : list A) k : count_occ Nat.eq_dec (map (fun _ => 0%nat) l) k = if (k =? 0)%nat then List.length l else 0%nat.
Proof. induction l as [|x l IH]; cbn; [destruct k; reflexivity|]. rewrite IH. destruct k; reflexivity. Qed.

Section Given.
  Variables (X : outside) (sa : solve_args) (v : vrp) (a : rargs) (K : nat) (p : prepared) (rs1 : list (list node)) (dr1 : list node).
  Local Notation G := (v_graph v).
  Local Notation UA := (v_args v).
  Local Notation g3 := (pr_graph p).
  Local Notation o := (options_of v sa).
  Local Notation caps := (caps_arg (a_load_capacity a)).
  Local Notation dur := (int_arg (a_duration a)).
  Local Notation given := (nonempty_or (sa_initial sa) (v_initial v)).
  Hypothesis R : ready G.
  Hypothesis M : a_mixed_fleet UA = false.
  Hypothesis OT : forall x y l, a_load_capacity UA <> PList (x :: y :: l).
  Hypothesis NE : no_empty_costs G.
  Hypothesis ND : nonneg_user_demands G.
  Hypothesis E1 : v_windows v = false.
  Hypothesis E4 : truthy (v_periodic v) = false.
  Hypothesis E5 : nonempty_or (sa_pre sa) (v_pre v) = [].
  Hypothesis H : prepare v sa = Ok (a, K, p).
  Hypothesis GV : given <> [].
  Hypothesis GR : forall r, In r given -> route_shape r /\ along (arc_list G) r /\
    forall c, capacity_of UA 0 c -> node_sum (user_demand G) (stops r) <= inject_Z c.
  Hypothesis GC : forall u, In u (custs G) -> exists r, In r given /\ In u r.
  Hypothesis P1 : forall r, In r rs1 -> In r given /\ stops r <> [].
  Hypothesis P2 : forall u, In u (custs G) -> (visits u rs1 = 1%nat /\ ~ In u dr1) \/ (visits u rs1 = 0%nat /\ In u dr1).
  Hypothesis P3 : NoDup dr1 /\ (forall u, In u dr1 -> In u (custs G)) /\ (truthyQ (v_drop v) = false -> dr1 = []).
  Hypothesis P4 : forall k n, number_of UA k n ->
    inject_Z (Z.of_nat (if (k =? 0)%nat then List.length rs1 else 0)) <= n /\
    (v_all v = true -> inject_Z (Z.of_nat (if (k =? 0)%nat then List.length rs1 else 0)) == n).

  Let w (u : node) : Q := if is_depot u then 0 else user_demand G u.

  Lemma w_sum r : route_shape r -> node_sum w r == node_sum (user_demand G) (stops r).
  Proof.
    intro Sh. destruct (route_shape_stops r Sh) as (cs & -> & ->). destruct Sh as (cs' & Ec & _ & Nd).
    assert (cs' = cs) by (injection Ec as Ec; apply app_inv_tail in Ec; congruence). subst cs'.
    unfold node_sum. cbn [map]. rewrite map_app, Qsum_cons, Qsum_app. cbn [map]. rewrite Qsum_cons. change (Qsum []) with 0. cbn [w is_depot].
    assert (Q : Qsum (map w cs) == Qsum (map (user_demand G) cs)).
    { clear - Nd. induction cs as [|u cs IH]; [reflexivity|]. cbn [map]. rewrite !Qsum_cons, IH by (intros; apply Nd; right; assumption).
      unfold w. rewrite (proj2 (is_depot_false u)); [reflexivity|]. apply Nd. left. reflexivity. }
    rewrite Q. lra.
  Qed.

  Lemma w_known u : In u (nodes g3) -> demand_of g3 u == w u.
  Proof.
    intro Hu. destruct (plain_network sa v a K p R M NE E1 E5 H) as (_ & _ & CG & FD & _). destruct (depots_nothing sa v a K p R M NE E1 E5 ND H) as (D1 & D2).
    unfold w. destruct (is_depot u) eqn:Ed.
    - destruct u; try discriminate; assumption.
    - rewrite FD; [reflexivity|]. rewrite <- CG. apply in_custs. split; [exact Hu|]. apply is_depot_false. exact Ed.
  Qed.

  Lemma given_along r : In r given -> along (arc_list g3) r.
  Proof.
    intros Hr x y Hxy. destruct (GR r Hr) as (Sh & Al & Ld).
    destruct (plain_network sa v a K p R M NE E1 E5 H) as (Net & _ & CG & _ & _ & _ & _ & _ & _ & _ & NDh & _ & Ai).
    destruct (one_network v sa a K p R M NE H) as (Nh & Nn & _ & Ah).
    apply Ai. split; [apply Ah; left; apply Al; exact Hxy|]. intros m Hm.
    destruct (one_caps v sa a K p R M NE H) as (_ & Cp & _).
    destruct (capacity_one sa v a K p R M OT NE E1 E5 H) as [Z|(c & Z)]; rewrite Z in Cp; [congruence|].
    destruct Cp as (_ & _ & (m' & Zm & Hm') & _). assert (m = c) by (cbn in Zm; congruence). subst m.
    specialize (Ld c (first_capacity v sa a K p R (fun _ => NE) H M c [] Z)).
    assert (Ke : forall u, In u (nodes G) -> demand_of (pr_copy p) u == w u).
    { intros u Hu. rewrite <- w_known; [unfold demand_of, nd; rewrite NDh; reflexivity|]. apply node_data_In. rewrite NDh. apply node_data_In. rewrite Nn. exact Hu. }
    pose proof (two_nodes_sum w r x y) as T. rewrite (w_sum r Sh) in T.
    destruct (wf_ends G (rd_wf _ R) _ _ (Al x y Hxy)) as (X1 & X2).
    rewrite (Ke x X1), (Ke y X2). specialize (T ltac:(intro u; unfold w; destruct (is_depot u); [lra|apply ND]) Hxy). lra.
  Qed.

  Lemma given_load r c : In r given -> caps = Some [c] -> node_sum (demand_of g3) r <= inject_Z c.
  Proof.
    intros Hr Z. destruct (GR r Hr) as (Sh & _ & Ld). specialize (Ld c (first_capacity v sa a K p R (fun _ => NE) H M c [] Z)). rewrite <- (w_sum r Sh) in Ld.
    destruct (plain_network sa v a K p R M NE E1 E5 H) as (Net & _).
    enough (Q : node_sum (demand_of g3) r == node_sum w r) by (rewrite Q; exact Ld).
    assert (Kn : forall u, In u r -> demand_of g3 u == w u) by (intros u Hu; apply w_known; eapply along_nodes; [exact (net_wf _ _ Net)|exact Sh|exact (given_along r Hr)|exact Hu]).
    unfold node_sum. clear - Kn. induction r as [|u r IH]; [reflexivity|]. cbn [map]. rewrite !Qsum_cons, IH, (Kn u (or_introl eq_refl)) by (intros; apply Kn; right; assumption). reflexivity.
  Qed.

  Lemma given_columns : exists pool, initialize o (a_mixed_fleet a) caps dur (pr_num_stops p) (x_perms X) given g3 = Ok (given, pool) /\
    convert_from g3 caps 1 given = Ok pool /\ (forall c, In c pool -> sane g3 c /\ c_type c = 0%nat).
  Proof.
    destruct (plain_network sa v a K p R M NE E1 E5 H) as (Net & _ & CG & _).
    assert (A : forall r, In r given -> along (arc_list g3) r /\ (2 <= List.length r)%nat).
    { intros r Hr. split; [exact (given_along r Hr)|]. destruct (GR r Hr) as ((cs & -> & _) & _). cbn. rewrite app_length. cbn. lia. }
    destruct (convert_from_ok g3 1 Net (le_n 1) caps given 1 A) as [(pool & Cv & Ln & Hn)|(_ & r & Hr & (c & l & Ec & Hc))].
    2: { exfalso. destruct (capacity_one sa v a K p R M OT NE E1 E5 H) as [Z|(x & Z)]; [congruence|]. assert (Ex : c = x /\ l = []) by (split; congruence). destruct Ex as (-> & ->).
         pose proof (given_load r x Hr Z). specialize (Hc x (or_introl eq_refl)). lra. }
    assert (Ck : check_initial_routes given g3 = Ok tt).
    { apply check_initial_routes_ok. split; [|split].
      - intros r Hr. destruct (GR r Hr) as ((cs & -> & _) & _). eauto.
      - intros u Hu. apply GC. rewrite <- CG. exact Hu.
      - exact given_along. }
    exists pool. split; [|split; [exact Cv|]].
    - assert (Ng : nonempty given = true) by (destruct given; [congruence|reflexivity]). unfold initialize. rewrite Ng, Ck. cbn [bind]. unfold convert_initial_routes. rewrite Cv. reflexivity.
    - intros c Hc. apply In_nth_error in Hc. destruct Hc as (i & Hi).
      assert (Hr : exists r, nth_error given i = Some r).
      { destruct (nth_error given i) eqn:En; [eauto|]. apply nth_error_None in En. rewrite <- Ln in En. apply nth_error_None in En. congruence. }
      destruct Hr as (r & Hr). destruct (Hn i r Hr) as (c' & Hi' & Q1 & Q2 & Q3 & Q4 & Q5 & Q6 & Q7 & Q8). assert (c' = c) by congruence. subst c'.
      apply nth_error_In in Hr. destruct (GR r Hr) as (Sh & _). pose proof (given_along r Hr) as Al. split; [constructor|].
      + unfold served. rewrite Q6. intros u Hu U1 U2. apply in_custs. split; [|auto]. eapply along_nodes; [exact (net_wf _ _ Net)|exact Sh|exact Al|]. apply Q2. exact Hu.
      + left. destruct (route_shape_stops r Sh) as (cs & Er & _). fold (trip cs) in Er. exists cs. rewrite <- Er. auto.
      + destruct (capacity_one sa v a K p R M OT NE E1 E5 H) as [Z|(x & Z)]; rewrite Z in Q8; [exact Q8|]. destruct Q8 as ((y & Y1 & _) & _). destruct (c_type c) as [|[|k]]; [reflexivity|discriminate|discriminate].
  Qed.

  Lemma given_plan pool : convert_from g3 caps 1 given = Ok pool -> (forall c, In c pool -> c_type c = 0%nat) ->
    exists sel dr, valid_selection g3 (cg_master (cg_of X v sa a K p (covered given))) pool sel dr.
  Proof.
    intros Cv Ty. destruct (plain_network sa v a K p R M NE E1 E5 H) as (Net & _ & CG & _). destruct P3 as (D1 & D2 & D3).
    destruct (first_selection g3 1 (cg_master (cg_of X v sa a K p (covered given))) caps given pool rs1 dr1 Net (le_n 1) Cv) as (sel & V & _); [| | | | | | | |eauto].
    - intros r Hr. destruct (GR r Hr) as (Sh & _). split; [exact Sh|exact (given_along r Hr)].
    - exact P1.
    - rewrite CG. exact P2.
    - exact D1.
    - rewrite CG. exact D2.
    - intro Z. apply D3. destruct (truthyQ (v_drop v)) eqn:Ed; [|reflexivity]. exfalso. destruct (v_drop v) as [q|] eqn:Eq; [|discriminate].
      apply (Z q). split; [exact Eq|]. intro Q. cbn in Ed. apply negb_true_iff in Ed. pose proof (Qeq_eq_bool _ _ Q). congruence.
    - exact Ty.
    - intros l (L1 & _) k n Hn. rewrite count_zeros. apply P4. exact (any_fleet_inv v sa a K p R (fun _ => NE) H l k n E4 M L1 Hn).
  Qed.

  Lemma given_keys u : In u (custs g3) -> In u (covered given).
  Proof.
    intro Hu. destruct (plain_network sa v a K p R M NE E1 E5 H) as (_ & _ & CG & _). rewrite CG in Hu. destruct (GC u Hu) as (r & Hr & Hur).
    unfold covered. apply in_flat_map. exists r. split; [exact Hr|]. destruct (GR r Hr) as ((cs & -> & _) & _). apply in_custs in Hu. destruct Hu as (_ & U1 & U2).
    destruct Hur as [Q|Hur]; [congruence|]. apply in_app_or in Hur. destruct Hur as [Hur|[Q|[]]]; [|congruence].
    unfold inner. cbn. rewrite removelast_last. exact Hur.
  Qed.
End Given.

(** What is asked of the master solver for MIP pricing to come to an end. *)
Theorem own_returns sa g a drop all per tabu rs dropped : own_plan sa g a drop all per rs dropped ->
  exists v, create g a false false false drop all per false tabu = Ok v /\
  forall X fuel fuel2,
    (forall n q, sound_answer q (e_master (x_env X) n q)) ->
    (sa_cspy sa = false -> (forall n tl q, sound_answer q (e_pricer (x_env X) n tl q)) /\ no_circles (x_env X)) ->
    (sa_cspy sa = true -> forall n tl h, sound_labelling h (e_label (x_env X) n tl h)) ->
    finds_paths (x_path X) ->
    gives_up (x_env X) \/ solve X fuel fuel2 sa v = Err OutOfFuel \/ exists v' out, solve X fuel fuel2 sa v = Ok (v', out).
Proof.
  intros [W (M & OT) NE ND NT AUX Cu Per (Pre & Di & He) St Nz Acc Gv Ro Co [Pf Pv Pd Pn]].
  destruct (proj2 (accepted_exactly g a drop all per false tabu sa W M NE ND NT Pre) Acc) as (v & ((a' & K) & p) & C & H).
  exists v. split; [exact C|]. intros X fuel fuel2 S1 S2 S3 SP.
  pose proof (create_ok _ _ _ _ _ _ _ _ _ _ _ C) as (Ck & Ea & E1 & E2 & E3 & Ed & Eal & E4 & Esp & Ei & Ep & Eit & Eno & Ebo & Ehy & Ech & Edr & _).
  destruct (check_vrp_ready g _ W Ck) as (R & Cp). assert (Mv : a_mixed_fleet (v_args v) = false) by (rewrite Ea; exact M).
  assert (NE' := completion_no_empty _ _ Cp NE). assert (Q5 : custs (v_graph v) = custs g) by (apply completion_custs; exact Cp).
  assert (Per' : truthy (v_periodic v) = false) by (rewrite E4; exact Per).
  assert (Pre' : nonempty_or (sa_pre sa) (v_pre v) = []) by (unfold nonempty_or; rewrite Pre, Ep; reflexivity).
  assert (Gi : nonempty_or (sa_initial sa) (v_initial v) = sa_initial sa) by (unfold nonempty_or; destruct (sa_initial sa); [congruence|reflexivity]).
  assert (ND' : nonneg_user_demands (v_graph v)) by (intro u; rewrite (completion_demand _ _ u Cp); apply ND).
  assert (OT' : forall x y l, a_load_capacity (v_args v) <> PList (x :: y :: l)) by (rewrite Ea; exact OT).
  assert (Aiff := completion_arcs_iff g _ W Cp).
  assert (GR : forall r, In r (nonempty_or (sa_initial sa) (v_initial v)) -> route_shape r /\ along (arc_list (v_graph v)) r /\
    forall c, capacity_of (v_args v) 0 c -> node_sum (user_demand (v_graph v)) (stops r) <= inject_Z c).
  { rewrite Gi. intros r Hr. destruct (Ro r Hr) as (Y1 & _ & Y2 & Y3). split; [exact Y1|]. split; [intros x y Hxy; apply Aiff; exact (Y2 x y Hxy)|].
    intros c Hc. rewrite (node_sum_ext _ (user_demand g)); [|intros; rewrite (completion_demand _ _ _ Cp); reflexivity].
    apply (rs_load _ _ _ _ _ _ _ Y3). rewrite Ea in Hc. exact Hc. }
  assert (GC : forall u, In u (custs (v_graph v)) -> exists r, In r (nonempty_or (sa_initial sa) (v_initial v)) /\ In u r) by (rewrite Gi, Q5; exact Co).
  assert (Gn : nonempty_or (sa_initial sa) (v_initial v) <> []) by (rewrite Gi; exact Gv).
  assert (P1 : forall r, In r rs -> In r (nonempty_or (sa_initial sa) (v_initial v)) /\ stops r <> []).
  { rewrite Gi. intros r Hr. specialize (Pf r Hr). unfold first_route in Pf. destruct (sa_initial sa) as [|x l] eqn:Es; [congruence|]. split; [exact Pf|]. apply Ro. exact Pf. }
  assert (P2 : forall u, In u (custs (v_graph v)) -> (visits u rs = 1%nat /\ ~ In u dropped) \/ (visits u rs = 0%nat /\ In u dropped)) by (rewrite Q5; exact Pv).
  assert (P3 : NoDup dropped /\ (forall u, In u dropped -> In u (custs (v_graph v))) /\ (truthyQ (v_drop v) = false -> dropped = [])) by (rewrite Q5, Ed; exact Pd).
  assert (P4 : forall k n, number_of (v_args v) k n ->
    inject_Z (Z.of_nat (if (k =? 0)%nat then List.length rs else 0)) <= n /\
    (v_all v = true -> inject_Z (Z.of_nat (if (k =? 0)%nat then List.length rs else 0)) == n)).
  { intros k n Hn. rewrite Eal. apply Pn. rewrite Ea in Hn. unfold number_of in *. cbn [a_num_vehicles] in Hn. destruct (a_num_vehicles a) as [|y|l]; [|exact Hn|exact Hn].
    destruct Hn as [(x & Z & _)|(l & x & Z & Hk & _)]; [discriminate|]. injection Z as <-. destruct k; discriminate. }
  destruct (given_columns X sa v a' K p rs R Mv OT' NE' ND' E1 Pre' H Gn GR GC P1) as (pool & I & Cv & Sn).
  apply (first_returns X sa v a' K p R Mv NE' ND') with (rs := nonempty_or (sa_initial sa) (v_initial v)) (pool := pool); auto.
  - intros u r Hu. apply (AUX u). rewrite <- Hu. destruct Cp as (Cp & _). unfold node_data. rewrite Cp. reflexivity.
  - rewrite Q5. exact Cu.
  - refine (fleet_given v sa a' K p _ _ Mv Per' R NE' H); rewrite Ea; cbn [a_num_vehicles]; destruct (a_num_vehicles a) as [|y|l] eqn:En; try discriminate. intros x Ex. apply Nz. congruence.
  - destruct St as [-> | [-> | ->]]; eexists; (split; [reflexivity|discriminate]).
  - intros Z. apply S2. exact Z.
  - intros Z. apply S2. exact Z.
  - exact (given_keys sa v a' K p R Mv NE' E1 Pre' H GR GC).
  - apply (given_plan X sa v a' K p rs dropped R Mv OT' NE' ND' E1 Per' Pre' H GR P1 P2 P3 P4 pool Cv). intros c Hc. apply Sn. exact Hc.
Qed.

Lemma own_value X fuel fuel2 sa g a drop all per tabu rs dropped v v' out : own_plan sa g a drop all per rs dropped ->
  sa_greedy sa = false -> 0 <= user_service g Source ->
  (forall n q, right_answer q (e_master (x_env X) n q)) ->
  (sa_cspy sa = false -> (forall n tl q, sound_answer q (e_pricer (x_env X) n tl q)) /\ no_circles (x_env X)) ->
  (sa_cspy sa = true -> (forall n tl h, sound_labelling h (e_label (x_env X) n tl h)) /\
     forall D, time_limit a D -> forall u, user_service g u == 0) ->
  finds_paths (x_path X) ->
  create g a false false false drop all per false tabu = Ok v -> solve X fuel fuel2 sa v = Ok (v', out) ->
  (all = true -> nobody_idle (sv_routes (out_solved out))) ->
  exists q, best_value (out_solved out) = Ok q /\
    q <= Qsum (map (route_price g a) rs) + match drop with Some x => x * inject_Z (Z.of_nat (List.length dropped)) | None => 0 end.
Proof.
  intros [W (M & OT) NE ND NT AUX Cu Per (Pre & Di & He) St Nz Acc Gv Ro Co Pl] Gr SS S1 S2 S3 SP C So Bz.
  refine (proj1 (warm_user X fuel fuel2 sa g a false false false drop all per false tabu v v' out rs dropped W M NE OT AUX Per Pre Di He (or_introl Gr) _ _ _ (ND Source) (ND Sink) SS (fun _ => ND) _ _ S1 _ _ SP Cu C So Bz Pl) eq_refl).
  - intro Z. congruence.
  - intros r Hr. destruct (Ro r Hr) as (Y1 & Y2 & _). auto.
  - intros r Hr. unfold first_route in Hr. destruct (sa_initial sa) as [|x l] eqn:Es; [congruence|]. apply Ro. exact Hr.
  - discriminate.
  - discriminate.
  - intro Z. destruct (S2 Z) as (Y1 & Y2). split; [exact Y1|]. intros _. left. exact Y2.
  - intro Z. destruct (S3 Z) as (Y1 & Y2). split; [exact Y1|]. split; [discriminate|]. intros _. exact Y2.
Qed.

Theorem own_labelling sa g a drop all per tabu rs dropped : own_plan sa g a drop all per rs dropped -> sa_cspy sa = true ->
  exists v N, create g a false false false drop all per false tabu = Ok v /\
  forall X f f2, (N <= f)%nat -> (N <= f2)%nat ->
    (forall n q, sound_answer q (e_master (x_env X) n q)) ->
    (forall n tl h, sound_labelling h (e_label (x_env X) n tl h)) -> finds_paths (x_path X) ->
    gives_up (x_env X) \/ exists v' out, solve X f f2 sa v = Ok (v', out) /\
      (sa_greedy sa = false -> 0 <= user_service g Source -> (forall D, time_limit a D -> forall u, user_service g u == 0) ->
       (forall n q, right_answer q (e_master (x_env X) n q)) ->
       (all = true -> nobody_idle (sv_routes (out_solved out))) ->
       exists q, best_value (out_solved out) = Ok q /\
         q <= Qsum (map (route_price g a) rs) + match drop with Some x => x * inject_Z (Z.of_nat (List.length dropped)) | None => 0 end).
Proof.
  intros P Cs. destruct (own_returns sa g a drop all per tabu rs dropped P) as (v & C & T). destruct (solve_ends v sa Cs) as (N & E). exists v, N. split; [exact C|].
  intros X f f2 F1 F2 S1 S3 SP. destruct (E X f f2 F1 F2) as (_ & E2).
  destruct (T X f f2 S1 (fun Z => ltac:(congruence)) (fun _ => S3) SP) as [Q|[Q|(v' & out & Q)]]; [left; exact Q|contradiction|right]. exists v', out. split; [exact Q|].
  intros Gr SS TL RA Bz. exact (own_value X f f2 sa g a drop all per tabu rs dropped v v' out P Gr SS RA (fun Z => ltac:(congruence)) (fun _ => conj S3 TL) SP C Q Bz).
Qed.

Theorem own_mip sa g a drop all per tabu rs dropped : own_plan sa g a drop all per rs dropped -> sa_cspy sa = false ->
  (forall k u t, 0 <= user_cost g k u t) -> (forall k, 0 <= price_of a k) ->
  exists v N, create g a false false false drop all per false tabu = Ok v /\
  forall X f f2, (N <= f)%nat ->
    (forall n q, sound_answer q (e_master (x_env X) n q) /\
       (a_status (e_master (x_env X) n q) = Optimal -> a_objective (e_master (x_env X) n q) <> None /\
        forall y, feasible y q -> value (a_value (e_master (x_env X) n q)) (p_obj q) <= value y (p_obj q))) ->
    (forall n tl q, sound_answer q (e_pricer (x_env X) n tl q)) -> no_circles (x_env X) -> finds_paths (x_path X) ->
    gives_up (x_env X) \/ exists v' out, solve X f f2 sa v = Ok (v', out) /\
      (sa_greedy sa = false -> 0 <= user_service g Source -> (forall n q, right_answer q (e_master (x_env X) n q)) ->
       (all = true -> nobody_idle (sv_routes (out_solved out))) ->
       exists q, best_value (out_solved out) = Ok q /\
         q <= Qsum (map (route_price g a) rs) + match drop with Some x => x * inject_Z (Z.of_nat (List.length dropped)) | None => 0 end).
Proof.
  intros P Cs PC PF. destruct (own_returns sa g a drop all per tabu rs dropped P) as (v & C & T).
  destruct (mip_user g a false false false drop all per tabu sa v (op_wf _ _ _ _ _ _ _ _ P) (fun _ => op_costs _ _ _ _ _ _ _ _ P) PC PF (proj1 (op_call _ _ _ _ _ _ _ _ P)) Cs (proj1 (proj2 (op_call _ _ _ _ _ _ _ _ P))) C) as (N & E).
  exists v, N. split; [exact C|]. intros X f f2 F1 S1 S2 NCi SP. destruct (E X f f2 F1 S1) as (_ & E2).
  destruct (T X f f2 (fun n q => proj1 (S1 n q)) (fun _ => conj S2 NCi) (fun Z => ltac:(congruence)) SP) as [Q|[Q|(v' & out & Q)]]; [left; exact Q|contradiction|right]. exists v', out. split; [exact Q|].
  intros Gr SS RA Bz. exact (own_value X f f2 sa g a drop all per tabu rs dropped v v' out P Gr SS RA (fun _ => conj S2 NCi) (fun Z => ltac:(congruence)) SP C Q Bz).
Qed.
