(** The value of the final plan compared with the routes the search starts from. *)
From Verif.Base Require Import Prelude Graph.
From Verif.Spec Require Import Routes Network Inputs Feasible Prep Heuristics LinProg Pricing MIP Columns Timing Labelling Pool Master Run Plans Results Variants.
From Verif.Model Require Import Args Reach Checks Preprocess ClarkeWright Greedy Initial Pricing
  GreedyPricing LPPricing Cspy Master Dive Hyper ColGen Post Schedule Solve.
From Verif.Proofs Require Import RouteLemmas ChecksProofs FeasProofs PreLemmas PruneProofs KnapProofs LockProofs
  PresolveProofs PresolveEnd InitialProofs HeurCor PricingProofs LPProofs LPColumn LPComplete PricingCor PoolProofs PoolQuality SelectProofs MasterEnd ColGenProofs RunProofs ColGenCor ColGenEnd
  PostProofs PostCor PostEnd SolveProofs SolveHeur SolveUser ExactPool SolveExact PlanGen AnyProofs AnyPool Warm.

Lemma count_zeros {A} (l : list A) k : count_occ Nat.eq_dec (map (fun _ => 0%nat) l) k = if (k =? 0)%nat then List.length l else 0%nat.
Proof.
  induction l as [|x l IH]; cbn; [destruct (k =? 0)%nat; reflexivity|]. destruct k as [|k]; cbn in *; [rewrite IH; reflexivity|exact IH].
Qed.

Section Bound.
  Variables (X : outside) (fuel fuel2 : nat) (sa : solve_args) (v v' : vrp) (out : outcome) (a : rargs) (K : nat) (p : prepared).
  Local Notation G := (v_graph v).
  Local Notation h := (pr_copy p).
  Local Notation g3 := (pr_graph p).
  Local Notation o := (options_of v sa).
  Local Notation caps := (caps_arg (a_load_capacity a)).
  Local Notation dur := (int_arg (a_duration a)).
  Local Notation ini := (nonempty_or (sa_initial sa) (v_initial v)).
  Local Notation UA := (v_args v).
  Variable ok : nat -> list node -> Prop.
  Hypothesis R : ready G.
  Hypothesis NE : a_mixed_fleet UA = false -> no_empty_costs G.
  Hypothesis H : prepare v sa = Ok (a, K, p).
  Hypothesis E5 : nonempty_or (sa_pre sa) (v_pre v) = [].
  Hypothesis AUX : forall u d, node_data g3 u = Some d -> is_aux_depot d = false.
  Hypothesis E4 : truthy (v_periodic v) = false.
  Hypothesis E6 : sa_heuristic sa = false.
  Hypothesis E9 : sa_dive sa = false.
  Hypothesis EI : v_iter v = 0%nat /\ v_noimp v = 0%nat /\ v_bounds v = [] /\ v_hyper v = None /\ v_chosen v = [].
  Hypothesis ED : v_dropped v = [].
  Hypothesis S1 : forall n q, right_answer q (e_master (x_env X) n q).
  Hypothesis SP : finds_paths (x_path X).
  Hypothesis IG : forall rs pool,
    initialize o (a_mixed_fleet a) caps dur (pr_num_stops p) (x_perms X) ini g3 = Ok (rs, pool) ->
    forall c, In c pool -> usable p ok (one_type v) c.
  Hypothesis PG : forall rs pool,
    initialize o (a_mixed_fleet a) caps dur (pr_num_stops p) (x_perms X) ini g3 = Ok (rs, pool) ->
    forall p1 p2, (forall c, In c p1 -> usable p ok (one_type v) c) ->
    priced (x_env X) (cg_of X v sa a K p (covered rs)) g3 p1 p2 -> forall c, In c p2 -> usable p ok (one_type v) c.
  Hypothesis OK0 : forall k cs, ok k cs -> one_type v -> (k < K)%nat.
  (** the routes of the initial solution *)
  Variable first : list node -> Prop.
  Variable few : Prop.
  Hypothesis FR : forall rs pool,
    initialize o (a_mixed_fleet a) caps dur (pr_num_stops p) (x_perms X) ini g3 = Ok (rs, pool) ->
    (forall r, In r rs -> route_shape r) /\ (forall r, first r -> In r rs /\ stops r <> []) /\ (few -> (List.length rs <= 74)%nat).
  Hypothesis So : solve X fuel fuel2 sa v = Ok (v', out).
  Hypothesis OT : one_type v.
  Hypothesis NC : custs G <> [].
  Hypothesis Busy : v_all v = true -> forall i r, In (i, r) (sv_routes (out_solved out)) -> stops r <> [].
  Variables (rs1 : list (list node)) (dr1 : list node).
  Hypothesis F1 : forall r, In r rs1 -> first r.
  Hypothesis F2 : forall u, In u (custs G) -> (visits u rs1 = 1%nat /\ ~ In u dr1) \/ (visits u rs1 = 0%nat /\ In u dr1).
  Hypothesis F3 : NoDup dr1 /\ (forall u, In u dr1 -> In u (custs G)) /\ (truthyQ (v_drop v) = false -> dr1 = []).
  Hypothesis F4 : forall k n, number_of UA k n ->
    inject_Z (Z.of_nat (if (k =? 0)%nat then List.length rs1 else 0)) <= n /\
    (v_all v = true -> inject_Z (Z.of_nat (if (k =? 0)%nat then List.length rs1 else 0)) == n).

  Lemma bound :
    (v_span v = false -> exists q, best_value (out_solved out) = Ok q /\
       q <= Qsum (map (route_price G UA) rs1) + match v_drop v with Some x => x * inject_Z (Z.of_nat (List.length dr1)) | None => 0 end) /\
    (v_span v = true -> few -> forall q, best_value (out_solved out) = Ok q ->
       q <= dearest G UA rs1 + match v_drop v with Some x => x * inject_Z (Z.of_nat (List.length dr1)) | None => 0 end).
  Proof.
    destruct (any_prepared v sa a K p R NE H E5) as (Net & NG & CG & MR & AX & FD & FZ & FS & FW & FP & FA & FT).
    destruct (any_types v sa a K p R NE H) as (K1 & K2 & _). destruct OT as (Om & Oc). specialize (K2 Om).
    destruct (any_network v sa a K p R NE H) as (Nh & Nn & Ah).
    destruct (generic_core X fuel fuel2 sa v v' out a K p ok (one_type v) Net AUX MR E4 E5 E6 E9 EI (fun n q => ra_sound _ _ (S1 n q)) SP H IG PG So)
      as (rs0 & pool & sel & dr & css & HI & F & NDs & Er & Ty & On & D1 & D2 & D3 & D4 & D5 & D6 & Esc & Cp1 & Cp2 & Cp3).
    destruct (FR rs0 pool HI) as (Sh0 & Fi & Few).
    assert (Cv : convert_from g3 caps 1 rs0 = Ok pool).
    { unfold initialize in HI. apply bind_ok in HI. destruct HI as (x & _ & HI). apply bind_ok in HI. destruct HI as (y & Hy & HI). injection HI as <- <-. exact Hy. }
    assert (ZT : forall c, usable p ok (one_type v) c -> (exists i, c_name c = CNonElem i) \/ c_type c = 0%nat).
    { intros c [(cs & Q)|Q]; [right|left; exact Q]. pose proof (OK0 _ _ (ft_ok _ _ _ _ _ Q) OT). lia. }
    assert (mo_eq : cg_master (cg_of X v sa a K p (covered rs0)) = moptions_of v (pr_num_vehicles p)) by reflexivity.
    cbv zeta in D6. rewrite mo_eq in D6. set (mo := moptions_of v (pr_num_vehicles p)) in *.
    assert (Al0 : forall r, In r rs0 -> along (arc_list g3) r) by (intros r Hr; exact (convert_along _ _ _ _ _ Cv r Hr)).
    destruct (first_selection g3 K mo caps rs0 pool rs1 dr1 Net K1 Cv) as (sel' & Va & Co & Nm).
    { intros r Hr. auto. }
    { intros r Hr. apply Fi, F1. exact Hr. }
    { rewrite CG. exact F2. }
    { exact (proj1 F3). }
    { rewrite CG. exact (proj1 (proj2 F3)). }
    { intro Nd. apply (proj2 (proj2 F3)). destruct (truthyQ (v_drop v)) eqn:Et; [|reflexivity]. exfalso.
      destruct (v_drop v) as [q|] eqn:Ed; [|discriminate]. apply (Nd q). split; [exact Ed|]. intro Z. cbn in Et. apply negb_true_iff in Et. pose proof (Qeq_eq_bool _ _ Z). congruence. }
    { intros c Hc. destruct (ZT c (IG rs0 pool HI c Hc)) as [(i & Q)|Q]; [|exact Q]. exfalso.
      destruct (convert_from_ok g3 K Net K1 caps rs0 1) as [(cols & X1 & X2 & X3)|(X1 & _)]; [|  |congruence].
      { intros r Hr. destruct (Sh0 r Hr) as (cs & -> & _). split; [exact (Al0 _ Hr)|]. cbn. rewrite app_length. cbn. lia. }
      assert (cols = pool) by congruence. subst cols. apply In_nth_error in Hc. destruct Hc as (j & Hj). assert (Lj : (j < List.length rs0)%nat) by (rewrite <- X2; apply nth_error_Some; congruence).
      destruct (nth_error rs0 j) as [r|] eqn:Ej; [|apply nth_error_None in Ej; lia]. destruct (X3 j r Ej) as (c' & Hc' & Q2 & _). congruence. }
    { intros l (L1 & _) k n Hn. change (mo_fleet mo) with (pr_num_vehicles p) in L1. rewrite count_zeros. apply F4.
      exact (any_fleet_inv v sa a K p R NE H l k n E4 Om L1 Hn). }
    assert (Nc3 : custs g3 <> []) by (rewrite CG; exact NC).
    destruct (D6 Nc3 S1 sel' dr1 Va) as (B1 & B2).
    (* costs of first routes in the user's figures *)
    assert (PR : forall r, In r rs1 -> path_sum (cost_of g3 0) r == route_price G UA r).
    { intros r Hr. destruct (Fi r (F1 r Hr)) as (Hr0 & Ne). assert (Shr := Sh0 r Hr0). assert (Alr := Al0 r Hr0).
      destruct (route_shape_stops r Shr) as (cs & Ers & Es). rewrite Es in Ne.
      assert (ND' : forall x y, In (x, y) (arcs r) -> (x, y) <> (Source, Sink)).
      { intros x y Hxy. rewrite Ers in Hxy. destruct Shr as (cs' & Ec & _ & Nd). assert (cs' = cs) by (rewrite Ers in Ec; injection Ec as Ec; apply app_inv_tail in Ec; congruence). subst cs'.
        intro Z. exact (no_direct cs x y Ne Nd Hxy Z). }
      rewrite (path_sum_ext (cost_of g3 0) (cost_of h 0)) by (intros x y Hxy; rewrite (any_costs v sa a K p R NE H 0 x y E5 (Alr x y Hxy)); [reflexivity|right; exact (ND' x y Hxy)]).
      unfold route_price. rewrite Ers. apply (any_route_cost v sa a K p R NE H); [lia|exact Ne|rewrite <- Ers; exact Shr|]. rewrite <- Ers.
      intros x y Hxy. destruct (FA x y (Alr x y Hxy)) as [Z|Z]; [exact Z|]. exfalso. exact (ND' x y Hxy Z). }
    assert (Co' : Forall2 (fun c r => c_cost c == route_price G UA r) sel' rs1).
    { clear - Co PR. induction Co as [|c r l l' Q Co IH]; [constructor|]. constructor; [rewrite Q; apply PR; left; reflexivity|apply IH; intros; apply PR; right; assumption]. }
    (* costs of the reported routes *)
    assert (SH : forall cs, In cs css -> route_shape (trip cs) /\ along (arc_list g3) (trip cs)).
    { intros cs Hcs. destruct (F2_in_r _ _ _ _ F Hcs) as (c & _ & Q). split; [exact (ft_shape _ _ _ _ _ Q)|exact (ft_along _ _ _ _ _ Q)]. }
    assert (BZ : v_all v = true -> forall cs, In cs css -> cs <> []).
    { intros Ea cs Hcs Z. apply In_nth_error in Hcs. destruct Hcs as (i & Hi).
      assert (Hir : In (S i, trip cs) (sv_routes (out_solved out))).
      { rewrite Er. clear - Hi. assert (Gn : forall l s i, nth_error l i = Some cs -> In ((s + i)%nat, trip cs) (combine (seq s (List.length l)) (map trip l))).
        { clear. induction l as [|x l IH]; intros s [|i] Hi; cbn in *; try discriminate; [left; rewrite Nat.add_0_r; congruence|right]. rewrite Nat.add_succ_r. apply (IH (S s) i Hi). }
        exact (Gn css 1%nat i Hi). }
      specialize (Busy Ea _ _ Hir). subst cs. apply Busy. reflexivity. }
    assert (CH : Forall2 (fun c r => c_cost c == path_sum (cost_of h 0) r /\ c_type c = 0%nat) sel (map trip css)).
    { assert (Q : forall c cs, fits p ok (one_type v) c cs -> In cs css -> c_cost c == path_sum (cost_of h 0) (trip cs) /\ c_type c = 0%nat).
      { intros c cs Q Hcs. assert (T0 : c_type c = 0%nat) by (pose proof (OK0 _ _ (ft_ok _ _ _ _ _ Q) OT); lia). split; [|exact T0].
        rewrite (ft_cost _ _ _ _ _ Q OT), T0. destruct (SH cs Hcs) as (Q1 & Q2). apply path_sum_ext. intros x y Hxy.
        rewrite (any_costs v sa a K p R NE H 0 x y E5 (Q2 x y Hxy)); [reflexivity|]. destruct (v_all v) eqn:Ea; [right|left; reflexivity].
        destruct Q1 as (cs' & Ec & _ & Nd). assert (cs' = cs) by (unfold trip in Ec; injection Ec as Ec; apply app_inv_tail in Ec; congruence). subst cs'.
        intro Z. exact (no_direct cs x y (BZ eq_refl cs Hcs) Nd Hxy Z). }
      clear - F Q. induction F as [|c cs l l' Q1 F IH]; [constructor|]. cbn [map]. constructor; [apply Q; [exact Q1|left; reflexivity]|apply IH; intros; apply Q; [assumption|right; assumption]]. }
    set (s0 := out_solved out) in *.
    assert (TY : forall i r, In (i, r) (sv_routes s0) -> dget Nat.eqb i (sv_types s0) = Some 0%nat /\ In r (map trip css)).
    { intros i r Hir. rewrite Er in Hir. split; [|exact (in_combine_r _ _ _ _ Hir)]. apply in_combine_l, in_seq in Hir. destruct i as [|i]; [lia|].
      destruct (nth_error sel i) as [c|] eqn:En.
      - rewrite (Ty i c En). f_equal. assert (Hc := nth_error_In _ _ En). clear - CH Hc. induction CH as [|x y l l' (_ & Q) CH IH]; [destruct Hc|]. destruct Hc as [->|Hc]; auto.
      - apply nth_error_None in En. rewrite (F2_length _ _ _ F) in En. lia. }
    assert (KN : forall i r, In (i, r) (sv_routes s0) -> knows K (sv_copy s0) r /\ exists k, dget Nat.eqb i (sv_types s0) = Some k /\ (k < K)%nat).
    { intros i r Hir. destruct (TY i r Hir) as (Ti & Hr). split; [|exists 0%nat; split; [exact Ti|lia]]. rewrite Cp1. apply in_map_iff in Hr. destruct Hr as (cs & <- & Hcs).
      destruct (SH cs Hcs) as (Q1 & Q2). assert (Q3 : along (arc_list h) (trip cs)) by (intros x y Hxy; apply Ah; exact (FA x y (Q2 x y Hxy))).
      split; [|split; [exact Q3|apply (net_costs _ _ Nh)]]. intros x Hx. eapply along_nodes; [apply (net_wf _ _ Nh)|exact Q1|exact Q3|exact Hx]. }
    assert (DR : sv_dropped s0 = dr).
    { rewrite D4. destruct (truthyQ (v_drop v)) eqn:Et; [reflexivity|]. rewrite (D3 eq_refl). exact ED. }
    assert (RC : forall d, best_routes_cost s0 = Ok d -> Forall2 (fun c y => y == c_cost c) sel (map snd d)).
    { intros d Hd. apply cost_ok in Hd. unfold reports in Hd. rewrite Er in Hd.
      assert (Gn : forall L rs d sl, Forall2 (fun x y => fst y = fst x /\ cost_report s0 (fst x) (snd x) (snd y)) L d -> map snd L = rs -> (forall i r, In (i, r) L -> dget Nat.eqb i (sv_types s0) = Some 0%nat) ->
        Forall2 (fun c r => c_cost c == path_sum (cost_of h 0) r /\ c_type c = 0%nat) sl rs -> Forall2 (fun c y => y == c_cost c) sl (map snd d)).
      { clear - Cp1. induction L as [|(i & r) L IH]; intros rs d sl Fd <- Tz Fc; inversion Fd as [|x y L' d' G1 G2]; subst; cbn [map snd] in Fc; inversion Fc as [|c r' sl' rs' G3 G4]; subst; cbn [map]; constructor.
        - destruct G1 as (_ & k & Hk & Hq). cbn [fst snd] in *. rewrite (Tz i r (or_introl eq_refl)) in Hk. injection Hk as <-. rewrite Hq, Cp1. symmetry. apply G3.
        - eapply IH; [exact G2|reflexivity|intros; eapply Tz; right; eassumption|exact G4]. }
      eapply (Gn _ (map trip css)); [exact Hd|rewrite map_snd_combine; [reflexivity|rewrite seq_length, map_length; reflexivity]| |exact CH].
      intros i r Hir. apply (TY i r). rewrite Er. exact Hir. }
    split.
    - intro Sp. specialize (B1 Sp). assert (Sp0 : sv_span s0 = false) by (rewrite Cp2; exact Sp).
      destruct (results_total K s0 KN) as (_ & _ & _ & Vt). destruct (Vt (or_intror Sp0)) as (q0 & Hq0). exists q0. split; [exact Hq0|].
      destruct (value_ok s0 q0 Hq0) as (d & m & Hd & Hm & _ & Hq). specialize (Hm Sp0). rewrite Hq, Hm, DR, Cp3.
      assert (Es : Qsum (map snd d) == Qsum_over sel c_cost).
      { specialize (RC d Hd). unfold Qsum_over. clear - RC. induction RC as [|c y l l' Q RC IH]; [reflexivity|]. cbn [map]. rewrite !Qsum_cons, Q, IH. reflexivity. }
      rewrite Es. rewrite <- (cost_sums _ _ _ Co'). exact B1.
    - intros Sp Hf q0 Hq0. specialize (B2 Sp). assert (Sp0 : sv_span s0 = true) by (rewrite Cp2; exact Sp).
      destruct (value_ok s0 q0 Hq0) as (d & m & Hd & _ & Hm & Hq). destruct (Hm Sp0) as (Im & _). rewrite Hq, DR, Cp3.
      assert (Um : m <= span_of sel).
      { specialize (RC d Hd). destruct (F2_in_r _ _ _ _ RC Im) as (c & Hc & Q). rewrite Q. apply span_of_ub. exact Hc. }
      assert (Bd : span_price mo sel dr <= span_price mo sel' dr1).
      { apply B2. intros c i Hc Ei Hi. exfalso. pose proof (Nm c i Hc Ei). pose proof (Few Hf). lia. }
      unfold span_price in Bd. change (mo_drop mo) with (v_drop v) in Bd. rewrite (cost_spans _ _ _ Co') in Bd. fold (dearest G UA rs1) in Bd. lra.
  Qed.
End Bound.
