(** solve() returns on plain problems: from the arguments of the user to the start of the search, and back. *)
From Verif.Base Require Import Prelude Graph.
From Verif.Spec Require Import Routes Network Inputs Feasible Prep Heuristics LinProg Pricing MIP Columns Timing Labelling Pool Master Run Plans Results Variants Returning.
From Verif.Model Require Import Args Reach Checks Preprocess ClarkeWright Greedy Initial Pricing
  GreedyPricing LPPricing Cspy Master Dive Hyper ColGen Post Schedule Solve.
From Verif.Proofs Require Import RouteLemmas ChecksProofs FeasProofs PreLemmas PruneProofs KnapProofs LockProofs
  PresolveProofs PresolveEnd CWProofs GreedyProofs InitialProofs HeurCor PoolProofs PoolQuality SelectProofs MasterCor MasterEnd ColGenProofs RunProofs ColGenCor ColGenEnd
  BoundProofs PostProofs PostCor PostEnd SolveProofs SolveHeur SolveUser ExactPool SolveExact AnyProofs PlanGen Warm PlainStart LabelEnds MipSolve Returns.

(** A plan that visits nobody twice has no more routes than there are customers. *)
Lemma few_routes rs : forall cu : list node, (forall u, In u cu -> (visits u rs <= 1)%nat) ->
  (forall r, In r rs -> exists u, In u cu /\ In u r) -> (List.length rs <= List.length cu)%nat.
Proof.
  induction rs as [|r rs IH]; intros cu V B; [cbn; lia|].
  destruct (B r (or_introl eq_refl)) as (u & Hu & Hr).
  assert (V0 : visits u rs = 0%nat).
  { specialize (V u Hu). cbn in V. assert (0 < count_occ node_eq_dec r u)%nat by (apply count_occ_In; exact Hr). lia. }
  assert (Nr : forall r', In r' rs -> ~ In u r').
  { clear - V0. induction rs as [|x rs IH]; intros r' H Hu; cbn in V0; [destruct H|]. destruct H as [<-|H].
    - assert (0 < count_occ node_eq_dec x u)%nat by (apply count_occ_In; exact Hu). lia.
    - apply (IH ltac:(lia) r' H Hu). }
  pose proof (remove_length_lt node_eq_dec cu u Hu) as L. specialize (IH (remove node_eq_dec u cu)). cbn [List.length].
  enough (List.length rs <= List.length (remove node_eq_dec u cu))%nat by lia. apply IH.
  - intros w Hw. apply in_remove in Hw. specialize (V w (proj1 Hw)). cbn in V. lia.
  - intros r' Hr'. destruct (B r' (or_intror Hr')) as (w & Hw & Hw'). exists w. split; [|exact Hw'].
    apply in_in_remove; [|exact Hw]. intros ->. exact (Nr r' Hr' Hw').
Qed.

Lemma columns_listed sp : finds_paths sp -> forall cs id,
  (forall c, In c cs -> exists q, route_shape (trip q) /\ forall a, In a (c_arcs c) <-> In a (arcs (trip q))) ->
  exists r, column_lists sp id cs = Ok r.
Proof.
  intros SP. induction cs as [|c cs IH]; intros id H; cbn [column_lists]; [eauto|].
  destruct (H c (or_introl eq_refl)) as (q & Sh & Ar).
  assert (F := SP (c_nodes c) (c_arcs c)). destruct (sp (c_nodes c) (c_arcs c)) as [r|].
  - cbn [of_opt bind]. destruct (IH (S id) (fun c' Hc => H c' (or_intror Hc))) as (x & ->). cbn [bind]. eauto.
  - exfalso. apply F. exists (trip q). apply (only_walk (c_arcs c) q Ar Sh). reflexivity.
Qed.

Section User.
  Variables (X : outside) (sa : solve_args) (v : vrp) (a : rargs) (K : nat) (p : prepared).
  Local Notation G := (v_graph v).
  Local Notation UA := (v_args v).
  Local Notation g3 := (pr_graph p).
  Local Notation o := (options_of v sa).
  Local Notation caps := (caps_arg (a_load_capacity a)).
  Local Notation dur := (int_arg (a_duration a)).
  Hypothesis R : ready G.
  Hypothesis M : a_mixed_fleet UA = false.
  Hypothesis OT : forall x y l, a_load_capacity UA <> PList (x :: y :: l).
  Hypothesis NE : no_empty_costs G.
  Hypothesis ND : nonneg_user_demands G.
  Hypothesis AUX : forall u r, node_data G u = Some r -> r_aux_depot r = false.
  Hypothesis Cu : custs G <> [].
  Hypothesis E1 : v_windows v = false.
  Hypothesis E2 : v_pickup v = false.
  Hypothesis E3 : v_both v = false.
  Hypothesis E4 : truthy (v_periodic v) = false.
  Hypothesis E5 : nonempty_or (sa_pre sa) (v_pre v) = [].
  Hypothesis E6 : sa_heuristic sa = false.
  Hypothesis E8 : v_span v = false.
  Hypothesis E9 : sa_dive sa = false.
  Hypothesis EI : v_iter v = 0%nat /\ v_noimp v = 0%nat /\ v_bounds v = [] /\ v_hyper v = None /\ v_chosen v = [].
  Hypothesis NV : exists l, pr_num_vehicles p = Some l.
  Hypothesis ST : exists s, strategy_of (sa_strategy sa) = Some s /\ s <> BestPaths.
  Hypothesis HP : forall x l, Permutation l (x_perms X x l).
  Hypothesis S1 : forall n q, sound_answer q (e_master (x_env X) n q).
  Hypothesis S2 : sa_cspy sa = false -> forall n tl q, sound_answer q (e_pricer (x_env X) n tl q).
  Hypothesis NC : sa_cspy sa = false -> no_circles (x_env X).
  Hypothesis LA : sa_cspy sa = true -> forall n tl h, sound_labelling h (e_label (x_env X) n tl h).
  Hypothesis SP : finds_paths (x_path X).
  Hypothesis H : prepare v sa = Ok (a, K, p).

  Lemma capacity_one : caps = None \/ exists c, caps = Some [c].
  Proof.
    destruct (one_args v sa a K p M H) as (_ & Ea & _ & _). destruct (plain_network sa v a K p R M NE E1 E5 H) as (_ & _ & _ & _ & _ & _ & _ & _ & HC & _).
    rewrite Ea in HC |- *. cbn [a_load_capacity] in *. unfold format_val in *.
    destruct (a_load_capacity UA) as [|n|[|n [|n' l]]] eqn:El; cbn in *; auto.
    - destruct (num_zero n); cbn; [left; reflexivity|right; eauto].
    - congruence.
    - right. eauto.
    - exfalso. exact (OT _ _ _ eq_refl).
  Qed.

  (** The first routes, as columns. *)
  Lemma first_columns : exists rs pool, initialize o (a_mixed_fleet a) caps dur (pr_num_stops p) (x_perms X) [] g3 = Ok (rs, pool) /\
    convert_from g3 caps 1 rs = Ok pool /\ (forall r, In r rs -> route_shape r /\ along (arc_list g3) r) /\
    (forall c, In c pool -> sane g3 c /\ c_type c = 0%nat).
  Proof.
    destruct (plain_network sa v a K p R M NE E1 E5 H) as (Net & RT & CG & FD & FS & FA & FT & SS & HC & _).
    destruct (one_args v sa a K p M H) as (EK & Ea & _ & _).
    assert (Pl : plain o (a_mixed_fleet a) = true) by (unfold plain; rewrite Ea; cbn; rewrite E1, E2, E3, E4; reflexivity).
    destruct (plain_initial_ok g3 1 Net (le_n 1) RT SS caps dur (pr_num_stops p) HC _ HP o _ Pl) as (rs & H0 & H1 & H2).
    assert (A : forall r, In r rs -> along (arc_list g3) r /\ (2 <= List.length r)%nat).
    { intros r Hr. destruct (H1 r Hr) as ((cs & -> & _) & Al & _). split; [exact Al|]. cbn. rewrite app_length. cbn. lia. }
    destruct (depots_nothing sa v a K p R M NE E1 E5 ND H) as (D1 & D2).
    assert (Ld : forall r c, In r rs -> caps = Some [c] -> node_sum (demand_of g3) r <= inject_Z c).
    { intros r c Hr Hc. destruct (customer_fits sa v a K p R M NE E1 E5 H c Hc) as (C0 & C1).
      destruct (H1 r Hr) as (Sh & _ & _ & Lo & _). destruct (route_shape_stops r Sh) as (cs & Er & Es).
      assert (Q : node_sum (demand_of g3) (stops r) <= inject_Z c).
      { apply (Lo c []); auto; [lia|]. change 0 with (inject_Z 0). rewrite <- Zle_Qle. lia. }
      rewrite Es in Q. rewrite Er. unfold node_sum in *. cbn [map]. rewrite map_app, Qsum_cons, Qsum_app. cbn [map]. rewrite Qsum_cons. change (Qsum []) with 0. lra. }
    destruct (convert_from_ok g3 1 Net (le_n 1) caps rs 1 A) as [(pool & Cv & Ln & Hn)|(_ & r & Hr & (c & l & Ec & Hc))].
    2: { exfalso. destruct capacity_one as [Z|(x & Z)]; [congruence|]. assert (Ex : c = x /\ l = []) by (split; congruence). destruct Ex as (-> & ->). specialize (Ld r x Hr Z). specialize (Hc x (or_introl eq_refl)). lra. }
    exists rs, pool. split; [unfold initialize; cbn [nonempty]; rewrite H0; cbn [bind]; unfold convert_initial_routes; rewrite Cv; reflexivity|].
    split; [exact Cv|]. split; [intros r Hr; destruct (H1 r Hr) as (Q1 & Q2 & _); auto|].
    intros c Hc. apply In_nth_error in Hc. destruct Hc as (i & Hi).
    assert (Hr : exists r, nth_error rs i = Some r).
    { destruct (nth_error rs i) eqn:En; [eauto|]. apply nth_error_None in En. rewrite <- Ln in En. apply nth_error_None in En. congruence. }
    destruct Hr as (r & Hr). destruct (Hn i r Hr) as (c' & Hi' & Q1 & Q2 & Q3 & Q4 & Q5 & Q6 & Q7 & Q8). assert (c' = c) by congruence. subst c'.
    apply nth_error_In in Hr. destruct (H1 r Hr) as (Sh & Al & St & _). split; [constructor|].
    - unfold served. rewrite Q6. intros u Hu U1 U2. apply in_custs. split; [|auto]. eapply along_nodes; [exact (net_wf _ _ Net)|exact Sh|exact Al|]. apply Q2. exact Hu.
    - left. destruct (route_shape_stops r Sh) as (cs & Er & _). fold (trip cs) in Er. exists cs. rewrite <- Er. auto.
    - destruct capacity_one as [Z|(x & Z)]; rewrite Z in Q8; [exact Q8|]. destruct Q8 as ((y & Y1 & _) & _). destruct (c_type c) as [|[|k]]; [reflexivity|discriminate|discriminate].
  Qed.

  (** The search returns if it can start: the first routes are columns, everybody is on one of them,
      and some of them make a plan. *)
  Lemma first_returns fuel fuel2 rs pool :
    initialize o (a_mixed_fleet a) caps dur (pr_num_stops p) (x_perms X) (nonempty_or (sa_initial sa) (v_initial v)) g3 = Ok (rs, pool) ->
    (forall c, In c pool -> sane g3 c /\ c_type c = 0%nat) -> (forall u, In u (custs g3) -> In u (covered rs)) ->
    (exists sel dr, valid_selection g3 (cg_master (cg_of X v sa a K p (covered rs))) pool sel dr) ->
    gives_up (x_env X) \/ solve X fuel fuel2 sa v = Err OutOfFuel \/ exists v' out, solve X fuel fuel2 sa v = Ok (v', out).
  Proof.
    intros I Sn Keys Plan.
    destruct (plain_network sa v a K p R M NE E1 E5 H) as (Net & RT & CG & FD & FS & FA & FT & SS & HC & MR & _).
    destruct (one_args v sa a K p M H) as (EK & Ea & _ & _).
    destruct (depots_nothing sa v a K p R M NE E1 E5 ND H) as (D1 & D2).
    destruct (any_prepared v sa a K p R (fun _ => NE) H E5) as (_ & _ & _ & _ & AX & _).
    set (C := cg_of X v sa a K p (covered rs)).
    assert (Kk : cg_types C = 1%nat) by exact EK.
    assert (Net' : network (cg_types C) g3) by (rewrite Kk; exact Net).
    assert (NAux : forall u d, In (u, d) (gnodes g3) -> is_aux_depot d = false).
    { intros u d Hd. apply gnodes_data in Hd; [|exact (net_wf _ _ Net)]. destruct (AX u d Hd) as (r & Hr & ->). exact (AUX u r Hr). }
    assert (Cap : forall k l, (k < cg_types C)%nat -> cg_caps C = Some l -> l <> [] -> (k < List.length l)%nat).
    { intros k l Hk Hl Nl. rewrite Kk in Hk. destruct l; [congruence|cbn; lia]. }
    assert (Fl : forall fl, mo_fleet (cg_master C) = Some fl -> fl <> [] -> (cg_types C <= List.length fl)%nat).
    { intros fl _ Nl. rewrite Kk. destruct fl; [congruence|cbn; lia]. }
    assert (Cu3 : custs g3 <> []) by (rewrite CG; exact Cu).
    assert (Ar : arc_list g3 <> []) by (intro Z; rewrite Z in SS; destruct SS).
    (* the master problem *)
    assert (Fm : exists m, Master.formulate g3 (cg_master C) pool = Ok m).
    { apply formulate_ok. split; [|split; [split|]].
      - intros c Hc. apply sane_addable; [exact NAux|exact E8|apply Sn; exact Hc].
      - intros _ _ u Hu. exact (customers g3 NAux u Hu).
      - intro Z. change (mo_periodic (cg_master C)) with (truthy (v_periodic v)) in Z. congruence.
      - destruct NV as (l & Hl). exists l. split; [exact Hl|]. intros _. exact E4. }
    destruct Fm as (m & Hm). destruct EI as (EI1 & EI2 & EI3 & EI4 & EI5).
    destruct (start v sa C p pool) as [s|] eqn:Hs; [|unfold start in Hs; rewrite Hm in Hs; discriminate].
    assert (Fr : fresh C g3 s /\ s_pool s = pool /\ s_graph s = g3 /\ s_master s = m).
    { unfold start in Hs. rewrite Hm in Hs. cbn [bind] in Hs. injection Hs as <-. split; [|auto].
      constructor; cbn [s_pool s_master s_graph s_fixed s_diving dv_depth dv_level s_dive s_iter s_noimp s_more s_bounds s_hyper]; auto.
      - exists (a_mixed_fleet a), (x_perms X), (nonempty_or (sa_initial sa) (v_initial v)), rs. exact I.
      - rewrite EI4. reflexivity. }
    destruct Fr as (Fr & Pl & Gr & Ms).
    assert (Sd : sound C g3 s).
    { constructor.
      - apply (initial_inv C o (a_mixed_fleet a) caps dur (pr_num_stops p) (x_perms X) _ g3 rs pool m s I Hm Gr Pl Ms).
      - rewrite Pl. intros c Hc. apply Sn. exact Hc.
      - exact (fresh_fine C g3 s Fr).
      - exact (fs_dive _ _ _ Fr).
      - rewrite (fs_iter _ _ _ Fr), (fs_bounds _ _ _ Fr). reflexivity.
      - rewrite Pl. exact Plan. }
    assert (T := columns_total (x_env X) C g3 Net' Cap E1 E2 E3 D1 D2 Keys NAux E4 E8 Fl Cu3 Ar ST LA S2 NC fuel fuel2 s Sd).
    unfold solve. rewrite H. cbn [bind]. rewrite E6, I. cbn [bind fst snd]. fold C. rewrite Hs. cbn [bind]. rewrite E9.
    destruct T as [T|[T|(s' & ((t & sel) & dropped) & T & Sd')]]; [left; exact T|right; left; rewrite T; reflexivity|right; right].
    rewrite T. cbn [bind fst snd].
    destruct (concluded_end _ _ _ _ _ _ _ _ _ _ Fr T) as (_ & _ & Cc).
    assert (Nm : NoDup (map c_name (s_pool s'))) by (apply ColGenProofs.names_NoDup; exact (iv_numbered _ _ _ (sd_inv _ _ _ Sd'))).
    destruct (conclusion_valid g3 (cg_master C) (s_pool s') _ _ t sel dropped (net_wf _ _ Net) (fun c Hc => proj1 (sd_fine _ _ _ Sd' c Hc)) Nm
      (fun m _ => S1 (S (s_tick s')) (program_of (integral m))) Cc E4) as [V1 V2 V3 V4 V5 V6 V7].
    assert (Lists : exists r, column_lists (x_path X) 1 sel = Ok r).
    { apply columns_listed; [exact SP|]. intros c Hc. destruct (sd_sane _ _ _ Sd' c (V1 c Hc)) as [_ [Q|(i & Q)]]; [exact Q|]. exfalso. exact (V3 c i Hc Q). }
    destruct Lists as (nl & Hnl). unfold post_process, node_lists. rewrite E4, E5. rewrite Hnl.
    destruct (truthyQ (v_drop v)); cbn [of_opt bind locked_lists fst snd]; eauto.
  Qed.

  Theorem prepared_returns fuel fuel2 : nonempty_or (sa_initial sa) (v_initial v) = [] ->
    (forall k n, number_of UA k n -> v_all v = false /\ 0 <= n /\
       (inject_Z (Z.of_nat (List.length (custs G))) <= n \/ truthyQ (v_drop v) = true)) ->
    gives_up (x_env X) \/ solve X fuel fuel2 sa v = Err OutOfFuel \/ exists v' out, solve X fuel fuel2 sa v = Ok (v', out).
  Proof.
    intros E7 FL.
    destruct (plain_network sa v a K p R M NE E1 E5 H) as (Net & RT & CG & FD & FS & FA & FT & SS & HC & MR & _).
    destruct first_columns as (rs & pool & I & Cv & Sh & Sn).
    set (C := cg_of X v sa a K p (covered rs)).
    assert (FB : forall l, fleet_bound (cg_master C) l -> forall k n, nth_error l k = Some n -> v_all v = false /\ 0 <= n /\ (inject_Z (Z.of_nat (List.length (custs G))) <= n \/ truthyQ (v_drop v) = true)).
    { intros l (L1 & _) k n Hn. apply (FL k). exact (any_fleet_inv v sa a K p R (fun _ => NE) H l k n E4 M L1 Hn). }
    assert (Plan : exists sel dr, valid_selection g3 (cg_master C) pool sel dr).
    { destruct (truthyQ (v_drop v)) eqn:Ed.
      - destruct (first_selection g3 1 (cg_master C) caps rs pool [] (custs g3) Net (le_n 1) Cv Sh) as (sel & V & _); [| | | | | | |eauto].
        + intros r [].
        + intros u Hu. right. split; [reflexivity|exact Hu].
        + apply custs_NoDup. exact (net_wf _ _ Net).
        + auto.
        + intro Z. exfalso. destruct (v_drop v) as [q|] eqn:Eq; [|discriminate]. apply (Z q). split; [exact Eq|]. intro Q. cbn in Ed. apply negb_true_iff in Ed. pose proof (Qeq_eq_bool _ _ Q). congruence.
        + intros c Hc. apply Sn. exact Hc.
        + intros l Hl k n Hn. destruct (FB l Hl k n Hn) as (F1 & F2 & _). cbn [map count_occ]. split; [exact F2|]. intro Z. change (mo_all (cg_master C)) with (v_all v) in Z. congruence.
      - destruct (cw_spec g3 1 caps dur (pr_num_stops p) 1 (x_perms X 10) Net (le_n 1) RT HC (HP 10%nat)) as (l1 & q1 & Hl1 & _ & _ & On & Ov & Ro).
        assert (Fi := plain_first X sa v a K p R M NE E1 E2 E3 E4 E5 HP H rs pool I l1 q1 Hl1).
        destruct (first_selection g3 1 (cg_master C) caps rs pool l1 [] Net (le_n 1) Cv Sh) as (sel & V & _); [| | | | | | |eauto].
        + exact Fi.
        + intros u Hu. left. split; [exact (On u Hu)|intros []].
        + constructor.
        + intros u [].
        + auto.
        + intros c Hc. apply Sn. exact Hc.
        + intros l Hl k n Hn. destruct (FB l Hl k n Hn) as (F1 & F2 & F3). split; [|intro Z; change (mo_all (cg_master C)) with (v_all v) in Z; congruence].
          destruct F3 as [F3|F3]; [|discriminate]. eapply Qle_trans; [|exact F3]. rewrite <- Zle_Qle. apply inj_le.
          assert (Len : (List.length l1 <= List.length (custs G))%nat).
          { rewrite <- CG. apply few_routes; [intros u Hu; rewrite (On u Hu); lia|]. intros r Hr. destruct (Fi r Hr) as (_ & Nr). destruct (stops r) as [|u q] eqn:Es; [congruence|].
            exists u. assert (Hu : In u (stops r)) by (rewrite Es; left; reflexivity). split; [exact (stops_in_custs g3 r l1 Ov Hr u Hu)|]. unfold stops in Hu. apply filter_In in Hu. tauto. }
          pose proof (count_occ_bound Nat.eq_dec k (map (fun _ => 0%nat) l1)) as Bd. rewrite map_length in Bd. lia. }
    apply (first_returns fuel fuel2 rs pool); [rewrite E7; exact I|exact Sn| |exact Plan].
    exact (initial_keys X sa v a K p R M NE E1 E2 E3 E4 E5 HP H rs pool I).
  Qed.
End User.

Lemma fleet_given v sa a K p : (forall x, a_num_vehicles (v_args v) = PNum x -> ~ num_val x == 0) -> a_num_vehicles (v_args v) <> PNone ->
  a_mixed_fleet (v_args v) = false -> truthy (v_periodic v) = false -> ready (v_graph v) -> no_empty_costs (v_graph v) ->
  prepare v sa = Ok (a, K, p) -> exists l, pr_num_vehicles p = Some l.
Proof.
  intros Nz Nn M Per R NE H. destruct (any_graph v sa a K p R (fun _ => NE) H) as (g1 & N1 & A1 & D1 & W1 & S1 & T1 & NI1 & NO1 & C1 & RT1 & P & K1 & _ & _ & Mx & KO & (f & Ef & _ & _ & Nv) & Ck).
  destruct (pre_solve_inv _ _ _ _ P) as (_ & _ & _ & _ & _ & _ & _ & _ & _ & _ & _ & Sp). cbn [o_periodic options_of cf_num_vehicles config_of] in Sp.
  unfold split_vehicles, check_periodic_num_vehicles in Sp.
  assert (Q : exists l, fleet_arg (a_num_vehicles a) = Some l); [|destruct Q as (l & Q1); exists l; rewrite Q1, Per in Sp; cbn in Sp; congruence].
  rewrite Nv, Ef, M. unfold format_val. destruct (a_num_vehicles (v_args v)) as [|x|l] eqn:E; [congruence| |].
  - assert (T : py_truthy (PNum x) = true).
    { cbn. apply negb_true_iff. unfold num_zero. destruct (Qeq_bool (num_val x) 0) eqn:Ez; [|reflexivity]. apply Qeq_bool_iff in Ez. exfalso. exact (Nz x eq_refl Ez). }
    rewrite T. cbn. eauto.
  - destruct (py_truthy (PList l)); cbn; eauto.
Qed.

Theorem returns_user sa g a drop all per tabu : plain_problem sa g a drop all per ->
  exists v, create g a false false false drop all per false tabu = Ok v /\
  forall X fuel fuel2, (forall x l, Permutation l (x_perms X x l)) ->
    (forall n q, sound_answer q (e_master (x_env X) n q)) ->
    (sa_cspy sa = false -> (forall n tl q, sound_answer q (e_pricer (x_env X) n tl q)) /\ no_circles (x_env X)) ->
    (sa_cspy sa = true -> forall n tl h, sound_labelling h (e_label (x_env X) n tl h)) ->
    finds_paths (x_path X) ->
    gives_up (x_env X) \/ solve X fuel fuel2 sa v = Err OutOfFuel \/ exists v' out, solve X fuel fuel2 sa v = Ok (v', out).
Proof.
  intros [W (M & OT) NE ND NT AUX Cu Per (Pre & Ini & Di & He) St Nz Fl Acc].
  destruct (proj2 (accepted_exactly g a drop all per false tabu sa W M NE ND NT Pre) Acc) as (v & ((a' & K) & p) & C & H).
  exists v. split; [exact C|]. intros X fuel fuel2 HP S1 S2 S3 SP.
  pose proof (create_ok _ _ _ _ _ _ _ _ _ _ _ C) as (Ck & Ea & E1 & E2 & E3 & Ed & Eal & E4 & Esp & Ei & Ep & Eit & Eno & Ebo & Ehy & Ech & Edr & _).
  destruct (check_vrp_ready g _ W Ck) as (R & Cp). assert (Mv : a_mixed_fleet (v_args v) = false) by (rewrite Ea; exact M).
  assert (NE' := completion_no_empty _ _ Cp NE). assert (Q5 : custs (v_graph v) = custs g) by (apply completion_custs; exact Cp).
  assert (Per' : truthy (v_periodic v) = false) by (rewrite E4; exact Per).
  apply (prepared_returns X sa v a' K p R Mv); auto.
  - rewrite Ea. exact OT.
  - intro u. rewrite (completion_demand _ _ u Cp). apply ND.
  - intros u r Hu. apply (AUX u). rewrite <- Hu. destruct Cp as (Cp & _). unfold node_data. rewrite Cp. reflexivity.
  - rewrite Q5. exact Cu.
  - unfold nonempty_or. rewrite Pre, Ep. reflexivity.
  - refine (fleet_given v sa a' K p _ _ Mv Per' R NE' H); rewrite Ea; cbn [a_num_vehicles]; destruct (a_num_vehicles a) as [|y|l] eqn:En; try discriminate. intros x Ex. apply Nz. congruence.
  - destruct St as [-> | [-> | ->]]; eexists; (split; [reflexivity|discriminate]).
  - intros Z. apply S2. exact Z.
  - intros Z. apply S2. exact Z.
  - unfold nonempty_or. rewrite Ini, Ei. reflexivity.
  - intros k n Hn. rewrite Eal, Q5, Ed. assert (Hn' : number_of a k n).
    { rewrite Ea in Hn. unfold number_of in *. cbn [a_num_vehicles] in Hn. destruct (a_num_vehicles a) as [|y|l]; [|exact Hn|exact Hn].
      destruct Hn as [(x & Z & _)|(l & x & Z & Hk & _)]; [discriminate|]. injection Z as <-. destruct k; discriminate. }
    destruct (Fl k n Hn') as (F1 & F2 & F3). split; [exact F1|]. split; [exact F2|]. destruct F3 as [F3|(q & -> & Hq)]; [left; exact F3|right].
    cbn. apply negb_true_iff. destruct (Qeq_bool q 0) eqn:Z; [|reflexivity]. apply Qeq_bool_iff in Z. contradiction.
Qed.

Theorem returns_labelling sa g a drop all per tabu : plain_problem sa g a drop all per -> sa_cspy sa = true ->
  exists v N, create g a false false false drop all per false tabu = Ok v /\
  forall X f f2, (N <= f)%nat -> (N <= f2)%nat -> (forall x l, Permutation l (x_perms X x l)) ->
    (forall n q, sound_answer q (e_master (x_env X) n q)) ->
    (forall n tl h, sound_labelling h (e_label (x_env X) n tl h)) -> finds_paths (x_path X) ->
    gives_up (x_env X) \/ exists v' out, solve X f f2 sa v = Ok (v', out).
Proof.
  intros P Cs. destruct (returns_user sa g a drop all per tabu P) as (v & C & T). destruct (solve_ends v sa Cs) as (N & E). exists v, N. split; [exact C|].
  intros X f f2 F1 F2 HP S1 S3 SP. destruct (E X f f2 F1 F2) as (_ & E2).
  destruct (T X f f2 HP S1 (fun Z => ltac:(congruence)) (fun _ => S3) SP) as [Q|[Q|Q]]; [left; exact Q|contradiction|right; exact Q].
Qed.

Theorem returns_mip sa g a drop all per tabu : plain_problem sa g a drop all per -> sa_cspy sa = false ->
  (forall k u t, 0 <= user_cost g k u t) -> (forall k, 0 <= price_of a k) ->
  exists v N, create g a false false false drop all per false tabu = Ok v /\
  forall X f f2, (N <= f)%nat -> (forall x l, Permutation l (x_perms X x l)) ->
    (forall n q, sound_answer q (e_master (x_env X) n q) /\
       (a_status (e_master (x_env X) n q) = Optimal -> a_objective (e_master (x_env X) n q) <> None /\
        forall y, feasible y q -> value (a_value (e_master (x_env X) n q)) (p_obj q) <= value y (p_obj q))) ->
    (forall n tl q, sound_answer q (e_pricer (x_env X) n tl q)) -> no_circles (x_env X) -> finds_paths (x_path X) ->
    gives_up (x_env X) \/ exists v' out, solve X f f2 sa v = Ok (v', out).
Proof.
  intros P Cs PC PF. destruct (returns_user sa g a drop all per tabu P) as (v & C & T).
  destruct (mip_user g a false false false drop all per tabu sa v (pp_wf _ _ _ _ _ _ P) (fun _ => pp_costs _ _ _ _ _ _ P) PC PF (proj1 (pp_call _ _ _ _ _ _ P)) Cs (proj1 (proj2 (proj2 (pp_call _ _ _ _ _ _ P)))) C) as (N & E).
  exists v, N. split; [exact C|]. intros X f f2 F1 HP S1 S2 NCi SP. destruct (E X f f2 F1 S1) as (_ & E2).
  destruct (T X f f2 HP (fun n q => proj1 (S1 n q)) (fun _ => conj S2 NCi) (fun Z => ltac:(congruence)) SP) as [Q|[Q|Q]]; [left; exact Q|contradiction|right; exact Q].
Qed.
