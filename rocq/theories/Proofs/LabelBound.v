(** The lower bound of a finished column generation with labelling pricing. *)
From Verif.Base Require Import Prelude Graph.
From Verif.Spec Require Import Routes Network LinProg Pricing MIP Columns Timing Labelling Pool Master Duality Run.
From Verif.Model Require Import Args Reach Checks Preprocess ClarkeWright Greedy Initial Pricing
  GreedyPricing LPPricing Cspy Master Dive Hyper ColGen.
From Verif.Proofs Require Import RouteLemmas PricingProofs CspyProofs CspyCall MasterProofs SelectProofs DualityProofs
  ColGenProofs RunProofs BoundProofs ColGenCor ColGenEnd DiveCor.

(** without the greedy pricing, an iteration that finds nothing leaves the columns as they are *)
Section Same.
  Variables (E : env) (C : cgconfig) (g : vgraph).
  Hypothesis NG : greedy_applies C = false.
  Hypothesis NH : cg_strategy C <> None.

  Lemma vehicles_same p D : forall ks s s', (forall k, In k ks -> (k < cg_types C)%nat) ->
    vehicles E C p D ks s = Ok s' -> s_more s' = false -> s_pool s' = s_pool s.
  Proof.
    induction ks as [|k ks IH]; intros s s' Hks H M; cbn [vehicles] in H; [injection H as <-; reflexivity|].
    assert (Hk := Hks k (or_introl eq_refl)).
    unfold greedy_step in H. rewrite NG in H. cbn [bind] in H. cbv zeta in H. apply bind_ok in H. destruct H as ([s2 b] & H2 & H).
    cbn [fst snd] in H.
    assert (L : looked E C g (set_more false s) s2 b).
    { destruct (mo_span (cg_master C)); [eapply per_route_looked|eapply solve_subproblem_looked]; eassumption. }
    destruct b.
    - exfalso. unfold adopt in H. apply bind_ok in H. destruct H as (c & _ & H). apply bind_ok in H. destruct H as (m & _ & H).
      injection H as <-. discriminate.
    - destruct (cg_strategy C); [|congruence]. cbn [bind] in H.
      rewrite (IH _ _ (fun k' Hk' => Hks k' (or_intror Hk')) H M). cbn [s_pool set_more]. exact (lk_none _ _ _ _ _ _ L eq_refl).
  Qed.

  Lemma find_columns_same s s' : find_columns E C s = Ok s' -> s_more s' = false -> s_pool s' = s_pool s.
  Proof.
    intros H M. unfold find_columns in H. apply bind_ok in H. destruct H as ([[s1 D] q] & H1 & H).
    apply bind_ok in H. destruct H as ([s2 p] & H2 & H). apply bind_ok in H. destruct H as (s3 & H3 & H4). cbn [fst snd] in H3.
    destruct (solve_relaxed_ok E C _ _ _ _ H1) as (_ & A2 & _).
    destruct (next_strategy_ok E C _ _ _ _ H2) as (_ & _ & _ & B4). specialize (B4 NH). subst s2.
    destruct (progress_ok _ _ _ H4) as (P1 & P2 & _). rewrite P2, <- A2.
    eapply vehicles_same; [|exact H3|].
    - intros k Hk. apply in_seq in Hk. lia.
    - assert (X : s_more s3 = s_more s'); [|congruence]. unfold progress in H4. apply bind_ok in H4. destruct H4 as (b & _ & H4). injection H4 as <-. reflexivity.
  Qed.
End Same.

Lemma same_labelling_data g h : same_but_weights g h -> wf g -> forall K o caps ns dur, network K g ->
  labelling_data g o caps ns dur -> labelling_data h o caps ns dur.
Proof.
  intros S W K o caps ns dur N [A B D F G H I].
  constructor; rewrite ?(same_demand g h S), ?(same_collect g h S), ?(same_node_list g h S), ?(same_arcs g h S), ?(same_service g h S), ?(same_lower g h S); auto.
  destruct F as (F1 & F2 & F3). split; [|split; assumption]. intros u v Huv. rewrite (same_time g h S). apply F1. exact Huv.
Qed.

(** nothing found: no route has a reduced cost below the tolerance *)
Section None_found.
  Variables (h : vgraph) (K k : nat) (caps : option (list Z)) (o : options) (ns dur : option Z).
  Variable alg : label -> (label -> arc -> res label) -> bool -> option Q -> option (Q * list node).
  Variables (keys : list node) (elementary : bool) (pool : list column).
  Hypothesis HN : network K h.
  Hypothesis Hk : (k < K)%nat.
  Hypothesis Halg : sound_labelling h alg.
  Hypothesis LD : labelling_data h o caps ns dur.
  Hypothesis EX : forall m e, limits h o k caps ns dur = Ok m -> (elementary = true -> e = true) ->
    exact_labelling h m (extension h o caps dur) e (alg m (extension h o caps dur)).
  Hypothesis KN : forall c cs, In c pool -> listing c = arcs (trip cs) -> (forall v, In v cs -> v <> Source /\ v <> Sink) ->
    along (arc_list h) (trip cs) -> 0 <= path_sum (weight_of h) (trip cs).

  Lemma small_arcs t : (forall u v, In (u, v) (arc_list h) -> t <= weight_of h u v) ->
    forall p, along (arc_list h) p -> t * inject_Z (Z.of_nat (List.length p - 1)) <= path_sum (weight_of h) p.
  Proof.
    intros Ht p. induction p as [|u p IH]; intro A; [vm_compute in *; intro X; destruct t as [[|q|q] d]; vm_compute in X; discriminate|].
    destruct p as [|v p].
    - cbn [List.length Nat.sub]. change (inject_Z (Z.of_nat 0)) with 0. change (path_sum (weight_of h) [u]) with 0. lra.
    - change (path_sum (weight_of h) (u :: v :: p)) with (weight_of h u v + path_sum (weight_of h) (v :: p)).
      assert (A1 : In (u, v) (arc_list h)) by (apply A; left; reflexivity).
      assert (A2 : along (arc_list h) (v :: p)) by (intros x y Hxy; apply A; right; exact Hxy).
      specialize (IH A2). specialize (Ht u v A1).
      replace (List.length (u :: v :: p) - 1)%nat with (S (List.length (v :: p) - 1)) by (cbn; lia).
      rewrite Nat2Z.inj_succ, <- Z.add_1_r, inject_Z_plus. change (inject_Z 1) with 1. lra.
  Qed.

  Theorem labelling_none : cspy_solve h h k caps o ns dur alg keys true elementary pool = Ok (pool, false) ->
    forall cs, drivable h o caps k ns dur cs ->
    - ((1 # 1000) * inject_Z (Z.of_nat (List.length cs + 1))) <= path_sum (weight_of h) (trip cs).
  Proof.
    intros H cs DR. assert (W : wf h) by apply HN.
    destruct (labelling_call h h K k caps o ns dur alg keys HN Hk Halg W _ _ _ _ H) as (_ & X).
    destruct (X eq_refl) as (m & Hm & L1 & L2). clear X. cbv zeta in L1, L2.
    assert (RF : resource_feasible h m (extension h o caps dur) (trip cs)) by (eapply labelling_complete; eassumption).
    assert (ND : NoDup (trip cs)).
    { exact (LPProofs.trip_NoDup _ _ (dr_route _ _ _ _ _ _ _ DR)). }
    assert (Pos : 1 <= inject_Z (Z.of_nat (List.length cs + 1))) by (change 1 with (inject_Z 1); rewrite <- Zle_Qle; lia).
    assert (Last : (exists t, least_weight h t /\ after h k pool (alg m (extension h o caps dur) true (Some t)) (fun r' => r' = (pool, false)) (pool, false)) ->
      - ((1 # 1000) * inject_Z (Z.of_nat (List.length cs + 1))) <= path_sum (weight_of h) (trip cs)).
    { intros (t & (_ & Ht) & A). destruct (EX m true Hm (fun _ => eq_refl) (Some t) (trip cs) RF (fun _ => ND)) as (q & p' & Ea & Q).
      rewrite Ea in A. destruct (Halg _ _ _ _ _ _ Ea) as (Rf & Qw & Nd). specialize (Nd eq_refl).
      assert (Imp : ~ q < - (1 # 1000)).
      { intro Lt. destruct A as [(p & c & _ & _ & _ & Y)|[(p & c & (q1 & Y1 & Y2) & Fc & (c' & C1 & C2) & _)|(Y & _)]].
        - injection Y as Y. apply (f_equal (@List.length column)) in Y. rewrite app_length in Y. cbn in Y. lia.
        - injection Y1 as <- <-. destruct (fc_elem _ _ _ _ _ Fc Nd) as (_ & Li & cs' & -> & RS & Al & _).
          assert (Z : 0 <= path_sum (weight_of h) (trip cs')); [|lra].
          apply (KN c'); [exact C1|congruence| |exact Al]. destruct RS as (cs2 & Ec & _ & Hc). unfold trip in Ec. injection Ec as Ec. apply app_inj_tail in Ec. destruct Ec as (-> & _). exact Hc.
        - apply (Y p'). exists q. auto. }
      destruct Q as [Q|(t' & Et & Q)]; [lra|]. injection Et as <-.
      assert (B := small_arcs t Ht (trip cs) (er_along _ _ (dr_route _ _ _ _ _ _ _ DR))).
      replace (List.length (trip cs) - 1)%nat with (List.length cs + 1)%nat in B by (unfold trip; cbn [List.length]; rewrite app_length; cbn; lia).
      nra. }
    destruct elementary; [apply Last, L1; left; reflexivity|].
    destruct (o_distribution_collection o) eqn:Eo; [apply Last, L1; right; reflexivity|].
    specialize (L2 eq_refl eq_refl). destruct (EX m false Hm ltac:(discriminate) None (trip cs) RF ltac:(discriminate)) as (q & p' & Ea & Q).
    destruct L2 as [(p & c & _ & _ & _ & Y)|[(p & c & _ & _ & _ & Y)|(Y & _)]].
    - injection Y as Y. apply (f_equal (@List.length column)) in Y. rewrite app_length in Y. cbn in Y. lia.
    - apply Last. exact Y.
    - rewrite Ea in Y. assert (Imp : ~ q < - (1 # 1000)) by (intro Lt; apply (Y p'); exists q; auto).
      destruct Q as [Q|(t' & Et & _)]; [lra|discriminate].
  Qed.
End None_found.

Theorem labelling_bound E C g f s s' : fresh C g s -> column_generation E C f s = Ok s' -> s_more s' = false ->
  cg_strategy C <> None -> cg_cspy C = true -> cg_greedy C = false ->
  network (cg_types C) g -> mo_periodic (cg_master C) = false -> mo_span (cg_master C) = false ->
  (forall fl, mo_fleet (cg_master C) = Some fl -> fl <> [] -> (cg_types C <= List.length fl)%nat) ->
  labelling_data g (cg_options C) (cg_caps C) (cg_stops C) (cg_duration C) ->
  (forall n tl h, sound_labelling h (e_label E n tl h)) ->
  (forall st s1 D q, starts E C s st -> solve_relaxed E C st = Ok (s1, D, q) ->
     (exists v, q = Some v /\ dual_solution (cg_master C) (s_master st) (e_duals E (S (s_tick st))) v) /\
     (forall k c cs, (k < cg_types C)%nat -> In c (s_pool st) -> listing c = arcs (trip cs) ->
        0 <= reduced_cost g D 1 k cs) /\
     forall k h j m e, (k < cg_types C)%nat -> add_reduced_cost D k None g = Ok h ->
       limits h (cg_options C) k (cg_caps C) (cg_stops C) (cg_duration C) = Ok m ->
       (cg_elementary C = true -> e = true) ->
       let ref := extension h (cg_options C) (cg_caps C) (cg_duration C) in
       exact_labelling h m ref e (e_label E (S j) (cspy_limit (time_remaining C false (e_clock E j))) h m ref)) ->
  exists q, nth_error (rev (s_bounds s')) 0 = Some (Some q) /\
    forall P, serves g (cg_master C) P ->
      (forall k c, In (k, c) P -> (k < cg_types C)%nat /\
         drivable g (cg_options C) (cg_caps C) k (cg_stops C) (cg_duration C) c) ->
      q <= tours_cost g P + (1 # 1000) * Qsum_over P (fun t => inject_Z (Z.of_nat (List.length (snd t) + 1))).
Proof.
  intros F H M NH CS NG N PER NSP FL LD LA HY.
  assert (I := fresh_inv _ _ _ F).
  destruct (exhausted_known E C g f s s' F NH H) as [(M' & _)|(_ & st & s1 & D & q & sl & S1 & S5 & S2 & -> & S6)]; [congruence|].
  cbn [s_more tick s_pool s_bounds] in *.
  assert (Ist := starts_inv _ _ _ _ _ S1 I).
  assert (Dst : s_dive st = false) by (rewrite (starts_dive _ _ _ _ S1); exact (fs_dive _ _ _ F)).
  destruct (find_columns_ok E C g st sl Ist S2) as (_ & _ & _ & _ & _ & s1' & D' & q' & E1 & E2 & _).
  rewrite S5 in E1. injection E1 as <- <- <-. rewrite Dst in E2.
  assert (GA : greedy_applies C = false) by (unfold greedy_applies; rewrite NG; reflexivity).
  assert (Same := find_columns_same E C g GA NH st sl S2 M).
  destruct (HY st s1 D q S1 S5) as ((v & -> & DS) & KN & EX).
  exists v. split; [rewrite E2, rev_app_distr; reflexivity|]. intros P SV DR.
  destruct (solve_relaxed_master E C st s1 D (Some v) Dst S5) as (SM & _).
  rewrite (solve_master_nodes _ g) in SM by (exact (strip_nodes _ _ (iv_graph _ _ _ Ist))).
  assert (SH := built_shape _ _ _ _ (iv_built _ _ _ Ist)).
  assert (HD : get_duals g (cg_master C) (s_master st) (s_pool st) (e_duals E (S (s_tick st))) = Ok D).
  { unfold solve_master in SM. apply bind_ok in SM. destruct SM as (u & _ & SM). apply bind_ok in SM.
    destruct SM as (D' & HD & SM). inversion SM; subst. exact HD. }
  assert (W : wf g) by apply N.
  assert (OK : duals_ok (cg_types C) D) by exact (duals_are_ok g _ _ _ _ W SH PER NSP D HD _ FL).
  assert (Bd := weak_duality_each g _ _ _ _ W SH PER NSP D HD v
    (fun t => (1 # 1000) * inject_Z (Z.of_nat (List.length (snd t) + 1))) P DS SV).
  assert (Sc : Qsum_over P (fun t => (1 # 1000) * inject_Z (Z.of_nat (List.length (snd t) + 1))) ==
               (1 # 1000) * Qsum_over P (fun t => inject_Z (Z.of_nat (List.length (snd t) + 1)))).
  { clear. unfold Qsum_over. induction P as [|t P IH]; [cbn; reflexivity|]. cbn [map]. rewrite !Qsum_cons, IH. ring. }
  rewrite <- Sc. apply Bd. intros [k c] Ht. cbn [fst snd]. destruct (DR k c Ht) as [Hk Hd].
  destruct (S6 k Hk) as (pool & G1 & G2 & Fl). rewrite NSP in Fl. destruct Fl as (h & j & F1 & F2). rewrite CS in F2. cbv zeta in F2.
  destruct (reduced_cost_route (cg_types C) g D k None 1 N Hk OK eq_refl) as (h' & A1' & S & RC).
  assert (EH : h' = h) by congruence. subst h'.
  rewrite <- (RC c).
  - refine (labelling_none h (cg_types C) k _ _ _ _ _ _ _ pool (same_network g h _ N S) Hk (LA _ _ _)
      (same_labelling_data g h S W _ _ _ _ _ N LD) _ _ F2 c _).
    + intros m e Hm He. exact (EX k h j m e Hk F1 Hm He).
    + intros c0 cs Hc Hl Hv Al. rewrite (RC cs Hv).
      * destruct (grown_in E C g _ _ c0 G2 Hc) as (c1 & C1 & C2). rewrite Same in C1. apply (KN k c1 cs Hk C1).
        rewrite <- Hl. unfold untag in C2. injection C2 as _ X1 X2 _ _ _. unfold listing. rewrite X1, X2. reflexivity.
      * rewrite (same_arcs g h S) in Al. exact Al.
    + exact (same_drivable g h S _ _ k _ _ c Hd).
  - intros w Hw. exact (er_custs _ _ (dr_route _ _ _ _ _ _ _ Hd) w Hw).
  - exact (er_along _ _ (dr_route _ _ _ _ _ _ _ Hd)).
Qed.
