(** Preprocessing a problem that was preprocessed before: the second call of solve(). *)
From Verif.Base Require Import Prelude Graph.
From Verif.Spec Require Import Routes Network Inputs Feasible Prep LinProg Plans.
From Verif.Model Require Import Args Reach Checks Preprocess ClarkeWright Greedy Initial Pricing
  GreedyPricing LPPricing Cspy Master Dive Hyper ColGen Post Schedule Solve.
From Verif.Proofs Require Import RouteLemmas ChecksProofs FeasProofs PreLemmas PruneProofs KnapProofs LockProofs
  PresolveProofs PresolveEnd SelectProofs ColGenProofs SolveProofs.

(* ------------------------------------------------------------------ *)
(** ** Graphs as data *)

Lemma strip_raw g h : strip g = strip h -> raw_of g = raw_of h.
Proof.
  intro H. unfold raw_of. rewrite (strip_nodes _ _ H). f_equal. unfold strip in H. injection H as _ H. revert H.
  generalize (gedges g), (gedges h). induction l as [|[a e] l IH]; intros [|[b d] m] H; try discriminate; [reflexivity|].
  cbn [map fst snd] in *. injection H as E1 E2 E3 H. unfold raw_arc. rewrite E1, E2, E3. f_equal. exact (IH _ H).
Qed.

Lemma map_same {A} (f : A -> A) l : (forall x, In x l -> f x = x) -> map f l = l.
Proof. intro H. induction l as [|x l IH]; [reflexivity|]. cbn [map]. rewrite H by (left; reflexivity). f_equal. apply IH. intros. apply H. right. assumption. Qed.
Lemma filter_same {A} (f : A -> bool) l : (forall x, In x l -> f x = true) -> filter f l = l.
Proof. intro H. induction l as [|x l IH]; [reflexivity|]. cbn [filter]. rewrite H by (left; reflexivity). f_equal. apply IH. intros. apply H. right. assumption. Qed.

Lemma graph_eta {N E} (g : graph N E) : mkGraph (gnodes g) (gedges g) = g.
Proof. destruct g; reflexivity. Qed.

(** What a finished preprocessing leaves: no weights, no demand at the depots, the dummy arc, and a
    Sink window that has been set. *)
Record settled (g : vgraph) : Prop := {
  st_weights : forall p, In p (gedges g) -> eweight (snd p) = 0;
  st_depots : forall p, In p (gnodes g) -> is_depot (fst p) = true -> demand (snd p) <= 0;
  st_dummy : In (Source, Sink) (arc_list g);
  st_sink : readjust_sink g = Ok g
}.

Lemma raw_defaults K g : (forall p, In p (gedges g) -> eweight (snd p) = 0) ->
  (forall p, In p (gnodes g) -> is_depot (fst p) = true -> demand (snd p) <= 0) -> In (Source, Sink) (arc_list g) ->
  with_defaults K (raw_of g) = Ok g.
Proof.
  intros Wt Dp Ds. unfold with_defaults.
  assert (E1 : set_zero_attributes (raw_of g) = mkGraph (gnodes g) (map (fun p => (fst p, raw_arc (snd p))) (gedges g))).
  { unfold set_zero_attributes, raw_of. cbn [gnodes gedges]. f_equal. rewrite map_map. apply map_same. intros [v d] Hv.
    cbn [fst snd]. f_equal. specialize (Dp _ Hv). cbn [fst snd] in Dp. unfold zero_node, raw_node. cbn.
    destruct (is_depot v); [|destruct d; reflexivity]. specialize (Dp eq_refl).
    assert (Qltb 0 (demand d) = false) as -> by (apply Qltb_ge; exact Dp). destruct d; reflexivity. }
  rewrite E1. unfold add_source_sink.
  assert (E2 : has_arc (mkGraph (gnodes g) (map (fun p => (fst p, raw_arc (snd p))) (gedges g))) Source Sink = true).
  { apply has_arc_In. unfold arc_list. cbn [gedges]. rewrite map_map. cbn [fst]. exact Ds. }
  rewrite E2. unfold set_time_to_zero, map_arcsM. cbn [gedges gnodes].
  assert (E3 : forall l, (forall p, In p l -> eweight (snd p) = 0) ->
    mapM (fun p : arc * eraw => let* e := zero_arc (snd p) in Ok (fst p, e)) (map (fun p => (fst p, raw_arc (snd p))) l) = Ok l).
  { induction l as [|[a e] l IH]; intro H; [reflexivity|]. cbn [map mapM fst snd]. unfold zero_arc at 1. cbn.
    rewrite IH by (intros; apply H; right; assumption). cbn. specialize (H _ (or_introl eq_refl)). cbn in H.
    destruct e as [c t w]. cbn in *. rewrite H. reflexivity. }
  rewrite (E3 _ Wt). cbn [bind]. rewrite graph_eta. reflexivity.
Qed.

Lemma settled_again K g : settled g -> update_dummy_attributes K (raw_of g) = Ok g.
Proof.
  intros [A B C D]. rewrite update_dummy_unfold, raw_defaults by assumption. exact D.
Qed.

(** readjusting looks at the arcs into Sink only *)
Lemma readjust_frame g h : gnodes h = gnodes g -> preds h Sink = preds g Sink ->
  (forall u, In u (preds g Sink) -> arc_data h u Sink = arc_data g u Sink \/
     exists e e', arc_data g u Sink = Some e /\ arc_data h u Sink = Some e' /\ etime e' = etime e) ->
  readjust_sink g = Ok g -> readjust_sink h = Ok h.
Proof.
  intros N P A H. unfold readjust_sink in *. unfold get_node, node_data in *. rewrite N, P.
  destruct (of_opt KeyError (assoc_node Sink (gnodes g))) as [s|e]; [|discriminate]. cbn [bind] in *.
  destruct (Qeq_bool (upper s) 0); [|reflexivity].
  assert (E : mapM (fun u => let* d := of_opt KeyError (assoc_node u (gnodes g)) in let* e := get_arc h u Sink in Ok (upper d + service d + etime e)) (preds g Sink)
            = mapM (fun u => let* d := of_opt KeyError (assoc_node u (gnodes g)) in let* e := get_arc g u Sink in Ok (upper d + service d + etime e)) (preds g Sink)).
  { revert A. clear. generalize (preds g Sink). induction l as [|u l IH]; intro A; [reflexivity|]. cbn [mapM].
    rewrite IH by (intros; apply A; right; assumption).
    assert (E : (let* d := of_opt KeyError (assoc_node u (gnodes g)) in let* e := get_arc h u Sink in Ok (upper d + service d + etime e))
       = (let* d := of_opt KeyError (assoc_node u (gnodes g)) in let* e := get_arc g u Sink in Ok (upper d + service d + etime e))).
    { destruct (of_opt KeyError (assoc_node u (gnodes g))); [|reflexivity]. cbn [bind]. unfold get_arc.
      destruct (A u (or_introl eq_refl)) as [->|(e & e' & -> & -> & T)]; [reflexivity|]. cbn. rewrite T. reflexivity. }
    rewrite E. reflexivity. }
  rewrite E. destruct (mapM _ _) as [l|]; [|discriminate]. cbn [bind] in *. destruct (pymax l) as [m|]; [|discriminate].
  cbn [bind] in *. injection H as H. f_equal. apply (f_equal gnodes) in H. cbn [map_nodes gnodes] in H.
  unfold map_nodes. rewrite N, H, <- N. apply graph_eta.
Qed.

Lemma readjust_twice g h : (forall v, ~ In (Sink, v) (arc_list g)) -> readjust_sink g = Ok h -> readjust_sink h = Ok h.
Proof.
  intros NO H. pose proof H as H0. unfold readjust_sink in H. apply bind_ok in H. destruct H as (s & Hs & H).
  destruct (Qeq_bool (upper s) 0) eqn:Eu; [|injection H as <-; exact H0].
  apply bind_ok in H. destruct H as (l & Hl & H). apply bind_ok in H. destruct H as (m & Hm & H). injection H as <-.
  set (f := fun (v : node) d => if node_eqb v Sink then set_upper m d else d). unfold readjust_sink.
  assert (Es : get_node (map_nodes f g) Sink = Ok (set_upper m s)).
  { unfold get_node in *. rewrite node_data_map_nodes. destruct (node_data g Sink); [|discriminate]. cbn in *. injection Hs as ->. reflexivity. }
  rewrite Es. cbn [bind]. destruct (Qeq_bool (upper (set_upper m s)) 0); [|reflexivity].
  assert (El : mapM (fun u => let* d := get_node (map_nodes f g) u in let* e := get_arc (map_nodes f g) u Sink in Ok (upper d + service d + etime e))
      (preds (map_nodes f g) Sink) = Ok l).
  { change (preds (map_nodes f g) Sink) with (preds g Sink). rewrite <- Hl.
    assert (A : forall u, In u (preds g Sink) -> u <> Sink).
    { intros u Hu ->. apply in_preds in Hu. exact (NO _ Hu). }
    revert A. clear. generalize (preds g Sink). induction l as [|u l IH]; intro A; [reflexivity|]. cbn [mapM].
    rewrite IH by (intros; apply A; right; assumption).
    assert (E : get_node (map_nodes f g) u = get_node g u).
    { unfold get_node. rewrite node_data_map_nodes. destruct (node_data g u); [|reflexivity]. cbn. unfold f.
      destruct (node_eqb u Sink) eqn:E; [|reflexivity]. apply node_eqb_eq in E. destruct (A u (or_introl eq_refl) E). }
    rewrite E. reflexivity. }
  rewrite El. cbn [bind]. rewrite Hm. cbn [bind]. f_equal. unfold map_nodes. cbn [gnodes gedges]. f_equal. rewrite map_map.
  apply map_ext. intros [v d]. cbn [fst snd]. f_equal. destruct (node_eqb v Sink) eqn:E; unfold f; rewrite E; reflexivity.
Qed.

Lemma update_settled K g h : wf g -> In Source (nodes g) -> In Sink (nodes g) -> (forall v, ~ In (Sink, v) (arc_list g)) ->
  update_dummy_attributes K g = Ok h -> settled h.
Proof.
  intros W HS HT NO H. pose proof (update_dummy_ok _ _ _ W HS HT H) as (N & W2 & _ & A).
  rewrite update_dummy_unfold in H. apply bind_ok in H. destruct H as (g1 & H1 & H2).
  assert (Wt : forall p, In p (gedges g1) -> eweight (snd p) = 0).
  { unfold with_defaults, set_time_to_zero, map_arcsM in H1. apply bind_ok in H1. destruct H1 as (l & Hl & H1). injection H1 as <-.
    cbn [gedges]. intros p Hp. apply mapM_ok in Hl. destruct (Forall2_in_r _ _ _ _ Hl Hp) as (q & _ & Hq). apply bind_ok in Hq. destruct Hq as (e & He & Hq).
    injection Hq as <-. cbn [snd]. unfold zero_arc in He. destruct (r_cost (snd q)) as [[x|x]|]; try discriminate. injection He as <-. reflexivity. }
  assert (Dp : forall p, In p (gnodes g1) -> is_depot (fst p) = true -> demand (snd p) <= 0).
  { intros [v d] Hp Hd. cbn [fst snd] in *. pose proof (with_defaults_ok _ _ _ W HS HT H1) as (_ & W1 & D1 & _).
    apply (gnodes_data _ _ _ W1) in Hp. rewrite D1 in Hp. destruct (node_data g v) as [r|]; [|discriminate]. cbn in Hp. injection Hp as <-.
    unfold zero_node. cbn. rewrite Hd. cbn. destruct (Qltb 0 _) eqn:E; [apply Qle_refl|]. apply Qltb_ge in E. exact E. }
  pose proof (with_defaults_ok _ _ _ W HS HT H1) as (_ & W1 & _ & _ & L1).
  pose proof (readjust_sink_ok _ _ W1 H2) as (_ & E2 & _ & D2 & s & s' & Es & Es' & _).
  constructor.
  - intros p Hp. rewrite E2 in Hp. apply Wt. exact Hp.
  - intros [v d] Hp Hd. cbn [fst snd] in *. unfold readjust_sink in H2. apply bind_ok in H2. destruct H2 as (s0 & _ & H2).
    destruct (Qeq_bool (upper s0) 0).
    + apply bind_ok in H2. destruct H2 as (l & _ & H2). apply bind_ok in H2. destruct H2 as (m & _ & H2). injection H2 as <-.
      cbn [map_nodes gnodes] in Hp. apply in_map_iff in Hp. destruct Hp as ([v1 d1] & E & Hp). cbn [fst snd] in E. injection E as <- <-.
      specialize (Dp _ Hp Hd). cbn [fst snd] in Dp. destruct (node_eqb v1 Sink); exact Dp.
    + injection H2 as <-. exact (Dp _ Hp Hd).
  - unfold arc_list. rewrite E2. apply L1. right. reflexivity.
  - refine (readjust_twice g1 h _ H2). intros v Hv. apply L1 in Hv. destruct Hv as [Hv|Hv]; [exact (NO _ Hv)|discriminate].
Qed.

(* ------------------------------------------------------------------ *)
(** ** The bound on the number of stops *)

Lemma Ok_inj {A} (x y : A) : Ok x = Ok y -> x = y.
Proof. congruence. Qed.

Definition no_negatives (sol : Preprocess.tab) : Prop := forall row x, In row sol -> In x row -> (0 <= x)%Z.

Lemma py_get_in {A} (l : list A) i x : py_get l i = Ok x -> In x l.
Proof.
  unfold py_get, of_opt. intro H.
  destruct ((0 <=? i)%Z && (i <? Z.of_nat (List.length l))%Z);
    [|destruct ((i <? 0)%Z && (- Z.of_nat (List.length l) <=? i)%Z); [|discriminate]];
  destruct (nth_error l _) eqn:E; try discriminate; injection H as <-; exact (nth_error_In _ _ E).
Qed.
Lemma tab_get_nonneg sol i j x : no_negatives sol -> tab_get sol i j = Ok x -> (0 <= x)%Z.
Proof.
  intros N H. unfold tab_get in H. apply bind_ok in H. destruct H as (row & H1 & H2).
  exact (N _ _ (py_get_in _ _ _ H1) (py_get_in _ _ _ H2)).
Qed.
Lemma in_set_nth {A} i (x y : A) l : In y (set_nth i x l) -> y = x \/ In y l.
Proof.
  revert i. induction l as [|z l IH]; intros [|i] H; cbn in H; try tauto.
  - destruct H as [<-|H]; cbn; auto.
  - destruct H as [<-|H]; cbn; auto. destruct (IH _ H); auto.
Qed.
Lemma tab_set_nonneg sol i j x : no_negatives sol -> (0 <= x)%Z -> no_negatives (tab_set sol i j x).
Proof.
  intros N Hx row y Hr Hy. unfold tab_set in Hr. destruct (nth_error sol i) as [row0|] eqn:E; [|exact (N _ _ Hr Hy)].
  apply in_set_nth in Hr. destruct Hr as [->|Hr]; [|exact (N _ _ Hr Hy)]. apply in_set_nth in Hy.
  destruct Hy as [->|Hy]; [exact Hx|]. exact (N _ _ (nth_error_In _ _ E) Hy).
Qed.
Lemma knap_step_nonneg w i j sol sol' : no_negatives sol -> knap_step w i sol j = Ok sol' -> no_negatives sol'.
Proof.
  intros N H. unfold knap_step in H. cbv zeta in H. destruct (Z.of_nat j <? w)%Z.
  - apply bind_ok in H. destruct H as (x & Hx & H). injection H as <-. apply tab_set_nonneg; [exact N|]. eapply tab_get_nonneg; eauto.
  - apply bind_ok in H. destruct H as (x & Hx & H). apply bind_ok in H. destruct H as (y & Hy & H).
    assert (0 <= x)%Z by (eapply tab_get_nonneg; eauto). assert (0 <= y)%Z by (eapply tab_get_nonneg; eauto).
    destruct (y <? 1 + x)%Z; [apply Ok_inj in H; subst sol'; apply tab_set_nonneg; [exact N|lia]|].
    apply bind_ok in H. destruct H as (z & Hz & H). injection H as <-. apply tab_set_nonneg; [exact N|]. eapply tab_get_nonneg; eauto.
Qed.
Lemma foldM_keeps {A B} (P : A -> Prop) (f : A -> B -> res A) : (forall a b a', P a -> f a b = Ok a' -> P a') ->
  forall l a a', P a -> foldM f l a = Ok a' -> P a'.
Proof.
  intros H l. induction l as [|b l IH]; intros a a' Pa F; cbn [foldM] in F; [injection F as <-; exact Pa|].
  apply bind_ok in F. destruct F as (a1 & F1 & F). exact (IH _ _ (H _ _ _ Pa F1) F).
Qed.
Lemma knapsack_nonneg ws c m : knapsack ws c = Ok m -> (0 <= m)%Z.
Proof.
  unfold knapsack. cbv zeta. intro H. apply bind_ok in H. destruct H as (sol & H1 & H). eapply tab_get_nonneg; [|exact H].
  refine (foldM_keeps no_negatives _ _ _ _ _ _ H1).
  - intros s i s' N F. apply bind_ok in F. destruct F as (w & _ & F).
    refine (foldM_keeps no_negatives _ _ _ _ _ N F). intros s1 j s2 N1. apply knap_step_nonneg. exact N1.
  - intros row x Hr Hx. apply repeat_spec in Hr. subst row. apply repeat_spec in Hx. subst x. lia.
Qed.

(** The bound, given back as number of stops, is the bound again. *)
Lemma bound_again g m ns both b : (forall s, ns = Some s -> (0 <= s)%Z) -> num_stops_upper_bound g m ns both = Ok b ->
  (0 <= b)%Z /\ num_stops_upper_bound g m (Some b) both = Ok b.
Proof.
  intros P H. unfold num_stops_upper_bound in *. apply bind_ok in H. destruct H as (m1 & E1 & H). rewrite E1. cbn [bind].
  apply knapsack_nonneg in E1. apply bind_ok in H. destruct H as (k & E2 & H). rewrite E2. cbn [bind].
  assert (Hk : (0 <= k)%Z).
  { destruct both; [|injection E2 as <-; exact E1]. apply bind_ok in E2. destruct E2 as (m2 & E2 & E3).
    apply knapsack_nonneg in E2. injection E3 as <-. lia. }
  assert (Hb : b = k \/ exists s, (0 < s)%Z /\ b = Z.min k s).
  { destruct ns as [s|]; [|injection H as <-; auto]. destruct (s =? 0)%Z eqn:E; [injection H as <-; auto|]. injection H as <-.
    apply Z.eqb_neq in E. specialize (P s eq_refl). right. exists s. split; [lia|reflexivity]. }
  split; [destruct Hb as [->|(s & Hs & ->)]; lia|].
  destruct (b =? 0)%Z eqn:E; [apply Z.eqb_eq in E|]; f_equal; destruct Hb as [->|(s & Hs & ->)]; lia.
Qed.

(* ------------------------------------------------------------------ *)
(** ** Pruning *)

Lemma keep_all {N E} (g : graph N E) bad : (forall a, In a (arc_list g) -> ~ In a bad) -> remove_arcs bad g = g.
Proof.
  intro H. unfold remove_arcs. rewrite filter_same; [apply graph_eta|]. intros [a e] Ha. cbn [fst].
  apply negb_true_iff, mem_arc_false. apply H. unfold arc_list. apply in_map_iff. exists (a, e). auto.
Qed.

Lemma prune_form cap g g' : remove_infeasible_arcs_capacities cap g = Ok g' -> exists bad, g' = remove_arcs bad g.
Proof.
  unfold remove_infeasible_arcs_capacities. intro H. apply bind_ok in H. destruct H as (bad & _ & H). injection H as <-. eauto.
Qed.

Lemma prune_idle cap g : wf g -> (forall u v, In (u, v) (arc_list g) -> demand_of g u + demand_of g v <= inject_Z cap) ->
  remove_infeasible_arcs_capacities cap g = Ok g.
Proof.
  intros W H. destruct (capacity_prune_ok cap g W) as (g' & E & _ & _ & A & _). rewrite E. f_equal.
  destruct (prune_form _ _ _ E) as (bad & ->). apply keep_all. intros [u v] Hi Hb.
  assert (K : In (u, v) (arc_list (remove_arcs bad g))) by (apply A; split; [exact Hi|apply H; exact Hi]).
  apply in_remove_arcs in K. tauto.
Qed.

Lemma preds_remove {T1 T2} (g : graph T1 T2) bad t : (forall u, In (u, t) (arc_list g) -> In (u, t) (arc_list (remove_arcs bad g))) ->
  preds (remove_arcs bad g) t = preds g t.
Proof.
  intro H. unfold preds. f_equal.
  assert (K : forall p, In p (gedges g) -> snd (fst p) = t -> negb (mem_arc (fst p) bad) = true).
  { intros [[u v] e] Hp E. cbn in E. subst v. cbn [fst]. apply negb_true_iff, mem_arc_false.
    assert (Hi : In (u, t) (arc_list g)) by (unfold arc_list; apply in_map_iff; exists ((u, t), e); auto).
    apply H, in_remove_arcs in Hi. tauto. }
  unfold arc_list, remove_arcs. cbn [gedges]. revert K. generalize (gedges g). induction l as [|p l IH]; intro K; [reflexivity|].
  cbn [filter map]. specialize (IH (fun q Hq => K q (or_intror Hq))). destruct (node_eqb (snd (fst p)) t) eqn:E.
  - apply node_eqb_eq in E. rewrite (K p (or_introl eq_refl) E). cbn [map filter]. rewrite E, node_eqb_refl. f_equal. exact IH.
  - destruct (negb (mem_arc (fst p) bad)); [|exact IH]. cbn [map filter]. rewrite E. exact IH.
Qed.

(* ------------------------------------------------------------------ *)
(** ** Preprocessing what preprocessing left *)

Definition same_prepared (p : prepared) : prepared :=
  mkPrepared (pr_graph p) (pr_graph p) (pr_num_stops p) (pr_max_capacity p) (pr_num_vehicles p)
             (pr_num_vehicles_schedule p) (pr_more_routes p).
Definition next_config (c : config) (p : prepared) : config :=
  mkConfig (pr_num_stops p) (cf_load_capacity c) (cf_duration c) (cf_fixed_cost c) (cf_num_vehicles c)
           (cf_vehicle_types c).

Lemma time_frame K g h : wf g -> In Source (nodes g) -> In Sink (nodes g) -> update_dummy_attributes K g = Ok h ->
  forall u v, time_of h u v = user_time g u v.
Proof.
  intros W HS HT H u v. destruct (update_dummy_ok _ _ _ W HS HT H) as (_ & _ & _ & A). specialize (A u v).
  unfold time_of, user_time. destruct (arc_data g u v) as [e|].
  - destruct A as (e' & -> & _ & T). unfold given_or, or_zero in *. destruct (r_time e); exact T.
  - rewrite A. destruct (arc_eqb (u, v) (Source, Sink)); reflexivity.
Qed.

Lemma presolve_again c o g p : wf g -> In Source (nodes g) -> In Sink (nodes g) -> (forall v, ~ In (Sink, v) (arc_list g)) ->
  (forall v, In v (custs g) -> In (Source, v) (arc_list g) /\ In (v, Sink) (arc_list g)) ->
  cf_fixed_cost c = [] -> o_time_windows o = false -> o_preassignments o = [] ->
  (forall s, cf_num_stops c = Some s -> (0 <= s)%Z) ->
  (forall D, limit (cf_duration c) D -> (forall u v, 0 <= user_time g u v) /\
     forall u, In u (custs g) -> user_time g Source u + user_time g u Sink <= inject_Z D) ->
  pre_solve c o g = Ok p ->
  pre_solve (next_config c p) o (raw_of (pr_graph p)) = Ok (same_prepared p) /\
  (forall s, pr_num_stops p = Some s -> (0 <= s)%Z) /\ wf (pr_graph p) /\ strip (pr_graph p) = pr_graph p /\
  (forall u v e, arc_data (pr_graph p) u v = Some e ->
     exists e', arc_data (pr_copy p) u v = Some e' /\ List.length (ecost e) = List.length (ecost e')).
Proof.
  intros W HS HT NO RT FC TW PA NS DU H. apply pre_solve_inv in H.
  destruct H as (g1 & g2 & g3 & H1 & H2 & H3 & H4 & H5 & H6 & H7 & H8 & H9).
  set (h := pr_copy p) in *. set (g4 := pr_graph p) in *.
  unfold fixed_stage in H1. rewrite FC in H1. injection H1 as <-. set (K := cf_vehicle_types c) in *.
  unfold lock_stage in H5. rewrite PA in H5. injection H5 as <- Hm.
  pose proof (update_settled _ _ _ W HS HT NO H2) as Se. pose proof (time_frame _ _ _ W HS HT H2) as Tm.
  pose proof (update_dummy_ok _ _ _ W HS HT H2) as (Nh & Wh & _ & Ah).
  assert (Hc : custs h = custs g) by (unfold custs; rewrite Nh; reflexivity).
  assert (Al : forall u v, In (u, v) (arc_list g) -> In (u, v) (arc_list h)).
  { intros u v Hi. apply arc_data_In in Hi. destruct Hi as (d & Hd). specialize (Ah u v). rewrite Hd in Ah.
    destruct Ah as (e' & E & _). apply arc_data_In. eauto. }
  pose proof (check_feasibility_demands _ _ _ Wh H4) as Fd.
  assert (Dd : forall v, is_depot v = true -> In v (nodes h) -> demand_of h v <= 0).
  { intros v Hv Hi. destruct (get_node_ok h v Hi) as (d & _ & Hd). rewrite (demand_of_node h v d Wh Hd).
    exact (st_depots _ Se (v, d) (node_data_gnodes _ _ _ Hd) Hv). }
  (* pruning *)
  unfold prune_graph in H6. apply bind_ok in H6. destruct H6 as (mc & E1 & H6). apply bind_ok in H6. destruct H6 as (g5 & E2 & H6).
  rewrite TW in H6. cbn [bind] in H6. injection H6 as -> ->. set (mc := pr_max_capacity p) in *.
  assert (P3 : gnodes g3 = gnodes h /\ wf g3 /\ (exists bad, g3 = remove_arcs bad h) /\
    (forall m, mc = Some m -> forall u v, In (u, v) (arc_list g3) -> demand_of h u + demand_of h v <= inject_Z m) /\
    (forall u, In (u, Sink) (arc_list h) -> In (u, Sink) (arc_list g3)) /\
    (forall v, In (Source, v) (arc_list h) -> In (Source, v) (arc_list g3)) /\
    (forall u v, In (u, v) (arc_list g3) -> In (u, v) (arc_list h)) /\
    (forall u v, In (u, v) (arc_list g3) -> arc_data g3 u v = arc_data h u v)).
  { destruct mc as [m|] eqn:Em.
    - destruct (capacity_prune_ok m h Wh) as (g' & E & Gn & W' & A & B). assert (g' = g3) by congruence. subst g'.
      destruct (prune_form _ _ _ E2) as (bad & Eb).
      destruct (cf_load_capacity c) as [l|] eqn:Ec; [|discriminate]. apply bind_ok in E1. destruct E1 as (m0 & Hm0 & E1). injection E1 as ->.
      assert (Fm : forall v, In v (nodes h) -> demand_of h v <= inject_Z m).
      { intros v Hv. destruct l as [|x l]; [discriminate|]. destruct (Fd v Hv x l eq_refl) as (y & Hy & Hle).
        destruct (zmax_ok _ _ Hm0) as (_ & Mx). eapply Qle_trans; [exact Hle|]. rewrite <- Zle_Qle. apply Mx. exact Hy. }
      split; [exact Gn|]. split; [exact W'|]. split; [exists bad; exact Eb|]. split; [intros m' E' u v Hi; assert (m' = m) by congruence; subst; apply A; exact Hi|].
      split; [|split; [|split]].
      + intros u Hi. apply A. split; [exact Hi|]. destruct (wf_ends _ Wh _ _ Hi) as (Hu & Hv). specialize (Fm u Hu).
        specialize (Dd Sink eq_refl Hv). lra.
      + intros v Hi. apply A. split; [exact Hi|]. destruct (wf_ends _ Wh _ _ Hi) as (Hu & Hv). specialize (Fm v Hv).
        specialize (Dd Source eq_refl Hu). lra.
      + intros u v Hi. apply A in Hi. tauto.
      + exact B.
    - injection E2 as <-. split; [reflexivity|]. split; [exact Wh|]. split; [exists []; symmetry; apply keep_all; intros a _ []|].
      split; [discriminate|]. auto 10. }
  destruct P3 as (Gn3 & W3 & (bad & Eb) & P1 & P2 & P4 & P5 & P6).
  pose proof (penalise_ok _ _ _ H8) as (Gn4 & Al4 & Tm4 & A4).
  assert (Gn : gnodes g4 = gnodes h) by congruence.
  assert (W4 : wf g4) by (apply (wf_same g3); [unfold nodes; congruence|exact Al4|exact W3]).
  assert (N4 : nodes g4 = nodes h) by (unfold nodes; rewrite Gn; reflexivity).
  assert (De : forall v, demand_of g4 v = demand_of h v) by (intro v; unfold demand_of, nd, node_data; rewrite Gn; reflexivity).
  assert (Wt : forall q, In q (gedges g4) -> eweight (snd q) = 0).
  { assert (Wt3 : forall q, In q (gedges g3) -> eweight (snd q) = 0).
    { intros q Hq. rewrite Eb in Hq. cbn [remove_arcs gedges] in Hq. apply filter_In in Hq. apply (st_weights _ Se). tauto. }
    clear - Wt3 H8. destruct (o_use_all_vehicles o); [|injection H8 as <-; exact Wt3].
    unfold penalise_empty in H8. apply bind_ok in H8. destruct H8 as (e & _ & H8). injection H8 as <-. cbn [map_arcs gedges].
    intros q Hq. apply in_map_iff in Hq. destruct Hq as ([a x] & <- & Hx). cbn [fst snd]. specialize (Wt3 _ Hx). cbn [snd] in Wt3.
    destruct (arc_eqb a (Source, Sink)); exact Wt3. }
  assert (Se4 : settled g4).
  { constructor; [exact Wt|rewrite Gn; exact (st_depots _ Se)|rewrite Al4; apply P2; exact (st_dummy _ Se)|].
    refine (readjust_frame h g4 Gn _ _ (st_sink _ Se)).
    - unfold preds. rewrite Al4. change (preds g3 Sink = preds h Sink). rewrite Eb. apply preds_remove. rewrite <- Eb. exact P2.
    - intros u Hu. apply in_preds in Hu. right. pose proof (P2 u Hu) as H3u. rewrite <- Al4 in H3u.
      apply arc_data_In in H3u. destruct H3u as (e' & Ee'). pose proof Hu as Hu2. apply arc_data_In in Hu2. destruct Hu2 as (e & Ee).
      exists e, e'. split; [exact Ee|]. split; [exact Ee'|].
      specialize (Tm4 u Sink). unfold time_of in Tm4. rewrite Ee', (P6 _ _ (P2 u Hu)), Ee in Tm4. exact Tm4. }
  assert (T4 : forall u v, In (u, v) (arc_list g4) -> time_of g4 u v = user_time g u v).
  { intros u v Hi. rewrite Tm4. rewrite Al4 in Hi. rewrite <- Tm. unfold time_of. rewrite (P6 _ _ Hi). reflexivity. }
  (* the steps of the second run *)
  assert (Q1 : check_consistency (o_cspy o) (o_pickup_delivery o) g4 = Ok tt).
  { unfold check_consistency in *. rewrite Gn. exact H3. }
  assert (Q2 : check_feasibility (cf_load_capacity c) (cf_duration c) g4 = Ok tt).
  { rewrite check_feasibility_unfold. assert (E : feas_demand (cf_load_capacity c) g4 = Ok tt).
    { apply feas_demand_ok; [exact W4|]. intros v Hv. rewrite De. apply Fd. rewrite <- N4. exact Hv. }
    rewrite E. cbn [bind]. destruct (cf_duration c) as [D|] eqn:ED; [|reflexivity]. destruct (truthy (Some D)) eqn:Et; [|reflexivity].
    apply truthy_Some in Et. destruct (DU D) as (D1 & D2); [split; auto|].
    apply iterM_ok. intros v Hv. destruct (is_depot v) eqn:Ev; [unfold feas_node; rewrite Ev; reflexivity|].
    assert (Hcu : In v (custs g)).
    { rewrite <- Hc. apply in_custs. split; [rewrite <- N4; exact Hv|]. apply is_depot_false. exact Ev. }
    destruct (RT v Hcu) as (R1 & R2).
    assert (A1 : In (Source, v) (arc_list g4)) by (rewrite Al4; apply P4, Al; exact R1).
    assert (A2 : In (v, Sink) (arc_list g4)) by (rewrite Al4; apply P2, Al; exact R2).
    assert (Tn : nonneg_times g4).
    { intros x y. unfold time_of. destruct (arc_data g4 x y) as [e|] eqn:Ee; [|apply Qle_refl].
      assert (Hi : In (x, y) (arc_list g4)) by (apply arc_data_In; eauto). specialize (T4 x y Hi). unfold time_of in T4. rewrite Ee in T4.
      rewrite T4. apply D1. }
    destruct (check_feasibility_node g4 D v W4 Tn) as [(F & _)|(_ & F)]; auto.
    - rewrite N4, Nh. exact HS.
    - rewrite N4, Nh. exact HT.
    - exfalso. apply F. exists [Source; v], [v; Sink]. split; [repeat econstructor; exact A1|]. split; [repeat econstructor; exact A2|].
      cbn. rewrite (T4 _ _ A1), (T4 _ _ A2). specialize (D2 v Hcu). lra. }
  assert (Q3 : prune_graph (cf_load_capacity c) false g4 = Ok (mc, g4)).
  { unfold prune_graph. rewrite E1. cbn [bind]. destruct mc as [m|]; [|reflexivity].
    rewrite prune_idle; [reflexivity|exact W4|]. intros u v Hi. rewrite !De. apply (P1 m eq_refl). rewrite <- Al4. exact Hi. }
  assert (Q4 : stops_stage (next_config c p) o mc g4 = Ok (pr_num_stops p) /\ (forall s, pr_num_stops p = Some s -> (0 <= s)%Z)).
  { unfold stops_stage in *. destruct mc as [m|].
    - destruct (o_pickup_delivery o).
      + split; [reflexivity|]. injection H7 as <-. exact NS.
      + apply bind_ok in H7. destruct H7 as (b & Hb & H7). injection H7 as H7.
        assert (Eg : num_stops_upper_bound g4 = num_stops_upper_bound g3) by (unfold num_stops_upper_bound; rewrite Gn4; reflexivity).
        destruct (bound_again _ _ _ _ _ NS Hb) as (B1 & B2). cbn [next_config cf_num_stops]. rewrite <- H7, Eg, B2.
        split; [reflexivity|]. intros s E. injection E as <-. exact B1.
    - split; [reflexivity|]. injection H7 as <-. exact NS. }
  assert (Q5 : (if o_use_all_vehicles o then penalise_empty g4 else Ok g4) = Ok g4).
  { destruct (o_use_all_vehicles o); [|reflexivity]. clear - H8. unfold penalise_empty in H8. apply bind_ok in H8. destruct H8 as (e & He & H8).
    injection H8 as H8. unfold penalise_empty.
    assert (E : get_arc g4 Source Sink = Ok (mkE (repeat big_cost (List.length (ecost e))) (etime e) (eweight e))).
    { rewrite <- H8. unfold get_arc in *. rewrite arc_data_map_arcs. destruct (arc_data g3 Source Sink) as [d|]; [|discriminate].
      cbn in He. injection He as ->. reflexivity. }
    rewrite E. cbn [bind ecost]. rewrite repeat_length. f_equal. rewrite <- H8. unfold map_arcs. cbn [gnodes gedges]. f_equal.
    rewrite map_map. apply map_ext. intros [a x]. cbn [fst snd]. destruct (arc_eqb a (Source, Sink)) eqn:Ea; rewrite ?Ea; reflexivity. }
  split; [|split; [exact (proj2 Q4)|split; [exact W4|split]]].
  - unfold pre_solve. cbv zeta. cbn [next_config cf_vehicle_types cf_fixed_cost cf_load_capacity cf_duration cf_num_vehicles].
    rewrite FC. cbn [nonempty bind]. rewrite (settled_again _ _ Se4). cbn [bind]. rewrite Q1. cbn [bind]. rewrite Q2. cbn [bind].
    rewrite H9. rewrite PA. cbn [nonempty bind]. rewrite TW, Q3. cbn [bind]. destruct Q4 as (Q4 & _). unfold stops_stage in Q4. rewrite Q4. cbn [bind].
    rewrite Q5. cbn [bind]. unfold same_prepared. rewrite <- Hm. reflexivity.
  - unfold strip. rewrite <- (graph_eta g4) at 3. f_equal. apply map_same. intros [a e] Ha. cbn [fst snd]. specialize (Wt _ Ha). cbn [snd] in Wt.
    destruct e. cbn in *. subst. reflexivity.
  - intros u v e He. assert (Hi : In (u, v) (arc_list g4)) by (apply arc_data_In; eauto). rewrite Al4 in Hi. pose proof (P6 _ _ Hi) as E3.
    destruct (arc_data h u v) as [e'|] eqn:Eh; [|exfalso; apply P5 in Hi; apply arc_data_In in Hi; destruct Hi; congruence].
    exists e'. split; [reflexivity|]. clear - H8 E3 He. destruct (o_use_all_vehicles o); [|injection H8 as <-; congruence].
    unfold penalise_empty in H8. apply bind_ok in H8. destruct H8 as (d & Hd & H8). injection H8 as H8. rewrite <- H8 in He.
    rewrite arc_data_map_arcs, E3 in He. cbn in He. destruct (arc_eqb (u, v) (Source, Sink)) eqn:Ea; [|congruence].
    injection He as <-. cbn. rewrite repeat_length. apply arc_eqb_eq in Ea. injection Ea as -> ->. unfold get_arc in Hd. rewrite E3 in Hd. cbn in Hd. congruence.
Qed.

(* ------------------------------------------------------------------ *)
(** ** The arguments *)

Lemma format_val_twice v : format_val (format_val v) = format_val v.
Proof. unfold format_val. destruct (py_truthy v) eqn:E; [|rewrite E; reflexivity]. destruct v; cbn; try reflexivity. destruct l; reflexivity. Qed.
Lemma format_val_truthy v : py_truthy (format_val v) = py_truthy v.
Proof. unfold format_val. destruct (py_truthy v) eqn:E; [|exact E]. destruct v; [discriminate| |]; [reflexivity|exact E]. Qed.
Lemma fixed_falsy v : py_truthy v = false -> fixed_arg v = [].
Proof. destruct v as [|n|[|x l]]; try reflexivity. discriminate. Qed.
Lemma int_arg_nonneg v u : raise_if (py_truthy v && bad_pos_int v) TypeError = Ok u -> forall s, int_arg v = Some s -> (0 <= s)%Z.
Proof.
  intros H s Hs. apply stops_check_ok in H. destruct v as [|[z|q]|l]; try discriminate; cbn in Hs; injection Hs as <-; [|lia].
  destruct H as [H|(y & E & Hy)].
  - apply falsy_iff in H. cbn in H. apply negb_false_iff in H. apply Qeq_bool_iff in H. unfold Qeq in H. cbn in H. lia.
  - injection E as ->. lia.
Qed.

Lemma format_raw a g : snd (format a (raw_of g)) = raw_of g.
Proof.
  unfold format, map_arcs, raw_of. cbn [snd gnodes gedges]. f_equal. rewrite map_map. apply map_ext. intros [x e]. reflexivity.
Qed.

Lemma raw_arc_data g u v : arc_data (raw_of g) u v = option_map raw_arc (arc_data g u v).
Proof.
  unfold arc_data, raw_of. cbn [gedges]. induction (gedges g) as [|[x e] l IH]; [reflexivity|]. cbn [map assoc_arc fst snd].
  destruct (arc_eqb x (u, v)); [reflexivity|exact IH].
Qed.
Lemma raw_nodes g : nodes (raw_of g) = nodes g.
Proof. unfold nodes, raw_of. cbn [gnodes]. rewrite map_map. reflexivity. Qed.
Lemma raw_arcs g : arc_list (raw_of g) = arc_list g.
Proof. unfold arc_list, raw_of. cbn [gedges]. rewrite map_map. reflexivity. Qed.
Lemma raw_wf g : wf g -> wf (raw_of g).
Proof. intro W. apply (wf_same g); [apply raw_nodes|apply raw_arcs|exact W]. Qed.

Section Again.
  Variables (v : vrp) (sa : solve_args) (a : rargs) (K : nat) (p : prepared).
  Local Notation G := (v_graph v).
  Local Notation a2 := (args_after a (v_pickup v) (v_periodic v) p).
  Hypothesis R : ready G.
  Hypothesis HP : prepare v sa = Ok (a, K, p).
  Hypothesis TW : v_windows v = false.
  Hypothesis PA : nonempty_or (sa_pre sa) (v_pre v) = [].
  Hypothesis FC : py_truthy (a_fixed_cost (v_args v)) = false.
  Hypothesis NV : truthy (v_periodic v) && py_truthy (a_num_vehicles (v_args v)) = false.
  Hypothesis DU : forall D, time_limit (v_args v) D -> (forall u w, 0 <= user_time G u w) /\
    forall u, In u (custs G) -> user_time G Source u + user_time G u Sink <= inject_Z D.

  Lemma formatted : a_strategy a = sa_strategy sa /\ a_mixed_fleet a = a_mixed_fleet (v_args v) /\
    a_num_stops a = a_num_stops (v_args v) /\ a_duration a = a_duration (v_args v) /\
    py_truthy (a_fixed_cost a) = false /\ py_truthy (a_num_vehicles a) = py_truthy (a_num_vehicles (v_args v)) /\
    (a_mixed_fleet a = false -> format_val (a_load_capacity a) = a_load_capacity a /\
       format_val (a_fixed_cost a) = a_fixed_cost a /\ format_val (a_num_vehicles a) = a_num_vehicles a) /\
    exists g1, pre_solve (config_of a K) (options_of v sa) g1 = Ok p /\
      check_arguments a (Some K) g1 = Ok tt /\
      (a_mixed_fleet a = true -> define_vehicle_types a = Ok (Some K)) /\ (a_mixed_fleet a = false -> K = 1%nat) /\
      gnodes g1 = gnodes G /\ arc_list g1 = arc_list G /\ (forall u w, user_time g1 u w = user_time G u w).
  Proof.
    destruct (prepare_inv v sa a K p HP) as (g1 & H1 & H2). rewrite prepare_args_unfold in H1.
    destruct (a_mixed_fleet (set_strategy (sa_strategy sa) (v_args v))) eqn:M; cbn [set_strategy a_mixed_fleet] in M.
    - apply bind_ok in H1. destruct H1 as (types & T & H1). apply bind_ok in H1. destruct H1 as ([] & C & H1).
      injection H1 as <- -> <-. cbn [set_strategy a_strategy a_mixed_fleet a_num_stops a_duration a_fixed_cost a_num_vehicles].
      repeat (split; [solve [auto]|]). split; [intro F; rewrite M in F; discriminate|]. exists G. repeat (split; [solve [auto]|]). split; [intro F; rewrite M in F; discriminate|]. auto.
    - apply bind_ok in H1. destruct H1 as ([] & C & H1). injection H1 as <- <- <-.
      cbn [format fst snd set_strategy a_strategy a_mixed_fleet a_num_stops a_duration a_fixed_cost a_num_vehicles a_load_capacity] in *.
      split; [reflexivity|]. split; [reflexivity|]. split; [reflexivity|]. split; [reflexivity|].
      split; [rewrite format_val_truthy; exact FC|]. split; [apply format_val_truthy|].
      split; [intros _; rewrite !format_val_twice; auto|]. eexists. split; [exact H2|]. split; [exact C|].
      split; [intro F; rewrite M in F; discriminate|]. split; [reflexivity|]. split; [reflexivity|]. split; [apply arc_list_map_arcs|].
      intros u w. unfold user_time. rewrite arc_data_map_arcs. destruct (arc_data G u w) as [e|]; [|reflexivity]. cbn.
      unfold format_cost. destruct (r_cost e) as [[]|]; reflexivity.
  Qed.

  Variables (v1 : vrp) (gx : vgraph).
  (** the object after the call *)
  Hypothesis V1 : v_graph v1 = raw_of gx.
  Hypothesis V2 : strip gx = strip (pr_graph p).
  Hypothesis V3 : v_args v1 = a2.
  Hypothesis V4 : options_of v1 sa = options_of v sa.

  Lemma prepare_again : prepare v1 sa = Ok (a2, K, same_prepared p).
  Proof.
    destruct formatted as (F1 & F2 & F3 & F4 & F5 & F6 & F7 & g1 & Hp & HC & HT & HK & Gn & Ar & Tm).
    assert (N1 : nodes g1 = nodes G) by (unfold nodes; rewrite Gn; reflexivity).
    assert (W1 : wf g1) by (apply (wf_same G); [exact N1|exact Ar|exact (rd_wf _ R)]).
    assert (Cu : custs g1 = custs G) by (unfold custs; rewrite N1; reflexivity).
    assert (HS : In Source (nodes g1)) by (rewrite N1; exact (rd_source _ R)).
    assert (HT1 : In Sink (nodes g1)) by (rewrite N1; exact (rd_sink _ R)).
    rewrite check_arguments_unfold in HC. apply bind_ok in HC. destruct HC as ([] & C1 & HC).
    apply bind_ok in HC. destruct HC as ([] & C2 & HC). apply bind_ok in HC. destruct HC as ([] & C3 & HC).
    apply bind_ok in HC. destruct HC as ([] & C4 & HC).
    assert (NO1 : forall w, ~ In (Sink, w) (arc_list g1)) by (rewrite Ar; exact (rd_no_out _ R)).
    assert (RT1 : forall w, In w (custs g1) -> In (Source, w) (arc_list g1) /\ In (w, Sink) (arc_list g1)).
    { rewrite Ar, Cu. exact (rd_trips _ R). }
    assert (DU1 : forall D, limit (cf_duration (config_of a K)) D -> (forall u w, 0 <= user_time g1 u w) /\
      forall u, In u (custs g1) -> user_time g1 Source u + user_time g1 u Sink <= inject_Z D).
    { intros D (E & ND). cbn [config_of cf_duration] in E. rewrite F4 in E. destruct (DU D) as (D1 & D2).
      - destruct (a_duration (v_args v)) as [|[z|q]|l] eqn:Ed; try discriminate; injection E as <-; [|congruence]. split; [exact Ed|exact ND].
      - split; [intros u w; rewrite Tm; apply D1|]. intros u Hu. rewrite !Tm. apply D2. rewrite <- Cu. exact Hu. }
    destruct (presolve_again (config_of a K) (options_of v sa) g1 p W1 HS HT1 NO1 RT1 (fixed_falsy _ F5) TW PA (int_arg_nonneg _ _ C1) DU1 Hp)
      as (Pr & Ns & W4 & St & Le).
    assert (Eg : v_graph v1 = raw_of (pr_graph p)) by (rewrite V1; apply strip_raw; exact V2).
    assert (Ec : config_of a2 K = next_config (config_of a K) p).
    { unfold config_of, next_config. cbn [args_after a_num_stops a_load_capacity a_duration a_fixed_cost a_num_vehicles cf_load_capacity cf_duration cf_fixed_cost cf_num_vehicles cf_vehicle_types].
      rewrite F6, NV. f_equal. apply pre_solve_inv in Hp. destruct Hp as (x1 & x2 & x3 & _ & _ & _ & _ & _ & _ & H7 & _).
      unfold stops_stage in H7. destruct (pr_max_capacity p) as [m|]; [|injection H7 as H7; exact H7].
      change (o_pickup_delivery (options_of v sa)) with (v_pickup v) in H7. destruct (v_pickup v).
      - injection H7 as H7. rewrite <- H7. cbn [config_of cf_num_stops]. destruct (int_arg (a_num_stops a)) eqn:Ei; exact Ei.
      - apply bind_ok in H7. destruct H7 as (b & _ & H7). injection H7 as <-. reflexivity. }
    assert (Es : set_strategy (sa_strategy sa) a2 = a2).
    { unfold set_strategy, args_after. cbn. rewrite <- F1. reflexivity. }
    assert (Ck : check_arguments a2 (Some K) (raw_of (pr_graph p)) = Ok tt).
    { rewrite check_arguments_unfold. cbn [args_after a_num_stops a_load_capacity a_duration a_num_vehicles a_fixed_cost a_mixed_fleet a_strategy].
      assert (C1' : raise_if (py_truthy (a_num_stops a2) && bad_pos_int (a_num_stops a2)) TypeError = Ok tt).
      { cbn [args_after a_num_stops]. destruct (pr_max_capacity p); [|exact C1]. destruct (pr_num_stops p) as [b|]; [|exact C1].
        destruct (v_pickup v); [exact C1|]. apply stops_check_ok. specialize (Ns b eq_refl). destruct (Z.eq_dec b 0) as [->|Nb]; [left; reflexivity|].
        right. exists b. split; [reflexivity|lia]. }
      cbn [args_after a_num_stops] in C1'. rewrite C1'. cbn [bind]. rewrite C2. cbn [bind]. rewrite C3. cbn [bind]. rewrite C4. cbn [bind].
      rewrite F6, NV. destruct (a_mixed_fleet a); [|reflexivity].
      apply bind_ok in HC. destruct HC as ([] & C5 & HC). apply bind_ok in HC. destruct HC as ([] & C6 & HC). apply bind_ok in HC. destruct HC as ([] & C7 & HC).
      rewrite C5. cbn [bind]. rewrite C6. cbn [bind]. rewrite C7. cbn [bind]. unfold cost_loop in *. apply iterM_ok. intros [x y] Hi.
      apply in_edges in Hi; [|apply raw_wf; exact W4]. rewrite raw_arcs in Hi. apply arc_data_In in Hi. destruct Hi as (e & He).
      cbn [fst snd]. unfold get_arc. rewrite raw_arc_data, He. cbn. destruct (Le x y e He) as (e' & He' & Ln). rewrite Ln.
      assert (Lk : List.length (ecost e') = K); [|rewrite Lk, Nat.eqb_refl; reflexivity].
      apply pre_solve_inv in Hp. destruct Hp as (x1 & x2 & x3 & Y1 & Y2 & _).
      unfold fixed_stage in Y1. change (cf_fixed_cost (config_of a K)) with (fixed_arg (a_fixed_cost a)) in Y1. rewrite (fixed_falsy _ F5) in Y1. injection Y1 as <-.
      destruct (update_dummy_ok _ _ _ W1 HS HT1 Y2) as (_ & _ & _ & A). specialize (A x y). destruct (arc_data g1 x y) as [e0|] eqn:E0.
      - destruct A as (e1 & Ee1 & (l & Hl & El) & _). assert (e1 = e') by congruence. subst e1. rewrite El.
        rewrite iterM_ok in HC. specialize (HC (x, y)). cbn [fst snd] in HC. unfold get_arc in HC. rewrite E0 in HC. cbn [of_opt bind] in HC.
        assert (Hin : In (x, y) (edges g1)) by (apply in_edges; [exact W1|]; apply arc_data_In; eauto).
        specialize (HC Hin). unfold check_cost_vector in HC. rewrite Hl in HC. apply raise_if_ok, negb_false_iff, Nat.eqb_eq in HC. exact HC.
      - rewrite A in He'. destruct (arc_eqb (x, y) (Source, Sink)); [|discriminate]. injection He' as <-. cbn. apply repeat_length. }
    unfold prepare. rewrite V3, Es, Eg, V4, prepare_args_unfold. change (a_mixed_fleet a2) with (a_mixed_fleet a).
    destruct (a_mixed_fleet a) eqn:M.
    - assert (Et : define_vehicle_types a2 = Ok (Some K)).
      { unfold define_vehicle_types. cbn [args_after a_load_capacity a_fixed_cost a_num_vehicles]. rewrite F6, NV. exact (HT eq_refl). }
      rewrite Et. cbn [bind]. rewrite Ck. cbn [bind of_opt]. rewrite Ec, Pr. reflexivity.
    - assert (Ef : format a2 (raw_of (pr_graph p)) = (a2, raw_of (pr_graph p))).
      { rewrite <- (format_raw a2 (pr_graph p)) at 2. unfold format. cbn [snd]. f_equal. destruct (F7 eq_refl) as (X1 & X2 & X3).
        unfold args_after. cbn [a_num_stops a_load_capacity a_duration a_fixed_cost a_num_vehicles a_mixed_fleet a_strategy].
        rewrite F6, NV, X1, X2, X3. reflexivity. }
      rewrite Ef. cbn [fst snd]. specialize (HK eq_refl). rewrite HK in *. rewrite Ck. cbn [bind of_opt]. rewrite Ec, Pr. reflexivity.
  Qed.
End Again.
