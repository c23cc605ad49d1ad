(** Column generation: what one iteration does, and the whole loop. *)
From Coq Require Import Relations.
From Verif.Base Require Import Prelude Graph.
From Verif.Spec Require Import Routes Network LinProg Pricing MIP Columns Pool Master Run.
From Verif.Model Require Import Args Reach Checks Preprocess ClarkeWright Greedy Initial Pricing
  GreedyPricing LPPricing Cspy Master Dive Hyper ColGen.
From Verif.Proofs Require Import RouteLemmas PricingProofs MasterProofs SelectProofs PoolProofs PoolQuality LPComplete.

(** ** The network up to weights *)
Definition strip (g : vgraph) : vgraph :=
  mkGraph (gnodes g) (map (fun p => (fst p, mkE (ecost (snd p)) (etime (snd p)) 0)) (gedges g)).

Lemma strip_arcs g h : strip g = strip h -> arc_list g = arc_list h.
Proof.
  unfold strip, arc_list. intro H. injection H as _ H. apply (f_equal (map fst)) in H. rewrite !map_map in H. exact H.
Qed.
Lemma strip_nodes g h : strip g = strip h -> gnodes g = gnodes h.
Proof. unfold strip. intro H. injection H as H _. exact H. Qed.

Lemma strip_same g h : strip g = strip h -> same_but_weights g h.
Proof.
  intro H. split; [symmetry; exact (strip_nodes _ _ H)|]. split; [symmetry; exact (strip_arcs _ _ H)|].
  unfold strip in H. injection H as _ H. unfold arc_data. revert H. generalize (gedges g), (gedges h).
  intros l. induction l as [|[a e] l IH]; intros [|[b f] l']; cbn [map fst snd]; try discriminate; intros H u v e1 H1.
  injection H as -> Ec Et H. cbn [assoc_arc] in *. destruct (arc_eqb b (u, v)).
  - injection H1 as <-. exists e. auto.
  - exact (IH l' H u v e1 H1).
Qed.

Lemma mapM_strip (f : arc -> edata -> res edata) l l1 :
  (forall a e e1, f a e = Ok e1 -> ecost e1 = ecost e /\ etime e1 = etime e) ->
  mapM (fun p => let* e := f (fst p) (snd p) in Ok (fst p, e)) l = Ok l1 ->
  map (fun p => (fst p, mkE (ecost (snd p)) (etime (snd p)) 0)) l1 =
  map (fun p : arc * edata => (fst p, mkE (ecost (snd p)) (etime (snd p)) 0)) l.
Proof.
  intro Hf. revert l1. induction l as [|[a e] l IH]; intros l1 H; cbn in H; [injection H as <-; reflexivity|].
  apply bind_ok in H. destruct H as (b & Hb & H). apply bind_ok in H. destruct H as (bs & Hbs & H). injection H as <-.
  apply bind_ok in Hb. destruct Hb as (e1 & He & Hb). injection Hb as <-. destruct (Hf _ _ _ He) as [E1 E2].
  cbn [map fst snd]. rewrite (IH _ Hbs), E1, E2. reflexivity.
Qed.

Lemma add_strip D k r g h : add_reduced_cost D k r g = Ok h -> strip h = strip g.
Proof.
  unfold add_reduced_cost. intro H. apply bind_ok in H. destruct H as (g1 & H1 & H).
  assert (S1 : strip g1 = strip g).
  { unfold map_arcsM in H1. apply bind_ok in H1. destruct H1 as (l & Hl & H1). injection H1 as <-. unfold strip. cbn [gnodes gedges].
    f_equal. refine (mapM_strip (fun a e => let* w := reduced_weight D k r a e in Ok (set_weight e w)) _ _ _ Hl). intros a e e1 He. apply bind_ok in He. destruct He as (w & _ & He). injection He as <-. split; reflexivity. }
  destruct (d_fleet D); [|injection H as <-; exact S1]. apply bind_ok in H. destruct H as (u & _ & H).
  rewrite <- S1. unfold map_arcsM in H. apply bind_ok in H. destruct H as (l2 & Hl & H). injection H as <-. unfold strip. cbn [gnodes gedges].
  f_equal. refine (mapM_strip (fun a e => if node_eqb (fst a) Source then let* m := of_opt KeyError (nth_error l k) in Ok (set_weight e (eweight e - m)) else Ok e) _ _ _ Hl). intros a e e1 He. destruct (node_eqb (fst a) Source); [|injection He as <-; split; reflexivity].
  apply bind_ok in He. destruct He as (w & _ & He). injection He as <-. split; reflexivity.
Qed.

Lemma add_strip_eq D k r g g' : strip g = strip g' -> add_reduced_cost D k r g = add_reduced_cost D k r g'.
Proof.
  intro H. unfold add_reduced_cost.
  assert (E : map_arcsM (fun a e => let* w := reduced_weight D k r a e in Ok (set_weight e w)) g =
              map_arcsM (fun a e => let* w := reduced_weight D k r a e in Ok (set_weight e w)) g').
  { unfold map_arcsM. rewrite (strip_nodes _ _ H).
    assert (Em : mapM (fun p => let* e := (let* w := reduced_weight D k r (fst p) (snd p) in Ok (set_weight (snd p) w)) in Ok (fst p, e)) (gedges g)
       = mapM (fun p => let* e := (let* w := reduced_weight D k r (fst p) (snd p) in Ok (set_weight (snd p) w)) in Ok (fst p, e)) (gedges g')); [|rewrite Em; reflexivity].
    unfold strip in H. injection H as _ H. revert H. generalize (gedges g), (gedges g').
    induction l as [|[a e] l IH]; intros [|[b f] l']; cbn [map fst snd]; try discriminate; [reflexivity|].
    intro H. injection H as -> Ec Et H. cbn [mapM fst snd]. rewrite (IH l' H).
    unfold reduced_weight, set_weight. rewrite Ec, Et. reflexivity. }
  rewrite E. reflexivity.
Qed.

(** ** Results of the pricing algorithms *)
(** The time remaining never stops a pricing problem from being solved. *)
Lemma remaining_usable C b t :
  truthyQ (time_remaining C b t) && match time_remaining C b t with Some q => Qle_bool q 0 | None => false end = false.
Proof.
  unfold time_remaining. destruct (cg_time_limit C) as [l|]; [|reflexivity]. destruct (Qeq_bool l 0); [reflexivity|]. cbv zeta.
  assert (P : forall q, 0 < q -> truthyQ (Some q) && Qle_bool q 0 = false).
  { intros q Hq. assert (Qle_bool q 0 = false) as -> by (destruct (Qle_bool q 0) eqn:Q; [apply Qle_bool_iff in Q; lra|reflexivity]).
    apply andb_false_r. }
  destruct b.
  - apply P. unfold pymax2. destruct (Qltb _ _) eqn:L; [apply Qltb_lt in L; lra|lra].
  - destruct (Qltb 0 (l - (t - cg_start C))) eqn:L; [apply P, Qltb_lt; exact L|reflexivity].
Qed.

Lemma lp_solve_cases h rn k caps o ns dur neg tl exact solver keys pool pool1 more :
  lp_solve h rn k caps o ns dur neg tl exact solver keys pool = Ok (pool1, more) ->
  (more = false /\ pool1 = pool) \/ (more = true /\ exists c, pool1 = pool ++ [c]).
Proof.
  unfold lp_solve. intro H. destruct (negb rn); [injection H as <- <-; auto|].
  destruct (truthyQ tl && _); [injection H as <- <-; auto|].
  apply bind_ok in H. destruct H as (p & _ & H).
  destruct (_ || _); [|injection H as <- <-; auto].
  apply bind_ok in H. destruct H as (r & H1 & H2). injection H2 as <- <-. right. split; [reflexivity|].
  unfold lp_new_route in H1. apply bind_ok in H1. destruct H1 as (q & _ & H1). destruct (digraph_of _) as [a b].
  apply bind_ok in H1. destruct H1 as (sp & _ & H1). injection H1 as <-. eauto.
Qed.

Lemma cspy_cases g h k caps o ns dur alg keys rn elementary pool pool1 more :
  cspy_solve g h k caps o ns dur alg keys rn elementary pool = Ok (pool1, more) ->
  (more = false /\ pool1 = pool) \/ (more = true /\ exists c, pool1 = pool ++ [c]).
Proof.
  unfold cspy_solve. intro H. destruct (negb rn); [injection H as <- <-; auto|].
  apply bind_ok in H. destruct H as (m & _ & H). revert H. generalize (passes o elementary).
  induction l as [|e t IH]; cbn [cspy_loop]; intro H; [injection H as <- <-; auto|].
  apply bind_ok in H. destruct H as (thr & _ & H).
  destruct (alg m _ e thr) as [[cost path]|]; [|injection H as <- <-; auto].
  destruct (Qltb cost _); [|injection H as <- <-; auto].
  apply bind_ok in H. destruct H as (c & Hc & H).
  destruct (existsb _ pool); [auto|]. injection H as <- <-. right. eauto.
Qed.

Lemma greedy_none h k caps ns dur keys n rnd pool pool1 :
  greedy_pricing h caps ns dur k keys pool n rnd = Ok (pool1, false) -> pool1 = pool.
Proof.
  assert (A : forall fw l s r, foldM (p_attempt h caps ns dur k keys fw) l s = Ok r ->
            (snd r = false -> snd s = false /\ fst r = fst s)).
  { intros fw l. induction l as [|x l IH]; intros s r H Hr; cbn in H; [injection H as <-; auto|].
    apply bind_ok in H. destruct H as (s1 & H1 & H2). destruct (IH _ _ H2 Hr) as [B1 B2]. rewrite B2.
    unfold p_attempt in H1. apply bind_ok in H1. destruct H1 as (y & _ & H1).
    destruct (snd y && _); [|injection H1 as <-; auto].
    apply bind_ok in H1. destruct H1 as (l1 & _ & H1). injection H1 as <-. discriminate. }
  unfold greedy_pricing. intro H. apply bind_ok in H. destruct H as (s & H1 & H2).
  destruct (A _ _ _ _ H2 eq_refl) as [B1 B2]. destruct (A _ _ _ _ H1 B1) as [B3 B4]. cbn [fst] in *. congruence.
Qed.

(** ** Tags do not matter *)
Lemma new_variable_untag rows o c c' : untag c = untag c' -> new_variable rows o c = new_variable rows o c'.
Proof.
  intro H. destruct c as [n ns es p q k t], c' as [n' ns' es' p' q' k' t']. unfold untag in H. cbn in H.
  injection H as -> -> -> -> -> ->. reflexivity.
Qed.
Lemma mapM_untag rows o : forall cs cs', same_columns cs cs' -> mapM (new_variable rows o) cs = mapM (new_variable rows o) cs'.
Proof.
  induction cs as [|c cs IH]; intros [|c' cs'] H; unfold same_columns in H; try discriminate; [reflexivity|].
  cbn [map] in H. injection H as H1 H2 H3 H4 H5 H6 H7. cbn [mapM].
  rewrite (new_variable_untag rows o c c') by (unfold untag; congruence). rewrite (IH cs' H7). reflexivity.
Qed.
Lemma built_untag g o cs m : built g o cs m -> forall cs', same_columns cs' cs -> built g o cs' m.
Proof.
  intro B. induction B as [cs m F|cs c m m1 B IH U]; intros cs' H.
  - apply b_formulate. unfold formulate in *. rewrite (mapM_untag _ _ _ _ H). exact F.
  - unfold same_columns in H. rewrite map_app in H. cbn [map] in H.
    destruct (exists_last (l := cs')) as (a & x & ->).
    { intros ->. destruct (map untag cs); discriminate. }
    rewrite map_app in H. cbn [map] in H. apply app_inj_tail in H. destruct H as [H1 H2].
    apply (b_update g o a x m m1); [apply IH; exact H1|]. unfold update in *. rewrite (new_variable_untag _ _ x c H2). exact U.
Qed.

Lemma tag_other_same x l : same_columns (map (tag_other x) l) l.
Proof.
  unfold same_columns. rewrite map_map. apply map_ext. intro c. unfold tag_other.
  destruct (active x c); [|reflexivity]. destruct (c_tag c); reflexivity.
Qed.
Lemma tag_last_snoc t l c : tag_last t (l ++ [c]) = l ++ [set_tag t c].
Proof. unfold tag_last. rewrite rev_app_distr. cbn. rewrite rev_involutive. reflexivity. Qed.
Lemma tag_last_same t l : same_columns (tag_last t l) l.
Proof.
  destruct l as [|a l] using rev_ind; [reflexivity|]. rewrite tag_last_snoc. unfold same_columns.
  rewrite !map_app. reflexivity.
Qed.
Lemma same_columns_names l l' : same_columns l l' -> map c_name l = map c_name l'.
Proof.
  intro H. apply (f_equal (map c_name)) in H. rewrite !map_map in H. exact H.
Qed.
Lemma same_columns_sym l l' : same_columns l l' -> same_columns l' l.
Proof. unfold same_columns. auto. Qed.
Lemma same_columns_trans a b c : same_columns a b -> same_columns b c -> same_columns a c.
Proof. unfold same_columns. congruence. Qed.

(** ** Which variables the master problem has *)
Lemma cname_eqb_eq a b : cname_eqb a b = true <-> a = b.
Proof.
  destruct a, b; cbn; split; intro H; try discriminate; try (apply Nat.eqb_eq in H; congruence);
    injection H as ->; apply Nat.eqb_refl.
Qed.
Lemma new_variable_var rows o c y : new_variable rows o c = Ok y -> mc_var y = Y (c_name c).
Proof.
  unfold new_variable, span_route_variable, route_variable. destruct (mo_span o); intro H.
  - apply bind_ok in H. destruct H as (a & _ & H). apply bind_ok in H. destruct H as (b & _ & H).
    apply bind_ok in H. destruct H as (r & _ & H). injection H as <-. reflexivity.
  - apply bind_ok in H. destruct H as (a & _ & H). apply bind_ok in H. destruct H as (b & _ & H). injection H as <-. reflexivity.
Qed.
Lemma has_variable_iff g o cs m : built g o cs m -> forall n, has_variable m n = true <-> In n (map c_name cs).
Proof.
  intros B n. assert (SH := built_shape _ _ _ _ B). destruct (sh_cols _ _ _ _ SH) as (ys & F & P). unfold has_variable.
  rewrite existsb_exists. split.
  - intros (y & Hy & Hn). apply (Permutation_in _ P) in Hy. apply in_app_or in Hy. destruct Hy as [Hy|Hy].
    + destruct (Forall2_in_r _ _ _ _ F Hy) as (c & Hc & E). apply new_variable_var in E. rewrite E in Hn.
      apply cname_eqb_eq in Hn. subst n. apply in_map. exact Hc.
    + exfalso. apply in_app_or in Hy. destruct Hy as [Hy|Hy].
      { unfold drop_cols in Hy. destruct (mo_drop o); [|destruct Hy]. destruct (truthyQ _); [|destruct Hy].
        apply in_map_iff in Hy. destruct Hy as (v & <- & _). discriminate. }
      apply in_app_or in Hy. destruct Hy as [Hy|Hy].
      { unfold dummy_cols in Hy. destruct (mo_periodic o); [|destruct Hy].
        apply in_map_iff in Hy. destruct Hy as (v & <- & _). discriminate. }
      apply in_app_or in Hy. destruct Hy as [Hy|Hy].
      { unfold extra_cols in Hy. destruct (mo_fleet o); [|destruct Hy]. apply in_map_iff in Hy. destruct Hy as (v & <- & _). discriminate. }
      unfold span_cols in Hy. destruct (mo_span o); [|destruct Hy]. destruct Hy as [<-|[]]. discriminate.
  - intro H. apply in_map_iff in H. destruct H as (c & <- & Hc). destruct (Forall2_in_l _ _ _ _ F Hc) as (y & Hy & E).
    apply new_variable_var in E. exists y. split; [apply (Permutation_in _ (Permutation_sym P)), in_or_app; auto|].
    rewrite E. apply cname_eqb_eq. reflexivity.
Qed.

(** ** Growth of the pool *)
Section Grow.
  Variable E : env.
  Variable C : cgconfig.
  Variable g : vgraph.

  Lemma grown_trans a b c : grown E C g a b -> grown E C g b c -> grown E C g a c.
  Proof.
    intros H H1. induction H1; [exact H|eapply g_priced; eassumption|eapply g_tagged; eassumption].
  Qed.
  Lemma grown_one a b : priced E C g a b -> grown E C g a b.
  Proof. intro H. eapply g_priced; [apply g_start|exact H]. Qed.
  Lemma grown_same a b : same_columns b a -> grown E C g a b.
  Proof. intro H. eapply g_tagged; [apply g_start|exact H]. Qed.

  Lemma priced_step a b : priced E C g a b -> pricing_step a b.
  Proof.
    intros [D k route p n h hr more _ _ _ H|D k h n more _ _ _ H].
    - destruct (cg_cspy C); [eapply by_labelling|eapply by_mip]; exact H.
    - eapply by_greedy. exact H.
  Qed.

  Lemma numbered_same a b : same_columns a b -> numbered b -> numbered a.
  Proof.
    intros H N i c Hc. apply same_columns_names in H. apply (f_equal (fun l => nth_error l i)) in H.
    rewrite !nth_error_map, Hc in H. cbn in H. destruct (nth_error b i) as [d|] eqn:Ed; [|discriminate].
    cbn in H. injection H as ->. exact (N i d Ed).
  Qed.
  Lemma fine_same a b : same_columns a b -> fine b -> fine a.
  Proof.
    intros H F c Hc. apply (in_map untag) in Hc. unfold same_columns in H. rewrite H in Hc. apply in_map_iff in Hc.
    destruct Hc as (d & Ed & Hd). destruct (F d Hd) as [F1 F2].
    destruct c, d. unfold untag in Ed. cbn in Ed. injection Ed as -> -> -> -> -> ->. split; [exact F1|exact F2].
  Qed.
  Lemma grown_numbered a b : grown E C g a b -> numbered a -> numbered b.
  Proof.
    intros H N. induction H as [|p1 p2 H IH H1|p1 p2 H IH H1]; auto.
    - apply priced_step in H1. apply step_good in H1. destruct H1 as [_ H1]. auto.
    - eapply numbered_same; eassumption.
  Qed.
  Lemma grown_fine a b : grown E C g a b -> fine a -> fine b.
  Proof.
    intros H N. induction H as [|p1 p2 H IH H1|p1 p2 H IH H1]; auto.
    - apply priced_step in H1. eapply step_fine; eassumption.
    - eapply fine_same; eassumption.
  Qed.

  (** ** One pricing problem *)
  (** What solving pricing problems leaves alone. *)
  Record frame (s s' : state) : Prop := {
    fr_master : s_master s' = s_master s;
    fr_values : s_values s' = s_values s;
    fr_fixed : s_fixed s' = s_fixed s;
    fr_diving : s_diving s' = s_diving s;
    fr_dive : s_dive s' = s_dive s;
    fr_iter : s_iter s' = s_iter s;
    fr_noimp : s_noimp s' = s_noimp s;
    fr_bounds : s_bounds s' = s_bounds s;
    fr_hyper : s_hyper s' = s_hyper s;
    fr_graph : strip (s_graph s) = strip g -> strip (s_graph s') = strip g;
    fr_tick : (s_tick s <= s_tick s')%nat
  }.
  Lemma frame_refl s : frame s s.
  Proof. constructor; auto. Qed.
  Lemma frame_trans a b c : frame a b -> frame b c -> frame a c.
  Proof. intros [] []. constructor; try congruence; auto; lia. Qed.
  Lemma frame_more b s : frame s (set_more b s).
  Proof. constructor; auto. Qed.

  (** A pricing problem was solved: nothing found, or one column. *)
  Record looked (s s' : state) (b : bool) : Prop := {
    lk_frame : frame s s';
    lk_grown : strip (s_graph s) = strip g -> grown E C g (s_pool s) (s_pool s');
    lk_none : b = false -> s_pool s' = s_pool s;
    lk_some : b = true -> exists c, s_pool s' = s_pool s ++ [c]
  }.
  Lemma looked_trans a b c x : looked a b false -> looked b c x -> looked a c x.
  Proof.
    intros [F1 G1 N1 _] [F2 G2 N2 S2]. specialize (N1 eq_refl).
    constructor; [eapply frame_trans; eassumption| | |].
    - intro H. eapply grown_trans; [exact (G1 H)|exact (G2 (fr_graph _ _ F1 H))].
    - intro H. rewrite (N2 H), N1. reflexivity.
    - intro H. rewrite <- N1. exact (S2 H).
  Qed.
  Lemma looked_refl s : looked s s false.
  Proof. constructor; [apply frame_refl|intros; apply g_start|auto|discriminate]. Qed.
  Lemma looked_more x s s' b : looked s s' b -> looked s (set_more x s') b.
  Proof.
    intros [F G N S]. constructor; cbn [s_pool set_more]; auto.
    eapply frame_trans; [exact F|apply frame_more].
  Qed.

  Lemma subproblem_looked D k route p s s' b : (k < cg_types C)%nat ->
    subproblem E C D k route p s = Ok (s', b) -> looked s s' b.
  Proof.
    intros Hk H. unfold subproblem in H. apply bind_ok in H. destruct H as (h & Hh & H).
    apply bind_ok in H. destruct H as (hr & Hhr & H). apply bind_ok in H. destruct H as ([pool more] & Hr & H).
    cbn [fst snd] in H. injection H as <- <-.
    assert (Cs : (more = false /\ pool = s_pool s) \/ (more = true /\ exists c, pool = s_pool s ++ [c])).
    { destruct (cg_cspy C); [eapply cspy_cases; exact Hr|eapply lp_solve_cases; exact Hr]. }
    constructor.
    - constructor; try reflexivity; cbn [s_graph set_pool tick s_tick]; [|lia].
      intro Hs. rewrite (add_strip _ _ _ _ _ Hh). exact Hs.
    - intro Hs. cbn [s_pool set_pool tick]. apply grown_one. eapply p_problem; [exact Hk| |exact Hhr|exact Hr].
      rewrite <- Hh. symmetry. apply add_strip_eq. exact Hs.
    - intro Hb. cbn [s_pool set_pool tick]. destruct Cs as [[_ Cs]|[Cs _]]; [exact Cs|congruence].
    - intro Hb. cbn [s_pool set_pool tick]. destruct Cs as [[Cs _]|[_ Cs]]; [congruence|exact Cs].
  Qed.

  Lemma subproblem_exact D k route s s' : strip (s_graph s) = strip g ->
    subproblem E C D k route PExact s = Ok (s', false) -> exact_failed E C g D k route (s_pool s).
  Proof.
    intros Hs H. unfold subproblem in H. apply bind_ok in H. destruct H as (h & Hh & H).
    cbn [pricing_graph bind fst snd] in H. apply bind_ok in H. destruct H as ([pool more] & Hr & H).
    cbn [fst snd] in H. assert (more = false) by (injection H as _ ->; reflexivity). subst more. clear H.
    exists h, (s_tick (tick s)).
    split; [rewrite <- Hh; symmetry; apply add_strip_eq; exact Hs|]. cbv zeta.
    destruct (cg_cspy C).
    - assert (pool = s_pool s) as -> by (apply cspy_cases in Hr; destruct Hr as [[_ X]|[X _]]; [exact X|discriminate]). exact Hr.
    - eapply lp_solve_nothing; [|exact Hr]. apply remaining_usable.
  Qed.

  Lemma attempts_looked D k route (Hk : (k < cg_types C)%nat) : forall ps s s' b,
    attempts E C D k route ps s = Ok (s', b) -> looked s s' b.
  Proof.
    induction ps as [|p ps IH]; intros s s' b H; cbn [attempts] in H.
    - injection H as <- <-. apply looked_more, looked_refl.
    - apply bind_ok in H. destruct H as ([s1 b1] & H1 & H). apply subproblem_looked in H1; [|exact Hk].
      cbn [fst snd] in H. destruct b1; [injection H as <- <-; exact H1|].
      eapply looked_trans; [exact H1|apply IH; exact H].
  Qed.

  Lemma attempt_looked D k route p s s' b : (k < cg_types C)%nat ->
    attempt E C D k route p s = Ok (s', b) -> looked s s' b.
  Proof.
    intros Hk H. destruct p; cbn [attempt] in H; [..|eapply subproblem_looked; eassumption]; eapply attempts_looked; eassumption.
  Qed.

  Lemma solve_subproblem_looked p D k route s s' b : (k < cg_types C)%nat ->
    solve_subproblem E C p D k route s = Ok (s', b) -> looked s s' b.
  Proof.
    intros Hk H. unfold solve_subproblem in H. destruct (cg_strategy C); [|eapply attempt_looked; eassumption].
    destruct p; try (eapply attempt_looked; eassumption);
      (apply bind_ok in H; destruct H as ([s1 b1] & H1 & H); apply attempt_looked in H1; [|exact Hk];
       cbn [fst snd] in H; destruct b1; [injection H as <- <-; exact H1|];
       apply attempt_looked in H; [|exact Hk]; eapply looked_trans; eassumption).
  Qed.

  Lemma solve_subproblem_exact p D k route s s' : (k < cg_types C)%nat -> cg_strategy C <> None \/ p = Exact ->
    strip (s_graph s) = strip g ->
    solve_subproblem E C p D k route s = Ok (s', false) -> exact_failed E C g D k route (s_pool s).
  Proof.
    intros Hk NH Hs H. unfold solve_subproblem in H. destruct (cg_strategy C) as [st|].
    - destruct p; try (eapply subproblem_exact; [exact Hs|exact H]);
        (apply bind_ok in H; destruct H as ([s1 b1] & H1 & H); apply attempt_looked in H1; [|exact Hk];
         cbn [fst snd] in H; destruct b1; [discriminate|];
         rewrite <- (lk_none _ _ _ H1 eq_refl); eapply subproblem_exact; [apply (fr_graph _ _ (lk_frame _ _ _ H1)); exact Hs|exact H]).
    - destruct NH as [NH| ->]; [congruence|]. eapply subproblem_exact; [exact Hs|exact H].
  Qed.

  Lemma per_route_looked p D k (Hk : (k < cg_types C)%nat) : forall rs s s' b,
    per_route E C p D k rs s = Ok (s', b) -> looked s s' b.
  Proof.
    induction rs as [|n rs IH]; intros s s' b H; cbn [per_route] in H.
    - injection H as <- <-. apply looked_refl.
    - apply bind_ok in H. destruct H as ([s1 b1] & H1 & H). apply solve_subproblem_looked in H1; [|exact Hk].
      cbn [fst snd] in H. destruct b1; [injection H as <- <-; exact H1|].
      eapply looked_trans; [exact H1|apply IH; exact H].
  Qed.

  Lemma per_route_exact p D k (Hk : (k < cg_types C)%nat) : cg_strategy C <> None \/ p = Exact -> forall rs s s',
    strip (s_graph s) = strip g ->
    per_route E C p D k rs s = Ok (s', false) -> forall n, In n rs -> exact_failed E C g D k (Some n) (s_pool s).
  Proof.
    intro NH. induction rs as [|n0 rs IH]; intros s s' Hs H n Hn; [destruct Hn|]. cbn [per_route] in H.
    apply bind_ok in H. destruct H as ([s1 b1] & H1 & H). cbn [fst snd] in H.
    assert (L := solve_subproblem_looked _ _ _ _ _ _ _ Hk H1).
    destruct b1; [discriminate|]. destruct Hn as [<-|Hn].
    - eapply solve_subproblem_exact; eassumption.
    - rewrite <- (lk_none _ _ _ L eq_refl). eapply IH; [|exact H|exact Hn]. apply (fr_graph _ _ (lk_frame _ _ _ L)). exact Hs.
  Qed.

  (** ** The invariant: the master problem is built from the columns of the pool *)
  Record inv (s : state) : Prop := {
    iv_graph : strip (s_graph s) = strip g;
    iv_built : built g (cg_master C) (s_pool s) (s_master s);
    iv_numbered : numbered (s_pool s)
  }.

  Lemma names_NoDup pool : numbered pool -> NoDup (map c_name pool).
  Proof.
    intro N. apply numbered_names in N. rewrite <- (map_map c_name number) in N. apply NoDup_map_inv in N. exact N.
  Qed.

  Lemma skip_old o m : forall l, (forall c, In c l -> has_variable m (c_name c) = true) ->
    foldM (fun m c => if has_variable m (c_name c) then Ok m else update o m c) l m = Ok m.
  Proof.
    induction l as [|c l IH]; intro H; [reflexivity|]. cbn [foldM]. rewrite (H c (or_introl eq_refl)). cbn [bind].
    apply IH. intros d Hd. apply H. right. exact Hd.
  Qed.
  Lemma add_new o : forall new old m m1, built g o old m -> NoDup (map c_name (old ++ new)) ->
    foldM (fun m c => if has_variable m (c_name c) then Ok m else update o m c) new m = Ok m1 ->
    built g o (old ++ new) m1.
  Proof.
    induction new as [|c new IH]; intros old m m1 B ND H; cbn [foldM] in H.
    - injection H as <-. rewrite app_nil_r. exact B.
    - apply bind_ok in H. destruct H as (m2 & H2 & H). destruct (has_variable m (c_name c)) eqn:Hv.
      + exfalso. apply (has_variable_iff _ _ _ _ B) in Hv. rewrite map_app in ND. cbn [map] in ND.
        apply NoDup_remove_2 in ND. apply ND, in_or_app. auto.
      + replace (old ++ c :: new) with ((old ++ [c]) ++ new) in * by (rewrite <- app_assoc; reflexivity).
        eapply IH; [eapply b_update; [exact B|exact H2]|exact ND|exact H].
  Qed.

  (** What an iteration leaves alone. *)
  Record kept (s s' : state) : Prop := {
    kp_values : s_values s' = s_values s;
    kp_fixed : s_fixed s' = s_fixed s;
    kp_diving : s_diving s' = s_diving s;
    kp_dive : s_dive s' = s_dive s;
    kp_iter : s_iter s' = s_iter s;
    kp_noimp : s_noimp s' = s_noimp s;
    kp_bounds : s_bounds s' = s_bounds s;
    kp_tick : (s_tick s <= s_tick s')%nat
  }.
  Lemma kept_refl s : kept s s.
  Proof. constructor; auto. Qed.
  Lemma kept_trans a b c : kept a b -> kept b c -> kept a c.
  Proof. intros [] []. constructor; try congruence; lia. Qed.
  Lemma frame_kept a b : frame a b -> kept a b.
  Proof. intros []. constructor; auto. Qed.

  Lemma greedy_step_ok D k s s' : (k < cg_types C)%nat -> inv s -> greedy_step E C D k s = Ok s' ->
    inv s' /\ grown E C g (s_pool s) (s_pool s') /\ kept s s'.
  Proof.
    intros Hk I H. unfold greedy_step in H. destruct (greedy_applies C) eqn:GA; [|injection H as <-; auto using g_start, kept_refl].
    apply bind_ok in H. destruct H as (h & Hh & H). apply bind_ok in H. destruct H as ([pool more] & Hr & H). cbn [fst snd] in H.
    assert (Ph : add_reduced_cost D k None g = Ok h).
    { rewrite <- Hh. symmetry. apply add_strip_eq. exact (iv_graph _ I). }
    assert (GA' : greedy_allowed C).
    { unfold greedy_applies in GA. rewrite !andb_true_iff, !negb_true_iff in GA. unfold greedy_allowed. tauto. }
    assert (P : priced E C g (s_pool s) pool) by (eapply p_greedy; eassumption).
    assert (G := step_good _ _ (priced_step _ _ P)). destruct G as [(new & ->) GN].
    assert (Hg : strip h = strip g) by (rewrite (add_strip _ _ _ _ _ Hh); exact (iv_graph _ I)).
    destruct more.
    - apply bind_ok in H. destruct H as (m & Hm & H). injection H as <-. split; [|split; [apply grown_one; exact P|constructor; auto; cbn; lia]].
      constructor; cbn [s_graph s_pool s_master set_master tick set_pool].
      + exact Hg.
      + rewrite foldM_app in Hm. apply bind_ok in Hm. destruct Hm as (m0 & Hm0 & Hm). cbn [s_master set_pool tick] in Hm0.
        rewrite skip_old in Hm0.
        * injection Hm0 as <-. eapply add_new; [exact (iv_built _ I)| |exact Hm]. apply names_NoDup. apply GN. exact (iv_numbered _ I).
        * intros c Hc. apply (has_variable_iff _ _ _ _ (iv_built _ I)). apply in_map. exact Hc.
      + apply GN. exact (iv_numbered _ I).
    - injection H as <-. assert (Ep := greedy_none _ _ _ _ _ _ _ _ _ _ Hr).
      split; [|split; [apply grown_one; exact P|constructor; auto; cbn; lia]].
      constructor; cbn [s_graph s_pool s_master set_pool tick]; [exact Hg|rewrite Ep; exact (iv_built _ I)|rewrite Ep; exact (iv_numbered _ I)].
  Qed.

  Lemma looked_inv s s' : inv s -> looked s s' false -> inv s'.
  Proof.
    intros I L. assert (F := lk_frame _ _ _ L). constructor.
    - exact (fr_graph _ _ F (iv_graph _ I)).
    - rewrite (lk_none _ _ _ L eq_refl), (fr_master _ _ F). exact (iv_built _ I).
    - rewrite (lk_none _ _ _ L eq_refl). exact (iv_numbered _ I).
  Qed.
  Lemma inv_more b s : inv s -> inv (set_more b s).
  Proof. intros []. constructor; assumption. Qed.

  Lemma adopt_ok p s s1 s' b : inv s -> looked s s1 true -> adopt C p (set_more b s1) = Ok s' ->
    inv s' /\ grown E C g (s_pool s) (s_pool s') /\ kept s s' /\ s_more s' = b /\
    List.length (s_pool s') = S (List.length (s_pool s)).
  Proof.
    intros I L H. assert (F := lk_frame _ _ _ L). unfold adopt in H. cbn [s_pool set_more s_master] in H.
    destruct (lk_some _ _ _ L eq_refl) as (c & Ep). rewrite Ep, tag_last_snoc in H.
    apply bind_ok in H. destruct H as (d & Hd & H). apply bind_ok in H. destruct H as (m & Hm & H). injection H as <-.
    rewrite rev_app_distr in Hd. cbn in Hd. injection Hd as <-.
    assert (G : grown E C g (s_pool s) (s_pool s ++ [set_tag (tag_of p) c])).
    { apply (g_tagged E C g (s_pool s) (s_pool s1)); [exact (lk_grown _ _ _ L (iv_graph _ I))|].
      rewrite Ep. unfold same_columns. rewrite !map_app. reflexivity. }
    split; [|split; [exact G|split; [apply frame_kept in F; destruct F; constructor; assumption|split; [reflexivity|]]]].
    - constructor; cbn [s_graph s_pool s_master set_master set_more].
      + exact (fr_graph _ _ F (iv_graph _ I)).
      + eapply b_update; [exact (iv_built _ I)|]. rewrite <- (fr_master _ _ F). exact Hm.
      + exact (grown_numbered _ _ G (iv_numbered _ I)).
    - cbn [s_pool set_master]. rewrite app_length. cbn. lia.
  Qed.

  (** ** The loop over the vehicle types *)
  Lemma vehicles_ok p D : forall ks s s', (forall k, In k ks -> (k < cg_types C)%nat) -> inv s ->
    vehicles E C p D ks s = Ok s' ->
    inv s' /\ grown E C g (s_pool s) (s_pool s') /\ kept s s' /\
    (s_more s' = false -> cg_strategy C <> None \/ p = Exact ->
     forall k, In k ks -> exists pool, grown E C g (s_pool s) pool /\ grown E C g pool (s_pool s') /\
       if mo_span (cg_master C)
       then forall n, In n (map c_name pool) -> exact_failed E C g D k (Some n) pool
       else exact_failed E C g D k None pool).
  Proof.
    induction ks as [|k ks IH]; intros s s' Hks I H; cbn [vehicles] in H.
    { injection H as <-. split; [exact I|]. split; [apply g_start|]. split; [apply kept_refl|]. intros _ _ k []. }
    assert (Hk := Hks k (or_introl eq_refl)).
    apply bind_ok in H. destruct H as (s1 & H1 & H). cbv zeta in H. apply bind_ok in H. destruct H as ([s2 b] & H2 & H).
    cbn [fst snd] in H.
    destruct (greedy_step_ok _ _ _ _ Hk I H1) as (I1 & G1 & K1).
    assert (I1' := inv_more false _ I1).
    assert (L : looked (set_more false s1) s2 b).
    { destruct (mo_span (cg_master C)); [eapply per_route_looked|eapply solve_subproblem_looked]; eassumption. }
    assert (EX : b = false -> cg_strategy C <> None \/ p = Exact -> if mo_span (cg_master C)
       then forall n, In n (map c_name (s_pool s1)) -> exact_failed E C g D k (Some n) (s_pool s1)
       else exact_failed E C g D k None (s_pool s1)).
    { intros -> NH. destruct (mo_span (cg_master C)).
      - exact (per_route_exact _ _ _ Hk NH _ _ _ (iv_graph _ I1') H2).
      - exact (solve_subproblem_exact _ _ _ _ _ _ Hk NH (iv_graph _ I1') H2). }
    destruct b.
    - destruct (adopt_ok _ _ _ _ _ I1' L H) as (A1 & A2 & A3 & A4 & _). split; [exact A1|].
      split; [eapply grown_trans; [exact G1|exact A2]|].
      split; [eapply kept_trans; [exact K1|eapply kept_trans; [apply frame_kept, frame_more|exact A3]]|].
      intro Hf. congruence.
    - apply bind_ok in H. destruct H as (s4 & H4 & H).
      assert (I2 : inv s2) by (eapply looked_inv; eassumption).
      assert (Q4 : inv s4 /\ s_pool s4 = s_pool s2 /\ kept s2 s4).
      { destruct (cg_strategy C).
        - injection H4 as <-. split; [apply inv_more; exact I2|]. split; [reflexivity|]. apply frame_kept, frame_more.
        - apply bind_ok in H4. destruct H4 as (hy & _ & H4). injection H4 as <-. destruct I2.
          split; [constructor; assumption|]. split; [reflexivity|]. constructor; auto. cbn. lia. }
      destruct Q4 as (I4 & P4 & K4).
      assert (P41 : s_pool s4 = s_pool s1) by (rewrite P4; exact (lk_none _ _ _ L eq_refl)).
      destruct (IH s4 s') as (J1 & J2 & J3 & J4); [intros k' Hk'; apply Hks; right; exact Hk'|exact I4|exact H|].
      split; [exact J1|]. rewrite P41 in J2, J4.
      split; [eapply grown_trans; [exact G1|exact J2]|].
      split.
      { eapply kept_trans; [exact K1|]. eapply kept_trans; [apply frame_kept, frame_more|].
        eapply kept_trans; [apply frame_kept; exact (lk_frame _ _ _ L)|]. eapply kept_trans; [exact K4|exact J3]. }
      intros Hf NH k' [<-|Hk'].
      + exists (s_pool s1). split; [exact G1|]. split; [exact J2|]. apply EX; auto.
      + destruct (J4 Hf NH k' Hk') as (pool & P1 & P2 & P3). exists pool. split; [eapply grown_trans; eassumption|]. auto.
  Qed.
End Grow.
