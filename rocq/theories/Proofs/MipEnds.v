(** Column generation with the MIP pricing problems ends when no arc has a negative cost and the
    relaxed master problem is solved exactly: columns that repeat others often enough do not
    change its value, and after 1000 iterations without a change the loop is left. *)
From Coq Require Import Relations Qround.
From Verif.Base Require Import Prelude Graph.
From Verif.Spec Require Import Routes Network LinProg Pricing MIP Columns Pool Master Duality Run.
From Verif.Model Require Import Args Reach Checks Preprocess ClarkeWright Greedy Initial Pricing
  GreedyPricing LPPricing Cspy Master Dive Hyper ColGen.
From Verif.Proofs Require Import RouteLemmas PreLemmas LPColumn MasterProofs PoolProofs PoolQuality ColGenProofs RunProofs ExactPool DualityProofs
  ColGenCor ColGenEnd Stagnation Ends LabelEnds Redundant.

(** ** Columns made by pricing *)
Definition acost (g : vgraph) (k : nat) (a : arc) : Q :=
  match arc_data g (fst a) (snd a) with Some e => nth k (ecost e) 0 | None => 0 end.
Record made (g : vgraph) (K : nat) (c : column) : Prop := {
  md_path : c_path c = None;
  md_nodes : NoDup (c_nodes c);
  md_ends : forall v, In v (c_nodes c) <-> exists a, In a (c_arcs c) /\ (v = fst a \/ v = snd a);
  md_arcs : NoDup (c_arcs c);
  md_in : incl (c_arcs c) (arc_list g);
  md_cost : c_cost c == Qsum_over (c_arcs c) (acost g (c_type c));
  md_type : (c_type c < K)%nat
}.

Lemma fold_costs g h k keys l : (forall u v e, arc_data h u v = Some e -> exists e0, arc_data g u v = Some e0 /\ ecost e = ecost e0) ->
  forall q0 q,
  foldM (fun q a => let* c := arc_cost h k a in
           let* _ := raise_if (negb (node_eqb (fst a) Source) && negb (mem (fst a) keys)) KeyError in Ok (q + c)) l q0 = Ok q ->
  q == q0 + Qsum_over l (acost g k) /\ incl l (arc_list g).
Proof.
  intro P. unfold Qsum_over. induction l as [|a l IH]; intros q0 q H; cbn [foldM map] in *.
  - injection H as <-. split; [change (Qsum []) with 0; lra|intros x []].
  - apply bind_ok in H. destruct H as (q1 & H1 & H2). apply bind_ok in H1. destruct H1 as (c & Hc & H1).
    apply bind_ok in H1. destruct H1 as (u & _ & H1). injection H1 as <-. destruct (IH _ _ H2) as [I1 I2].
    unfold arc_cost in Hc. apply bind_ok in Hc. destruct Hc as (e & He & Hc). unfold get_arc in He.
    destruct (arc_data h (fst a) (snd a)) as [e1|] eqn:Ea; [|discriminate]. injection He as <-.
    destruct (P _ _ _ Ea) as (e0 & P1 & P2). destruct (nth_error (ecost e1) k) as [c1|] eqn:En; [|discriminate]. injection Hc as <-.
    split.
    + rewrite Qsum_cons, I1. unfold acost at 2. rewrite P1, <- P2, (nth_error_nth _ _ 0 En). lra.
    + intros x [<-|Hx]; [|apply I2; exact Hx]. destruct a as [x y]. apply arc_data_In. exists e0. exact P1.
Qed.

Lemma made_column g K k l i : (k < K)%nat -> forall q, q == Qsum_over (snd (digraph_of l)) (acost g k) -> incl l (arc_list g) ->
  made g K (mkCol i (fst (digraph_of l)) (snd (digraph_of l)) None q k None).
Proof.
  intros Hk q Hq I. constructor; cbn [c_path c_nodes c_arcs c_cost c_type]; auto.
  - apply digraph_fst_NoDup.
  - intro v. rewrite digraph_fst. split; intros (a & A & B); exists a; (split; [|exact B]); apply digraph_snd; exact A.
  - apply digraph_snd_NoDup.
  - intros a Ha. apply I, digraph_snd, Ha.
Qed.

Lemma add_data D k r g h : add_reduced_cost D k r g = Ok h ->
  forall u v e, arc_data h u v = Some e -> exists e0, arc_data g u v = Some e0 /\ ecost e = ecost e0.
Proof.
  intros H u v e He. apply add_strip in H. symmetry in H. apply strip_same in H. destruct H as (_ & _ & H).
  destruct (H u v e He) as (e0 & A & B & _). eauto.
Qed.

Section Grown.
  Variable E : env.
  Variable C : cgconfig.
  Variable g : vgraph.
  Hypothesis W : wf g.
  Hypothesis MIP : cg_cspy C = false.

  Lemma greedy_made h k keys n rnd pool r : (k < cg_types C)%nat ->
    (forall u v e, arc_data h u v = Some e -> exists e0, arc_data g u v = Some e0 /\ ecost e = ecost e0) ->
    greedy_pricing h (cg_caps C) (cg_stops C) (cg_duration C) k keys pool n rnd = Ok r ->
    exists l, fst r = pool ++ l /\ forall c, In c l -> made g (cg_types C) c.
  Proof.
    intros Hk P.
    assert (A : forall fw l s r, foldM (p_attempt h (cg_caps C) (cg_stops C) (cg_duration C) k keys fw) l s = Ok r ->
                exists l, fst r = fst s ++ l /\ forall c, In c l -> made g (cg_types C) c).
    { intros fw l. induction l as [|x l IH]; intros s r0 H; cbn in H; [injection H as <-; exists []; rewrite app_nil_r; split; [reflexivity|intros c []]|].
      apply bind_ok in H. destruct H as (s1 & H1 & H2). destruct (IH _ _ H2) as (l2 & -> & M2).
      unfold p_attempt in H1. apply bind_ok in H1. destruct H1 as (y & _ & H1).
      destruct (snd y && _); [|injection H1 as <-; eauto].
      apply bind_ok in H1. destruct H1 as (l1 & N & H1). injection H1 as <-. cbn [fst]. unfold p_new_route in N.
      assert (MC := made_column g (cg_types C) k (arcs (ps_path (fst y))) (CNat (S (List.length (fst s)))) Hk).
      assert (DS := digraph_snd (arcs (ps_path (fst y)))).
      destruct (digraph_of _) as [a b]. cbn [fst snd] in MC, DS. apply bind_ok in N. destruct N as (q & Hq & N). injection N as <-.
      destruct (fold_costs g h k keys b P 0 q Hq) as [Q1 Q2].
      rewrite <- app_assoc. eexists. split; [reflexivity|]. intros c Hc. apply in_app_or in Hc. destruct Hc as [[<-|[]]|Hc]; [|auto].
      apply MC; [lra|]. intros z Hz. apply Q2, DS, Hz. }
    unfold greedy_pricing. intro H. apply bind_ok in H. destruct H as (s & H1 & H2).
    apply A in H1, H2. destruct H1 as (l1 & H1 & M1), H2 as (l2 & H2 & M2). cbn [fst] in H1. rewrite H2, H1, <- app_assoc.
    eexists. split; [reflexivity|]. intros c Hc. apply in_app_or in Hc. destruct Hc; auto.
  Qed.

  Lemma priced_made a b : priced E C g a b -> exists l, b = a ++ l /\ forall c, In c l -> made g (cg_types C) c.
  Proof.
    intros [D k route p n h hr more Hk Ha Hp H|D k h n more Hk _ Ha H].
    - cbv zeta in H. rewrite MIP in H. assert (P := add_data _ _ _ _ _ Ha).
      assert (Wh : wf h).
      { apply add_strip in Ha. apply (wf_same g); [unfold nodes; rewrite (strip_nodes _ _ Ha); reflexivity|exact (strip_arcs _ _ Ha)|exact W]. }
      assert (PT := pricing_graph_part _ _ _ _ _ _ Wh Hp).
      assert (P1 : forall u v e, arc_data (fst hr) u v = Some e -> exists e0, arc_data g u v = Some e0 /\ ecost e = ecost e0).
      { intros u v e He. apply (P u v e). apply (part_arcs _ _ PT). exact He. }
      unfold lp_solve in H. assert (NIL : exists l, a = a ++ l /\ forall c, In c l -> made g (cg_types C) c).
      { exists []. rewrite app_nil_r. split; [reflexivity|intros c []]. }
      destruct (negb (snd hr)); [injection H as <- <-; exact NIL|].
      destruct (truthyQ _ && _); [injection H as <- <-; exact NIL|].
      apply bind_ok in H. destruct H as (pr & _ & H). destruct (_ || _); [|injection H as <- <-; exact NIL].
      apply bind_ok in H. destruct H as (r & H1 & H2). injection H2 as <- <-. unfold lp_new_route in H1.
      apply bind_ok in H1. destruct H1 as (q & Hq & H1).
      match type of Hq with foldM _ ?l _ = _ => set (ch := l) in * end.
      assert (MC := made_column g (cg_types C) k ch (CNat (S (List.length a))) Hk).
      assert (DS := digraph_snd ch). assert (DN := digraph_snd_NoDup ch).
      destruct (digraph_of ch) as [x y]. cbn [fst snd] in MC, DS, DN. apply bind_ok in H1. destruct H1 as (sp & _ & H1). injection H1 as <-.
      destruct (fold_costs g (fst hr) k _ ch P1 0 q Hq) as [Q1 Q2].
      eexists. split; [reflexivity|]. intros c [<-|[]]. apply MC; [|exact Q2].
      rewrite Q1. assert (PE : Permutation ch y).
      { apply NoDup_Permutation; [apply NoDup_filter, edges_NoDup, (part_wf _ _ PT)|exact DN|]. intro z. symmetry. apply DS. }
      unfold Qsum_over. rewrite (Qsum_perm _ _ (Permutation_map _ PE)). lra.
    - destruct (greedy_made h k (cg_keys C) 20 (e_random E n) a (b, more) Hk (add_data _ _ _ _ _ Ha) H) as (l & E1 & E2). eauto.
  Qed.

  Lemma made_untag K c : made g K c -> made g K (untag c).
  Proof. intros []. constructor; assumption. Qed.
  Lemma grown_made a b : grown E C g a b ->
    exists new, map untag b = map untag a ++ new /\ forall c, In c new -> made g (cg_types C) c.
  Proof.
    intro H. induction H as [|p1 p2 H (new & IH & M) P|p1 p2 H (new & IH & M) P].
    - exists []. rewrite app_nil_r. split; [reflexivity|intros c []].
    - apply priced_made in P. destruct P as (l & -> & M2). exists (new ++ map untag l). rewrite map_app, IH, app_assoc. split; [reflexivity|].
      intros c Hc. apply in_app_or in Hc. destruct Hc as [Hc|Hc]; [auto|]. apply in_map_iff in Hc. destruct Hc as (d & <- & Hd). apply made_untag. auto.
    - exists new. unfold same_columns in P. rewrite P. auto.
  Qed.
End Grown.

(** ** Finitely many kinds of columns *)
Definition sample_column (g : vgraph) (k : nat) (l : list arc) : column :=
  mkCol (CNat 0) (fst (digraph_of l)) l None (Qsum_over l (acost g k)) k None.
Definition kinds (g : vgraph) (K : nat) : list column :=
  flat_map (fun k => map (sample_column g k) (candidates g)) (seq 0 K).
Lemma made_kind g K c : made g K c -> exists r, In r (kinds g K) /\ twin r c.
Proof.
  intro M. exists (sample_column g (c_type c) (c_arcs c)). split.
  - apply in_flat_map. exists (c_type c). split; [apply in_seq; assert (T := md_type _ _ _ M); lia|].
    apply in_map, words_all; [apply M|]. apply NoDup_incl_length; apply M.
  - split; [reflexivity|]. split; [cbn [c_cost sample_column]; symmetry; apply M|]. intro v. unfold times, served. rewrite (md_path _ _ _ M).
    cbn [c_path c_nodes sample_column]. assert (N := digraph_fst_NoDup (c_arcs c)).
    assert (I : In v (fst (digraph_of (c_arcs c))) <-> In v (c_nodes c)) by (rewrite digraph_fst; symmetry; apply M).
    assert (N2 := md_nodes _ _ _ M).
    destruct (in_dec node_eq_dec v (c_nodes c)) as [J|J].
    + rewrite (proj1 (NoDup_count_occ' node_eq_dec _) N v (proj2 I J)), (proj1 (NoDup_count_occ' node_eq_dec _) N2 v J). reflexivity.
    + rewrite (proj1 (count_occ_not_In node_eq_dec _ v) J). apply count_occ_not_In. intro X. apply J, I, X.
Qed.
Lemma made_nonneg g K c : made g K c -> (forall k u v, (k < K)%nat -> 0 <= cost_of g k u v) -> 0 <= c_cost c.
Proof.
  intros M P. rewrite (md_cost _ _ _ M). unfold Qsum_over. apply Qsum_nonneg. intros q Hq. apply in_map_iff in Hq. destruct Hq as (a & <- & _).
  apply (P (c_type c) (fst a) (snd a)). apply M.
Qed.

(** ** How many columns of each kind there are, up to M *)
Definition count_twins (r : column) (cs : list column) : nat := List.length (filter (twinb r) cs).
Definition level_of (M : nat) (K cs : list column) : nat := list_sum (map (fun r => Nat.min M (count_twins r cs)) K).
Lemma count_app r a b : count_twins r (a ++ b) = (count_twins r a + count_twins r b)%nat.
Proof. unfold count_twins. rewrite filter_app, app_length. reflexivity. Qed.
Lemma level_bound M K cs : (level_of M K cs <= M * List.length K)%nat.
Proof. unfold level_of. induction K as [|r K IH]; cbn [map list_sum fold_right List.length]; [lia|]. unfold list_sum in IH. lia. Qed.
Lemma level_mono M K a b : (level_of M K a <= level_of M K (a ++ b))%nat.
Proof.
  unfold level_of, list_sum. induction K as [|r K IH]; cbn [map fold_right]; [lia|]. rewrite count_app. lia.
Qed.
Lemma level_same M K a b r : level_of M K (a ++ b) = level_of M K a -> In r K -> (0 < count_twins r b)%nat -> (M <= count_twins r a)%nat.
Proof.
  unfold level_of. induction K as [|r' K IH]; [intros _ []|]. cbn [map]. change (list_sum (?x :: ?l)) with (x + list_sum l)%nat.
  intros H Hr P. assert (X := level_mono M K a b). unfold level_of in X. rewrite count_app in H. destruct Hr as [->|Hr].
  - lia.
  - apply IH; [lia|exact Hr|exact P].
Qed.
Lemma twins_twin r c cs : twin r c -> count_twins r cs = count_twins c cs.
Proof.
  intro T. unfold count_twins. f_equal. apply filter_ext. intro t. destruct (twinb r t) eqn:X, (twinb c t) eqn:Y; auto.
  - apply twinb_iff in X. assert (Z : twin c t) by (eapply twin_trans; [apply twin_sym; exact T|exact X]). apply twinb_iff in Z. congruence.
  - apply twinb_iff in Y. assert (Z : twin r t) by (eapply twin_trans; [exact T|exact Y]). apply twinb_iff in Z. congruence.
Qed.
Lemma level_enough M g K cs new c : level_of M (kinds g K) (cs ++ new) = level_of M (kinds g K) cs -> In c new -> made g K c ->
  (M <= count_twins c cs)%nat.
Proof.
  intros H Hc Mc. destruct (made_kind _ _ _ Mc) as (r & R1 & R2). rewrite <- (twins_twin r c cs R2).
  apply (level_same M (kinds g K) cs new r H R1). rewrite (twins_twin r c new R2). unfold count_twins.
  assert (In c (filter (twinb c) new)) by (apply filter_In; split; [exact Hc|apply twinb_iff; split; [reflexivity|split; [reflexivity|reflexivity]]]).
  destruct (filter (twinb c) new); [destruct H0|cbn; lia].
Qed.

(** ** How many copies are of use *)
Definition nat_above (q : Q) : nat := Z.to_nat (Qceiling q).
Definition copies (g : vgraph) (o : moptions) : nat :=
  S (list_sum (map (fun p => nat_above (required o (snd p))) (gnodes g)) +
     list_sum (map nat_above (match mo_fleet o with Some l => l | None => [] end))).
Lemma above_ok q : q <= inject_Z (Z.of_nat (nat_above q)).
Proof.
  apply (Qle_trans _ (inject_Z (Qceiling q))); [apply Qle_ceiling|]. unfold nat_above. rewrite <- Zle_Qle. lia.
Qed.
Lemma sum_in n l : In n l -> (n <= list_sum l)%nat.
Proof. induction l as [|m l IH]; [intros []|]. change (list_sum (m :: l)) with (m + list_sum l)%nat. intros [->|H]; [lia|]. specialize (IH H). lia. Qed.
Lemma copies_visits g o v d : customer g v d -> required o d <= inject_Z (Z.of_nat (copies g o)).
Proof.
  intros (H & _). eapply Qle_trans; [apply above_ok|]. rewrite <- Zle_Qle. unfold copies.
  assert (X := sum_in (nat_above (required o d)) (map (fun p => nat_above (required o (snd p))) (gnodes g))).
  rewrite in_map_iff in X. specialize (X (ex_intro _ (v, d) (conj eq_refl H))). lia.
Qed.
Lemma copies_fleet g o l k n : fleet_bound o l -> nth_error l k = Some n -> n <= inject_Z (Z.of_nat (copies g o)).
Proof.
  intros (F & _) Hn. eapply Qle_trans; [apply above_ok|]. rewrite <- Zle_Qle. unfold copies. rewrite F.
  assert (X := sum_in (nat_above n) (map nat_above l)). rewrite in_map_iff in X.
  specialize (X (ex_intro _ n (conj eq_refl (nth_error_In _ _ Hn)))). lia.
Qed.

Lemma best_list g o new : forall cs q, mo_span o = false -> NoDup (map c_name (cs ++ new)) ->
  (forall c, In c new -> (copies g o <= count_twins c cs)%nat /\ 0 <= c_cost c) -> best g o cs q -> best g o (cs ++ new) q.
Proof.
  induction new as [|c new IH]; intros cs q SP ND H B; [rewrite app_nil_r; exact B|].
  change (c :: new) with ([c] ++ new) in *. rewrite app_assoc in *. apply IH; [exact SP|exact ND| |].
  - intros d Hd. destruct (H d (or_intror Hd)) as [A P]. split; [|exact P]. rewrite count_app. lia.
  - destruct (H c (or_introl eq_refl)) as [A P].
    apply (best_more g o cs c (copies g o)); auto.
    + rewrite map_app in ND. apply NoDup_app_inv in ND. apply ND.
    + unfold copies. lia.
    + intros v d. apply copies_visits.
    + intros l k n. apply copies_fleet.
Qed.
Lemma best_unique g o cs q q1 : best g o cs q -> best g o cs q1 -> q == q1.
Proof. intros [(x & S1 & E1) B1] [(y & S2 & E2) B2]. assert (X := B1 _ S2). assert (Y := B2 _ S1). lra. Qed.

(** ** The loop *)
Definition optimal_answer {V} (p : program V) (a : answer V) : Prop :=
  sound_answer p a /\ (a_status a = Optimal -> a_objective a <> None /\ forall y, feasible y p -> value (a_value a) (p_obj p) <= value y (p_obj p)).
Section Loop.
  Variable C : cgconfig.
  Variable g : vgraph.
  Hypothesis W : wf g.
  Hypothesis MIP : cg_cspy C = false.
  Hypothesis SPAN : mo_span (cg_master C) = false.
  Hypothesis COST : forall k u v, (k < cg_types C)%nat -> 0 <= cost_of g k u v.

  Definition copies_ : nat := copies g (cg_master C).
  Definition height (cs : list column) : nat := level_of copies_ (kinds g (cg_types C)) cs.
  Definition top : nat := (copies_ * List.length (kinds g (cg_types C)))%nat.
  Definition mip_bound : nat := Z.to_nat (Z.of_nat top * 1002 + 1003).

  Section Env.
  Variable E : env.
  Variable s : state.
  Hypothesis F : fresh C g s.
  Hypothesis EX : forall st, starts E C s st ->
    optimal_answer (program_of (s_master st)) (e_master E (S (s_tick st)) (program_of (s_master st))).

  Lemma relaxed_best st s1 D q : starts E C s st -> solve_relaxed E C st = Ok (s1, D, q) ->
    exists v, q = Some v /\ best g (cg_master C) (map untag (s_pool st)) v.
  Proof.
    intros S0 H. assert (I := starts_inv E C g s st S0 (fresh_inv C g s F)).
    assert (Hd : s_dive st = false) by (rewrite (starts_dive E C s st S0); apply (fs_dive _ _ _ F)).
    destruct (solve_relaxed_master E C st s1 D q Hd H) as (SM & _).
    assert (FI := starts_fine E C g s st S0 (fresh_inv C g s F) (fresh_fine C g s F)).
    assert (LAB : forall c, In c (map untag (s_pool st)) -> labelled c).
    { intros c Hc. apply in_map_iff in Hc. destruct Hc as (d & <- & Hd2). destruct (FI d Hd2) as [L _]. exact L. }
    assert (B : built g (cg_master C) (map untag (s_pool st)) (s_master st)).
    { eapply built_untag; [exact (iv_built _ _ _ I)|]. unfold same_columns. rewrite map_map. apply map_ext. intros []; reflexivity. }
    assert (SH := built_shape _ _ _ _ B).
    assert (FE := fun x => feasible_iff g (cg_master C) _ (s_master st) W LAB SH false x).
    assert (OB := fun x => objective_is g (cg_master C) _ (s_master st) LAB SH false x).
    cbn [stage] in FE, OB.
    unfold solve_master in SM. cbn beta iota in SM. apply bind_ok in SM. destruct SM as (u & St & SM). apply bind_ok in SM. destruct SM as (D1 & _ & SM).
    assert (Eq : q = a_objective (e_master E (S (s_tick st)) (program_of (s_master st)))) by congruence. clear SM.
    destruct (EX st S0) as [SO CA].
    assert (OK : a_status (e_master E (S (s_tick st)) (program_of (s_master st))) = Optimal).
    { destruct (a_status _) in St |- *; cbn in St; try discriminate St. reflexivity. }
    destruct (CA OK) as [X MIN]. rewrite <- Eq in X. destruct q as [v|]; [|contradiction]. exists v. split; [reflexivity|].
    assert (VV := sa_objective _ _ SO v (eq_sym Eq)). split.
    - exists (a_value (e_master E (S (s_tick st)) (program_of (s_master st)))). split.
      + apply FE, (sa_feasible _ _ SO). left. exact OK.
      + rewrite <- OB, VV. reflexivity.
    - intros x Sx. assert (Z := MIN x (proj2 (FE x) Sx)). rewrite <- (OB x), VV. exact Z.
  Qed.

  Lemma noimp_next q s1 s2 p : next_strategy E C q s1 = Ok (s2, p) -> (s_noimp s1 <= s_iter s1)%nat ->
    (s_noimp s1 <= s_noimp s2 <= s_iter s1)%nat.
  Proof.
    intros H L. destruct (cg_strategy C) as [st|] eqn:Ec.
    - destruct (next_strategy_ok E C _ _ _ _ H) as (_ & _ & _ & B4). rewrite B4; [lia|congruence].
    - destruct (hyper_noimp E C _ _ _ _ Ec H) as [(_ & -> & _)|(_ & ->)]; lia.
  Qed.

  Lemma one_iteration st s1 : starts E C s st -> find_columns E C st = Ok s1 -> (s_noimp st <= s_iter st)%nat ->
    exists v new, best g (cg_master C) (map untag (s_pool st)) v /\ s_bounds s1 = s_bounds st ++ [Some v] /\
      map untag (s_pool s1) = map untag (s_pool st) ++ new /\ (forall c, In c new -> made g (cg_types C) c) /\
      s_iter s1 = S (s_iter st) /\ (s_noimp s1 <= s_iter s1)%nat /\
      forall b l, rev (s_bounds st) = Some b :: l -> (0 < s_iter st)%nat -> b == v -> (S (s_noimp st) <= s_noimp s1)%nat.
  Proof.
    intros S0 H L. assert (I := starts_inv E C g s st S0 (fresh_inv C g s F)).
    assert (Hd : s_dive st = false) by (rewrite (starts_dive E C s st S0); apply (fs_dive _ _ _ F)).
    destruct (find_columns_ok E C g _ _ I H) as (_ & G & _).
    destruct (grown_made E C g W MIP _ _ G) as (new & Hn & Mn).
    destruct (iteration_counts E C g _ _ I H Hd) as (t1 & D & q & t2 & p & H1 & H2 & Hi & Hb & Z0 & Z1).
    destruct (relaxed_best _ _ _ _ S0 H1) as (v & -> & B). exists v, new.
    split; [exact B|]. split; [exact Hb|]. split; [exact Hn|]. split; [exact Mn|]. split; [exact Hi|].
    destruct (solve_relaxed_ok E C _ _ _ _ H1) as (A1 & A2 & A3 & A4).
    assert (NN := noimp_next _ _ _ _ H2). rewrite A3, (ss_iter _ _ A1) in NN. specialize (NN L).
    destruct (Nat.eq_dec (s_iter st) 0) as [Z|Z].
    - rewrite (Z0 Z). split; [lia|]. intros; lia.
    - destruct Z1 as (b & l & Hr & S1 & S2); [lia|]. destruct (same_cost (Some v) b) eqn:X.
      + apply same_cost_iff in X. rewrite (S1 X), Hi. split; [lia|]. intros; lia.
      + assert (N : ~ same_value (Some v) b) by (intro Y; apply same_cost_iff in Y; congruence). rewrite (S2 N). split; [lia|].
        intros b1 l1 Hr1 _ Q. exfalso. apply N. rewrite Hr in Hr1. injection Hr1 as -> _. constructor. symmetry. exact Q.
  Qed.

  Lemma names_ok st : starts E C s st -> NoDup (map c_name (map untag (s_pool st))).
  Proof.
    intro S0. assert (I := starts_inv E C g s st S0 (fresh_inv C g s F)). rewrite map_map.
    change (map (fun c => c_name (untag c)) (s_pool st)) with (map c_name (s_pool st)). apply names_NoDup. exact (iv_numbered _ _ _ I).
  Qed.

  Lemma limit_noimp st : limit_reached C st = false -> (s_noimp st <= 1000)%nat.
  Proof.
    unfold limit_reached. intro H. apply orb_false_iff in H. destruct H as [H _]. apply Z.ltb_ge in H. lia.
  Qed.

  Lemma later_ends : forall n st prev new b l, starts E C s st -> (0 < s_iter st)%nat ->
    rev (s_bounds st) = Some b :: l -> best g (cg_master C) prev b ->
    map untag (s_pool st) = prev ++ new -> (forall c, In c new -> made g (cg_types C) c) ->
    (s_noimp st <= s_iter st)%nat -> (s_noimp st <= 1000)%nat ->
    ((Z.of_nat top - Z.of_nat (height prev)) * 1002 + (1001 - Z.of_nat (s_noimp st)) <= Z.of_nat n)%Z ->
    column_generation E C n st <> Err OutOfFuel.
  Proof.
    induction n as [|n IH]; intros st prev new b l S0 Hi Hb Bp Hp Mn L1 L2 ME.
    { assert (X := level_bound copies_ (kinds g (cg_types C)) prev). fold (height prev) top in X. lia. }
    cbn [column_generation]. assert (M : s_more st = true) by (clear - S0; destruct S0; assumption). rewrite M. cbn [negb].
    apply nf_bind; [apply nf_ColGen_find_columns|]. intros s1 H. cbv zeta.
    destruct (time_up E C s1) eqn:T; [apply nf_ok|]. destruct (limit_reached C _) eqn:LR; [apply nf_ok|].
    destruct (s_more s1) eqn:M1.
    2:{ destruct n; cbn [column_generation]; cbn [s_more tick]; rewrite M1; apply nf_ok. }
    destruct (one_iteration st s1 S0 H L1) as (v & new1 & B & Hb1 & Hp1 & Mn1 & Hi1 & L3 & SAME).
    assert (S1 : starts E C s (tick (tick s1))) by (eapply starts_next; eassumption).
    assert (LN : (s_noimp s1 <= 1000)%nat) by (apply limit_noimp in LR; exact LR).
    apply (IH (tick (tick s1)) (map untag (s_pool st)) new1 v (rev (s_bounds st))); cbn [s_iter s_bounds s_pool s_noimp tick]; auto.
    - rewrite Hi1. lia.
    - rewrite Hb1, rev_app_distr. reflexivity.
    - rewrite Hp. assert (X := level_mono copies_ (kinds g (cg_types C)) prev new). fold (height prev) (height (prev ++ new)) in X.
      assert (Y := level_bound copies_ (kinds g (cg_types C)) (prev ++ new)). fold (height (prev ++ new)) top in Y.
      destruct (Nat.eq_dec (height (prev ++ new)) (height prev)) as [EQ|NE]; [|lia].
      assert (b == v).
      { apply (best_unique g (cg_master C) (prev ++ new)); [|rewrite <- Hp; exact B].
        apply best_list; [exact SPAN|rewrite <- Hp; apply names_ok; exact S0| |exact Bp].
        intros c Hc. split; [|eapply made_nonneg; [apply Mn; exact Hc|exact COST]].
        eapply level_enough; [exact EQ|exact Hc|apply Mn; exact Hc]. }
      assert (Z := SAME b l Hb Hi H0). lia.
  Qed.

  Theorem generation_finishes : forall f, (mip_bound <= f)%nat -> column_generation E C f s <> Err OutOfFuel.
  Proof.
    intros f Hf. assert (K : column_generation E C mip_bound s <> Err OutOfFuel).
    2:{ rewrite (fuel_enough E C mip_bound s f K Hf). exact K. }
    unfold mip_bound. assert (Q : exists m, Z.to_nat (Z.of_nat top * 1002 + 1003) = S m /\ Z.of_nat m = (Z.of_nat top * 1002 + 1002)%Z).
    { exists (Z.to_nat (Z.of_nat top * 1002 + 1002)). lia. }
    destruct Q as (m & -> & Hm). cbn [column_generation]. rewrite (fs_more _ _ _ F). cbn [negb].
    assert (S0 : starts E C s s) by (apply starts_first, (fs_more _ _ _ F)).
    apply nf_bind; [apply nf_ColGen_find_columns|]. intros s1 H. cbv zeta.
    destruct (time_up E C s1) eqn:T; [apply nf_ok|]. destruct (limit_reached C _) eqn:LR; [apply nf_ok|].
    destruct (s_more s1) eqn:M1.
    2:{ destruct m; cbn [column_generation]; cbn [s_more tick]; rewrite M1; apply nf_ok. }
    destruct (one_iteration s s1 S0 H) as (v & new1 & B & Hb1 & Hp1 & Mn1 & Hi1 & L3 & SAME).
    { rewrite (fs_noimp _ _ _ F). lia. }
    assert (S1 : starts E C s (tick (tick s1))) by (eapply starts_next; eassumption).
    assert (LN : (s_noimp s1 <= 1000)%nat) by (apply limit_noimp in LR; exact LR).
    apply (later_ends m (tick (tick s1)) (map untag (s_pool s)) new1 v (rev (s_bounds s))); cbn [s_iter s_bounds s_pool s_noimp tick]; auto.
    - rewrite Hi1. lia.
    - rewrite Hb1, rev_app_distr. reflexivity.
    - lia.
  Qed.
  End Env.
End Loop.

Theorem mip_ends C g s : wf g -> cg_cspy C = false -> mo_span (cg_master C) = false ->
  (forall k u v, (k < cg_types C)%nat -> 0 <= cost_of g k u v) -> fresh C g s ->
  exists N, forall E f, (N <= f)%nat ->
    (forall st, starts E C s st -> optimal_answer (program_of (s_master st)) (e_master E (S (s_tick st)) (program_of (s_master st)))) ->
    column_generation E C f s = column_generation E C N s /\ column_generation E C f s <> Err OutOfFuel.
Proof.
  intros W M SP CO F. exists (mip_bound C g). intros E f Hf EX.
  assert (K := generation_finishes C g W M SP CO E s F EX (mip_bound C g) (le_n _)).
  assert (X := fuel_enough E C _ s f K Hf). split; [exact X|]. rewrite X. exact K.
Qed.
