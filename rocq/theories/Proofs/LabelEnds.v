(** Column generation with the labelling algorithm ends: a column is only added when its list of
    edges is new, and there are finitely many lists of edges. *)
From Verif.Base Require Import Prelude Graph.
From Verif.Spec Require Import Routes Network LinProg Run.
From Verif.Model Require Import Args Reach Checks Preprocess ClarkeWright Greedy Initial Pricing
  GreedyPricing LPPricing Cspy Master Dive Hyper ColGen Post Schedule Solve.
From Verif.Proofs Require Import LPColumn ColGenProofs CspyProofs Ends.

(** ** Fuel *)
Lemma nf_other {A B} {e} : finishes (Err e : res A) -> finishes (Err e : res B).
Proof. intros H X. apply H. injection X as ->. reflexivity. Qed.
Lemma fuel_enough E C : forall f s f', column_generation E C f s <> Err OutOfFuel -> (f <= f')%nat ->
  column_generation E C f' s = column_generation E C f s.
Proof.
  induction f as [|f IH]; intros s f' H L.
  - cbn [column_generation] in H. destruct (negb (s_more s)) eqn:M; [|congruence].
    destruct f'; cbn [column_generation]; rewrite M; reflexivity.
  - destruct f' as [|f']; [lia|]. cbn [column_generation] in *. destruct (negb (s_more s)); [reflexivity|].
    destruct (find_columns E C s) as [s1|e]; [|reflexivity]. cbn [bind] in *. cbv zeta in *.
    destruct (time_up E C s1); [reflexivity|]. destruct (limit_reached C _); [reflexivity|]. apply IH; [exact H|lia].
Qed.

(** ** A finite number of candidates *)
Fixpoint words {A} (alphabet : list A) (n : nat) : list (list A) :=
  match n with
  | O => [[]]
  | S m => [] :: flat_map (fun w => map (fun a => a :: w) alphabet) (words alphabet m)
  end.
Lemma words_all {A} (al : list A) : forall n w, incl w al -> (List.length w <= n)%nat -> In w (words al n).
Proof.
  induction n as [|n IH]; intros w I L.
  - destruct w; [left; reflexivity|cbn in L; lia].
  - destruct w as [|a w]; [left; reflexivity|]. right. apply in_flat_map. exists w. split.
    + apply IH; [intros x Hx; apply I; right; exact Hx|cbn in L; lia].
    + apply in_map_iff. exists a. split; [reflexivity|apply I; left; reflexivity].
Qed.

Definition candidates (g : vgraph) : list (list arc) := words (arc_list g) (List.length (arc_list g)).
Definition unused (K : list (list arc)) (pool : list column) : nat :=
  List.length (filter (fun l => negb (existsb (arcs_eqb l) (map column_edges pool))) K).

Lemma filter_le {A} (f h : A -> bool) l : (forall x, f x = true -> h x = true) ->
  (List.length (filter f l) <= List.length (filter h l))%nat.
Proof.
  intro H. induction l as [|x l IH]; cbn; [lia|]. destruct (f x) eqn:E; [rewrite (H x E); cbn; lia|].
  destruct (h x); cbn; lia.
Qed.
Lemma filter_lt {A} (f h : A -> bool) l a : (forall x, f x = true -> h x = true) -> In a l -> f a = false -> h a = true ->
  (List.length (filter f l) < List.length (filter h l))%nat.
Proof.
  intros H I F G. induction l as [|x l IH]; [destruct I|]. cbn [filter]. destruct I as [->|I].
  - rewrite F, G. cbn. apply Nat.lt_succ_r, filter_le, H.
  - specialize (IH I). destruct (f x) eqn:E; [rewrite (H x E); cbn; lia|]. destruct (h x); cbn; lia.
Qed.
Lemma listed_iff l L : existsb (arcs_eqb l) L = true <-> In l L.
Proof.
  rewrite existsb_exists. split.
  - intros (x & Hx & E). apply arcs_eqb_eq in E. congruence.
  - intro H. exists l. split; [exact H|apply arcs_eqb_eq; reflexivity].
Qed.
Lemma unused_le K p p1 : incl (map column_edges p) (map column_edges p1) -> (unused K p1 <= unused K p)%nat.
Proof.
  intro I. apply filter_le. intros l. rewrite !negb_true_iff. intro H. destruct (existsb _ (map column_edges p)) eqn:E; [|reflexivity].
  apply listed_iff, I, listed_iff in E. congruence.
Qed.
Lemma unused_lt K p p1 l : incl (map column_edges p) (map column_edges p1) -> In l K ->
  In l (map column_edges p1) -> ~ In l (map column_edges p) -> (unused K p1 < unused K p)%nat.
Proof.
  intros I H1 H2 H3. apply (filter_lt _ _ _ l); [|exact H1| |].
  - intros x. rewrite !negb_true_iff. intro H. destruct (existsb _ (map column_edges p)) eqn:E; [|reflexivity].
    apply listed_iff, I, listed_iff in E. congruence.
  - apply negb_false_iff, listed_iff. exact H2.
  - apply negb_true_iff. destruct (existsb _ _) eqn:E; [|reflexivity]. apply listed_iff in E. contradiction.
Qed.

(** ** The arcs of a column are arcs of the network *)
Lemma sub_arcs ksp p D k g hr : pricing_graph ksp p D k g = Ok hr -> incl (arc_list (fst hr)) (arc_list g).
Proof.
  assert (R : forall l, incl (arc_list (remove_arcs l g)) (arc_list g)).
  { intros l a. rewrite arc_list_remove_arcs, filter_In. tauto. }
  intro H. destruct p as [|alpha|ratio|beta]; cbn [pricing_graph] in H.
  - injection H as <-. apply incl_refl.
  - unfold remove_edges_1 in H. apply bind_ok in H. destruct H as (m & _ & H). apply bind_ok in H. destruct H as (l & _ & H).
    injection H as <-. apply R.
  - unfold remove_edges_2 in H. injection H as <-. apply R.
  - apply bind_ok in H. destruct H as (h & H1 & H). injection H as <-. cbn [fst]. unfold remove_edges_3 in H1.
    apply bind_ok in H1. destruct H1 as (mx & _ & H1). apply bind_ok in H1. destruct H1 as (mn & _ & H1).
    apply bind_ok in H1. destruct H1 as (t1 & _ & H1). apply bind_ok in H1. destruct H1 as (t2 & _ & H1).
    apply bind_ok in H1. destruct H1 as (t3 & _ & H1). injection H1 as <-.
    intros a Ha. unfold arc_list, edge_subgraph in *. cbn [gedges] in Ha. apply in_map_iff in Ha. destruct Ha as (x & <- & Hx).
    apply filter_In in Hx. apply in_map. tauto.
Qed.

Lemma costs_in (h : vgraph) k keys l : forall q0 q,
  foldM (fun q a => let* c := arc_cost h k a in
           let* _ := raise_if (negb (node_eqb (fst a) Source) && negb (mem (fst a) keys)) KeyError in Ok (q + c)) l q0 = Ok q ->
  incl l (arc_list h).
Proof.
  induction l as [|a l IH]; intros q0 q H; [intros x []|]. cbn in H. apply bind_ok in H. destruct H as (q1 & H1 & H2).
  apply bind_ok in H1. destruct H1 as (c & Hc & _). unfold arc_cost in Hc. apply bind_ok in Hc. destruct Hc as (e & He & _).
  intros x [->|Hx]; [|eapply IH; eassumption]. destruct x as [u v]. unfold get_arc in He. cbn in He.
  apply arc_data_In. destruct (arc_data h u v) as [d|]; [eauto|discriminate].
Qed.

Lemma NoDup_by_tail (ns : list node) (es : list arc) : NoDup ns -> NoDup es ->
  NoDup (flat_map (fun v => filter (fun a => node_eqb (fst a) v) es) ns).
Proof.
  intros N M. induction N as [|v l H N IH]; cbn [flat_map]; [constructor|]. apply NoDup_app_intro; [apply NoDup_filter; exact M|exact IH|].
  intros a Ha Hb. apply filter_In in Ha. destruct Ha as [_ Ha]. apply in_flat_map in Hb. destruct Hb as (w & Hw & Hb).
  apply filter_In in Hb. destruct Hb as [_ Hb]. apply node_eqb_eq in Ha, Hb. congruence.
Qed.

Lemma new_route_candidate h k keys pool p c g : cspy_new_route h k keys pool p = Ok c -> incl (arc_list h) (arc_list g) ->
  In (column_edges c) (candidates g).
Proof.
  unfold cspy_new_route. intros H I. assert (N1 := digraph_fst_NoDup (arcs p)). assert (N2 := digraph_snd_NoDup (arcs p)).
  destruct (digraph_of (arcs p)) as [ns es]. cbn [fst snd] in *. apply bind_ok in H. destruct H as (q & Hq & H). injection H as <-.
  unfold column_edges. cbn [c_arcs c_nodes]. apply costs_in in Hq.
  assert (J : incl (flat_map (fun v => filter (fun a => node_eqb (fst a) v) es) ns) (arc_list g)).
  { intros a Ha. apply in_flat_map in Ha. destruct Ha as (v & _ & Ha). apply filter_In in Ha. apply I, Hq. tauto. }
  apply words_all; [exact J|]. apply NoDup_incl_length; [apply NoDup_by_tail; assumption|exact J].
Qed.

Lemma cspy_new g h k caps o ns dur alg keys rn el pool pool1 more : incl (arc_list h) (arc_list g) ->
  cspy_solve g h k caps o ns dur alg keys rn el pool = Ok (pool1, more) ->
  (more = false /\ pool1 = pool) \/
  (more = true /\ exists c, pool1 = pool ++ [c] /\ In (column_edges c) (candidates g) /\ ~ In (column_edges c) (map column_edges pool)).
Proof.
  intro I. unfold cspy_solve. intro H. destruct (negb rn); [injection H as <- <-; auto|].
  apply bind_ok in H. destruct H as (m & _ & H). revert H. generalize (passes o el).
  induction l as [|e t IH]; cbn [cspy_loop]; intro H; [injection H as <- <-; auto|].
  apply bind_ok in H. destruct H as (thr & _ & H).
  destruct (alg m _ e thr) as [[cost path]|]; [|injection H as <- <-; auto].
  destruct (Qltb cost _); [|injection H as <- <-; auto].
  apply bind_ok in H. destruct H as (c & Hc & H).
  destruct (existsb _ pool) eqn:X; [auto|]. injection H as <- <-. right. split; [reflexivity|]. exists c. split; [reflexivity|].
  split; [eapply new_route_candidate; eassumption|]. intro Y. apply in_map_iff in Y. destruct Y as (r & E1 & E2).
  assert (existsb (fun r => arcs_eqb (column_edges c) (column_edges r)) pool = true); [|congruence].
  apply existsb_exists. exists r. split; [exact E2|]. apply arcs_eqb_eq. congruence.
Qed.

(** ** Iterations *)
Section Steps.
  Variable E : env.
  Variable C : cgconfig.
  Variable g : vgraph.

  (** [s1] follows [s]: no listing disappears. *)
  Record follows (s s1 : state) : Prop := {
    fl_graph : arc_list (s_graph s1) = arc_list (s_graph s);
    fl_pool : incl (map column_edges (s_pool s)) (map column_edges (s_pool s1))
  }.
  Lemma follows_refl s : follows s s. Proof. split; [reflexivity|apply incl_refl]. Qed.
  Lemma follows_trans a b c : follows a b -> follows b c -> follows a c.
  Proof. intros [A1 A2] [B1 B2]. split; [congruence|eapply incl_tran; eassumption]. Qed.
  (** ... and there is a new one. *)
  Definition news (s s1 : state) : Prop :=
    exists l, In l (candidates (s_graph s)) /\ In l (map column_edges (s_pool s1)) /\ ~ In l (map column_edges (s_pool s)).
  Lemma news_after a b c : follows a b -> news b c -> news a c.
  Proof.
    intros [A1 A2] (l & L1 & L2 & L3). exists l. unfold candidates in *. rewrite A1 in L1. split; [exact L1|]. split; [exact L2|].
    intro H. apply L3, A2, H.
  Qed.
  Lemma news_before a b c : news a b -> follows b c -> news a c.
  Proof. intros (l & L1 & L2 & L3) [A1 A2]. exists l. split; [exact L1|]. split; [apply A2, L2|exact L3]. Qed.

  Hypothesis LAB : cg_cspy C = true.

  Lemma add_arcs D k r h h1 : add_reduced_cost D k r h = Ok h1 -> arc_list h1 = arc_list h.
  Proof. intro H. apply strip_arcs. eapply add_strip; exact H. Qed.

  Lemma subproblem_step D k r p s s1 b : subproblem E C D k r p s = Ok (s1, b) -> follows s s1 /\ (b = true -> news s s1).
  Proof.
    unfold subproblem. rewrite LAB. intro H. apply bind_ok in H. destruct H as (h & H1 & H). apply bind_ok in H. destruct H as (hr & H2 & H).
    cbv zeta in H. apply bind_ok in H. destruct H as ([pool more] & H3 & H). cbn [fst snd] in H. injection H as <- <-.
    apply add_arcs in H1. apply sub_arcs in H2. apply (cspy_new h) in H3; [|exact H2]. cbn [s_pool s_graph tick set_pool].
    destruct H3 as [[-> ->]|(-> & c & -> & K & N)].
    - split; [split; [exact H1|apply incl_refl]|discriminate].
    - split; [split; cbn [s_pool s_graph tick set_pool]; [exact H1|rewrite map_app; apply incl_appl, incl_refl]|]. intros _. exists (column_edges c).
      split; [unfold candidates in *; rewrite <- H1; exact K|]. cbn [s_pool tick set_pool].
      split; [rewrite map_app; apply in_or_app; right; left; reflexivity|exact N].
  Qed.

  Lemma attempts_step D k r ps : forall s s1 b, attempts E C D k r ps s = Ok (s1, b) -> follows s s1 /\ (b = true -> news s s1).
  Proof.
    induction ps as [|p ps IH]; intros s s1 b H; cbn [attempts] in H.
    - injection H as <- <-. split; [split; [reflexivity|apply incl_refl]|discriminate].
    - apply bind_ok in H. destruct H as ([s2 b2] & H1 & H2). apply subproblem_step in H1. destruct H1 as [F N]. cbn [fst snd] in H2.
      destruct b2; [injection H2 as <- <-; auto|]. apply IH in H2. destruct H2 as [F2 N2].
      split; [eapply follows_trans; eassumption|]. intro B. eapply news_after; [exact F|auto].
  Qed.
  Lemma attempt_step D k r p s s1 b : attempt E C D k r p s = Ok (s1, b) -> follows s s1 /\ (b = true -> news s s1).
  Proof. destruct p; cbn [attempt]; intro H; first [eapply attempts_step; exact H|eapply subproblem_step; exact H]. Qed.
  Lemma solve_step p D k r s s1 b : solve_subproblem E C p D k r s = Ok (s1, b) -> follows s s1 /\ (b = true -> news s s1).
  Proof.
    unfold solve_subproblem. destruct (cg_strategy C); [|apply attempt_step].
    assert (X : (let* r0 := attempt E C D k r p s in if snd r0 then Ok r0 else attempt E C D k r Exact (fst r0)) = Ok (s1, b) ->
              follows s s1 /\ (b = true -> news s s1)).
    { intro H. apply bind_ok in H. destruct H as ([s2 b2] & H1 & H2). apply attempt_step in H1. destruct H1 as [F N]. cbn [fst snd] in H2.
      destruct b2; [injection H2 as <- <-; auto|]. apply attempt_step in H2. destruct H2 as [F2 N2].
      split; [eapply follows_trans; eassumption|]. intro B. eapply news_after; [exact F|auto]. }
    destruct p; first [exact X|apply attempt_step].
  Qed.
  Lemma route_step p D k rs : forall s s1 b, ColGen.per_route E C p D k rs s = Ok (s1, b) -> follows s s1 /\ (b = true -> news s s1).
  Proof.
    induction rs as [|n rs IH]; intros s s1 b H; cbn [ColGen.per_route] in H.
    - injection H as <- <-. split; [apply follows_refl|discriminate].
    - apply bind_ok in H. destruct H as ([s2 b2] & H1 & H2). apply solve_step in H1. destruct H1 as [F N]. cbn [fst snd] in H2.
      destruct b2; [injection H2 as <- <-; auto|]. apply IH in H2. destruct H2 as [F2 N2].
      split; [eapply follows_trans; eassumption|]. intro B. eapply news_after; [exact F|auto].
  Qed.

  Lemma greedy_grows h caps ns dur k keys n rnd pool r :
    greedy_pricing h caps ns dur k keys pool n rnd = Ok r -> exists l, fst r = pool ++ l.
  Proof.
    assert (A : forall fw l s r, foldM (p_attempt h caps ns dur k keys fw) l s = Ok r -> exists l, fst r = fst s ++ l).
    { intros fw l. induction l as [|x l IH]; intros s r0 H; cbn in H; [injection H as <-; exists []; rewrite app_nil_r; reflexivity|].
      apply bind_ok in H. destruct H as (s1 & H1 & H2). destruct (IH _ _ H2) as (l2 & ->).
      unfold p_attempt in H1. apply bind_ok in H1. destruct H1 as (y & _ & H1).
      destruct (snd y && _); [|injection H1 as <-; eauto].
      apply bind_ok in H1. destruct H1 as (l1 & N & H1). injection H1 as <-. cbn [fst]. unfold p_new_route in N.
      destruct (digraph_of _) as [a b]. apply bind_ok in N. destruct N as (q & _ & N). injection N as <-. rewrite <- app_assoc. eauto. }
    unfold greedy_pricing. intro H. apply bind_ok in H. destruct H as (s & H1 & H2).
    apply A in H1, H2. destruct H1 as (l1 & H1), H2 as (l2 & H2). cbn [fst] in H1. rewrite H2, H1, <- app_assoc. eauto.
  Qed.
  Lemma greedy_step_follows D k s s1 : greedy_step E C D k s = Ok s1 -> follows s s1.
  Proof.
    unfold greedy_step. destruct (greedy_applies C); [|intro H; injection H as <-; apply follows_refl].
    intro H. apply bind_ok in H. destruct H as (h & H1 & H). apply bind_ok in H. destruct H as (r & H2 & H). cbv zeta in H.
    apply add_arcs in H1. apply greedy_grows in H2. destruct H2 as (l & H2).
    assert (F : follows s (tick (set_pool h (fst r) (snd r) s))).
    { split; cbn [s_graph s_pool tick set_pool]; [exact H1|]. rewrite H2, map_app. apply incl_appl, incl_refl. }
    destruct (snd r); [|injection H as <-; exact F]. apply bind_ok in H. destruct H as (m & _ & H). injection H as <-.
    eapply follows_trans; [exact F|]. split; [reflexivity|apply incl_refl].
  Qed.

  Lemma edges_untag l l' : same_columns l l' -> map column_edges l = map column_edges l'.
  Proof.
    revert l'. induction l as [|c l IH]; intros [|c' l'] H; cbn in H; try discriminate; [reflexivity|].
    unfold same_columns in *. injection H as _ H1 H2 _ _ _ H3. cbn [map]. rewrite (IH l' H3). f_equal.
    unfold column_edges. rewrite H1, H2. reflexivity.
  Qed.
  Lemma adopt_follows p s s1 : adopt C p s = Ok s1 -> follows s s1 /\ s_more s1 = s_more s.
  Proof.
    unfold adopt. intro H. apply bind_ok in H. destruct H as (c & _ & H). apply bind_ok in H. destruct H as (m & _ & H). injection H as <-.
    split; [|reflexivity]. split; [reflexivity|]. cbn [s_pool set_master]. rewrite (edges_untag _ _ (tag_last_same (tag_of p) (s_pool s))). apply incl_refl.
  Qed.

  Lemma vehicles_step p D ks : forall s s1, vehicles E C p D ks s = Ok s1 ->
    follows s s1 /\ (ks <> [] \/ s_more s = false -> s_more s1 = true -> news s s1).
  Proof.
    induction ks as [|k ks IH]; intros s s1 H; cbn [vehicles] in H.
    - injection H as <-. split; [apply follows_refl|]. intros [X|X] Y; congruence.
    - apply bind_ok in H. destruct H as (s2 & H1 & H). cbv zeta in H. apply bind_ok in H. destruct H as ([s3 b] & H2 & H).
      apply greedy_step_follows in H1.
      assert (X : follows s s3 /\ (b = true -> news s s3)).
      { assert (Y : follows (set_more false s2) s3 /\ (b = true -> news (set_more false s2) s3)).
        { destruct (mo_span (cg_master C)); [eapply route_step; exact H2|eapply solve_step; exact H2]. }
        assert (Z : follows s (set_more false s2)) by (destruct H1 as [Z1 Z2]; split; assumption).
        destruct Y as [Y1 Y2]. split; [eapply follows_trans; eassumption|]. intro B. eapply news_after; [exact Z|auto]. }
      cbn [fst snd] in H. destruct X as [F N].
      assert (F3 : follows s (set_more b s3)) by (destruct F as [Z1 Z2]; split; assumption).
      destruct b.
      + apply adopt_follows in H. destruct H as [F4 _]. split; [eapply follows_trans; eassumption|].
        intros _ _. eapply news_before; [|exact F4]. destruct (N eq_refl) as (l & L1 & L2 & L3). exists l. auto.
      + apply bind_ok in H. destruct H as (s4 & H3 & H).
        assert (G : follows s s4 /\ s_more s4 = false).
        { destruct (cg_strategy C); [injection H3 as <-; split; [exact F3|reflexivity]|].
          apply bind_ok in H3. destruct H3 as (hy & _ & H3). injection H3 as <-. split; [|reflexivity]. destruct F3 as [Z1 Z2]. split; assumption. }
        destruct G as [G1 G2]. apply IH in H. destruct H as [F5 N5]. split; [eapply follows_trans; eassumption|].
        intros _ M. eapply news_after; [exact G1|]. apply N5; [right; exact G2|exact M].
  Qed.

  Lemma next_follows q s s1 p : next_strategy E C q s = Ok (s1, p) -> follows s s1.
  Proof.
    unfold next_strategy. destruct (_ =? _)%Z; [intro H; injection H as <- _; apply follows_refl|].
    destruct (cg_strategy C); [intro H; injection H as <- _; apply follows_refl|]. cbv zeta.
    destruct (s_iter s =? 0)%nat.
    - intro H. apply bind_ok in H. destruct H as (h & _ & H). injection H as <- _. split; [reflexivity|apply incl_refl].
    - intro H. apply bind_ok in H. destruct H as (s2 & H1 & H). apply bind_ok in H. destruct H as (h & _ & H).
      destruct (pick_heuristic _ h) as [h1 p1]. injection H as <- _. unfold update_hyper in H1.
      apply bind_ok in H1. destruct H1 as ([[pool counts] total] & H2 & H1). apply bind_ok in H1. destruct H1 as (h0 & _ & H1).
      apply bind_ok in H1. destruct H1 as (h2 & _ & H1). apply bind_ok in H1. destruct H1 as (h3 & _ & H1). injection H1 as <-.
      unfold heuristic_distribution in H2. apply bind_ok in H2. destruct H2 as (u & _ & H2). injection H2 as <- _ _.
      split; [reflexivity|]. cbn [s_pool tick set_hyper set_master set_noimp].
      rewrite (edges_untag _ _ (tag_other_same (s_values s) (s_pool s))). apply incl_refl.
  Qed.
  Lemma relaxed_follows s s1 D q : solve_relaxed E C s = Ok (s1, D, q) -> follows s s1.
  Proof.
    unfold solve_relaxed. cbv zeta. destruct (s_dive (tick s)).
    - intro H. apply bind_ok in H. destruct H as ([[[d fx] D1] a] & _ & H). cbn [s_hyper set_solution tick] in H.
      destruct (s_hyper s); injection H as <- _ _; split; try reflexivity; apply incl_refl.
    - intro H. apply bind_ok in H. destruct H as ([[m D1] q1] & _ & H). injection H as <- _ _. split; [reflexivity|apply incl_refl].
  Qed.

  Lemma find_step s s1 : (1 <= cg_types C)%nat -> find_columns E C s = Ok s1 -> follows s s1 /\ (s_more s1 = true -> news s s1).
  Proof.
    intros K H. unfold find_columns in H. apply bind_ok in H. destruct H as ([[s2 D] q] & H1 & H). apply bind_ok in H. destruct H as ([s3 p] & H2 & H).
    cbn [fst snd] in H. apply bind_ok in H. destruct H as (s4 & H3 & H). apply relaxed_follows in H1. apply next_follows in H2.
    apply vehicles_step in H3. destruct H3 as [F N]. assert (A := follows_trans _ _ _ H1 H2).
    unfold progress in H. apply bind_ok in H. destruct H as (b & _ & H). injection H as <-.
    assert (B : follows s s4) by (eapply follows_trans; eassumption). destruct B as [B1 B2].
    split; [split; assumption|]. cbn [s_more set_progress]. intro M.
    assert (N1 : news s3 s4). { apply N; [left; destruct (cg_types C); [lia|discriminate]|exact M]. }
    destruct (news_after _ _ _ A N1) as (l & L). exists l. exact L.
  Qed.

  Lemma ends_labelling : (1 <= cg_types C)%nat -> forall f s, arc_list (s_graph s) = arc_list g ->
    (unused (candidates g) (s_pool s) < f)%nat -> column_generation E C f s <> Err OutOfFuel.
  Proof.
    intros K f. induction f as [|f IH]; intros s G L; [lia|]. cbn [column_generation].
    destruct (negb (s_more s)); [discriminate|]. destruct (find_columns E C s) as [s1|e] eqn:H.
    - destruct (find_step s s1 K H) as [F N]. cbn [bind]. cbv zeta. destruct (time_up E C s1); [discriminate|].
      destruct (limit_reached C _); [discriminate|].
      destruct (s_more s1) eqn:M.
      + destruct F as [F1 F2]. destruct (N eq_refl) as (l & L1 & L2 & L3). apply IH; cbn [s_graph s_pool tick]; [congruence|].
        unfold candidates in L1. rewrite G in L1. assert (X := unused_lt (candidates g) _ _ l F2 L1 L2 L3). lia.
      + destruct f; cbn [column_generation s_more tick]; rewrite M; discriminate.
    - cbn [bind]. assert (X := nf_ColGen_find_columns E C s). unfold finishes in X. congruence.
  Qed.
End Steps.

(** The number of iterations is bounded in terms of the network alone. *)
Definition label_bound (g : vgraph) : nat := S (List.length (candidates g)).
Lemma unused_bound K p : (unused K p <= List.length K)%nat.
Proof. unfold unused. induction K as [|l K IH]; cbn; [lia|]. destruct (negb _); cbn; lia. Qed.

Theorem labelling_ends C g f s : cg_cspy C = true -> (1 <= cg_types C)%nat -> s_graph s = g -> (label_bound g <= f)%nat ->
  forall E, column_generation E C f s <> Err OutOfFuel.
Proof.
  intros L K G B E. apply (ends_labelling E C g L K); [congruence|]. assert (X := unused_bound (candidates g) (s_pool s)). unfold label_bound in B. lia.
Qed.

Lemma generation_arcs E C (LAB : cg_cspy C = true) (K : (1 <= cg_types C)%nat) : forall f s s1,
  column_generation E C f s = Ok s1 -> arc_list (s_graph s1) = arc_list (s_graph s).
Proof.
  induction f as [|f IH]; intros s s1 H; cbn [column_generation] in H; destruct (negb (s_more s)); try discriminate; try (injection H as <-; reflexivity).
  apply bind_ok in H. destruct H as (s2 & H1 & H). destruct (find_step E C LAB s s2 K H1) as [[F _] _]. cbv zeta in H.
  destruct (time_up E C s2); [injection H as <-; exact F|]. destruct (limit_reached C _); [injection H as <-; exact F|].
  apply IH in H. cbn [s_graph tick] in H. congruence.
Qed.

Lemma label_bound_arcs g h : arc_list g = arc_list h -> label_bound g = label_bound h.
Proof. unfold label_bound, candidates. intros ->. reflexivity. Qed.

(** Column generation, with or without a dive after it. *)
Lemma columns_end E C dive g f f2 s : cg_cspy C = true -> (1 <= cg_types C)%nat -> arc_list (s_graph s) = arc_list g ->
  (label_bound g <= f)%nat -> (label_bound g <= f2)%nat ->
  solve_columns E C f f2 dive s = solve_columns E C (label_bound g) (label_bound g) dive s /\
  solve_columns E C f f2 dive s <> Err OutOfFuel.
Proof.
  intros L K G B1 B2. set (N := label_bound g) in *.
  assert (LB : forall s, arc_list (s_graph s) = arc_list g -> label_bound (s_graph s) = N) by (intros s0 H0; apply label_bound_arcs; exact H0).
  assert (A : forall n s, arc_list (s_graph s) = arc_list g -> (N <= n)%nat -> column_generation E C n s <> Err OutOfFuel).
  { intros n s0 G0 Hn. apply (labelling_ends C (s_graph s0)); auto. rewrite (LB _ G0). exact Hn. }
  assert (A2 : forall n s, arc_list (s_graph s) = arc_list g -> (N <= n)%nat -> column_generation E C n s = column_generation E C N s).
  { intros n s0 G0 Hn. apply fuel_enough; [apply A; [exact G0|lia]|exact Hn]. }
  unfold solve_columns, generate_and_dive. rewrite (A2 f s G B1).
  assert (X : finishes (column_generation E C N s)) by (apply A; [exact G|lia]).
  destruct dive.
  - destruct (column_generation E C N s) as [s1|e] eqn:H1; cbn [bind].
    + assert (G1 := generation_arcs E C L K _ _ _ H1).
      rewrite (A2 f2 (start_dive s1)) by (cbn [s_graph start_dive]; congruence || exact B2). split; [reflexivity|].
      apply (nf_bind (column_generation E C N (start_dive s1))); [apply A; [cbn [s_graph start_dive]; congruence|lia]|].
      intros s2 _. apply nf_bind'; [apply nf_ColGen_conclude|intros; apply nf_ok].
    + split; [reflexivity|]. exact (nf_other X).
  - split; [reflexivity|]. apply nf_bind'; [exact X|]. intro s1. apply nf_bind'; [apply nf_ColGen_conclude|intros; apply nf_ok].
Qed.

Lemma truthy_len v n : py_truthy v = true -> py_len v = Ok n -> (1 <= n)%nat.
Proof. destruct v as [| |l]; cbn; try discriminate. intros H X. injection X as <-. destruct l; [discriminate|cbn; lia]. Qed.
Lemma prepare_types v sa a K p : prepare v sa = Ok (a, K, p) -> (1 <= K)%nat.
Proof.
  unfold prepare. intro H. apply bind_ok in H. destruct H as ([[a1 types] g] & H1 & H). apply bind_ok in H. destruct H as (K1 & H2 & H).
  apply bind_ok in H. destruct H as (p1 & _ & H). injection H as -> -> ->.
  unfold prepare_args in H1. destruct (if a_mixed_fleet (set_strategy _ _) then _ else _) as [a2 g2].
  apply bind_ok in H1. destruct H1 as (ty & H3 & H1).
  apply bind_ok in H1. destruct H1 as (u & _ & H1). injection H1 as _ <- _. destruct ty as [n|]; [|discriminate]. injection H2 as ->.
  destruct (a_mixed_fleet _); [|injection H3 as <-; lia].
  unfold define_vehicle_types in H3.
  repeat match type of H3 with
  | (if py_truthy ?x then _ else _) = _ => destruct (py_truthy x) eqn:?;
      [apply bind_ok in H3; destruct H3 as (m & H4 & H5); injection H5 as ->; eapply truthy_len; eassumption|] end.
  discriminate.
Qed.

(** A call of solve() with the labelling algorithm ends. *)
Theorem solve_ends v sa : sa_cspy sa = true -> exists N, forall X f f2, (N <= f)%nat -> (N <= f2)%nat ->
  solve X f f2 sa v = solve X N N sa v /\ solve X f f2 sa v <> Err OutOfFuel.
Proof.
  intro L. destruct (prepare v sa) as [[[a K] p]|e] eqn:P.
  - exists (label_bound (pr_graph p)). intros X f f2 B1 B2. unfold solve. rewrite P. cbn [bind]. cbv beta iota zeta.
    assert (T := prepare_types _ _ _ _ _ P).
    destruct (sa_heuristic sa). { split; [reflexivity|]. apply nf_bind'; [apply nf_Initial_solve_with_clarke_wright|]. intro r. apply nf_ok. }
    match goal with |- bind ?i _ = _ /\ _ => assert (FI : finishes i) by (apply nf_Initial_initialize); destruct i as [ic|e] end; cbn [bind]; [|split; [reflexivity|exact (nf_other FI)]].
    match goal with |- bind ?i _ = _ /\ _ => assert (FS : finishes i) by (apply nf_Solve_start); destruct i as [s|e] eqn:ST end; cbn [bind]; [|split; [reflexivity|exact (nf_other FS)]].
    assert (GS : arc_list (s_graph s) = arc_list (pr_graph p)).
    { unfold start in ST. apply bind_ok in ST. destruct ST as (m & _ & ST). injection ST as <-. reflexivity. }
    destruct (columns_end (x_env X) (cg_of X v sa a K p (covered (fst ic))) (sa_dive sa) (pr_graph p) f f2 s L T GS B1 B2) as [E1 E2].
    rewrite E1 in *. split; [reflexivity|].
    apply nf_bind'; [exact E2|]. intros [s1 r]. apply nf_bind'; [apply nf_Solve_post_process|]. intros [[[routes types] dr] sch]. apply nf_ok.
  - exists 0%nat. intros X f f2 _ _. unfold solve. rewrite P. cbn [bind]. split; [reflexivity|].
    assert (F := nf_Solve_prepare v sa). rewrite P in F. exact (nf_other F).
Qed.
