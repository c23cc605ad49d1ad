(** Column generation: iterations and runs. *)
From Coq Require Import Relations.
From Verif.Base Require Import Prelude Graph.
From Verif.Spec Require Import Routes Network LinProg Pricing MIP Columns Pool Master Run.
From Verif.Model Require Import Args Reach Checks Preprocess ClarkeWright Greedy Initial Pricing
  GreedyPricing LPPricing Cspy Master Dive Hyper ColGen.
From Verif.Proofs Require Import RouteLemmas PricingProofs MasterProofs SelectProofs PoolProofs PoolQuality ColGenProofs.

Section Run.
  Variable E : env.
  Variable C : cgconfig.
  Variable g : vgraph.

  (** ** One iteration *)
  (** Everything but the solution of the master problem, the hyper-heuristic and the clock. *)
  Record same_search (s s' : state) : Prop := {
    ss_graph : s_graph s' = s_graph s;
    ss_columns : same_columns (s_pool s') (s_pool s);
    ss_master : s_master s' = s_master s;
    ss_dive : s_dive s' = s_dive s;
    ss_iter : s_iter s' = s_iter s;
    ss_more : s_more s' = s_more s;
    ss_bounds : s_bounds s' = s_bounds s;
    ss_tick : (s_tick s <= s_tick s')%nat
  }.
  Lemma same_search_refl s : same_search s s.
  Proof. constructor; try reflexivity. Qed.
  Lemma same_search_trans a b c : same_search a b -> same_search b c -> same_search a c.
  Proof. intros [] []. constructor; try congruence; lia. Qed.
  Lemma same_search_inv s s' : inv C g s -> same_search s s' -> inv C g s'.
  Proof.
    intros [I1 I2 I3] [S1 S2 S3 _ _ _ _ _]. constructor.
    - rewrite S1. exact I1.
    - rewrite S3. eapply built_untag; eassumption.
    - eapply numbered_same; eassumption.
  Qed.

  Lemma solve_relaxed_ok s s1 D q : solve_relaxed E C s = Ok (s1, D, q) ->
    same_search s s1 /\ s_pool s1 = s_pool s /\ s_noimp s1 = s_noimp s /\ (s_tick s < s_tick s1)%nat.
  Proof.
    unfold solve_relaxed. intro H. cbn [s_dive tick] in H. destruct (s_dive s) eqn:Ed.
    - apply bind_ok in H. destruct H as ([[[d fx] D1] a] & H1 & H). cbn [s_hyper set_solution tick] in H.
      destruct (s_hyper s); injection H as <- <- <-;
        (split; [constructor; try reflexivity; cbn; auto; lia|]; split; [reflexivity|]; split; [reflexivity|cbn; lia]).
    - apply bind_ok in H. destruct H as ([[m D1] q1] & H1 & H). injection H as <- <- <-.
      split; [constructor; try reflexivity; cbn; auto; lia|]. split; [reflexivity|]. split; [reflexivity|cbn; lia].
  Qed.

  (** Without diving: the duals and the value are those of the relaxed master problem. *)
  Lemma solve_relaxed_master s s1 D q : s_dive s = false -> solve_relaxed E C s = Ok (s1, D, q) ->
    solve_master (s_graph s) (cg_master C) true (s_pool s) (e_master E (S (s_tick s))) (e_duals E (S (s_tick s)))
      (s_master s) = Ok (s_master s, D, q) /\
    s_values s1 = values_of (s_master s) (e_master E (S (s_tick s)) (program_of (s_master s))) /\
    s_fixed s1 = s_fixed s /\ s_diving s1 = s_diving s.
  Proof.
    intros Hd H. unfold solve_relaxed in H. cbn [s_dive tick] in H. rewrite Hd in H.
    apply bind_ok in H. destruct H as ([[m D1] q1] & H1 & H). injection H as <- <- <-. cbn [s_graph s_pool s_master s_tick tick] in H1.
    assert (m = s_master s) as ->.
    { unfold solve_master in H1. apply bind_ok in H1. destruct H1 as (u & _ & H1). apply bind_ok in H1.
      destruct H1 as (D2 & _ & H1). injection H1 as <- _ _. reflexivity. }
    split; [exact H1|]. auto.
  Qed.

  Lemma next_strategy_ok q s s1 p : next_strategy E C q s = Ok (s1, p) ->
    same_search s s1 /\
    (Z.of_nat (s_noimp s) = cg_run_exact C -> p = Exact) /\
    (Z.of_nat (s_noimp s) <> cg_run_exact C -> forall st, cg_strategy C = Some st -> p = st) /\
    (cg_strategy C <> None -> s1 = s).
  Proof.
    unfold next_strategy. intro H. destruct (_ =? _)%Z eqn:En.
    { injection H as <- <-. split; [apply same_search_refl|]. apply Z.eqb_eq in En. split; [auto|]. split; [intros; contradiction|auto]. }
    apply Z.eqb_neq in En. destruct (cg_strategy C) as [st|] eqn:Ec.
    { injection H as <- <-. split; [apply same_search_refl|]. split; [intro; contradiction|]. split; [|auto].
      intros _ st' H. injection H as <-. reflexivity. }
    assert (S : same_search s s1).
    { destruct (s_iter s =? 0)%nat.
      - apply bind_ok in H. destruct H as (h & _ & H). injection H as <- <-. constructor; try reflexivity. cbn. lia.
      - apply bind_ok in H. destruct H as (s2 & H2 & H). apply bind_ok in H. destruct H as (h & _ & H).
        destruct (pick_heuristic _ h) as [h1 p1]. injection H as <- <-. unfold update_hyper in H2.
        apply bind_ok in H2. destruct H2 as ([[pool counts] total] & Hd & H2). apply bind_ok in H2. destruct H2 as (h2 & _ & H2).
        apply bind_ok in H2. destruct H2 as (h3 & _ & H2). apply bind_ok in H2. destruct H2 as (h4 & _ & H2). injection H2 as <-.
        unfold heuristic_distribution in Hd. apply bind_ok in Hd. destruct Hd as (u & _ & Hd). injection Hd as <- _ _.
        constructor; try reflexivity; cbn [s_pool set_hyper set_master tick]; [apply tag_other_same|cbn; lia]. }
    split; [exact S|]. split; [intro; contradiction|]. split; [intros _ st' H'; discriminate|]. intro N. contradiction.
  Qed.

  Lemma progress_ok q s s1 : progress q s = Ok s1 ->
    same_search s (set_progress (s_iter s) (s_noimp s) (s_bounds s) s1) /\ s_pool s1 = s_pool s /\ s_iter s1 = S (s_iter s) /\
    s_bounds s1 = (if s_dive s then s_bounds s else s_bounds s ++ [q]) /\
    (s_noimp s1 = 0%nat \/ s_noimp s1 = S (s_noimp s)) /\ s_tick s1 = s_tick s.
  Proof.
    unfold progress. intro H. apply bind_ok in H. destruct H as (b & _ & H). injection H as <-.
    split; [constructor; try reflexivity; auto|]. split; [reflexivity|]. split; [reflexivity|]. split; [reflexivity|].
    split; [destruct b; auto|reflexivity].
  Qed.

  Theorem find_columns_ok s s' : inv C g s -> find_columns E C s = Ok s' ->
    inv C g s' /\ grown E C g (s_pool s) (s_pool s') /\ s_iter s' = S (s_iter s) /\ s_dive s' = s_dive s /\
    (s_tick s < s_tick s')%nat /\
    exists s1 D q, solve_relaxed E C s = Ok (s1, D, q) /\
      s_bounds s' = (if s_dive s then s_bounds s else s_bounds s ++ [q]) /\
      (s_dive s = false -> s_values s' = s_values s1 /\ s_fixed s' = s_fixed s /\ s_diving s' = s_diving s) /\
      (s_more s' = false ->
       cg_strategy C <> None \/ Z.of_nat (s_noimp s) = cg_run_exact C ->
       exact_failed_for_all E C g D (s_pool s) (s_pool s')).
  Proof.
    intros I H. unfold find_columns in H. apply bind_ok in H. destruct H as ([[s1 D] q] & H1 & H).
    apply bind_ok in H. destruct H as ([s2 p] & H2 & H). apply bind_ok in H. destruct H as (s3 & H3 & H4). cbn [fst snd] in H3.
    destruct (solve_relaxed_ok _ _ _ _ H1) as (A1 & A2 & A3 & A4).
    assert (SR := fun Hd => solve_relaxed_master _ _ _ _ Hd H1).
    destruct (next_strategy_ok _ _ _ _ H2) as (B1 & B2 & B3 & B4).
    assert (I2 : inv C g s2) by (eapply same_search_inv; [eapply same_search_inv; [exact I|exact A1]|exact B1]).
    destruct (vehicles_ok E C g p D (seq 0 (cg_types C)) s2 s3) as (V1 & V2 & V3 & V4); [|exact I2|exact H3|].
    { intros k Hk. apply in_seq in Hk. lia. }
    destruct (progress_ok _ _ _ H4) as (P1 & P2 & P3 & P4 & P5 & P6).
    assert (G02 : grown E C g (s_pool s) (s_pool s2)).
    { apply grown_same. eapply same_columns_trans; [exact (ss_columns _ _ B1)|exact (ss_columns _ _ A1)]. }
    assert (I3 := same_search_inv _ _ V1 P1). split; [destruct I3; constructor; assumption|].
    rewrite P2. split; [eapply grown_trans; eassumption|].
    split; [rewrite P3, (kp_iter _ _ V3), (ss_iter _ _ B1), (ss_iter _ _ A1); reflexivity|].
    assert (Hd : s_dive s3 = s_dive s) by (rewrite (kp_dive _ _ V3), (ss_dive _ _ B1), (ss_dive _ _ A1); reflexivity).
    split; [assert (X := ss_dive _ _ P1); cbn [s_dive set_progress] in X; congruence|].
    split; [assert (X := kp_tick _ _ V3); assert (Y := ss_tick _ _ B1); lia|].
    exists s1, D, q. split; [exact H1|].
    split; [rewrite P4, Hd, (kp_bounds _ _ V3), (ss_bounds _ _ B1), (ss_bounds _ _ A1); reflexivity|].
    split.
    { intro Hd0. destruct (SR Hd0) as (_ & _ & R1 & R2). unfold progress in H4. apply bind_ok in H4. destruct H4 as (b & _ & H4).
      injection H4 as <-. cbn [s_values s_fixed s_diving set_progress].
      assert (X : s_values s2 = s_values s1 /\ s_fixed s2 = s_fixed s1 /\ s_diving s2 = s_diving s1).
      { unfold next_strategy in H2. destruct (_ =? _)%Z; [injection H2 as <- <-; auto|].
        destruct (cg_strategy C); [injection H2 as <- <-; auto|]. destruct (s_iter s1 =? 0)%nat.
        - apply bind_ok in H2. destruct H2 as (hh & _ & H2). injection H2 as <- <-. auto.
        - apply bind_ok in H2. destruct H2 as (t2 & Ht2 & H2). apply bind_ok in H2. destruct H2 as (hh & _ & H2).
          destruct (pick_heuristic _ hh) as [h1 p1]. injection H2 as <- <-. unfold update_hyper in Ht2.
          apply bind_ok in Ht2. destruct Ht2 as ([[pool counts] total] & _ & Ht2). apply bind_ok in Ht2. destruct Ht2 as (h2 & _ & Ht2).
          apply bind_ok in Ht2. destruct Ht2 as (h3 & _ & Ht2). apply bind_ok in Ht2. destruct Ht2 as (h4 & _ & Ht2). injection Ht2 as <-.
          auto. }
      destruct X as (X1 & X2 & X3). rewrite (kp_values _ _ V3), (kp_fixed _ _ V3), (kp_diving _ _ V3). repeat split; congruence. }
    intros Hf NH k Hk.
    assert (Hf3 : s_more s3 = false) by (assert (X := ss_more _ _ P1); cbn [s_more set_progress] in X; congruence).
    assert (NH' : cg_strategy C <> None \/ p = Exact).
    { destruct NH as [NH|NH]; [left; exact NH|right]. apply B2. rewrite A3. exact NH. }
    destruct (V4 Hf3 NH' k) as (pool & Q1 & Q2 & Q3); [apply in_seq; lia|].
    exists pool. split; [eapply grown_trans; eassumption|]. auto.
  Qed.

  (** ** The loop *)
  Lemma generation_run : forall f s s', column_generation E C f s = Ok s' -> exists n, (n <= f)%nat /\ run E C n s s'.
  Proof.
    induction f as [|f IH]; intros s s' H; cbn [column_generation] in H; destruct (s_more s) eqn:M; cbn [negb] in H.
    - discriminate.
    - injection H as <-. exists 0%nat. split; [lia|apply run_end; exact M].
    - apply bind_ok in H. destruct H as (s1 & H1 & H). cbv zeta in H. destruct (time_up E C s1) eqn:T.
      { injection H as <-. exists 1%nat. split; [lia|]. apply run_limit; auto. }
      destruct (limit_reached C (tick (tick s1))) eqn:L.
      { injection H as <-. exists 1%nat. split; [lia|]. apply run_limit; auto. }
      destruct (IH _ _ H) as (n & Hn & R). exists (S n). split; [lia|]. eapply run_next; eauto.
    - injection H as <-. exists 0%nat. split; [lia|apply run_end; exact M].
  Qed.
  Lemma run_generation n s s' : run E C n s s' -> forall f, (n <= f)%nat -> column_generation E C f s = Ok s'.
  Proof.
    intro R. induction R as [s M|s s1 M H L|n s s1 s2 M H T L R IH]; intros f Hf.
    - destruct f; cbn [column_generation]; rewrite M; reflexivity.
    - destruct f as [|f]; [lia|]. cbn [column_generation]. rewrite M, H. cbn [negb bind].
      destruct (time_up E C s1); [reflexivity|]. destruct L as [L|L]; [discriminate|].
      change (limit_reached C (tick (tick s1))) with (limit_reached C s1). rewrite L. reflexivity.
    - destruct f as [|f]; [lia|]. cbn [column_generation]. rewrite M, H. cbn [negb bind]. rewrite T.
      change (limit_reached C (tick (tick s1))) with (limit_reached C s1). rewrite L. apply IH. lia.
  Qed.
  Theorem generation_is_run f s s' :
    column_generation E C f s = Ok s' <-> exists n, (n <= f)%nat /\ run E C n s s'.
  Proof.
    split; [apply generation_run|]. intros (n & Hn & R). exact (run_generation n s s' R f Hn).
  Qed.

  Lemma inv_tick s : inv C g s -> inv C g (tick (tick s)).
  Proof. intros []. constructor; assumption. Qed.
  Lemma inv_dive s : inv C g s -> inv C g (start_dive s).
  Proof. intros []. constructor; assumption. Qed.

  (** Everything that is true of single iterations is true of runs. *)
  Theorem run_ok n s s' : run E C n s s' -> inv C g s ->
    inv C g s' /\ grown E C g (s_pool s) (s_pool s') /\ s_iter s' = (s_iter s + n)%nat /\ s_dive s' = s_dive s /\
    (s_more s = true -> (1 <= n)%nat).
  Proof.
    intro R. induction R as [s M|s s1 M H L|n s s1 s2 M H T L R IH]; intro I.
    - split; [exact I|]. split; [apply g_start|]. split; [lia|]. split; [reflexivity|]. intro; congruence.
    - destruct (find_columns_ok _ _ I H) as (F1 & F2 & F3 & F4 & F5 & _). split; [apply inv_tick; exact F1|].
      split; [exact F2|]. split; [cbn [s_iter tick]; lia|]. split; [exact F4|]. lia.
    - destruct (find_columns_ok _ _ I H) as (F1 & F2 & F3 & F4 & F5 & _).
      destruct (IH (inv_tick _ F1)) as (J1 & J2 & J3 & J4 & J5). split; [exact J1|].
      split; [eapply grown_trans; [exact F2|exact J2]|]. split; [rewrite J3; cbn [s_iter tick]; lia|].
      split; [rewrite J4; exact F4|]. lia.
  Qed.

  (** A run that ends because no column was found: in the last iteration exact pricing failed. *)
  Theorem run_exhausted n s s' : run E C n s s' -> inv C g s -> s_more s = true -> s_more s' = false ->
    cg_strategy C <> None ->
    exists st s1 D q, starts E C s st /\ inv C g st /\ s_dive st = s_dive s /\
      grown E C g (s_pool s) (s_pool st) /\ solve_relaxed E C st = Ok (s1, D, q) /\
      exact_failed_for_all E C g D (s_pool st) (s_pool s') /\
      s_bounds s' = (if s_dive st then s_bounds st else s_bounds st ++ [q]) /\
      (s_dive s = false -> s_values s' = s_values s1 /\ s_fixed s' = s_fixed s).
  Proof.
    intros R. induction R as [s M|s s1 M H L|n s s1 s2 M H T L R IH]; intros I M1 M2 NH.
    - congruence.
    - destruct (find_columns_ok _ _ I H) as (F1 & F2 & F3 & F4 & F5 & t & D & q & Q1 & Q2 & Q3 & Q4).
      exists s, t, D, q. split; [apply starts_first; exact M|]. split; [exact I|]. split; [reflexivity|]. split; [apply g_start|].
      split; [exact Q1|]. split; [apply Q4; [exact M2|left; exact NH]|]. split; [exact Q2|].
      intro Hd. destruct (Q3 Hd) as (X1 & X2 & _). auto.
    - destruct (find_columns_ok _ _ I H) as (F1 & F2 & F3 & F4 & F5 & t & D & q & Q1 & Q2 & Q3 & Q4).
      destruct (s_more s1) eqn:Ms1.
      + destruct (IH (inv_tick _ F1) Ms1 M2 NH) as (st & t1 & D1 & q1 & S1 & S2 & S3 & S4 & S5 & S6 & S7 & S8).
        exists st, t1, D1, q1. split; [|split; [exact S2|split; [rewrite S3; exact F4|]]].
        * clear - S1 M H T L Ms1. induction S1 as [|st u S1 IH S2 S3 S4 S5].
          -- eapply starts_next; [apply starts_first; exact M|exact H|exact T|exact L|exact Ms1].
          -- eapply starts_next; eassumption.
        * split; [eapply grown_trans; [exact F2|exact S4]|]. split; [exact S5|]. split; [exact S6|]. split; [exact S7|].
          intro Hd. assert (Hd1 : s_dive (tick (tick s1)) = false) by (cbn [s_dive tick]; congruence). destruct (S8 Hd1) as (X1 & X2).
          split; [exact X1|]. cbn [s_fixed tick] in X2. rewrite X2. apply Q3. exact Hd.
      + assert (Es : s2 = tick (tick s1)).
        { inversion R as [? Ex1 Ex2 Ex3|? ? M3|? ? ? ? M3]; subst; [reflexivity| |]; cbn [s_more tick] in M3; congruence. }
        subst s2. exists s, t, D, q. split; [apply starts_first; exact M|]. split; [exact I|]. split; [reflexivity|].
        split; [apply g_start|]. split; [exact Q1|]. split; [apply Q4; [reflexivity|left; exact NH]|]. split; [exact Q2|].
        intro Hd. destruct (Q3 Hd) as (X1 & X2 & _). auto.
  Qed.

  (** Why runs end. *)
  Theorem run_ends n s s' : run E C n s s' -> s_more s = true ->
    exists st s1, starts E C s st /\ find_columns E C st = Ok s1 /\ s' = tick (tick s1) /\
      (s_more s1 = false \/ time_up E C s1 = true \/ limit_reached C s1 = true).
  Proof.
    intro R. induction R as [s M|s s1 M H L|n s s1 s2 M H T L R IH]; intro M1.
    - congruence.
    - exists s, s1. split; [apply starts_first; exact M|]. auto.
    - destruct (s_more s1) eqn:Ms1.
      + destruct (IH Ms1) as (st & u & S1 & S2 & S3 & S4). exists st, u. split; [|auto].
        clear - S1 M H T L Ms1. induction S1 as [|st v S1 IH S2 S3 S4 S5].
        * eapply starts_next; [apply starts_first; exact M|exact H|exact T|exact L|exact Ms1].
        * eapply starts_next; eassumption.
      + assert (Es : s2 = tick (tick s1)).
        { inversion R as [? Ex1 Ex2 Ex3|? ? M3|? ? ? ? M3]; subst; [reflexivity| |]; cbn [s_more tick] in M3; congruence. }
        subst s2. exists s, s1. split; [apply starts_first; exact M|]. auto.
  Qed.

  (** ** The limit on the iterations *)
  Lemma find_iter s s' : find_columns E C s = Ok s' -> s_iter s' = S (s_iter s).
  Proof.
    intro H. unfold find_columns in H. apply bind_ok in H. destruct H as ([[s1 D] q] & H1 & H).
    apply bind_ok in H. destruct H as ([s2 p] & H2 & H). apply bind_ok in H. destruct H as (s3 & H3 & H4). cbn [fst snd] in H3.
    destruct (solve_relaxed_ok _ _ _ _ H1) as (A1 & _). destruct (next_strategy_ok _ _ _ _ H2) as (B1 & _).
    destruct (progress_ok _ _ _ H4) as (_ & _ & P3 & _). rewrite P3. f_equal.
    transitivity (s_iter s2); [|rewrite (ss_iter _ _ B1); exact (ss_iter _ _ A1)].
    assert (V : forall k t s s', (k < cg_types C)%nat -> greedy_step E C D k s = Ok s' \/ t = s' -> greedy_step E C D k s = Ok s' -> s_iter s' = s_iter s).
    { intros k _ u u' _ _ Hu. unfold greedy_step in Hu. destruct (greedy_applies C); [|injection Hu as <-; reflexivity].
      apply bind_ok in Hu. destruct Hu as (h & _ & Hu). apply bind_ok in Hu. destruct Hu as ([pool more] & _ & Hu). cbn [fst snd] in Hu.
      destruct more; [|injection Hu as <-; reflexivity]. apply bind_ok in Hu. destruct Hu as (m & _ & Hu). injection Hu as <-. reflexivity. }
    assert (W : forall ks u u', (forall k, In k ks -> (k < cg_types C)%nat) -> vehicles E C p D ks u = Ok u' -> s_iter u' = s_iter u).
    { induction ks as [|k ks IH]; intros u u' Hks Hu; cbn [vehicles] in Hu; [injection Hu as <-; reflexivity|].
      assert (Hk := Hks k (or_introl eq_refl)).
      apply bind_ok in Hu. destruct Hu as (u1 & Hu1 & Hu). cbv zeta in Hu. apply bind_ok in Hu. destruct Hu as ([u2 b] & Hu2 & Hu).
      cbn [fst snd] in Hu. assert (L : looked E C g (set_more false u1) u2 b).
      { destruct (mo_span (cg_master C)); [eapply per_route_looked|eapply solve_subproblem_looked]; eassumption. }
      assert (Li := fr_iter _ _ _ (lk_frame _ _ _ _ _ _ L)). cbn [s_iter set_more] in Li.
      rewrite (V k u1 u u1 Hk (or_intror eq_refl) Hu1) in Li.
      destruct b.
      - unfold adopt in Hu. apply bind_ok in Hu. destruct Hu as (c & _ & Hu). apply bind_ok in Hu. destruct Hu as (m & _ & Hu).
        injection Hu as <-. exact Li.
      - apply bind_ok in Hu. destruct Hu as (u4 & Hu4 & Hu). rewrite (IH u4 u'); [|intros k' Hk'; apply Hks; right; exact Hk'|exact Hu].
        rewrite <- Li. destruct (cg_strategy C); [injection Hu4 as <-; reflexivity|].
        apply bind_ok in Hu4. destruct Hu4 as (h & _ & Hu4). injection Hu4 as <-. reflexivity. }
    apply (W (seq 0 (cg_types C))); [|exact H3]. intros k Hk. apply in_seq in Hk. lia.
  Qed.

  Theorem run_counts n s s' : run E C n s s' -> s_iter s' = (s_iter s + n)%nat.
  Proof.
    intro R. induction R as [s M|s s1 M H L|n s s1 s2 M H T L R IH].
    - lia.
    - cbn [s_iter tick]. rewrite (find_iter _ _ H). lia.
    - rewrite IH. cbn [s_iter tick]. rewrite (find_iter _ _ H). lia.
  Qed.
  Theorem run_starts n s s' : run E C n s s' -> (s_more s = true <-> (1 <= n)%nat).
  Proof. intro R. destruct R as [s M|s s1 M H L|n s s1 s2 M H T L R]; rewrite M; split; intro; try lia; congruence. Qed.

  Theorem run_limited n s s' m : run E C n s s' -> cg_max_iter C = Some m -> (1 <= m)%Z ->
    (Z.of_nat n <= Z.max 1 (m - Z.of_nat (s_iter s)))%Z.
  Proof.
    intros R Em Hm. induction R as [s M|s s1 M H L|n s s1 s2 M H T L R IH]; [lia|lia|].
    assert (Fi := find_iter _ _ H). cbn [s_iter tick] in IH.
    assert (Lt : (Z.of_nat (s_iter s1) < m)%Z).
    { unfold limit_reached in L. rewrite Em in L. apply orb_false_iff in L. destruct L as [_ L].
      assert (Hm0 : (m =? 0)%Z = false) by lia. rewrite Hm0 in L. cbn [negb andb] in L. lia. }
    lia.
  Qed.

  (** ** The time limit *)
  Lemma remaining_bounds l t : cg_time_limit C = Some l -> 0 < l ->
    time_remaining C false t = Some (if Qltb 0 (l - (t - cg_start C)) then l - (t - cg_start C) else 0) /\
    time_remaining C true t = Some (if Qltb (5 # 1) (l - (t - cg_start C)) then l - (t - cg_start C) else 5 # 1).
  Proof.
    intros El Hl. unfold time_remaining. rewrite El. assert (Ne : Qeq_bool l 0 = false).
    { destruct (Qeq_bool l 0) eqn:X; [|reflexivity]. apply Qeq_bool_iff in X. lra. }
    rewrite Ne. split; [destruct (Qltb _ _); reflexivity|]. unfold pymax2. destruct (Qltb _ _); reflexivity.
  Qed.

  Theorem starts_in_time s st l : starts E C s st -> cg_time_limit C = Some l -> 0 < l ->
    st = s \/ exists n, s_tick st = S n /\ e_clock E n - cg_start C < l.
  Proof.
    intros St El Hl. destruct St as [M|st s1 St H T L M]; [left; reflexivity|right].
    exists (S (s_tick s1)). split; [reflexivity|].
    unfold time_up in T. destruct (remaining_bounds l (now E s1) El Hl) as [E0 _]. rewrite E0 in T.
    destruct (remaining_bounds l (now E (tick s1)) El Hl) as [E1 _]. rewrite E1 in T. cbn [s_tick tick] in *.
    change (now E (tick s1)) with (e_clock E (S (s_tick s1))) in T.
    destruct (Qltb 0 (l - (e_clock E (S (s_tick s1)) - cg_start C))) eqn:X; [|discriminate].
    apply Qltb_lt in X. lra.
  Qed.
End Run.
