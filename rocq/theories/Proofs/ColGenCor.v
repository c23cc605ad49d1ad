(** Column generation from a fresh problem to its end. *)
From Coq Require Import Relations.
From Verif.Base Require Import Prelude Graph.
From Verif.Spec Require Import Routes Network LinProg Pricing MIP Columns Pool Master Duality Run.
From Verif.Model Require Import Args Reach Checks Preprocess ClarkeWright Greedy Initial Pricing
  GreedyPricing LPPricing Cspy Master Dive Hyper ColGen.
From Verif.Proofs Require Import RouteLemmas PricingProofs MasterProofs SelectProofs PoolProofs PoolQuality ColGenProofs RunProofs
  BoundProofs HyperProofs DiveProofs.

Section Cor.
  Variable E : env.
  Variable C : cgconfig.
  Variable g : vgraph.

  Lemma fresh_inv s : fresh C g s -> inv C g s.
  Proof.
    intros F. destruct (fs_pool _ _ _ F) as (mixed & perms & given & rs & H).
    eapply initial_inv; [exact H|exact (fs_master _ _ _ F)|exact (fs_graph _ _ _ F)|reflexivity|reflexivity].
  Qed.
  Lemma fresh_dive_inv s : fresh C g s -> dive_inv s.
  Proof.
    intros F. destruct (fs_diving _ _ _ F) as [D1 D2]. constructor; rewrite ?(fs_fixed _ _ _ F), ?D1; try (cbn; lia).
    - constructor.
    - intros v [].
  Qed.
  Lemma starts_inv s st : starts E C s st -> inv C g s -> inv C g st.
  Proof.
    intros H I. induction H as [M|st s1 S IH H T L M]; [exact I|]. apply inv_tick. apply (find_columns_ok E C g _ _ IH H).
  Qed.
  Lemma starts_dive s st : starts E C s st -> s_dive st = s_dive s.
  Proof.
    intros H. induction H as [M|st s1 S IH H T L M]; [reflexivity|]. cbn [s_dive tick].
    transitivity (s_dive st); [|exact IH]. clear - H.
    unfold find_columns in H. apply bind_ok in H. destruct H as ([[s1' D] q] & H1 & H).
    apply bind_ok in H. destruct H as ([s2 p] & H2 & H). apply bind_ok in H. destruct H as (s3 & H3 & H4). cbn [fst snd] in H3.
    destruct (solve_relaxed_ok E C _ _ _ _ H1) as (A1 & _). destruct (next_strategy_ok E C _ _ _ _ H2) as (B1 & _).
    assert (X3 : s_dive s3 = s_dive s2).
    { assert (W : forall ks u u', (forall k, In k ks -> (k < cg_types C)%nat) -> vehicles E C p D ks u = Ok u' -> s_dive u' = s_dive u).
      { induction ks as [|k ks IH]; intros u u' Hks Hu; cbn [vehicles] in Hu; [injection Hu as <-; auto|].
        assert (Hk := Hks k (or_introl eq_refl)).
        apply bind_ok in Hu. destruct Hu as (u1 & Hu1 & Hu). cbv zeta in Hu. apply bind_ok in Hu. destruct Hu as ([u2 b2] & Hu2 & Hu).
        cbn [fst snd] in Hu.
        assert (Q1 : s_dive u1 = s_dive u).
        { unfold greedy_step in Hu1. destruct (greedy_applies C); [|injection Hu1 as <-; auto].
          apply bind_ok in Hu1. destruct Hu1 as (h & _ & Hu1). apply bind_ok in Hu1. destruct Hu1 as ([pool more] & _ & Hu1). cbn [fst snd] in Hu1.
          destruct more; [|injection Hu1 as <-; auto]. apply bind_ok in Hu1. destruct Hu1 as (m & _ & Hu1). injection Hu1 as <-. auto. }
        assert (L : looked E C (s_graph u) (set_more false u1) u2 b2).
        { destruct (mo_span (cg_master C)); [eapply per_route_looked|eapply solve_subproblem_looked]; eassumption. }
        assert (Lf := fr_dive _ _ _ (lk_frame _ _ _ _ _ _ L)). cbn [s_dive set_more] in Lf.
        destruct b2.
        - unfold adopt in Hu. apply bind_ok in Hu. destruct Hu as (c & _ & Hu). apply bind_ok in Hu. destruct Hu as (m & _ & Hu).
          injection Hu as <-. cbn [s_dive set_master set_more]. congruence.
        - apply bind_ok in Hu. destruct Hu as (u4 & Hu4 & Hu).
          rewrite (IH u4 u'); [|intros k' Hk'; apply Hks; right; exact Hk'|exact Hu].
          destruct (cg_strategy C); [injection Hu4 as <-; cbn; congruence|].
          apply bind_ok in Hu4. destruct Hu4 as (h & _ & Hu4). injection Hu4 as <-. cbn; congruence. }
      eapply W; [|exact H3]. intros k Hk. apply in_seq in Hk. lia. }
    unfold progress in H4. apply bind_ok in H4. destruct H4 as (b & _ & H4). injection H4 as <-. cbn [s_dive set_progress].
    rewrite X3, (ss_dive _ _ B1). exact (ss_dive _ _ A1).
  Qed.

  Lemma stopped_iff s1 : time_up E C s1 = true \/ limit_reached C s1 = true -> stopped E C (tick (tick s1)).
  Proof.
    intros [T|L].
    - unfold time_up in T. assert (L : exists l, cg_time_limit C = Some l /\ Qeq_bool l 0 = false).
      { unfold time_remaining in T. destruct (cg_time_limit C) as [l|]; [|discriminate]. exists l. split; [reflexivity|].
        destruct (Qeq_bool l 0); [discriminate|reflexivity]. }
      destruct L as (l & El & Nl). apply (by_time _ _ _ l (S (s_tick s1)) El); [apply Qeq_bool_neq; exact Nl|reflexivity|].
      unfold time_remaining in T. rewrite El, Nl in T. cbn [s_tick tick] in T.
      change (now E (tick s1)) with (e_clock E (S (s_tick s1))) in T.
      destruct (Qltb 0 (l - (e_clock E (S (s_tick s1)) - cg_start C))) eqn:X.
      + apply Qltb_lt in X. destruct (Qltb 0 (l - (now E s1 - cg_start C))); apply Qeq_bool_iff in T; lra.
      + apply Qltb_ge in X. lra.
    - unfold limit_reached in L. apply orb_true_iff in L. destruct L as [L|L].
      + apply by_stagnation. cbn [s_noimp tick]. lia.
      + destruct (cg_max_iter C) as [m|] eqn:Em; [|discriminate]. apply andb_true_iff in L. destruct L as [L1 L2].
        apply negb_true_iff, Z.eqb_neq in L1. apply (by_iterations _ _ _ m Em L1). cbn [s_iter tick]. lia.
  Qed.

  (** The last iteration of a run. *)
  Theorem last_iteration n s s' : run E C n s s' -> inv C g s -> s_more s = true ->
    exists st s1 D q sl, starts E C s st /\ solve_relaxed E C st = Ok (s1, D, q) /\ find_columns E C st = Ok sl /\ s' = tick (tick sl) /\
      (s_more s' = true -> stopped E C s') /\
      (s_more s' = false -> cg_strategy C <> None \/ Z.of_nat (s_noimp st) = cg_run_exact C ->
       exact_failed_for_all E C g D (s_pool st) (s_pool s')).
  Proof.
    intros R I M. destruct (run_ends E C n s s' R M) as (st & sl & S1 & S2 & -> & S3).
    destruct (find_columns_ok E C g st sl (starts_inv _ _ S1 I) S2) as (_ & _ & _ & _ & _ & s1 & D & q & F1 & _ & _ & F4).
    exists st, s1, D, q, sl. split; [exact S1|]. split; [exact F1|]. split; [exact S2|]. split; [reflexivity|]. split.
    - intro X. cbn [s_more tick] in X. apply stopped_iff. destruct S3 as [S3|S3]; [congruence|exact S3].
    - exact F4.
  Qed.

  Theorem exhausted f s s' : fresh C g s -> column_generation E C f s = Ok s' ->
    exists st s1 D q sl, starts E C s st /\ solve_relaxed E C st = Ok (s1, D, q) /\ find_columns E C st = Ok sl /\ s' = tick (tick sl) /\
      (s_more s' = true -> stopped E C s') /\
      (s_more s' = false -> cg_strategy C <> None \/ Z.of_nat (s_noimp st) = cg_run_exact C ->
       exact_failed_for_all E C g D (s_pool st) (s_pool s')).
  Proof.
    intros F H. apply generation_is_run in H. destruct H as (n & _ & R).
    exact (last_iteration n s s' R (fresh_inv _ F) (fs_more _ _ _ F)).
  Qed.
  Theorem exhausted_dive f f2 s s' : fresh C g s -> generate_and_dive E C f f2 s = Ok s' ->
    exists s0 st s1 D q sl, column_generation E C f s = Ok s0 /\ starts E C (start_dive s0) st /\
      solve_relaxed E C st = Ok (s1, D, q) /\ find_columns E C st = Ok sl /\ s' = tick (tick sl) /\
      (s_more s' = true -> stopped E C s') /\
      (s_more s' = false -> cg_strategy C <> None \/ Z.of_nat (s_noimp st) = cg_run_exact C ->
       exact_failed_for_all E C g D (s_pool st) (s_pool s')).
  Proof.
    intros F H. unfold generate_and_dive in H. apply bind_ok in H. destruct H as (s0 & H0 & H).
    assert (H0' := H0). apply generation_is_run in H0. destruct H0 as (n0 & _ & R0). apply generation_is_run in H. destruct H as (n & _ & R).
    destruct (run_ok E C g n0 s s0 R0 (fresh_inv _ F)) as (I0 & _).
    exists s0. destruct (last_iteration n _ s' R (inv_dive C g s0 I0) eq_refl) as (st & s1 & D & q & sl & X). exists st, s1, D, q, sl. tauto.
  Qed.

  (** ** The number of iterations *)
  Theorem iterations f s s' m : fresh C g s -> cg_max_iter C = Some m -> (1 <= m)%Z -> column_generation E C f s = Ok s' ->
    (1 <= Z.of_nat (s_iter s') <= m)%Z.
  Proof.
    intros F Em Hm H. apply generation_is_run in H. destruct H as (n & _ & R).
    assert (A := run_limited E C g n s s' m R Em Hm). assert (B := run_counts E C g n s s' R).
    rewrite (fs_iter _ _ _ F) in *. assert (D := proj1 (run_starts E C n s s' R) (fs_more _ _ _ F)). lia.
  Qed.
  Theorem iterations_dive f f2 s s' m : fresh C g s -> cg_max_iter C = Some m -> (1 <= m)%Z -> generate_and_dive E C f f2 s = Ok s' ->
    (2 <= Z.of_nat (s_iter s') <= m + 1)%Z.
  Proof.
    intros F Em Hm H. unfold generate_and_dive in H. apply bind_ok in H. destruct H as (s0 & H0 & H).
    assert (I := iterations _ _ _ _ F Em Hm H0). apply generation_is_run in H. destruct H as (n & _ & R).
    assert (A := run_limited E C g n _ s' m R Em Hm). assert (B := run_counts E C g n _ s' R).
    cbn [s_iter start_dive] in *. assert (D := proj1 (run_starts E C n _ s' R) eq_refl). lia.
  Qed.
  (** Every iteration ends, or fails: more fuel makes no difference. *)
  Lemma enough_fuel m : cg_max_iter C = Some m -> (1 <= m)%Z -> forall f s, (Z.to_nat (Z.max 1 (m - Z.of_nat (s_iter s))) <= f)%nat ->
    column_generation E C f s = column_generation E C (Z.to_nat (Z.max 1 (m - Z.of_nat (s_iter s)))) s.
  Proof.
    intros Em Hm f. assert (G : forall n s f, (Z.to_nat (Z.max 1 (m - Z.of_nat (s_iter s))) <= n)%nat -> (n <= f)%nat ->
      column_generation E C f s = column_generation E C n s).
    { induction n as [|n IH]; intros s f0 Hn Hf; [lia|]. destruct f0 as [|f0]; [lia|]. cbn [column_generation].
      destruct (negb (s_more s)); [reflexivity|]. destruct (find_columns E C s) as [s1|e] eqn:X; [|reflexivity]. cbn [bind].
      destruct (time_up E C s1); [reflexivity|]. destruct (limit_reached C (tick (tick s1))) eqn:L; [reflexivity|].
      apply IH; [|lia]. assert (Fi := find_iter _ _ g _ _ X). cbn [s_iter tick].
      unfold limit_reached in L. rewrite Em in L. apply orb_false_iff in L. destruct L as [_ L].
      assert (Hm0 : (m =? 0)%Z = false) by lia. rewrite Hm0 in L. cbn [negb andb s_iter tick] in L. lia. }
    intros s Hf. apply G; [lia|exact Hf].
  Qed.
  Theorem fuel_irrelevant f s m : fresh C g s -> cg_max_iter C = Some m -> (1 <= m)%Z -> (Z.to_nat m <= f)%nat ->
    column_generation E C f s = column_generation E C (Z.to_nat m) s.
  Proof.
    intros F Em Hm Hf. assert (G := enough_fuel m Em Hm). specialize (G f s). rewrite (fs_iter _ _ _ F) in G.
    replace (Z.max 1 (m - Z.of_nat 0)) with m in G by lia. apply G. exact Hf.
  Qed.

  (** ** Time *)
  Theorem in_time s st l : iteration E C s st -> cg_time_limit C = Some l -> 0 < l ->
    (st = s \/ exists f s1, column_generation E C f s = Ok s1 /\ st = start_dive s1) \/
    exists n, s_tick st = S n /\ e_clock E n - cg_start C < l.
  Proof.
    intros I El Hl. destruct I as [st S|f s1 st H S].
    - destruct (starts_in_time E C s st l S El Hl) as [->|X]; auto.
    - destruct (starts_in_time E C _ st l S El Hl) as [->|X]; [left; right; eauto|auto].
  Qed.

  (** ** The hyper-heuristic *)
  Lemma grown_length a b : grown E C g a b -> (List.length a <= List.length b)%nat.
  Proof.
    intro H. induction H as [|p1 p2 H IH P|p1 p2 H IH P]; [lia| |].
    - apply priced_step, step_good in P. destruct P as [(l & ->) _]. rewrite app_length. lia.
    - unfold same_columns in P. assert (X := f_equal (@List.length column) P). rewrite !map_length in X. lia.
  Qed.
  Lemma starts_good s st : (forall i j, 0 <= e_ucb E i j) -> starts E C s st -> inv C g s ->
    (Z.of_nat (List.length (s_pool st)) <= 10000000000)%Z -> good s -> good st.
  Proof.
    intros U S I L G. induction S as [M|st s1 S IH H T LL M]; [exact G|].
    cbn [s_pool tick] in L. destruct (find_columns_ok E C g st s1 (starts_inv _ _ S I) H) as (_ & Gr & _). apply grown_length in Gr.
    assert (L0 : (Z.of_nat (List.length (s_pool st)) <= 10000000000)%Z) by lia.
    exact (find_columns_good E C U _ _ H (starts_more _ _ _ _ S) L0 (IH L0)).
  Qed.
  Lemma generation_good f s s' : (forall i j, 0 <= e_ucb E i j) -> good s -> column_generation E C f s = Ok s' -> inv C g s ->
    (Z.of_nat (List.length (s_pool s')) <= 10000000000)%Z -> good s'.
  Proof.
    intros U G H I L. apply generation_is_run in H. destruct H as (n & _ & R).
    destruct (s_more s) eqn:M.
    - destruct (run_ends E C n s s' R M) as (st & sl & S1 & S2 & -> & _).
      destruct (find_columns_ok E C g st sl (starts_inv _ _ S1 I) S2) as (_ & Gr & _). apply grown_length in Gr. cbn [s_pool tick] in L.
      assert (L0 : (Z.of_nat (List.length (s_pool st)) <= 10000000000)%Z) by lia.
      exact (find_columns_good E C U _ _ S2 (starts_more _ _ _ _ S1) L0 (starts_good _ _ U S1 I L0 G)).
    - destruct R as [s M'|s s1 M' H' L'|n s s1 s2 M' H' T L' R']; [exact G|congruence|congruence].
  Qed.
  Lemma starts_grown s st : starts E C s st -> inv C g s -> grown E C g (s_pool s) (s_pool st).
  Proof.
    intros S I. induction S as [M|st s1 S IH H T LL M]; [apply g_start|].
    destruct (find_columns_ok E C g st s1 (starts_inv _ _ S I) H) as (_ & Gr & _). cbn [s_pool tick]. eapply grown_trans; eassumption.
  Qed.
  Lemma fresh_good s : fresh C g s -> good s.
  Proof.
    intros F h Eh. rewrite (fs_hyper _ _ _ F) in Eh. destruct (cg_strategy C); [discriminate|]. injection Eh as <-. exact new_sane.
  Qed.

  Theorem hyper_selection s st s1 D q s2 p : (forall i j, 0 <= e_ucb E i j) -> cg_strategy C = None -> fresh C g s ->
    iteration E C s st -> (Z.of_nat (List.length (s_pool st)) <= 10000000000)%Z ->
    (0 < s_iter st)%nat -> Z.of_nat (s_noimp st) <> cg_run_exact C ->
    solve_relaxed E C st = Ok (s1, D, q) -> next_strategy E C q s1 = Ok (s2, p) ->
    exists h2, s_hyper s2 = Some h2 /\ hy_current h2 = Some p /\
      (forall x, at_ (hy_points h2) x <= at_ (hy_points h2) p) /\
      (forall x, (0 < at_ (hy_iterations h2) p)%nat -> (0 < at_ (hy_iterations h2) x)%nat) /\
      1 # 10 <= hy_theta h2 <= 1.
  Proof.
    intros U CS F I L It Ni H1 H2. assert (G := fresh_good _ F). assert (I0 := fresh_inv _ F).
    assert (X : good st /\ s_more st = true).
    { destruct I as [st S|f s0 st H S]; (split; [|exact (starts_more _ _ _ _ S)]).
      - exact (starts_good _ _ U S I0 L G).
      - assert (R := H). apply generation_is_run in R. destruct R as (n & _ & R). destruct (run_ok E C g n s s0 R I0) as (I1 & _).
        apply (inv_dive C g) in I1. assert (Gr := starts_grown _ _ S I1). apply grown_length in Gr. cbn [s_pool start_dive] in Gr.
        refine (starts_good _ _ U S I1 L _). assert (L0 : (Z.of_nat (List.length (s_pool s0)) <= 10000000000)%Z) by lia.
        exact (generation_good _ _ _ U G H I0 L0). }
    destruct X as [Gst M]. exact (selection E C U st s1 D q s2 p CS Gst M L It Ni H1 H2).
  Qed.

  (** While diving, BestPaths is counted, whatever was applied. *)
  Theorem counting_dive st s1 D q s2 p h : cg_strategy C = None -> s_dive st = true -> (0 < s_iter st)%nat ->
    Z.of_nat (s_noimp st) <> cg_run_exact C ->
    solve_relaxed E C st = Ok (s1, D, q) -> next_strategy E C q s1 = Ok (s2, p) ->
    s_hyper st = Some h ->
    exists h2, s_hyper s2 = Some h2 /\
      forall x, at_ (hy_iterations h2) x = (at_ (hy_iterations h) x + if strat_eqb BestPaths x then 1 else 0)%nat.
  Proof.
    intros CS Dv It Ni H1 H2 Eh.
    destruct (solve_relaxed_ok E C _ _ _ _ H1) as (A1 & A2 & A3 & _).
    assert (Eh1 : exists q0 t, s_hyper s1 = Some (init q0 t h)).
    { unfold solve_relaxed in H1. cbn [s_dive tick] in H1. rewrite Dv in H1. apply bind_ok in H1. destruct H1 as ([[[d fx] D1] a] & _ & H1).
      cbn [s_hyper set_solution tick] in H1. rewrite Eh in H1. injection H1 as <- <- <-. cbn [s_hyper tick set_hyper]. eauto. }
    destruct Eh1 as (q0 & t & Eh1).
    unfold next_strategy in H2. rewrite A3 in H2. apply Z.eqb_neq in Ni. rewrite Ni, CS in H2.
    rewrite (ss_iter _ _ A1) in H2. destruct (s_iter st =? 0)%nat eqn:Ei; [apply Nat.eqb_eq in Ei; lia|].
    apply bind_ok in H2. destruct H2 as (s3 & H3 & H2). apply bind_ok in H2. destruct H2 as (h3 & Hh & H2).
    destruct (pick_heuristic (e_choice E (s_tick s3)) h3) as [h1 p1] eqn:Ep. injection H2 as <- <-.
    destruct (pick_best _ _ _ _ Ep) as [_ ->]. exists (set_current p1 h3). split; [reflexivity|].
    unfold update_hyper in H3. apply bind_ok in H3. destruct H3 as ([[pool counts] total] & Hd & H3).
    apply bind_ok in H3. destruct H3 as (h' & Hh' & H3). apply bind_ok in H3. destruct H3 as (h4 & H4 & H3).
    apply bind_ok in H3. destruct H3 as (h5 & H5 & H3). injection H3 as <-. cbn [s_hyper set_noimp] in Hh'. rewrite Eh1 in Hh'. injection Hh' as <-.
    cbn [s_hyper set_hyper] in Hh. injection Hh as <-.
    destruct (performance_counts _ _ _ _ _ _ _ _ H4) as (cur' & Hc & Hi). cbn [hy_current init] in Hc. injection Hc as <-.
    unfold update_parameters in H5. apply bind_ok in H5. destruct H5 as (pts & _ & H5). injection H5 as <-. exact Hi.
  Qed.
End Cor.
