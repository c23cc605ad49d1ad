(** The hyper-heuristic. *)
From Verif.Base Require Import Prelude Graph.
From Verif.Spec Require Import Routes Network LinProg Pool Master Run.
From Verif.Model Require Import Args Reach Checks Preprocess ClarkeWright Greedy Initial Pricing
  GreedyPricing LPPricing Cspy Master Dive Hyper ColGen.
From Verif.Proofs Require Import ColGenProofs RunProofs.

Lemma strat_eqb_eq a b : strat_eqb a b = true <-> a = b.
Proof. destruct a, b; cbn; split; intro H; congruence. Qed.
Lemma at_tab {A} (f : strat -> A) s : at_ (tab f) s = f s.
Proof. destruct s; reflexivity. Qed.
Lemma at_put {A} (p : per A) s a s' : at_ (put p s a) s' = if strat_eqb s s' then a else at_ p s'.
Proof. unfold put. rewrite at_tab. reflexivity. Qed.
Lemma at_all {A} (a : A) s : at_ (all a) s = a.
Proof. destruct s; reflexivity. Qed.
Lemma in_strats s : In s strats.
Proof. destruct s; cbn; auto. Qed.

(** ** The choice *)
Lemma max_points_ge h s : at_ (hy_points h) s <= max_points h.
Proof.
  unfold max_points. cbn [fold_left].
  destruct (Qltb (at_ (hy_points h) BestPaths) (at_ (hy_points h) BestEdges1)) eqn:E1;
  [apply Qltb_lt in E1|apply Qltb_ge in E1];
  (destruct (Qltb _ (at_ (hy_points h) BestEdges2)) eqn:E2; [apply Qltb_lt in E2|apply Qltb_ge in E2]);
  (destruct (Qltb _ (at_ (hy_points h) Exact)) eqn:E3; [apply Qltb_lt in E3|apply Qltb_ge in E3]);
  destruct s; lra.
Qed.
Lemma max_points_in h : exists s, at_ (hy_points h) s == max_points h.
Proof.
  unfold max_points. cbn [fold_left].
  destruct (Qltb (at_ (hy_points h) BestPaths) (at_ (hy_points h) BestEdges1));
  (destruct (Qltb _ (at_ (hy_points h) BestEdges2)));
  (destruct (Qltb _ (at_ (hy_points h) Exact)));
  first [exists Exact; reflexivity|exists BestEdges2; reflexivity|exists BestEdges1; reflexivity|exists BestPaths; reflexivity].
Qed.

Theorem pick_best choice h h1 p : pick_heuristic choice h = (h1, p) ->
  (forall s, at_ (hy_points h) s <= at_ (hy_points h) p) /\ h1 = set_current p h.
Proof.
  unfold pick_heuristic. intro H. injection H as <- <-. set (l := best_heuristics h).
  assert (NE : l <> []).
  { destruct (max_points_in h) as (s & Hs). assert (In s l); [|destruct l; [contradiction|discriminate]].
    unfold l, best_heuristics. apply filter_In. split; [apply in_strats|]. apply Qeq_bool_iff. exact Hs. }
  assert (I : In (nth (choice mod List.length l) l BestPaths) l).
  { apply nth_In. apply Nat.mod_upper_bound. destruct l; [contradiction|discriminate]. }
  split; [|reflexivity]. intro s. unfold l in I. unfold best_heuristics at 3 in I. apply filter_In in I. destruct I as [_ I].
  apply Qeq_bool_iff in I. fold l in I. assert (G := max_points_ge h s). lra.
Qed.

(** Each strategy of maximal score can be chosen. *)
Theorem pick_any h p : (forall s, at_ (hy_points h) s <= at_ (hy_points h) p) ->
  exists choice, pick_heuristic choice h = (set_current p h, p).
Proof.
  intro H. assert (I : In p (best_heuristics h)).
  { unfold best_heuristics. apply filter_In. split; [apply in_strats|]. apply Qeq_bool_iff.
    destruct (max_points_in h) as (s & Hs). assert (A := H s). assert (B := max_points_ge h p). lra. }
  destruct (In_nth _ _ BestPaths I) as (n & Hn & E). exists n. unfold pick_heuristic.
  rewrite Nat.mod_small by exact Hn. rewrite E. reflexivity.
Qed.

(** ** What is measured *)
Theorem performance_counts ucb q pr act n t h h1 : current_performance ucb q pr act n t h = Ok h1 ->
  exists cur, hy_current h = Some cur /\
    forall s, at_ (hy_iterations h1) s = (at_ (hy_iterations h) s + if strat_eqb cur s then 1 else 0)%nat.
Proof.
  unfold current_performance. intro H. apply bind_ok in H. destruct H as (st & _ & H). apply bind_ok in H.
  destruct H as (cur & Hc & H). apply bind_ok in H. destruct H as (q0 & _ & H). apply bind_ok in H. destruct H as (q1 & _ & H).
  injection H as <-. exists cur. split; [destruct (hy_current h); [injection Hc as ->; reflexivity|discriminate]|].
  intro s. cbn [hy_iterations]. rewrite at_put. destruct (strat_eqb cur s) eqn:X; [apply strat_eqb_eq in X; subst s; lia|lia].
Qed.

(** ** The invariant *)
Record sane (h : hyper) : Prop := {
  sa_theta : 1 # 10 <= hy_theta h <= 1;
  sa_decs : (forall s, 0 <= at_ (hy_decrease h) s) /\
    at_ (hy_decrease h) BestPaths + at_ (hy_decrease h) BestEdges1 + at_ (hy_decrease h) BestEdges2 + at_ (hy_decrease h) Exact <= hy_total h;
  sa_norm : forall s, 0 <= at_ (hy_norm_decrease h) s <= 1 /\ 0 <= at_ (hy_norm_runtime h) s <= 1;
  sa_exp : forall s, 0 <= at_ (hy_exp h) s;
  sa_added : forall s, (at_ (hy_iterations h) s <= at_ (hy_added h) s)%nat
}.
(** Untried strategies have the largest score, all others a smaller one. *)
Definition scored (h : hyper) : Prop :=
  forall s, (at_ (hy_iterations h) s = 0%nat -> at_ (hy_points h) s == inf) /\
            ((0 < at_ (hy_iterations h) s)%nat -> at_ (hy_points h) s < inf).

Lemma new_sane : sane new_hyper /\ scored new_hyper.
Proof.
  split; [|intro s; destruct s; cbn; split; intro; [reflexivity|lia|reflexivity|lia|reflexivity|lia|reflexivity|lia]].
  constructor.
  - cbn. lra.
  - split; [intro s; destruct s; cbn; lra|cbn; lra].
  - intro s. destruct s; cbn; lra.
  - intro s. destruct s; cbn; lra.
  - intro s. destruct s; cbn; lia.
Qed.
Lemma init_sane q t h : sane h -> sane (init q t h).
Proof. intros []. constructor; assumption. Qed.
Lemma set_end_sane t h : sane h -> sane (set_end t h).
Proof. intros []. constructor; assumption. Qed.
Lemma set_current_sane p h : sane h -> sane (set_current p h).
Proof. intros []. constructor; assumption. Qed.

Lemma rank_le l x : (rank l x <= List.length l)%nat.
Proof. unfold rank. induction l as [|y l IH]; cbn [filter List.length]; [lia|]. destruct (Qle_bool y x); cbn [List.length]; lia. Qed.
Lemma ratio_bounds a b : 0 <= a -> a <= b -> 0 < b -> 0 <= a / b <= 1.
Proof.
  intros Ha Hab Hb. split.
  - apply Qle_shift_div_l; [exact Hb|]. lra.
  - apply Qle_shift_div_r; [exact Hb|]. lra.
Qed.

Lemma performance_sane ucb q act n t h h1 : (forall i j, 0 <= ucb i j) ->
  current_performance ucb q true act n t h = Ok h1 -> sane h -> sane h1.
Proof.
  intros U H [S1 [S2 S2'] S3 S4 S5].
  unfold current_performance in H. apply bind_ok in H. destruct H as (st & _ & H). apply bind_ok in H.
  destruct H as (cur & Hc & H). apply bind_ok in H. destruct H as (q0 & _ & H). apply bind_ok in H. destruct H as (q1 & _ & H).
  injection H as <-.
  set (dec := pymax2 (q0 - q1) 0). assert (Hd : 0 <= dec).
  { unfold dec, pymax2. destruct (Qltb _ _) eqn:X; [lra|apply Qltb_ge in X; exact X]. }
  assert (D1 : forall s, 0 <= at_ (put (hy_decrease h) cur (at_ (hy_decrease h) cur + dec)) s).
  { intro s. rewrite at_put. destruct (strat_eqb cur s); [|apply S2]. assert (X := S2 cur). lra. }
  assert (D2 : at_ (put (hy_decrease h) cur (at_ (hy_decrease h) cur + dec)) BestPaths +
    at_ (put (hy_decrease h) cur (at_ (hy_decrease h) cur + dec)) BestEdges1 +
    at_ (put (hy_decrease h) cur (at_ (hy_decrease h) cur + dec)) BestEdges2 +
    at_ (put (hy_decrease h) cur (at_ (hy_decrease h) cur + dec)) Exact <= hy_total h + dec).
  { rewrite !at_put. destruct cur; cbn [strat_eqb]; lra. }
  constructor; cbn [hy_theta hy_decrease hy_total hy_norm_decrease hy_norm_runtime hy_exp hy_iterations hy_added].
  - exact S1.
  - split; [exact D1|exact D2].
  - intro s. rewrite !at_tab. split.
    + destruct ((0 <? _)%nat && Qltb 0 (hy_total h + dec)) eqn:X; [|apply S3]. apply andb_true_iff in X. destruct X as [_ X].
      apply Qltb_lt in X. apply ratio_bounds; [apply D1| |exact X].
      assert (A := D1 BestPaths). assert (B := D1 BestEdges1). assert (C := D1 BestEdges2). assert (F := D1 Exact). destruct s; lra.
    + destruct (0 <? _)%nat; [|apply S3]. assert (R := rank_le (hy_runtimes h ++ [t - st]) (at_ (put (hy_last h) cur (t - st)) s)).
      assert (Lp : (0 < List.length (hy_runtimes h ++ [(t - st)%Q]))%nat) by (rewrite app_length; cbn; lia).
      apply ratio_bounds.
      * change 0 with (inject_Z 0). rewrite <- Zle_Qle. lia.
      * rewrite <- Zle_Qle. lia.
      * change 0 with (inject_Z 0). rewrite <- Zlt_Qlt. lia.
  - intro s. rewrite at_tab. destruct (0 <? _)%nat; [apply U|apply S4].
  - intro s. rewrite !at_put. assert (X := S5 s). assert (Y := S5 cur). destruct (strat_eqb cur s); lia.
Qed.

Lemma new_theta_bounds h : 1 # 10 <= hy_theta h <= 1 -> 1 # 10 <= new_theta h <= 1.
Proof.
  intro H. unfold new_theta. destruct (_ && _); [lra|]. unfold pymax2.
  destruct (Qltb _ _) eqn:X; [lra|]. apply Qltb_ge in X. lra.
Qed.

Lemma spread_bounds h s : (forall s, 0 <= at_ (hy_exp h) s) -> 0 <= spread h s <= 1.
Proof.
  intro H. unfold spread. destruct (Qeq_bool (sum_exp h) 0) eqn:X; [lra|]. apply Qeq_bool_neq in X.
  assert (A := H BestPaths). assert (B := H BestEdges1). assert (C := H BestEdges2). assert (F := H Exact).
  unfold sum_exp in *. apply ratio_bounds; [apply H| |]; destruct s; cbn [at_] in *; lra.
Qed.

Lemma quality_bounds h s q : sane h -> (at_ (hy_active h) s <= hy_active_sum h)%nat -> quality h s = Ok q ->
  0 <= q <= (65 # 100) + (5 # 100) * inject_Z (Z.of_nat (hy_active_sum h)).
Proof.
  intros S A H. unfold quality in H. apply bind_ok in H. destruct H as (u & H1 & H). apply bind_ok in H. destruct H as (u2 & H2 & H).
  destruct (hy_active_sum h =? 0)%nat eqn:Z1; [discriminate|]. apply Nat.eqb_neq in Z1.
  destruct (at_ (hy_added h) s =? 0)%nat eqn:Z2; [discriminate|]. apply Nat.eqb_neq in Z2.
  injection H as <-. set (a := inject_Z (Z.of_nat (at_ (hy_active h) s))). set (m := inject_Z (Z.of_nat (hy_active_sum h))).
  set (d := inject_Z (Z.of_nat (at_ (hy_added h) s))).
  assert (Ha : 0 <= a) by (unfold a; change 0 with (inject_Z 0); rewrite <- Zle_Qle; lia).
  assert (Ham : a <= m) by (unfold a, m; rewrite <- Zle_Qle; lia).
  assert (Hm : 0 < m) by (unfold m; change 0 with (inject_Z 0); rewrite <- Zlt_Qlt; lia).
  assert (Hd : 1 <= d) by (unfold d; change 1 with (inject_Z 1); rewrite <- Zle_Qle; lia).
  destruct (sa_norm _ S s) as [N1 N2]. destruct (ratio_bounds a m Ha Ham Hm) as [R1 R2].
  assert (E1 : (5 # 10) * a / m == (5 # 10) * (a / m)) by (unfold Qdiv; ring).
  assert (E2 : (5 # 100) * a / d == (5 # 100) * (a / d)) by (unfold Qdiv; ring).
  assert (R3 : 0 <= a / d) by (apply Qle_shift_div_l; lra).
  assert (R4 : a / d <= m).
  { apply Qle_shift_div_r; [lra|]. assert (m * 1 <= m * d) by (apply Qmult_le_l; lra). lra. }
  rewrite E1, E2. lra.
Qed.

Lemma update_sane h h1 : update_parameters h = Ok h1 -> sane h -> sane h1.
Proof.
  intros H [S1 S2 S3 S4 S5]. unfold update_parameters in H. apply bind_ok in H. destruct H as (pts & _ & H). injection H as <-.
  constructor; try assumption. cbn [hy_theta set_points]. apply new_theta_bounds. exact S1.
Qed.

Lemma update_scored h h1 : update_parameters h = Ok h1 -> sane h ->
  (forall s, (at_ (hy_active h) s <= hy_active_sum h)%nat) -> (Z.of_nat (hy_active_sum h) <= 10000000000)%Z ->
  (forall s, at_ (hy_iterations h) s = 0%nat -> at_ (hy_points h) s == inf) -> scored h1.
Proof.
  intros H S A Bd P. unfold update_parameters in H. apply bind_ok in H. destruct H as (pts & Hf & H). injection H as <-.
  unfold scored. cbn [hy_iterations hy_points set_points]. set (th := new_theta h) in *.
  assert (T := new_theta_bounds h (sa_theta _ S)). fold th in T.
  assert (G : forall l p0 p1, foldM (fun p s => if (0 <? at_ (hy_iterations h) s)%nat then
        let* q := quality h s in Ok (put p s (th * q + (3 # 10) * spread h s * (1 - th))) else Ok p) l p0 = Ok p1 ->
      forall s, (at_ (hy_iterations h) s = 0%nat -> at_ p1 s = at_ p0 s) /\
        ((0 < at_ (hy_iterations h) s)%nat -> (In s l \/ at_ p0 s < inf) -> at_ p1 s < inf)).
  { induction l as [|s0 l IH]; intros p0 p1 Hl s; cbn [foldM] in Hl.
    - injection Hl as <-. split; [auto|]. intros _ [[]|X]; exact X.
    - apply bind_ok in Hl. destruct Hl as (p2 & H2 & Hl). destruct (IH _ _ Hl s) as [I1 I2].
      destruct (0 <? at_ (hy_iterations h) s0)%nat eqn:X.
      + apply bind_ok in H2. destruct H2 as (q & Hq & H2). injection H2 as <-. apply Nat.ltb_lt in X.
        destruct (quality_bounds h s0 q S (A s0) Hq) as [Q1 Q2].
        assert (SP := spread_bounds h s0 (sa_exp _ S)).
        assert (Small : th * q + (3 # 10) * spread h s0 * (1 - th) < inf).
        { assert (M1 : th * q <= 1 * q).
          { apply Qmult_le_compat_r; [lra|exact Q1]. }
          assert (M2 : spread h s0 * (1 - th) <= 1 * 1).
          { assert (spread h s0 * (1 - th) <= 1 * (1 - th)) by (apply Qmult_le_compat_r; lra). lra. }
          assert (Bq : inject_Z (Z.of_nat (hy_active_sum h)) <= 10000000000 # 1).
          { change (10000000000 # 1) with (inject_Z 10000000000). rewrite <- Zle_Qle. exact Bd. }
          unfold inf. assert (E : (3 # 10) * spread h s0 * (1 - th) == (3 # 10) * (spread h s0 * (1 - th))) by ring. rewrite E. lra. }
        split.
        * intro Z0. rewrite (I1 Z0), at_put. destruct (strat_eqb s0 s) eqn:Es; [|reflexivity].
          apply strat_eqb_eq in Es. subst s0. lia.
        * intros Zp [[Hs|Hs]|Hs].
          -- subst s0. apply I2; [exact Zp|]. right. rewrite at_put. assert (Es : strat_eqb s s = true) by (apply strat_eqb_eq; reflexivity).
             rewrite Es. exact Small.
          -- apply I2; auto.
          -- apply I2; [exact Zp|]. right. rewrite at_put. destruct (strat_eqb s0 s) eqn:Es; [exact Small|exact Hs].
      + injection H2 as <-. apply Nat.ltb_ge in X. split; [exact I1|]. intros Zp [[Hs|Hs]|Hs]; [subst s0; lia|apply I2; auto|apply I2; auto]. }
  intro s. destruct (G _ _ _ Hf s) as [G1 G2]. split.
  - intro Z0. rewrite (G1 Z0). apply P. exact Z0.
  - intro Zp. apply G2; [exact Zp|]. left. apply in_strats.
Qed.

(** ** Along a run *)
Lemma filter_length {A} (f : A -> bool) l : (List.length (filter f l) <= List.length l)%nat.
Proof. induction l as [|a l IH]; cbn [filter List.length]; [lia|]. destruct (f a); cbn [List.length]; lia. Qed.

Lemma distribution_bounds m x pool pool1 counts total : heuristic_distribution m x pool = Ok (pool1, counts, total) ->
  (forall s, (at_ counts s <= total)%nat) /\ (total <= List.length pool)%nat.
Proof.
  unfold heuristic_distribution. intro H. apply bind_ok in H. destruct H as (u & _ & H). injection H as <- <- <-. split.
  - intro s. rewrite at_tab. apply filter_length.
  - eapply Nat.le_trans; [apply filter_length|]. rewrite map_length. auto.
Qed.

Section Along.
  Variable E : env.
  Variable C : cgconfig.
  Hypothesis ucb_pos : forall i j, 0 <= e_ucb E i j.

  Definition good (s : state) : Prop := forall h, s_hyper s = Some h -> sane h /\ scored h.

  Lemma update_hyper_good q s s2 : update_hyper E q s = Ok s2 -> s_more s = true ->
    (Z.of_nat (List.length (s_pool s)) <= 10000000000)%Z -> good s -> good s2 /\
    exists h h2 cur, s_hyper s = Some h /\ s_hyper s2 = Some h2 /\ hy_current h = Some cur /\
      forall x, at_ (hy_iterations h2) x = (at_ (hy_iterations h) x + if strat_eqb cur x then 1 else 0)%nat.
  Proof.
    intros H M L G. unfold update_hyper in H. apply bind_ok in H. destruct H as ([[pool counts] total] & Hd & H).
    apply bind_ok in H. destruct H as (h & Hh & H). apply bind_ok in H. destruct H as (h1 & H1 & H).
    apply bind_ok in H. destruct H as (h2 & H2 & H). injection H as <-.
    destruct (s_hyper s) as [h'|] eqn:Eh; [|discriminate]. injection Hh as ->.
    destruct (distribution_bounds _ _ _ _ _ _ Hd) as [B1 B2]. cbn [s_more set_master] in H1. rewrite M in H1.
    destruct (G h Eh) as [Sa Sc]. assert (Sa1 := performance_sane _ _ _ _ _ _ _ ucb_pos H1 Sa).
    destruct (performance_counts _ _ _ _ _ _ _ _ H1) as (cur & Hc & Hi).
    assert (It : hy_iterations h2 = hy_iterations h1).
    { unfold update_parameters in H2. apply bind_ok in H2. destruct H2 as (pts & _ & H2). injection H2 as <-. reflexivity. }
    assert (Act : hy_active h1 = counts /\ hy_active_sum h1 = total /\ hy_points h1 = hy_points h).
    { unfold current_performance in H1. apply bind_ok in H1. destruct H1 as (st & _ & H1). apply bind_ok in H1.
      destruct H1 as (cur' & _ & H1). apply bind_ok in H1. destruct H1 as (q0 & _ & H1). apply bind_ok in H1. destruct H1 as (q1 & _ & H1).
      injection H1 as <-. auto. }
    destruct Act as (A1 & A2 & A3).
    split.
    - intros h3 E3. cbn [s_hyper set_hyper] in E3. injection E3 as <-. split; [eapply update_sane; eassumption|].
      eapply update_scored; [exact H2|exact Sa1|rewrite A1, A2; exact B1|rewrite A2; lia|].
      intros x Hx. rewrite A3. apply Sc. rewrite Hi in Hx. lia.
    - exists h, h2, cur. rewrite It. auto.
  Qed.

  Lemma good_same s s' : s_hyper s' = s_hyper s -> good s -> good s'.
  Proof. unfold good. intros -> H. exact H. Qed.

  Lemma solve_relaxed_good s s1 D q : solve_relaxed E C s = Ok (s1, D, q) -> good s -> good s1.
  Proof.
    intros H G. unfold solve_relaxed in H. cbn [s_dive tick] in H. destruct (s_dive s).
    - apply bind_ok in H. destruct H as ([[[d fx] D1] a] & H1 & H). cbn [s_hyper set_solution tick] in H.
      destruct (s_hyper s) as [h|] eqn:Eh; injection H as <- <- <-.
      + intros h1 E1. cbn [s_hyper tick set_hyper] in E1. injection E1 as <-. destruct (G h Eh) as [G1 G2].
        split; [apply init_sane; exact G1|exact G2].
      + intros h1 E1. cbn [s_hyper tick set_solution] in E1. congruence.
    - apply bind_ok in H. destruct H as ([[m D1] q1] & H1 & H). injection H as <- <- <-. exact G.
  Qed.

  Lemma next_strategy_good q s s2 p : next_strategy E C q s = Ok (s2, p) -> s_more s = true ->
    (Z.of_nat (List.length (s_pool s)) <= 10000000000)%Z -> good s -> good s2.
  Proof.
    intros H M L G. unfold next_strategy in H. destruct (_ =? _)%Z; [injection H as <- <-; exact G|].
    destruct (cg_strategy C); [injection H as <- <-; exact G|].
    destruct (s_iter s =? 0)%nat.
    - apply bind_ok in H. destruct H as (h & Hh & H). injection H as <- <-. intros h1 E1. cbn [s_hyper tick set_hyper] in E1.
      injection E1 as <-. cbn [s_hyper set_noimp] in Hh. destruct (s_hyper s) as [h'|] eqn:Eh; [|discriminate]. injection Hh as ->.
      destruct (G h Eh) as [G1 G2]. split; [apply init_sane; exact G1|exact G2].
    - apply bind_ok in H. destruct H as (s3 & H3 & H). apply bind_ok in H. destruct H as (h & Hh & H).
      destruct (pick_heuristic (e_choice E (s_tick s3)) h) as [h1 p1] eqn:Ep. injection H as <- <-.
      destruct (update_hyper_good q (set_noimp (s_iter s) s) s3 H3 M L G) as [G3 _].
      destruct (pick_best _ _ _ _ Ep) as [_ ->].
      intros h2 E2. cbn [s_hyper tick set_hyper] in E2. injection E2 as <-.
      destruct (s_hyper s3) as [h'|] eqn:Eh; [|discriminate]. injection Hh as ->. destruct (G3 h Eh) as [X1 X2].
      split; [apply set_current_sane; exact X1|exact X2].
  Qed.

  Lemma vehicles_good p D : forall ks s s', (forall k, In k ks -> (k < cg_types C)%nat) ->
    vehicles E C p D ks s = Ok s' -> good s -> good s'.
  Proof.
    induction ks as [|k ks IH]; intros s s' Hks H G; cbn [vehicles] in H; [injection H as <-; exact G|].
    assert (Hk := Hks k (or_introl eq_refl)).
    apply bind_ok in H. destruct H as (s1 & H1 & H). cbv zeta in H. apply bind_ok in H. destruct H as ([s2 b] & H2 & H). cbn [fst snd] in H.
    assert (Hy1 : s_hyper s1 = s_hyper s).
    { unfold greedy_step in H1. destruct (greedy_applies C); [|injection H1 as <-; reflexivity].
      apply bind_ok in H1. destruct H1 as (h & _ & H1). apply bind_ok in H1. destruct H1 as ([pool more] & _ & H1). cbn [fst snd] in H1.
      destruct more; [|injection H1 as <-; reflexivity]. apply bind_ok in H1. destruct H1 as (m & _ & H1). injection H1 as <-. reflexivity. }
    assert (L : looked E C (s_graph s) (set_more false s1) s2 b).
    { destruct (mo_span (cg_master C)); [eapply per_route_looked|eapply solve_subproblem_looked]; eassumption. }
    assert (Hy2 := fr_hyper _ _ _ (lk_frame _ _ _ _ _ _ L)). cbn [s_hyper set_more] in Hy2.
    assert (G2 : good s2) by (eapply good_same; [rewrite Hy2, Hy1; reflexivity|exact G]).
    destruct b.
    - unfold adopt in H. apply bind_ok in H. destruct H as (c & _ & H). apply bind_ok in H. destruct H as (m & _ & H). injection H as <-. exact G2.
    - apply bind_ok in H. destruct H as (s4 & H4 & H). apply (IH s4 s'); [intros k' Hk'; apply Hks; right; exact Hk'|exact H|].
      destruct (cg_strategy C); [injection H4 as <-; exact G2|].
      apply bind_ok in H4. destruct H4 as (h & Hh & H4). injection H4 as <-. intros h1 E1. cbn [s_hyper tick set_hyper] in E1. injection E1 as <-.
      cbn [s_hyper set_more] in Hh. destruct (s_hyper s2) as [h'|] eqn:Eh; [|discriminate]. injection Hh as ->. destruct (G2 h Eh) as [X1 X2].
      split; [apply set_end_sane; exact X1|exact X2].
  Qed.

  Lemma find_columns_good s s' : find_columns E C s = Ok s' -> s_more s = true ->
    (Z.of_nat (List.length (s_pool s)) <= 10000000000)%Z -> good s -> good s'.
  Proof.
    intros H M L G. unfold find_columns in H. apply bind_ok in H. destruct H as ([[s1 D] q] & H1 & H).
    apply bind_ok in H. destruct H as ([s2 p] & H2 & H). apply bind_ok in H. destruct H as (s3 & H3 & H4). cbn [fst snd] in H3.
    destruct (solve_relaxed_ok E C _ _ _ _ H1) as (A1 & A2 & _).
    assert (G1 := solve_relaxed_good _ _ _ _ H1 G).
    assert (G2 : good s2).
    { eapply next_strategy_good; [exact H2|rewrite (ss_more _ _ A1); exact M|rewrite A2; exact L|exact G1]. }
    assert (G3 : good s3).
    { eapply vehicles_good; [|exact H3|exact G2]. intros k Hk. apply in_seq in Hk. lia. }
    unfold progress in H4. apply bind_ok in H4. destruct H4 as (b & _ & H4). injection H4 as <-. exact G3.
  Qed.

  Lemma starts_more s st : starts E C s st -> s_more st = true.
  Proof. intros [M|st0 s1 _ _ _ _ M]; exact M. Qed.

  (** The choice made in an iteration. *)
  Theorem selection st s1 D q s2 p : cg_strategy C = None -> good st -> s_more st = true ->
    (Z.of_nat (List.length (s_pool st)) <= 10000000000)%Z -> (0 < s_iter st)%nat -> Z.of_nat (s_noimp st) <> cg_run_exact C ->
    solve_relaxed E C st = Ok (s1, D, q) -> next_strategy E C q s1 = Ok (s2, p) ->
    exists h2, s_hyper s2 = Some h2 /\ hy_current h2 = Some p /\
      (forall x, at_ (hy_points h2) x <= at_ (hy_points h2) p) /\
      (forall x, (0 < at_ (hy_iterations h2) p)%nat -> (0 < at_ (hy_iterations h2) x)%nat) /\
      1 # 10 <= hy_theta h2 <= 1.
  Proof.
    intros CS Gst M L It Ni H1 H2.
    assert (G1 := solve_relaxed_good _ _ _ _ H1 Gst).
    destruct (solve_relaxed_ok E C _ _ _ _ H1) as (A1 & A2 & A3 & _).
    assert (M1 : s_more s1 = true) by (rewrite (ss_more _ _ A1); exact M).
    assert (L1 : (Z.of_nat (List.length (s_pool s1)) <= 10000000000)%Z) by (rewrite A2; exact L).
    assert (G2 := next_strategy_good _ _ _ _ H2 M1 L1 G1).
    unfold next_strategy in H2. rewrite A3 in H2. apply Z.eqb_neq in Ni. rewrite Ni, CS in H2.
    rewrite (ss_iter _ _ A1) in H2. destruct (s_iter st =? 0)%nat eqn:Ei; [apply Nat.eqb_eq in Ei; lia|].
    apply bind_ok in H2. destruct H2 as (s3 & H3 & H2). apply bind_ok in H2. destruct H2 as (h & Hh & H2).
    destruct (pick_heuristic (e_choice E (s_tick s3)) h) as [h1 p1] eqn:Ep. injection H2 as <- <-.
    destruct (pick_best _ _ _ _ Ep) as [PB ->]. exists (set_current p1 h). split; [reflexivity|]. split; [reflexivity|].
    split; [exact PB|]. destruct (G2 (set_current p1 h) eq_refl) as [Sa Sc]. split; [|exact (sa_theta _ Sa)].
    intros x Hp. destruct (at_ (hy_iterations h) x) as [|n] eqn:Ex; [|cbn [hy_iterations set_current]; lia].
    exfalso. assert (X1 := proj1 (Sc x) Ex). assert (X2 := proj2 (Sc p1) Hp). cbn [hy_points set_current] in X1, X2.
    assert (X3 := PB x). lra.
  Qed.

  (** The strategy applied before is counted, and no other; unless the next one is exact pricing
      after [run_exact] iterations without improvement, or diving has begun. *)
  Theorem counting st s1 D q s2 p h cur : cg_strategy C = None -> s_dive st = false -> (0 < s_iter st)%nat ->
    Z.of_nat (s_noimp st) <> cg_run_exact C ->
    solve_relaxed E C st = Ok (s1, D, q) -> next_strategy E C q s1 = Ok (s2, p) ->
    s_hyper st = Some h -> hy_current h = Some cur ->
    exists h2, s_hyper s2 = Some h2 /\
      forall x, at_ (hy_iterations h2) x = (at_ (hy_iterations h) x + if strat_eqb cur x then 1 else 0)%nat.
  Proof.
    intros CS Dv It Ni H1 H2 Eh Ec.
    destruct (solve_relaxed_ok E C _ _ _ _ H1) as (A1 & A2 & A3 & _).
    assert (Eh1 : s_hyper s1 = Some h).
    { unfold solve_relaxed in H1. cbn [s_dive tick] in H1. rewrite Dv in H1. apply bind_ok in H1. destruct H1 as ([[m D1] q1] & _ & H1).
      injection H1 as <- <- <-. exact Eh. }
    unfold next_strategy in H2. rewrite A3 in H2. apply Z.eqb_neq in Ni. rewrite Ni, CS in H2.
    rewrite (ss_iter _ _ A1) in H2. destruct (s_iter st =? 0)%nat eqn:Ei; [apply Nat.eqb_eq in Ei; lia|].
    apply bind_ok in H2. destruct H2 as (s3 & H3 & H2). apply bind_ok in H2. destruct H2 as (h3 & Hh & H2).
    destruct (pick_heuristic (e_choice E (s_tick s3)) h3) as [h1 p1] eqn:Ep. injection H2 as <- <-.
    destruct (pick_best _ _ _ _ Ep) as [_ ->]. exists (set_current p1 h3). split; [reflexivity|].
    unfold update_hyper in H3. apply bind_ok in H3. destruct H3 as ([[pool counts] total] & Hd & H3).
    apply bind_ok in H3. destruct H3 as (h' & Hh' & H3). apply bind_ok in H3. destruct H3 as (h4 & H4 & H3).
    apply bind_ok in H3. destruct H3 as (h5 & H5 & H3). injection H3 as <-. cbn [s_hyper set_noimp] in Hh'. rewrite Eh1 in Hh'. injection Hh' as <-.
    cbn [s_hyper set_hyper] in Hh. injection Hh as <-.
    destruct (performance_counts _ _ _ _ _ _ _ _ H4) as (cur' & Hc & Hi). rewrite Ec in Hc. injection Hc as <-.
    unfold update_parameters in H5. apply bind_ok in H5. destruct H5 as (pts & _ & H5). injection H5 as <-. exact Hi.
  Qed.
End Along.
