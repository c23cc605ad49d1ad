(** The list of columns that diving may not fix, which all problems of a process share. *)
From Verif.Base Require Import Prelude Graph.
From Verif.Spec Require Import Routes Network LinProg Master Run Session.
From Verif.Model Require Import Args Reach Checks Preprocess ClarkeWright Greedy Initial Pricing
  GreedyPricing LPPricing Cspy Master Dive Hyper ColGen Post Schedule Solve.
From Verif.Proofs Require Import RunProofs DiveProofs ColGenProofs.

(** The same state with another diving state *)
Definition wd (d : diving) (s : state) : state :=
  mkSt (s_graph s) (s_pool s) (s_master s) (s_values s) (s_fixed s) d (s_dive s) (s_iter s)
       (s_noimp s) (s_more s) (s_bounds s) (s_hyper s) (s_tick s).
Definition wd_res (d : diving) (r : res state) : res state := let* s := r in Ok (wd d s).
Definition wd_pair {B} (d : diving) (r : res (state * B)) : res (state * B) := let* p := r in Ok (wd d (fst p), snd p).
(** The same object with another list *)
Definition wt (t : list mvar) (v : vrp) : vrp :=
  mkVrp (v_graph v) (v_args v) (v_windows v) (v_pickup v) (v_both v) (v_drop v) (v_all v) (v_periodic v) (v_span v)
        (v_initial v) (v_pre v) (v_iter v) (v_noimp v) (v_bounds v) (v_hyper v) (v_chosen v) (v_dropped v) t.

Ltac split_bind :=
  match goal with
  | |- context [bind ?r _] =>
      match r with
      | context [bind _ _] => fail 1
      | Ok _ => fail 1
      | Err _ => fail 1
      | _ => destruct r; cbn [bind fst snd]
      end
  end.

Section Isolation.
  Variable E : env.
  Variable C : cgconfig.
  Variable d : diving.

  Lemma subproblem_wd D k route p s : subproblem E C D k route p (wd d s) = wd_pair d (subproblem E C D k route p s).
  Proof.
    unfold subproblem, wd_pair. cbn [s_graph s_pool s_tick wd tick set_pool].
    change (now E (tick (wd d s))) with (now E (tick s)).
    destruct (add_reduced_cost D k route (s_graph s)) as [g|e]; cbn [bind]; [|reflexivity].
    destruct (pricing_graph _ _ _ _ _) as [h|e]; cbn [bind]; [|reflexivity].
    match goal with |- bind ?a _ = bind (bind ?b _) _ => change b with a; destruct a as [r|e]; reflexivity end.
  Qed.
  Lemma attempts_wd D k route ps : forall s, attempts E C D k route ps (wd d s) = wd_pair d (attempts E C D k route ps s).
  Proof.
    induction ps as [|p ps IH]; intro s; cbn [attempts]; [reflexivity|]. rewrite subproblem_wd.
    destruct (subproblem E C D k route p s) as [[s1 b]|e]; cbn [bind wd_pair fst snd]; [|reflexivity].
    destruct b; [reflexivity|apply IH].
  Qed.
  Lemma attempt_wd D k route p s : attempt E C D k route p (wd d s) = wd_pair d (attempt E C D k route p s).
  Proof. unfold attempt. destruct p; (apply attempts_wd || apply subproblem_wd). Qed.
  Lemma solve_subproblem_wd p D k route s : solve_subproblem E C p D k route (wd d s) = wd_pair d (solve_subproblem E C p D k route s).
  Proof.
    unfold solve_subproblem. destruct (cg_strategy C); [|apply attempt_wd].
    destruct p; try apply attempt_wd; rewrite attempt_wd;
      match goal with |- context [wd_pair d ?a] => destruct a as [[s1 b]|e] end; cbn [bind wd_pair fst snd]; try reflexivity;
      destruct b; try reflexivity; apply attempt_wd.
  Qed.
  Lemma per_route_wd p D k rs : forall s, ColGen.per_route E C p D k rs (wd d s) = wd_pair d (ColGen.per_route E C p D k rs s).
  Proof.
    induction rs as [|r rs IH]; intro s; cbn [ColGen.per_route]; [reflexivity|]. rewrite solve_subproblem_wd.
    destruct (solve_subproblem E C p D k (Some r) s) as [[s1 b]|e]; cbn [bind wd_pair fst snd]; [|reflexivity].
    destruct b; [reflexivity|apply IH].
  Qed.
  Lemma greedy_step_wd D k s : greedy_step E C D k (wd d s) = wd_res d (greedy_step E C D k s).
  Proof.
    unfold greedy_step, wd_res. destruct (greedy_applies C); [|reflexivity]. cbn [s_graph s_pool s_tick s_master wd tick set_pool].
    destruct (add_reduced_cost D k None (s_graph s)) as [g|e]; cbn [bind]; [|reflexivity].
    destruct (greedy_pricing _ _ _ _ _ _ _ _ _) as [r|e]; cbn [bind]; [|reflexivity].
    destruct (snd r); [|reflexivity]. destruct (foldM _ _ _) as [m|e]; reflexivity.
  Qed.
  Lemma adopt_wd p s : adopt C p (wd d s) = wd_res d (adopt C p s).
  Proof.
    unfold adopt, wd_res. cbn [s_pool s_master wd].
    destruct (of_opt IndexError _) as [c|e]; cbn [bind]; [|reflexivity].
    destruct (update _ _ _) as [m|e]; reflexivity.
  Qed.
  Lemma vehicles_wd p D ks : forall s, vehicles E C p D ks (wd d s) = wd_res d (vehicles E C p D ks s).
  Proof.
    induction ks as [|k ks IH]; intro s; cbn [vehicles]; [reflexivity|]. rewrite greedy_step_wd.
    destruct (greedy_step E C D k s) as [s1|e]; cbn [bind wd_res]; [|reflexivity].
    set (s2 := set_more false s1). change (set_more false (wd d s1)) with (wd d s2).
    rewrite per_route_wd, solve_subproblem_wd. cbn [s_pool wd].
    replace (if mo_span (cg_master C) then wd_pair d (ColGen.per_route E C p D k (map c_name (s_pool s2)) s2)
             else wd_pair d (solve_subproblem E C p D k None s2))
      with (wd_pair d (if mo_span (cg_master C) then ColGen.per_route E C p D k (map c_name (s_pool s2)) s2
                       else solve_subproblem E C p D k None s2)) by (destruct (mo_span (cg_master C)); reflexivity).
    destruct (if mo_span (cg_master C) then _ else _) as [[s3 b]|e]; cbn [bind wd_pair fst snd]; [|reflexivity].
    change (set_more b (wd d s3)) with (wd d (set_more b s3)).
    destruct b; [apply adopt_wd|].
    destruct (cg_strategy C); cbn [bind]; [apply IH|]. cbn [s_hyper wd set_more].
    destruct (s_hyper s3) as [h|]; cbn [of_opt bind]; [|reflexivity]. apply (IH (tick (set_hyper (Some (set_end (now E (set_more false s3)) h)) (set_more false s3)))).
  Qed.
  Lemma update_hyper_wd q s : update_hyper E q (wd d s) = wd_res d (update_hyper E q s).
  Proof.
    unfold update_hyper, wd_res. cbn [s_pool s_master s_values s_hyper wd].
    destruct (heuristic_distribution _ _ _) as [[[pool counts] total]|e]; cbn [bind]; [|reflexivity].
    destruct (of_opt AttributeError (s_hyper s)) as [h|e]; cbn [bind]; [|reflexivity].
    change (now E (set_master pool (s_master s) (wd d s))) with (now E (set_master pool (s_master s) s)).
    cbn [s_more set_master wd].
    destruct (current_performance _ _ _ _ _ _ _) as [h1|e]; cbn [bind]; [|reflexivity].
    destruct (update_parameters h1) as [h2|e]; reflexivity.
  Qed.
  Lemma next_strategy_wd q s : next_strategy E C q (wd d s) = wd_pair d (next_strategy E C q s).
  Proof.
    unfold next_strategy. cbn [s_noimp s_iter wd]. destruct (_ =? _)%Z; [reflexivity|]. destruct (cg_strategy C); [reflexivity|].
    change (set_noimp (s_iter s) (wd d s)) with (wd d (set_noimp (s_iter s) s)). set (s1 := set_noimp (s_iter s) s).
    destruct (s_iter s =? 0)%nat.
    - cbn [s_hyper wd]. destruct (of_opt AttributeError (s_hyper s1)) as [h|e]; reflexivity.
    - rewrite update_hyper_wd. unfold wd_pair, wd_res. destruct (update_hyper E q s1) as [s2|e]; cbn [bind]; [|reflexivity].
      cbn [s_hyper s_tick wd]. destruct (of_opt AttributeError (s_hyper s2)) as [h|e]; cbn [bind]; [|reflexivity].
      destruct (pick_heuristic _ _) as [h1 p]. reflexivity.
  Qed.
  Lemma solve_relaxed_wd s : s_dive s = false ->
    solve_relaxed E C (wd d s) = let* r := solve_relaxed E C s in Ok (wd d (fst (fst r)), snd (fst r), snd r).
  Proof.
    intro H. unfold solve_relaxed. cbn [s_dive tick wd s_tick s_graph s_pool s_master s_fixed s_diving]. rewrite H.
    destruct (solve_master _ _ _ _ _ _ _) as [[[m D] q]|e]; reflexivity.
  Qed.
  Lemma progress_wd q s : progress q (wd d s) = wd_res d (progress q s).
  Proof.
    unfold progress. cbn [s_iter s_bounds s_noimp s_dive wd]. unfold wd_res. destruct (1 <? S (s_iter s))%nat; [|reflexivity].
    destruct (of_opt IndexError _) as [b|e]; reflexivity.
  Qed.
  Lemma find_columns_wd s : s_dive s = false -> find_columns E C (wd d s) = wd_res d (find_columns E C s).
  Proof.
    intro H. unfold find_columns. rewrite (solve_relaxed_wd s H). unfold wd_res.
    destruct (solve_relaxed E C s) as [[[s1 D] q]|e]; cbn [bind fst snd]; [|reflexivity].
    rewrite next_strategy_wd. unfold wd_pair. destruct (next_strategy E C q s1) as [[s2 p]|e]; cbn [bind fst snd]; [|reflexivity].
    rewrite vehicles_wd. unfold wd_res. destruct (vehicles _ _ _ _ _ _) as [s3|e]; cbn [bind]; [|reflexivity].
    rewrite progress_wd. unfold wd_res. reflexivity.
  Qed.

  Lemma find_dive s s' : find_columns E C s = Ok s' -> s_dive s' = s_dive s.
  Proof.
    intro H. unfold find_columns in H. apply bind_ok in H. destruct H as ([[s1 D] q] & H1 & H).
    apply bind_ok in H. destruct H as ([s2 p] & H2 & H). apply bind_ok in H. destruct H as (s3 & H3 & H4). cbn [fst snd] in H3.
    unfold progress in H4. apply bind_ok in H4. destruct H4 as (b & _ & H4). injection H4 as <-. cbn [s_dive set_progress].
    assert (X0 : s_dive s1 = s_dive s).
    { unfold solve_relaxed in H1. cbn [s_dive tick] in H1. destruct (s_dive s) eqn:Dv.
      - apply bind_ok in H1. destruct H1 as ([[[dd fx] D1] a] & _ & H1). cbn [s_hyper set_solution tick] in H1.
        destruct (s_hyper s); injection H1 as <- _ _; exact Dv.
      - apply bind_ok in H1. destruct H1 as ([[m D1] q1] & _ & H1). injection H1 as <- _ _. exact Dv. }
    assert (X : s_dive s2 = s_dive s1).
    { unfold next_strategy in H2. destruct (_ =? _)%Z; [injection H2 as <- <-; auto|].
      destruct (cg_strategy C); [injection H2 as <- <-; auto|]. destruct (s_iter s1 =? 0)%nat.
      - apply bind_ok in H2. destruct H2 as (hh & _ & H2). injection H2 as <- <-. auto.
      - apply bind_ok in H2. destruct H2 as (t2 & Ht2 & H2). apply bind_ok in H2. destruct H2 as (hh & _ & H2).
        destruct (pick_heuristic _ hh) as [h1 p1]. injection H2 as <- <-. unfold update_hyper in Ht2.
        apply bind_ok in Ht2. destruct Ht2 as ([[pool counts] total] & _ & Ht2). apply bind_ok in Ht2. destruct Ht2 as (h2 & _ & Ht2).
        apply bind_ok in Ht2. destruct Ht2 as (h3 & _ & Ht2). apply bind_ok in Ht2. destruct Ht2 as (h4 & _ & Ht2). injection Ht2 as <-.
        auto. }
    assert (W : forall ks u u', (forall k, In k ks -> (k < cg_types C)%nat) -> vehicles E C p D ks u = Ok u' -> s_dive u' = s_dive u).
    { induction ks as [|k ks IH]; intros u u' Hks Hu; cbn [vehicles] in Hu; [injection Hu as <-; auto|].
      assert (Hk := Hks k (or_introl eq_refl)).
      apply bind_ok in Hu. destruct Hu as (u1 & Hu1 & Hu). cbv zeta in Hu. apply bind_ok in Hu. destruct Hu as ([u2 b2] & Hu2 & Hu).
      cbn [fst snd] in Hu.
      assert (Q1 : s_dive u1 = s_dive u).
      { unfold greedy_step in Hu1. destruct (greedy_applies C); [|injection Hu1 as <-; auto].
        apply bind_ok in Hu1. destruct Hu1 as (h & _ & Hu1). apply bind_ok in Hu1. destruct Hu1 as ([pool more] & _ & Hu1). cbn [fst snd] in Hu1.
        destruct more; [|injection Hu1 as <-; auto]. apply bind_ok in Hu1. destruct Hu1 as (m & _ & Hu1). injection Hu1 as <-. auto. }
      assert (L : looked E C (s_graph s) (set_more false u1) u2 b2).
      { destruct (mo_span (cg_master C)); [eapply per_route_looked|eapply solve_subproblem_looked]; eassumption. }
      assert (F := fr_dive _ _ _ (lk_frame _ _ _ _ _ _ L)). cbn [s_dive set_more] in F.
      destruct b2.
      - unfold adopt in Hu. apply bind_ok in Hu. destruct Hu as (c & _ & Hu). apply bind_ok in Hu. destruct Hu as (m & _ & Hu).
        injection Hu as <-. cbn [s_dive set_master set_more]. congruence.
      - apply bind_ok in Hu. destruct Hu as (u4 & Hu4 & Hu).
        assert (I1 := IH u4 u' (fun k' Hk' => Hks k' (or_intror Hk')) Hu).
        assert (Y : s_dive u4 = s_dive u2).
        { destruct (cg_strategy C); [injection Hu4 as <-; auto|].
          apply bind_ok in Hu4. destruct Hu4 as (h & _ & Hu4). injection Hu4 as <-. auto. }
        congruence. }
    rewrite (W (seq 0 (cg_types C)) s2 s3); [congruence| |exact H3]. intros k Hk. apply in_seq in Hk. lia.
  Qed.
  Lemma column_generation_wd fuel : forall s, s_dive s = false ->
    column_generation E C fuel (wd d s) = wd_res d (column_generation E C fuel s).
  Proof.
    induction fuel as [|f IH]; intros s H; cbn [column_generation]; change (s_more (wd d s)) with (s_more s);
      (destruct (negb (s_more s)); [reflexivity|]); [reflexivity|].
    rewrite (find_columns_wd s H). unfold wd_res at 1. destruct (find_columns E C s) as [s1|e] eqn:F; cbn [bind]; [|reflexivity].
    change (time_up E C (wd d s1)) with (time_up E C s1). destruct (time_up E C s1); [reflexivity|].
    change (tick (tick (wd d s1))) with (wd d (tick (tick s1))). change (limit_reached C (wd d (tick (tick s1)))) with (limit_reached C (tick (tick s1))).
    destruct (limit_reached C (tick (tick s1))); [reflexivity|]. apply IH. cbn [s_dive tick]. rewrite (find_dive _ _ F). exact H.
  Qed.
  Lemma solve_columns_wd fuel fuel2 s : s_dive s = false ->
    solve_columns E C fuel fuel2 false (wd d s) = wd_pair d (solve_columns E C fuel fuel2 false s).
  Proof.
    intro H. unfold solve_columns. rewrite (column_generation_wd fuel s H). unfold wd_res, wd_pair.
    destruct (column_generation E C fuel s) as [s1|e]; cbn [bind]; [|reflexivity].
    change (conclude E C false (wd d s1)) with (conclude E C false s1). destruct (conclude E C false s1) as [r|e]; reflexivity.
  Qed.
End Isolation.

(** Without diving the list is neither read nor changed. *)
Theorem solve_wt X fuel fuel2 sa v t : sa_dive sa = false ->
  solve X fuel fuel2 sa (wt t v) = let* r := solve X fuel fuel2 sa v in Ok (wt t (fst r), snd r).
Proof.
  intro H. unfold solve. cbv zeta. change (prepare (wt t v) sa) with (prepare v sa).
  destruct (prepare v sa) as [[[a K] p]|e]; cbn [bind]; [|reflexivity].
  change (options_of (wt t v) sa) with (options_of v sa).
  destruct (sa_heuristic sa).
  - destruct (solve_with_clarke_wright _ _ _ _ _ _ _) as [r|e]; reflexivity.
  - cbn [v_initial v_pre wt]. destruct (initialize _ _ _ _ _ _ _ _) as [ic|e]; cbn [bind]; [|reflexivity].
    change (cg_of X (wt t v) sa a K p (covered (fst ic))) with (cg_of X v sa a K p (covered (fst ic))).
    set (C := cg_of X v sa a K p (covered (fst ic))). rewrite H.
    assert (S : start (wt t v) sa C p (snd ic) = wd_res (mkDive 0 0 t) (start v sa C p (snd ic))).
    { unfold start, wd_res. destruct (Master.formulate _ _ _) as [m|e]; reflexivity. }
    rewrite S. unfold wd_res. destruct (start v sa C p (snd ic)) as [s|e] eqn:E0; cbn [bind]; [|reflexivity].
    assert (D0 : s_dive s = false).
    { unfold start in E0. apply bind_ok in E0. destruct E0 as (m & _ & E0). injection E0 as <-. reflexivity. }
    rewrite (solve_columns_wd (x_env X) C (mkDive 0 0 t) fuel fuel2 s D0). unfold wd_pair.
    destruct (solve_columns (x_env X) C fuel fuel2 false s) as [[s1 e1]|e]; cbn [bind fst snd]; [|reflexivity].
    cbn [s_graph wd]. cbn [v_chosen wt].
    match goal with |- context [post_process X (wt t v) ?a ?b ?c ?d ?e ?f ?g] =>
      change (post_process X (wt t v) a b c d e f g) with (post_process X v a b c d e f g);
      destruct (post_process X v a b c d e f g) as [[[[rs ts] dr] sch]|er]; reflexivity end.
Qed.

(** What a call adds to the list *)
Definition longer (d d' : diving) (new : list mvar) : Prop :=
  dv_tabu d' = dv_tabu d ++ new /\ dv_depth d' = (dv_depth d + List.length new)%nat /\ NoDup new /\
  (forall y, In y new -> ~ In y (dv_tabu d)) /\ (dv_depth d <= S max_depth -> dv_depth d' <= S max_depth)%nat.
Lemma longer_same d d' : d' = d -> longer d d' [].
Proof. intros ->. unfold longer. rewrite app_nil_r. cbn. repeat split; auto; try constructor; lia. Qed.
Lemma longer_trans d d1 d2 n1 n2 : longer d d1 n1 -> longer d1 d2 n2 -> longer d d2 (n1 ++ n2).
Proof.
  intros (A1 & A2 & A3 & A4 & A5) (B1 & B2 & B3 & B4 & B5). unfold longer. rewrite B1, B2, A1, A2, app_assoc, app_length.
  split; [reflexivity|]. split; [lia|]. split; [|split; [|lia]].
  - apply NoDup_app_intro; auto. intros y Hy Hy'. apply (B4 y Hy'). rewrite A1. apply in_or_app. auto.
  - intros y Hy. apply in_app_or in Hy. destruct Hy as [Hy|Hy]; [auto|]. intro Z. apply (B4 y Hy). rewrite A1. apply in_or_app. auto.
Qed.

Section Growth.
  Variable E : env.
  Variable C : cgconfig.
  Lemma find_longer s s' : find_columns E C s = Ok s' ->
    exists new, longer (s_diving s) (s_diving s') new /\ (s_dive s = false -> new = []).
  Proof.
    intro H.
    assert (HR : exists s1 D q, solve_relaxed E C s = Ok (s1, D, q)).
    { unfold find_columns in H. apply bind_ok in H. destruct H as ([[s1 D] q] & H1 & _). eauto. }
    destruct HR as (s1 & D & q & H1). destruct (rest_keeps _ _ _ _ _ _ _ H1 H) as (_ & R2 & _). destruct (s_dive s) eqn:Dv.
    - unfold solve_relaxed in H1. cbn [s_dive tick] in H1. rewrite Dv in H1. apply bind_ok in H1.
      destruct H1 as ([[[d fx] D1] a] & Hd & H1). cbn [s_graph s_pool s_master s_fixed s_diving tick s_tick] in Hd.
      unfold solve_and_dive in Hd. apply bind_ok in Hd. destruct Hd as ([d1 added] & Hd & Hx). apply bind_ok in Hx.
      destruct Hx as (D2 & _ & Hx). injection Hx as <- <- <- <-.
      assert (S2 : s_diving s1 = d1).
      { cbn [s_hyper set_solution tick] in H1. destruct (s_hyper s); injection H1 as <- <- <-; reflexivity. }
      rewrite S2 in R2. destruct (run_dive_cases _ _ _ _ _ _ _ Hd) as [(_ & _ & C3)|(Dp & v & C1 & _ & C3 & C4 & _)].
      + exists []. split; [apply longer_same; congruence|discriminate].
      + exists [v]. split; [|discriminate]. unfold longer. rewrite R2, C3, C4. cbn [List.length].
        split; [reflexivity|]. split; [lia|]. split; [constructor; [intros []|constructor]|]. split; [|lia].
        intros y [<-|[]]. exact (cd_tabu _ _ _ _ C1).
    - destruct (solve_relaxed_master E C s s1 D q Dv H1) as (_ & _ & _ & S2). exists []. split; [apply longer_same; congruence|reflexivity].
  Qed.
  Lemma column_generation_longer fuel : forall s s', column_generation E C fuel s = Ok s' ->
    s_dive s' = s_dive s /\ exists new, longer (s_diving s) (s_diving s') new /\ (s_dive s = false -> new = []).
  Proof.
    induction fuel as [|f IH]; intros s s' H; cbn [column_generation] in H; destruct (negb (s_more s)); try discriminate;
      try (injection H as <-; split; [reflexivity|exists []; split; [apply longer_same; reflexivity|reflexivity]]).
    apply bind_ok in H. destruct H as (s1 & F & H). assert (D1 := find_dive _ _ _ _ F). destruct (find_longer _ _ F) as (n1 & L1 & N1).
    destruct (time_up E C s1); [injection H as <-; split; [exact D1|exists n1; auto]|].
    destruct (limit_reached C (tick (tick s1))); [injection H as <-; split; [exact D1|exists n1; auto]|].
    destruct (IH _ _ H) as (D2 & n2 & L2 & N2). cbn [s_dive s_diving tick] in D2, L2, N2. split; [congruence|].
    exists (n1 ++ n2). split; [eapply longer_trans; eassumption|]. intro Dv. rewrite N1, N2 by congruence. reflexivity.
  Qed.
  Lemma solve_columns_longer fuel fuel2 dive s s' r : s_dive s = false -> solve_columns E C fuel fuel2 dive s = Ok (s', r) ->
    exists new, longer (s_diving s) (s_diving s') new /\ (dive = false -> new = []).
  Proof.
    intros D0 H. unfold solve_columns in H. apply bind_ok in H. destruct H as (s1 & H1 & H). apply bind_ok in H. destruct H as (q & _ & H). injection H as <- _.
    destruct dive.
    - unfold generate_and_dive in H1. apply bind_ok in H1. destruct H1 as (s0 & H0 & H1).
      destruct (column_generation_longer _ _ _ H0) as (_ & n1 & L1 & N1). destruct (column_generation_longer _ _ _ H1) as (_ & n2 & L2 & _).
      exists (n1 ++ n2). split; [exact (longer_trans _ _ _ _ _ L1 L2)|discriminate].
    - destruct (column_generation_longer _ _ _ H1) as (_ & n1 & L1 & N1). exists n1. auto.
  Qed.
End Growth.

(** A call only adds to the list: at most four new columns, and none without diving. *)
Theorem solve_longer X fuel fuel2 sa v v' out : solve X fuel fuel2 sa v = Ok (v', out) ->
  exists new, v_tabu v' = v_tabu v ++ new /\ NoDup new /\ (forall y, In y new -> ~ In y (v_tabu v)) /\
    (List.length new <= 4)%nat /\ (sa_dive sa = false \/ sa_heuristic sa = true -> new = []).
Proof.
  intro H. unfold solve in H. cbv zeta in H. apply bind_ok in H. destruct H as ([[a K] p] & _ & H). destruct (sa_heuristic sa).
  - apply bind_ok in H. destruct H as (r & _ & H). injection H as <- _. cbn [v_tabu]. exists []. rewrite app_nil_r.
    split; [reflexivity|]. split; [constructor|]. split; [intros y []|]. split; [cbn; lia|reflexivity].
  - apply bind_ok in H. destruct H as (ic & _ & H). apply bind_ok in H. destruct H as (s & S & H). apply bind_ok in H. destruct H as ([s1 e1] & E & H).
    apply bind_ok in H. destruct H as ([[[rs ts] dr] sch] & _ & H). injection H as <- _. cbn [v_tabu fst].
    unfold start in S. apply bind_ok in S. destruct S as (m & _ & S). injection S as <-.
    match type of E with solve_columns _ _ _ _ _ ?s = _ => assert (D0 : s_dive s = false) by reflexivity end.
    destruct (solve_columns_longer _ _ _ _ _ _ _ _ D0 E) as (new & (L1 & L2 & L3 & L4 & L5) & N). cbn [s_diving dv_tabu dv_depth] in L1, L2, L4, L5.
    exists new. unfold max_depth in L5. split; [exact L1|]. split; [exact L3|]. split; [exact L4|]. split; [lia|]. intros [Z|Z]; [auto|discriminate].
Qed.

(** Problems solved earlier in the process have no influence, unless this call and an earlier one dive. *)
Theorem isolated X fuel fuel2 sa g a w pd both drop all per span dived tabu v0 v : session dived tabu ->
  dived = false \/ sa_dive sa = false ->
  create g a w pd both drop all per span [] = Ok v0 -> create g a w pd both drop all per span tabu = Ok v ->
  results (solve X fuel fuel2 sa v) = results (solve X fuel fuel2 sa v0).
Proof.
  intros S D C0 C.
  assert (V : v = wt tabu v0).
  { unfold create in C0, C. apply bind_ok in C0. destruct C0 as (g1 & G1 & C0). rewrite G1 in C. cbn [bind] in C. injection C0 as <-. injection C as <-. reflexivity. }
  destruct D as [D|D].
  - assert (T : tabu = []).
    { subst dived. remember false as b eqn:Eb. revert Eb. clear - S. induction S as [|b X f f2 sa v v' out S IH H]; [reflexivity|].
      intro Eb. apply orb_false_iff in Eb. destruct Eb as (-> & Eb). destruct (solve_longer _ _ _ _ _ _ _ H) as (new & N & _ & _ & _ & Z).
      rewrite N, (IH eq_refl), Z; [reflexivity|]. destruct (sa_dive sa); [right|left; reflexivity]. destruct (sa_heuristic sa); [reflexivity|discriminate]. }
    rewrite T in V. replace v with v0; [reflexivity|]. rewrite V.
    unfold create in C0. apply bind_ok in C0. destruct C0 as (g1 & G1 & C0). injection C0 as <-. reflexivity.
  - rewrite V, (solve_wt X fuel fuel2 sa v0 tabu D). destruct (solve X fuel fuel2 sa v0) as [[v' out]|e]; reflexivity.
Qed.
