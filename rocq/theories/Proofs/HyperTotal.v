(** When the hyper-heuristic can choose a strategy, and when it divides by zero. *)
From Verif.Base Require Import Prelude Graph.
From Verif.Spec Require Import Routes Network LinProg Pricing MIP Columns Pool Master Duality Run.
From Verif.Model Require Import Args Reach Checks Preprocess ClarkeWright Greedy Initial Pricing
  GreedyPricing LPPricing Cspy Master Dive Hyper ColGen.
From Verif.Proofs Require Import RouteLemmas MasterProofs SelectProofs PoolProofs ColGenProofs RunProofs
  BoundProofs HyperProofs DiveProofs PoolQuality ColGenCor ColGenEnd.

Definition tally (h : hyper) : Prop := forall x, (at_ (hy_iterations h) x <= at_ (hy_added h) x)%nat.
Definition ready (h : hyper) : Prop :=
  hy_end h <> None /\ hy_current h <> None /\ hy_objective h <> None.

Lemma performance_ready ucb v act n t h : ready h -> tally h ->
  exists h1 cur, current_performance ucb (Some v) true act n t h = Ok h1 /\ ready h1 /\ tally h1 /\
    hy_active_sum h1 = n /\ (0 < at_ (hy_iterations h1) cur)%nat.
Proof.
  intros (R1 & R2 & R3) T. unfold current_performance.
  destruct (hy_end h) as [e|]; [|contradiction]. destruct (hy_current h) as [cur|] eqn:Ec; [|contradiction].
  destruct (hy_objective h) as [q0|]; [|contradiction]. cbn [of_opt bind].
  eexists. exists cur. split; [reflexivity|]. split; [split; [discriminate|]; split; [cbn [hy_current]; congruence|discriminate]|].
  split; [|split; [reflexivity|]].
  - intro x. cbn [hy_iterations hy_added]. rewrite !at_put. destruct (strat_eqb cur x); [|apply T]. specialize (T cur). lia.
  - cbn [hy_iterations]. rewrite at_put. assert (X : strat_eqb cur cur = true) by (apply strat_eqb_eq; reflexivity). rewrite X. lia.
Qed.

Lemma points_ok h : tally h -> (0 < hy_active_sum h)%nat -> forall l p,
  exists p1, foldM (fun p s => if (0 <? at_ (hy_iterations h) s)%nat then
     let* q := quality h s in Ok (put p s (new_theta h * q + (3 # 10) * spread h s * (1 - new_theta h))) else Ok p) l p = Ok p1.
Proof.
  intros T A. induction l as [|x l IH]; intro p; cbn [foldM]; [eauto|].
  destruct (0 <? at_ (hy_iterations h) x)%nat eqn:X; [|apply IH]. apply Nat.ltb_lt in X.
  assert (Q : exists q, quality h x = Ok q).
  { unfold quality. assert (Z1 : (hy_active_sum h =? 0)%nat = false) by (apply Nat.eqb_neq; lia). rewrite Z1.
    assert (Z2 : (at_ (hy_added h) x =? 0)%nat = false) by (apply Nat.eqb_neq; specialize (T x); lia). rewrite Z2.
    cbn [raise_if bind]. eauto. }
  destruct Q as (q & ->). cbn [bind]. apply IH.
Qed.
Lemma points_fail h cur : hy_active_sum h = 0%nat -> (0 < at_ (hy_iterations h) cur)%nat -> forall l p, In cur l ->
  foldM (fun p s => if (0 <? at_ (hy_iterations h) s)%nat then
     let* q := quality h s in Ok (put p s (new_theta h * q + (3 # 10) * spread h s * (1 - new_theta h))) else Ok p) l p
  = Err ZeroDivisionError.
Proof.
  intros A Hc. induction l as [|x l IH]; intros p Hin; [destruct Hin|]. cbn [foldM].
  destruct (0 <? at_ (hy_iterations h) x)%nat eqn:X.
  - assert (Q : quality h x = Err ZeroDivisionError) by (unfold quality; rewrite A; reflexivity). rewrite Q. reflexivity.
  - cbn [bind]. apply IH. destruct Hin as [->|Hin]; [apply Nat.ltb_ge in X; lia|exact Hin].
Qed.

Section Total.
  Variable E : env.
  Variable C : cgconfig.
  Variable g : vgraph.
  Hypothesis CS : cg_strategy C = None.
  Hypothesis RE : cg_run_exact C <> 0%Z.

  Definition armed (s : state) : Prop :=
    exists h, s_hyper s = Some h /\ tally h /\ ((0 < s_iter s)%nat -> ready h) /\ (s_iter s = 0%nat -> s_noimp s = 0%nat).

  Lemma active_total x pool : List.length (filter (active x) (map (tag_other x) pool)) = List.length (filter (active x) pool).
  Proof.
    induction pool as [|c l IH]; [reflexivity|]. cbn [map filter].
    assert (X : active x (tag_other x c) = active x c).
    { unfold tag_other. destruct (active x c) eqn:A; [|exact A]. destruct (c_tag c); [exact A|]. exact A. }
    rewrite X. destruct (active x c); cbn [List.length]; rewrite IH; reflexivity.
  Qed.

  Lemma relaxed_armed s s1 D q : solve_relaxed E C s = Ok (s1, D, q) -> q <> None -> armed s -> armed s1.
  Proof.
    intros H Nq (h & A1 & A2 & A3 & A4). destruct (solve_relaxed_ok E C _ _ _ _ H) as (S1 & S2 & S3 & _).
    unfold armed. rewrite (ss_iter _ _ S1), S3. unfold solve_relaxed in H. cbn [s_dive tick] in H. destruct (s_dive s).
    - apply bind_ok in H. destruct H as ([[[d fx] D1] a] & H1 & H). cbn [s_hyper set_solution tick] in H. rewrite A1 in H.
      injection H as <- <- <-. cbn [s_hyper tick set_hyper]. eexists. split; [reflexivity|]. split; [exact A2|]. split; [|exact A4].
      intros _. split; [discriminate|]. split; [discriminate|exact Nq].
    - apply bind_ok in H. destruct H as ([[m D1] q1] & H1 & H). injection H as <- <- <-. exists h. auto.
  Qed.

  (** The choice, given the value of the relaxation. *)
  Lemma choice v s : armed s -> s_more s = true -> inv C g s ->
    ((0 < s_iter s)%nat -> Z.of_nat (s_noimp s) <> cg_run_exact C -> (forall c, In c (s_pool s) -> ~ 0 < s_values s (Y (c_name c))) ->
     next_strategy E C (Some v) s = Err ZeroDivisionError) /\
    (s_iter s = 0%nat \/ Z.of_nat (s_noimp s) = cg_run_exact C \/ (exists c, In c (s_pool s) /\ 0 < s_values s (Y (c_name c))) ->
     exists s2 p, next_strategy E C (Some v) s = Ok (s2, p) /\ exists h, s_hyper s2 = Some h /\ tally h /\ ready h).
  Proof.
    intros (h & A1 & A2 & A3 & A4) M I. unfold next_strategy. rewrite CS.
    destruct (Z.of_nat (s_noimp s) =? cg_run_exact C)%Z eqn:Ne.
    { apply Z.eqb_eq in Ne. split; [intros _ X; contradiction|]. intros _. exists s, Exact. split; [reflexivity|]. exists h.
      split; [exact A1|]. split; [exact A2|]. apply A3. destruct (s_iter s) eqn:Ei; [|lia]. rewrite (A4 eq_refl) in Ne. cbn in Ne. congruence. }
    apply Z.eqb_neq in Ne. destruct (s_iter s =? 0)%nat eqn:Ei.
    { apply Nat.eqb_eq in Ei. split; [lia|]. intros _. cbn [s_hyper set_noimp]. rewrite A1. cbn [of_opt bind].
      eexists _, _. split; [reflexivity|]. eexists. split; [reflexivity|]. split; [exact A2|]. split; [discriminate|]. split; discriminate. }
    apply Nat.eqb_neq in Ei. assert (R : ready h) by (apply A3; lia).
    unfold update_hyper. cbn [s_master s_values s_pool s_hyper set_noimp s_more set_master now s_tick].
    unfold heuristic_distribution.
    assert (HV : iterM (fun c => raise_if (negb (has_variable (s_master s) (c_name c))) KeyError) (s_pool s) = Ok tt).
    { assert (X : forall c, In c (s_pool s) -> has_variable (s_master s) (c_name c) = true).
      { intros c Hc. apply (has_variable_iff _ _ _ _ (iv_built _ _ _ I)). apply in_map. exact Hc. }
      revert X. generalize (s_pool s). intro l. induction l as [|c l IH]; intro X; [reflexivity|]. cbn [iterM].
      rewrite (X c (or_introl eq_refl)). cbn [negb raise_if bind]. apply IH. intros c' Hc'. apply X. right. exact Hc'. }
    rewrite HV. cbn [bind]. rewrite A1. cbn [of_opt bind]. rewrite M.
    set (x := s_values s) in *. rewrite active_total.
    match goal with |- context [current_performance ?u ?q ?b ?act ?n ?t h] =>
      destruct (performance_ready u v act n t h R A2) as (h1 & cur & P1 & P2 & P3 & P4 & P5); rewrite P1 end.
    cbn [bind]. unfold update_parameters. split.
    - intros _ _ NA. assert (Z : hy_active_sum h1 = 0%nat).
      { rewrite P4. assert (X : filter (active x) (s_pool s) = []); [|rewrite X; reflexivity].
        destruct (filter (active x) (s_pool s)) as [|c l] eqn:F; [reflexivity|]. exfalso.
        assert (Hc : In c (filter (active x) (s_pool s))) by (rewrite F; left; reflexivity). apply filter_In in Hc. destruct Hc as [C1 C2].
        apply (NA c C1). apply Qltb_lt. exact C2. }
      rewrite (points_fail h1 cur Z P5); [reflexivity|apply in_strats].
    - intros [Y|[Y|(c & C1 & C2)]]; [congruence|contradiction|].
      assert (Z : (0 < hy_active_sum h1)%nat).
      { rewrite P4. assert (X : In c (filter (active x) (s_pool s))) by (apply filter_In; split; [exact C1|apply Qltb_lt; exact C2]).
        destruct (filter (active x) (s_pool s)); [destruct X|cbn; lia]. }
      destruct (points_ok h1 P3 Z strats (hy_points h1)) as (p1 & ->). cbn [bind s_hyper set_hyper of_opt].
      destruct (pick_heuristic _ _) as [h3 p] eqn:Ep. destruct (pick_best _ _ _ _ Ep) as [_ ->].
      eexists _, _. split; [reflexivity|]. eexists. split; [reflexivity|]. split; [exact P3|].
      destruct P2 as (Q1 & Q2 & Q3). split; [exact Q1|]. split; [discriminate|exact Q3].
  Qed.

  Lemma vehicles_armed p D : forall ks s s', (forall k, In k ks -> (k < cg_types C)%nat) ->
    vehicles E C p D ks s = Ok s' -> (exists h, s_hyper s = Some h /\ tally h /\ ready h) ->
    exists h, s_hyper s' = Some h /\ tally h /\ ready h.
  Proof.
    induction ks as [|k ks IH]; intros s s' Hks H A; cbn [vehicles] in H; [injection H as <-; exact A|].
    assert (Hk := Hks k (or_introl eq_refl)).
    apply bind_ok in H. destruct H as (s1 & H1 & H). cbv zeta in H. apply bind_ok in H. destruct H as ([s2 b] & H2 & H). cbn [fst snd] in H.
    assert (Hy1 : s_hyper s1 = s_hyper s).
    { unfold greedy_step in H1. destruct (greedy_applies C); [|injection H1 as <-; reflexivity].
      apply bind_ok in H1. destruct H1 as (h & _ & H1). apply bind_ok in H1. destruct H1 as ([pool more] & _ & H1). cbn [fst snd] in H1.
      destruct more; [|injection H1 as <-; reflexivity]. apply bind_ok in H1. destruct H1 as (m & _ & H1). injection H1 as <-. reflexivity. }
    assert (L : looked E C (s_graph s) (set_more false s1) s2 b).
    { destruct (mo_span (cg_master C)); [eapply per_route_looked|eapply solve_subproblem_looked]; eassumption. }
    assert (Hy2 := fr_hyper _ _ _ (lk_frame _ _ _ _ _ _ L)). cbn [s_hyper set_more] in Hy2. rewrite Hy1 in Hy2. rewrite <- Hy2 in A.
    destruct b.
    - unfold adopt in H. apply bind_ok in H. destruct H as (c & _ & H). apply bind_ok in H. destruct H as (m & _ & H). injection H as <-. exact A.
    - apply bind_ok in H. destruct H as (s4 & H4 & H). apply (IH s4 s'); [intros k' Hk'; apply Hks; right; exact Hk'|exact H|].
      rewrite CS in H4. apply bind_ok in H4. destruct H4 as (h & Hh & H4). injection H4 as <-. cbn [s_hyper set_more] in Hh.
      destruct A as (h' & A1 & A2 & A3). rewrite A1 in Hh. injection Hh as <-.
      exists (set_end (now E (set_more false s2)) h'). split; [reflexivity|]. split; [exact A2|]. destruct A3 as (Q1 & Q2 & Q3).
      split; [discriminate|]. split; [exact Q2|exact Q3].
  Qed.

  Lemma find_armed s s' : find_columns E C s = Ok s' -> inv C g s -> s_more s = true -> armed s ->
    (forall s1 D q, solve_relaxed E C s = Ok (s1, D, q) -> q <> None) -> armed s'.
  Proof.
    intros H I M A NQ. assert (Fi := find_iter E C g _ _ H). unfold find_columns in H. apply bind_ok in H. destruct H as ([[s1 D] q] & H1 & H).
    apply bind_ok in H. destruct H as ([s2 p] & H2 & H). apply bind_ok in H. destruct H as (s3 & H3 & H4). cbn [fst snd] in H3.
    assert (Nq := NQ _ _ _ H1). destruct q as [v|]; [|contradiction].
    assert (A1 := relaxed_armed _ _ _ _ H1 Nq A).
    destruct (solve_relaxed_ok E C _ _ _ _ H1) as (S1 & S2 & S3 & _).
    assert (I1 := same_search_inv C g _ _ I S1).
    assert (M1 : s_more s1 = true) by (rewrite (ss_more _ _ S1); exact M).
    destruct (choice v s1 A1 M1 I1) as [C1 C2].
    assert (R2 : exists h, s_hyper s2 = Some h /\ tally h /\ ready h).
    { destruct (Nat.eq_dec (s_iter s1) 0) as [Z0|Z0]; [|destruct (Z.eq_dec (Z.of_nat (s_noimp s1)) (cg_run_exact C)) as [Z1|Z1]].
      - destruct C2 as (s2' & p' & X & Y); [auto|]. rewrite X in H2. injection H2 as <- <-. exact Y.
      - destruct C2 as (s2' & p' & X & Y); [auto|]. rewrite X in H2. injection H2 as <- <-. exact Y.
      - destruct (existsb (fun c => Qltb 0 (s_values s1 (Y (c_name c)))) (s_pool s1)) eqn:X.
        + apply existsb_exists in X. destruct X as (c & X1 & X2). apply Qltb_lt in X2.
          destruct C2 as (s2' & p' & X & Y); [right; right; eauto|]. rewrite X in H2. injection H2 as <- <-. exact Y.
        + rewrite C1 in H2; [discriminate|lia|exact Z1|]. intros c Hc Hp. apply Qltb_lt in Hp.
          assert (T : existsb (fun c => Qltb 0 (s_values s1 (Y (c_name c)))) (s_pool s1) = true) by (apply existsb_exists; eauto). congruence. }
    destruct (vehicles_armed p D (seq 0 (cg_types C)) s2 s3) as (h & V1 & V2 & V3); [|exact H3|exact R2|].
    { intros k Hk. apply in_seq in Hk. lia. }
    unfold progress in H4. apply bind_ok in H4. destruct H4 as (b & _ & H4). injection H4 as <-. exists h. cbn [s_hyper set_progress].
    split; [exact V1|]. split; [exact V2|]. split; [intros _; exact V3|]. cbn [s_iter set_progress]. lia.
  Qed.

  Lemma starts_armed s st : starts E C s st -> inv C g s -> armed s ->
    (forall st s1 D q, starts E C s st -> solve_relaxed E C st = Ok (s1, D, q) -> q <> None) -> armed st.
  Proof.
    intros H I A NQ. induction H as [M|st s1 S IH H T L M]; [exact A|].
    assert (X := find_armed _ _ H (starts_inv _ _ _ _ _ S I) (starts_more _ _ _ _ S) IH (fun a b c => NQ st a b c S)).
    destruct X as (h & X1 & X2 & X3 & X4). exists h. auto.
  Qed.

  Theorem strategy_choice s st s1 D q : fresh C g s -> iteration E C s st ->
    (forall st s1 D q, iteration E C s st -> solve_relaxed E C st = Ok (s1, D, q) -> q <> None) ->
    solve_relaxed E C st = Ok (s1, D, q) ->
    (s_iter st = 0%nat \/ Z.of_nat (s_noimp st) = cg_run_exact C \/ (exists c, In c (s_pool st) /\ 0 < s_values s1 (Y (c_name c))) ->
     exists s2 p, next_strategy E C q s1 = Ok (s2, p)) /\
    ((0 < s_iter st)%nat -> Z.of_nat (s_noimp st) <> cg_run_exact C -> (forall c, In c (s_pool st) -> ~ 0 < s_values s1 (Y (c_name c))) ->
     find_columns E C st = Err ZeroDivisionError).
  Proof.
    intros F It NQ H1. assert (Nq := NQ _ _ _ _ It H1). destruct q as [v|]; [|contradiction].
    assert (A0 : armed s).
    { exists new_hyper. rewrite (fs_hyper _ _ _ F), CS. split; [reflexivity|]. split; [intros []; cbn; lia|].
      rewrite (fs_iter _ _ _ F), (fs_noimp _ _ _ F). split; [lia|reflexivity]. }
    assert (X : armed st /\ inv C g st /\ s_more st = true).
    { destruct It as [st S|f s0 st H S].
      - split; [eapply starts_armed; [exact S|apply fresh_inv; exact F|exact A0|]|].
        + intros st' a b c S' R'. eapply NQ; [apply it_generation; exact S'|exact R'].
        + split; [eapply starts_inv; [exact S|apply fresh_inv; exact F]|eapply starts_more; exact S].
      - assert (H0 := H). apply generation_is_run in H0. destruct H0 as (n0 & _ & R0).
        destruct (run_ok E C g n0 s s0 R0 (fresh_inv _ _ _ F)) as (I0 & _).
        destruct (run_ends E C n0 s s0 R0 (fs_more _ _ _ F)) as (sz & sl & S1 & S2 & E0 & _).
        assert (Az : armed sz).
        { eapply starts_armed; [exact S1|apply fresh_inv; exact F|exact A0|]. intros st' a b c S' R'. eapply NQ; [apply it_generation; exact S'|exact R']. }
        assert (Al : armed sl).
        { eapply find_armed; [exact S2|eapply starts_inv; [exact S1|apply fresh_inv; exact F]|eapply starts_more; exact S1|exact Az|].
          intros a b c R'. eapply NQ; [apply it_generation; exact S1|exact R']. }
        assert (As : armed (start_dive s0)).
        { subst s0. destruct Al as (h & X1 & X2 & X3 & X4). exists h. auto. }
        split; [eapply starts_armed; [exact S|exact (inv_dive C g s0 I0)|exact As|]|].
        + intros st' a b c S' R'. eapply NQ; [eapply it_dive; eassumption|exact R'].
        + split; [eapply starts_inv; [exact S|exact (inv_dive C g s0 I0)]|eapply starts_more; exact S]. }
    destruct X as (A & I & M). destruct (solve_relaxed_ok E C _ _ _ _ H1) as (S1 & S2 & S3 & _).
    assert (A1 := relaxed_armed _ _ _ _ H1 Nq A).
    destruct (choice v s1 A1 (eq_trans (ss_more _ _ S1) M) (same_search_inv C g _ _ I S1)) as [C1 C2].
    rewrite (ss_iter _ _ S1), S3, S2 in *. split.
    - intro Y. destruct (C2 Y) as (s2 & p & Z & _). eauto.
    - intros Y1 Y2 Y3. unfold find_columns. rewrite H1. cbn [bind]. rewrite (C1 Y1 Y2 Y3). reflexivity.
  Qed.

  (** ** When every customer must be served, some column is always active *)
  Lemma covered (m : master) (cs : list column) x v d : wf g -> (forall c, In c cs -> labelled c) -> built g (cg_master C) cs m ->
    feasible x (program_of m) -> mo_periodic (cg_master C) = false -> (forall p, ~ drops (cg_master C) p) -> customer g v d ->
    exists c, In c cs /\ (0 < times v c)%nat /\ 0 < x (Y (c_name c)).
  Proof.
    intros W LAB B FE PER ND Hv. assert (SH := built_shape _ _ _ _ B).
    apply (feasible_iff g (cg_master C) cs m W LAB SH false) in FE.
    assert (TD : truthyQ (mo_drop (cg_master C)) = false).
    { destruct (mo_drop (cg_master C)) as [p|] eqn:Ed; [|reflexivity]. destruct (Qeq_bool p 0) eqn:X.
      - unfold truthyQ. rewrite X. reflexivity.
      - exfalso. apply (ND p). split; [exact Ed|]. apply Qeq_bool_neq. exact X. }
    destruct (so_visits _ _ _ _ _ FE v d Hv) as [V _]. unfold count_visits, required in V. rewrite TD, PER in V. cbn [andb] in V.
    assert (P0 : forall c, In c cs -> 0 <= x (Y (c_name c))) by (intros c Hc; apply (so_routes _ _ _ _ _ FE c Hc)).
    assert (V1 : 0 < Qsum_over cs (fun c => inject_Z (Z.of_nat (times v c)) * x (Y (c_name c)))) by lra.
    clear - V1 P0. unfold Qsum_over in V1. revert V1 P0. induction cs as [|c l IH]; intros V P.
    - cbn in V. lra.
    - cbn [map] in V. rewrite Qsum_cons in V. destruct (times v c) as [|k] eqn:Et.
      + destruct IH as (c1 & C1 & C2 & C3); [change (inject_Z (Z.of_nat 0)) with 0 in V; lra|intros; apply P; right; assumption|].
        exists c1. split; [right; exact C1|auto].
      + destruct (Qltb 0 (x (Y (c_name c)))) eqn:X.
        * apply Qltb_lt in X. exists c. split; [left; reflexivity|]. split; [lia|exact X].
        * apply Qltb_ge in X. assert (Z := P c (or_introl eq_refl)). assert (Z0 : x (Y (c_name c)) == 0) by lra.
          rewrite Z0 in V. destruct IH as (c1 & C1 & C2 & C3); [lra|intros; apply P; right; assumption|].
          exists c1. split; [right; exact C1|auto].
  Qed.

  Theorem strategy_always s st s1 D q : fresh C g s -> wf g -> starts E C s st ->
    mo_periodic (cg_master C) = false -> (forall p, ~ drops (cg_master C) p) -> (exists v d, customer g v d) ->
    (forall st, starts E C s st -> let p := program_of (s_master st) in
       sound_answer p (e_master E (S (s_tick st)) p) /\ a_objective (e_master E (S (s_tick st)) p) <> None) ->
    solve_relaxed E C st = Ok (s1, D, q) ->
    exists s2 p, next_strategy E C q s1 = Ok (s2, p).
  Proof.
    intros F W St PER ND (v & d & Hv) HA H.
    assert (DV : forall st, starts E C s st -> s_dive st = false).
    { intros t Ht. rewrite (starts_dive E C _ _ Ht). exact (fs_dive _ _ _ F). }
    assert (NQ : forall st s1 D q, starts E C s st -> solve_relaxed E C st = Ok (s1, D, q) -> q <> None).
    { intros t t1 D0 q0 Ht H0. destruct (solve_relaxed_master E C t t1 D0 q0 (DV t Ht) H0) as (SM & _).
      unfold solve_master in SM. apply bind_ok in SM. destruct SM as (u & _ & SM). apply bind_ok in SM. destruct SM as (D2 & _ & SM).
      assert (Eq : q0 = a_objective (e_master E (S (s_tick t)) (program_of (s_master t)))) by congruence.
      rewrite Eq. apply (HA t Ht). }
    assert (I0 := fresh_inv C g s F). assert (Ist := starts_inv E C g s st St I0).
    assert (A0 : armed s).
    { exists new_hyper. split; [rewrite (fs_hyper _ _ _ F), CS; reflexivity|]. split; [intros []; cbn; lia|].
      split; [rewrite (fs_iter _ _ _ F); lia|]. intros _. exact (fs_noimp _ _ _ F). }
    assert (A := starts_armed _ _ St I0 A0 NQ). assert (Nq := NQ _ _ _ _ St H).
    assert (A1 := relaxed_armed _ _ _ _ H Nq A). destruct q as [w|]; [|contradiction].
    destruct (solve_relaxed_ok E C _ _ _ _ H) as (S1 & S2 & S3 & _).
    assert (I1 := same_search_inv C g _ _ Ist S1).
    assert (M1 : s_more s1 = true).
    { rewrite (ss_more _ _ S1). clear - St. destruct St; assumption. }
    destruct (solve_relaxed_master E C st s1 D (Some w) (DV st St) H) as (SM & VAL & _).
    assert (FE : feasible (a_value (e_master E (S (s_tick st)) (program_of (s_master st)))) (program_of (s_master st))).
    { destruct (HA st St) as [So _]. apply (sa_feasible _ _ So). left. unfold solve_master in SM. apply bind_ok in SM. destruct SM as (u & Hu & _).
      destruct (a_status _) eqn:Ea in Hu |- *; try reflexivity; rewrite ?Ea in Hu; discriminate. }
    assert (Fi : fine (s_pool st)) by (eapply starts_fine; [exact St|exact I0|exact (fresh_fine C g s F)]).
    assert (LAB : forall c, In c (s_pool st) -> labelled c) by (intros c Hc; apply (Fi c Hc)).
    destruct (covered (s_master st) (s_pool st) _ v d W LAB (iv_built _ _ _ Ist) FE PER ND Hv) as (c & C1 & _ & C3).
    destruct (choice w s1 A1 M1 I1) as [_ CH].
    destruct CH as (s2 & p & X & _); [|eauto]. right. right. exists c. rewrite S2. split; [exact C1|]. rewrite VAL. unfold values_of.
    assert (HV := has_variables g (cg_master C) (s_pool st) (s_master st) LAB (built_shape _ _ _ _ (iv_built _ _ _ Ist)) c C1).
    assert (M : mem_var (Y (c_name c)) (map mc_var (ms_cols (s_master st))) = true).
    { unfold has_variable in HV. apply existsb_exists in HV. destruct HV as (y & Hy & Ey).
      apply mem_var_iff. destruct (mc_var y) as [nm| | | |] eqn:Ev; try discriminate. apply cname_eqb_eq in Ey. subst nm.
      rewrite <- Ev. apply in_map. exact Hy. }
    rewrite M. exact C3.
  Qed.
End Total.
