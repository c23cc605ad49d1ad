(** Limits of the search that do not matter: limits of zero, and limits that are not reached. *)
From Verif.Base Require Import Prelude Graph.
From Verif.Spec Require Import Routes Network LinProg MIP Run Limits.
From Verif.Model Require Import Args Checks Preprocess Initial Pricing GreedyPricing LPPricing Cspy Master Dive Hyper ColGen Post Schedule Solve.
From Verif.Proofs Require Import RunProofs.

Section Same.
  Variables (cl : nat -> Q) (ma : nat -> program mvar -> answer mvar) (dl : nat -> mrow -> Q) (di : nat -> nat -> program mvar -> answer mvar)
    (od : nat -> list mvar -> list mvar) (pr pr' : nat -> option Q -> program pvar -> answer pvar) (ne : nat -> vgraph -> bool)
    (pa : nat -> (arc -> Q) -> nat -> list (list node))
    (la la' : nat -> option Q -> vgraph -> label -> (label -> arc -> res label) -> bool -> option Q -> option (Q * list node))
    (rd : nat -> nat -> nat -> nat) (ch : nat -> nat) (uc : nat -> nat -> Q).
  Variables (st : option strat) (cs el gr : bool) (mi mi' : option Z) (re : Z) (tl tl' : option Q)
    (sr : Q) (ty : nat) (ca : option (list Z)) (ns du : option Z) (op : options) (mo : moptions) (ks : list node).
  Let E1 := mkEnv cl ma dl di od pr ne pa la rd ch uc.
  Let E2 := mkEnv cl ma dl di od pr' ne pa la' rd ch uc.
  Let C1 := mkCG st cs el gr mi re tl sr ty ca ns du op mo ks.
  Let C2 := mkCG st cs el gr mi' re tl' sr ty ca ns du op mo ks.
  Hypothesis SUB : forall D k route p s, subproblem E1 C1 D k route p s = subproblem E2 C2 D k route p s.

  Lemma same_attempts D k route ps : forall s, attempts E1 C1 D k route ps s = attempts E2 C2 D k route ps s.
  Proof.
    induction ps as [|p t IH]; intro s; [reflexivity|]. cbn [attempts]. rewrite SUB.
    destruct (subproblem E2 C2 D k route p s) as [[s1 [|]]|]; cbn [bind fst snd]; auto.
  Qed.
  Lemma same_attempt D k route p s : attempt E1 C1 D k route p s = attempt E2 C2 D k route p s.
  Proof. destruct p; cbn [attempt]; auto using same_attempts. Qed.
  Lemma same_solve_subproblem p D k route s : solve_subproblem E1 C1 p D k route s = solve_subproblem E2 C2 p D k route s.
  Proof.
    unfold solve_subproblem. change (cg_strategy C1) with (cg_strategy C2). destruct (cg_strategy C2); [|apply same_attempt].
    destruct p; try apply same_attempt; rewrite same_attempt;
    (match goal with |- bind ?x _ = _ => destruct x as [[s1 [|]]|] end; cbn [bind fst snd]; auto using same_attempt).
  Qed.
  Lemma same_per_route p D k l : forall s, ColGen.per_route E1 C1 p D k l s = ColGen.per_route E2 C2 p D k l s.
  Proof.
    induction l as [|n t IH]; intro s; [reflexivity|]. cbn [ColGen.per_route]. rewrite same_solve_subproblem.
    destruct (solve_subproblem E2 C2 p D k (Some n) s) as [[s1 [|]]|]; cbn [bind fst snd]; auto.
  Qed.
  Lemma same_vehicles p D l : forall s, ColGen.vehicles E1 C1 p D l s = ColGen.vehicles E2 C2 p D l s.
  Proof.
    induction l as [|k t IH]; intro s; [reflexivity|]. cbn [ColGen.vehicles].
    change (greedy_step E1 C1 D k s) with (greedy_step E2 C2 D k s). destruct (greedy_step E2 C2 D k s) as [s1|]; cbn [bind]; [|reflexivity].
    change (cg_master C1) with mo. change (cg_master C2) with mo. change (cg_strategy C1) with st. change (cg_strategy C2) with st.
    rewrite same_per_route, same_solve_subproblem.
    match goal with |- bind ?x _ = _ => destruct x as [[s2 [|]]|] end; cbn [bind fst snd]; [reflexivity| |reflexivity].
    match goal with |- bind ?x _ = bind ?y _ => change y with x; destruct x as [s4|] end; cbn [bind]; auto.
  Qed.
  Lemma same_find s : find_columns E1 C1 s = find_columns E2 C2 s.
  Proof.
    unfold find_columns. change (solve_relaxed E1 C1 s) with (solve_relaxed E2 C2 s).
    destruct (solve_relaxed E2 C2 s) as [[[s1 D] q]|]; cbn [bind]; [|reflexivity].
    change (next_strategy E1 C1 q s1) with (next_strategy E2 C2 q s1). destruct (next_strategy E2 C2 q s1) as [r2|]; cbn [bind]; [|reflexivity].
    change (cg_types C1) with ty. change (cg_types C2) with ty. rewrite same_vehicles. reflexivity.
  Qed.

  Hypothesis UP : forall s, time_up E1 C1 s = time_up E2 C2 s.
  Lemma same_generation_all f (LR : forall s, limit_reached C1 s = limit_reached C2 s) :
    forall s, column_generation E1 C1 f s = column_generation E2 C2 f s.
  Proof.
    induction f as [|f IH]; intros s; cbn [column_generation]; [reflexivity|].
    destruct (negb (s_more s)); [reflexivity|]. rewrite same_find. destruct (find_columns E2 C2 s) as [s1|]; cbn [bind]; [|reflexivity].
    rewrite UP, LR, IH. reflexivity.
  Qed.
  Lemma same_columns_all f f2 dive s (LR : forall s, limit_reached C1 s = limit_reached C2 s) :
    solve_columns E1 C1 f f2 dive s = solve_columns E2 C2 f f2 dive s.
  Proof.
    unfold solve_columns, generate_and_dive. rewrite !(same_generation_all _ LR).
    assert (B : forall x : res state, bind x (fun s0 => column_generation E1 C1 f2 (start_dive s0)) = bind x (fun s0 => column_generation E2 C2 f2 (start_dive s0))).
    { intros [x|]; cbn [bind]; [apply same_generation_all, LR|reflexivity]. }
    rewrite B. reflexivity.
  Qed.
  (** the iterations of the run without the limit stay within the limit *)
  Hypothesis MI : mi' = None.
  Lemma generation_counts f s s' : column_generation E2 C2 f s = Ok s' ->
    (s_iter s <= s_iter s')%nat /\ (s_more s = true -> s_iter s < s_iter s')%nat.
  Proof.
    intro H. apply generation_is_run in H. destruct H as (n & _ & R). assert (Z := run_counts E2 C2 (s_graph s) _ _ _ R). split; [lia|]. intro M.
    destruct R; [congruence|lia|lia].
  Qed.
  Lemma same_generation f : forall s s', column_generation E2 C2 f s = Ok s' ->
    (forall m, mi = Some m -> m <> 0%Z -> (Z.of_nat (s_iter s') <= m)%Z) ->
    column_generation E1 C1 f s = Ok s'.
  Proof.
    induction f as [|f IH]; intros s s' H L; cbn [column_generation] in *; [exact H|].
    destruct (negb (s_more s)); [exact H|]. rewrite same_find. destruct (find_columns E2 C2 s) as [s1|]; cbn [bind] in *; [|exact H].
    rewrite UP. destruct (time_up E2 C2 s1); [exact H|].
    unfold limit_reached in *. cbn [cg_max_iter C1 C2] in *. rewrite MI in H. rewrite orb_false_r in H.
    destruct (1000 <? Z.of_nat (s_noimp (tick (tick s1))))%Z; [exact H|]. cbn [orb].
    destruct mi as [m|]; [|apply IH; [exact H|exact L]].
    destruct (negb (m =? 0)%Z && (m <=? Z.of_nat (s_iter (tick (tick s1))))%Z) eqn:B; [|apply IH; [exact H|exact L]].
    apply andb_true_iff in B. destruct B as (B1 & B2). apply negb_true_iff, Z.eqb_neq in B1. apply Z.leb_le in B2.
    destruct (generation_counts _ _ _ H) as (G1 & G2). specialize (L m eq_refl B1).
    destruct (s_more (tick (tick s1))) eqn:Mo; [specialize (G2 eq_refl); lia|].
    destruct f; cbn [column_generation] in H; rewrite Mo in H; cbn [negb] in H; exact H.
  Qed.
  Lemma same_columns_solved f f2 dive s r : solve_columns E2 C2 f f2 dive s = Ok r ->
    (forall m, mi = Some m -> m <> 0%Z -> (Z.of_nat (s_iter (fst r)) <= m)%Z) ->
    solve_columns E1 C1 f f2 dive s = Ok r.
  Proof.
    intros H L. unfold solve_columns in *. apply bind_ok in H. destruct H as (s1 & H1 & H). apply bind_ok in H. destruct H as (c & H2 & H). injection H as <-. cbn [fst] in L.
    assert (G : (if dive then generate_and_dive E1 C1 f f2 s else column_generation E1 C1 f s) = Ok s1).
    { destruct dive; [|apply same_generation; assumption]. unfold generate_and_dive in *. apply bind_ok in H1. destruct H1 as (s0 & H0 & H1).
      rewrite (same_generation f s s0 H0); [cbn [bind]; apply same_generation; assumption|].
      intros m Hm Z. specialize (L m Hm Z). destruct (generation_counts _ _ _ H1) as (Q & _). cbn [s_iter start_dive] in Q. lia. }
    rewrite G. cbn [bind]. change (conclude E1 C1 dive s1) with (conclude E2 C2 dive s1). rewrite H2. reflexivity.
  Qed.
End Same.

(** ** Remaining time *)
Lemma blind_lp h rs k caps o ns du neg r pr keys pool : 0 < r ->
  lp_solve h rs k caps o ns du neg (Some r) true pr keys pool = lp_solve h rs k caps o ns du neg None true pr keys pool.
Proof.
  intro H. unfold lp_solve. assert (Z : Qle_bool r 0 = false) by (apply not_true_iff_false; intro Z; apply Qle_bool_iff in Z; lra).
  rewrite Z, andb_false_r. reflexivity.
Qed.
Lemma positive_remains l t x : t - x < l -> Qltb 0 (l - (t - x)) = true.
Proof. intro H. unfold Qltb. apply negb_true_iff, not_true_iff_false. intro Z. apply Qle_bool_iff in Z. lra. Qed.
Lemma positive_not_zero r : 0 < r -> Qeq_bool r 0 = false.
Proof. intro H. apply not_true_iff_false. intro Z. apply Qeq_bool_iff in Z. lra. Qed.

(** ** Limits of zero *)
Lemma equal_limits X f f2 sa v tl tl' mi mi' :
  match tl with Some l => if Qeq_bool l 0 then None else Some l | None => None end =
  match tl' with Some l => if Qeq_bool l 0 then None else Some l | None => None end ->
  match mi with Some 0%Z => None | _ => mi end = match mi' with Some 0%Z => None | _ => mi' end ->
  solve X f f2 (with_limits tl mi sa) v = solve X f f2 (with_limits tl' mi' sa) v.
Proof.
  intros T M. unfold solve.
  change (prepare v (with_limits tl mi sa)) with (prepare v (with_limits tl' mi' sa)).
  destruct (prepare v (with_limits tl' mi' sa)) as [((a & K) & p)|]; cbn [bind]; [|reflexivity].
  change (sa_heuristic (with_limits tl mi sa)) with (sa_heuristic sa). change (sa_heuristic (with_limits tl' mi' sa)) with (sa_heuristic sa).
  destruct (sa_heuristic sa); [reflexivity|].
  change (options_of v (with_limits tl mi sa)) with (options_of v (with_limits tl' mi' sa)).
  match goal with |- bind ?x _ = bind ?y _ => change x with y; destruct y as [ic|] end; cbn [bind]; [|reflexivity].
  match goal with |- bind ?x _ = bind ?y _ => change x with y; destruct y as [s|] end; cbn [bind]; [|reflexivity].
  match goal with |- bind ?x _ = bind ?y _ => assert (EQ : x = y) end.
  { destruct (x_env X) as [cl ma dl di od pr ne pa la rd ch uc]. unfold cg_of, with_limits. cbn [sa_strategy sa_cspy sa_dive sa_elementary sa_greedy sa_max_iter sa_run_exact sa_time_limit sa_initial sa_pre sa_heuristic].
    apply same_columns_all.
    - intros D k route p0 s0. unfold subproblem, time_remaining. cbn [cg_time_limit].
      destruct tl as [l|], tl' as [l'|]; try reflexivity; try (destruct (Qeq_bool l 0)); try (destruct (Qeq_bool l' 0)); try discriminate T; try reflexivity.
      injection T as <-. reflexivity.
    - intros s0. unfold time_up, time_remaining. cbn [cg_time_limit].
      destruct tl as [l|], tl' as [l'|]; try reflexivity; try (destruct (Qeq_bool l 0)); try (destruct (Qeq_bool l' 0)); try discriminate T; try reflexivity.
      injection T as <-. reflexivity.
    - intros s0. unfold limit_reached. cbn [cg_max_iter]. destruct mi as [[|m|m]|], mi' as [[|m'|m']|]; try discriminate M; try reflexivity; injection M as <-; reflexivity. }
  rewrite EQ. reflexivity.
Qed.
Lemma zero_limits X f f2 sa v tl mi z : z == 0 ->
  solve X f f2 (with_limits (Some z) mi sa) v = solve X f f2 (with_limits None mi sa) v /\
  solve X f f2 (with_limits tl (Some 0%Z) sa) v = solve X f f2 (with_limits tl None sa) v.
Proof.
  intro Z. apply Qeq_bool_iff in Z. split; apply equal_limits; try reflexivity. rewrite Z. reflexivity.
Qed.

(** ** Limits that are not reached *)
Lemma generous_limits X f f2 sa v tl mi v' out :
  (forall l, tl = Some l -> ~ l == 0 -> time_blind (x_env X) /\ forall n, e_clock (x_env X) n - x_start X < l) ->
  (forall m, mi = Some m -> m <> 0%Z -> (Z.of_nat (v_iter v') <= m)%Z) ->
  solve X f f2 (with_limits None None sa) v = Ok (v', out) ->
  solve X f f2 (with_limits tl mi sa) v = Ok (v', out).
Proof.
  intros T L H. unfold solve in *.
  change (prepare v (with_limits tl mi sa)) with (prepare v (with_limits None None sa)).
  destruct (prepare v (with_limits None None sa)) as [((a & K) & p)|]; cbn [bind] in *; [|discriminate].
  change (sa_heuristic (with_limits tl mi sa)) with (sa_heuristic sa). change (sa_heuristic (with_limits None None sa)) with (sa_heuristic sa) in H.
  destruct (sa_heuristic sa); [exact H|].
  change (options_of v (with_limits tl mi sa)) with (options_of v (with_limits None None sa)).
  match type of H with bind ?y _ = _ => match goal with |- bind ?x _ = _ => change x with y end; destruct y as [ic|] end; cbn [bind] in *; [|discriminate].
  match type of H with bind ?y _ = _ => match goal with |- bind ?x _ = _ => change x with y end; destruct y as [s|] end; cbn [bind] in *; [|discriminate].
  apply bind_ok in H. destruct H as (e & He & H).
  assert (I : v_iter v' = s_iter (fst e)).
  { apply bind_ok in H. destruct H as ((((r1 & r2) & r3) & r4) & _ & H). injection H as <- _. reflexivity. }
  match goal with |- bind ?x _ = _ => assert (EQ : x = Ok e) end.
  { revert He. change (sa_dive (with_limits tl mi sa)) with (sa_dive sa). change (sa_dive (with_limits None None sa)) with (sa_dive sa).
    destruct (x_env X) as [cl ma dl di od pr ne pa la rd ch uc]. unfold cg_of. unfold with_limits at 1 3 4 5 6 7. cbn [sa_strategy sa_cspy sa_dive sa_elementary sa_greedy sa_max_iter sa_run_exact sa_time_limit sa_initial sa_pre sa_heuristic with_limits].
    intro He. rewrite I in L. revert He L. apply same_columns_solved.
    - intros D k route p0 s0. unfold subproblem, time_remaining. cbn [cg_time_limit]. destruct tl as [l|]; [|reflexivity].
      destruct (Qeq_bool l 0) eqn:Z; [reflexivity|]. assert (NZ : ~ l == 0) by (intro Q; apply Qeq_bool_iff in Q; congruence).
      destruct (T l eq_refl NZ) as (B & Cl). cbn [cg_start now]. unfold now. cbn [e_clock] in *. specialize (Cl (s_tick (tick s0))).
      rewrite (positive_remains _ _ _ Cl).
      cbn [e_label e_pricer cg_cspy].
      destruct (add_reduced_cost D k route (s_graph s0)) as [g|]; cbn [bind]; [|reflexivity].
      cbn [e_paths]. destruct (pricing_graph (pa (s_tick s0)) p0 D k g) as [hr|]; cbn [bind]; [|reflexivity].
      rewrite blind_lp by lra. unfold time_blind in B. cbn [e_label e_pricer] in B.
      match goal with |- context[la ?n (cspy_limit (Some ?q))] => rewrite (proj1 (B n (cspy_limit (Some q)) (cspy_limit None))) end.
      match goal with |- context[pr ?n (Some ?q)] => rewrite (proj2 (B n (Some q) None)) end. reflexivity.
    - intros s0. unfold time_up, time_remaining. cbn [cg_time_limit]. destruct tl as [l|]; [|reflexivity].
      destruct (Qeq_bool l 0) eqn:Z; [reflexivity|]. assert (NZ : ~ l == 0) by (intro Q; apply Qeq_bool_iff in Q; congruence).
      destruct (T l eq_refl NZ) as (_ & Cl). unfold now. cbn [e_clock cg_start] in *.
      rewrite !(positive_remains _ _ _ (Cl _)). apply positive_not_zero. specialize (Cl (s_tick (tick s0))). lra.
    - reflexivity. }
  rewrite EQ. cbn [bind]. exact H.
Qed.

(** ** Searches that run within the limit *)
Lemma in_time X pr la pr' la' f f2 sa v l : sa_time_limit sa = Some l -> ~ l == 0 ->
  (forall n t, t <= l -> pr n (Some t) = pr' n (Some t) /\ la n (Some t) = la' n (Some t)) ->
  (forall n, x_start X <= e_clock (x_env X) n) ->
  sa_cspy sa = false /\ 0 <= l \/ (forall n, e_clock (x_env X) n - x_start X < l) ->
  solve (with_searches X pr la) f f2 sa v = solve (with_searches X pr' la') f f2 sa v.
Proof.
  intros Tl NZ A St Cl. unfold solve.
  destruct (prepare v sa) as [((a & K) & p)|]; cbn [bind]; [|reflexivity].
  destruct (sa_heuristic sa); [reflexivity|]. cbn [with_searches x_perms].
  match goal with |- bind ?x _ = bind ?y _ => change x with y; destruct y as [ic|] end; cbn [bind]; [|reflexivity].
  match goal with |- bind ?x _ = bind ?y _ => change x with y; destruct y as [s|] end; cbn [bind]; [|reflexivity].
  match goal with |- bind ?x _ = bind ?y _ => assert (EQ : x = y) end.
  { unfold cg_of. cbn [x_env with_searches x_start]. apply same_columns_all; [|reflexivity|reflexivity].
    intros D k route p0 s0. unfold subproblem.
    match goal with |- bind ?x _ = bind ?y _ => change x with y; destruct y as [g|] end; cbn [bind]; [|reflexivity].
    match goal with |- bind ?x _ = bind ?y _ => change x with y; destruct y as [hr|] end; cbn [bind]; [|reflexivity].
    unfold time_remaining, now. cbn [cg_time_limit cg_start e_clock cg_cspy e_label e_pricer e_negative cg_caps cg_options cg_stops cg_duration cg_keys cg_elementary]. rewrite Tl.
    assert (Z : Qeq_bool l 0 = false) by (apply not_true_iff_false; intro Z; apply Qeq_bool_iff in Z; contradiction). rewrite Z.
    specialize (St (s_tick (tick s0))). set (t := e_clock (x_env X) (s_tick (tick s0))) in *.
    destruct (sa_cspy sa) eqn:Cs.
    - destruct Cl as [(Q & _)|Cl]; [discriminate|]. specialize (Cl (s_tick (tick s0))). fold t in Cl. rewrite (positive_remains _ _ _ Cl).
      unfold cspy_limit. rewrite positive_not_zero by lra.
      match goal with |- context[la ?n (Some ?q)] => rewrite (proj2 (A n q ltac:(lra))) end. reflexivity.
    - destruct (Qltb 0 (l - (t - x_start X))) eqn:R.
      + match goal with |- context[pr ?n (Some ?q)] => rewrite (proj1 (A n q ltac:(lra))) end. reflexivity.
      + assert (P : 0 <= l). { destruct Cl as [(_ & P)|Cl]; [exact P|]. specialize (Cl (s_tick (tick s0))). fold t in Cl. rewrite (positive_remains _ _ _ Cl) in R. discriminate. }
        match goal with |- context[pr ?n (Some 0)] => rewrite (proj1 (A n 0 P)) end. reflexivity. }
  rewrite EQ. reflexivity.
Qed.
