(** What diving fixes, in terms of distances and iterations. *)
From Verif.Base Require Import Prelude Graph.
From Verif.Spec Require Import Routes Network LinProg Pricing MIP Columns Pool Master Duality Run.
From Verif.Model Require Import Args Reach Checks Preprocess ClarkeWright Greedy Initial Pricing
  GreedyPricing LPPricing Cspy Master Dive Hyper ColGen.
From Verif.Proofs Require Import RouteLemmas MasterProofs SelectProofs PoolProofs ColGenProofs RunProofs
  BoundProofs HyperProofs DiveProofs ColGenCor.

Lemma nearest_iff x vars tabu v : nearest x vars tabu v <->
  candidate x vars tabu v /\ forall w, candidate x vars tabu w -> fractional (x v) <= fractional (x w).
Proof.
  split; intros [H1 H2]; (split; [exact H1|]).
  - intros w Hw. apply (H2 w); [exact Hw| |]; apply fractional_distance; reflexivity.
  - intros w d e Hw Hd He. apply fractional_distance in Hd, He. rewrite Hd, He. apply H2. exact Hw.
Qed.

Theorem one_dive resolve p vars x d d1 added : run_dive resolve p vars x d = Ok (d1, added) ->
  ((max_depth < dv_depth d)%nat \/ (forall v, ~ candidate x vars (dv_tabu d) v)) /\ added = [] /\ d1 = d \/
  (dv_depth d <= max_depth)%nat /\ exists v, nearest x vars (dv_tabu d) v /\
    dv_depth d1 = S (dv_depth d) /\ dv_tabu d1 = dv_tabu d ++ [v] /\
    (a_status (resolve 0%nat (fixing [v] p)) = Optimal /\ added = [v] /\ dv_level d1 = S (dv_level d) \/
     a_status (resolve 0%nat (fixing [v] p)) <> Optimal /\ added = [] /\ dv_level d = S (dv_level d1)).
Proof.
  intro H. destruct (run_dive_cases _ _ _ _ _ _ _ H) as [X|(D & v & V1 & V2 & V)]; [left; exact X|right].
  split; [exact D|]. exists v. split; [apply nearest_iff; split; assumption|exact V].
Qed.

Lemma candidates_in x vars tabu v :
  In v (filter (fun v => negb (mem_var v tabu) && negb (mem_var v [])) (filter (fun v => negb (Qeq_bool (fractional (x v)) 0)) vars)) <->
  candidate x vars tabu v.
Proof.
  rewrite !filter_In. split.
  - intros [[H1 H2] H3]. apply andb_true_iff in H3. destruct H3 as [H3 _]. apply negb_true_iff in H2, H3. constructor.
    + exact H1.
    + intro W. apply fractional_zero in W. apply Qeq_bool_iff in W. congruence.
    + intro I. apply mem_var_iff in I. congruence.
  - intros [H1 H2 H3]. split; [split; [exact H1|]|].
    + apply negb_true_iff. destruct (Qeq_bool _ 0) eqn:X; [|reflexivity]. apply Qeq_bool_iff, fractional_zero in X. contradiction.
    + apply andb_true_iff. split; [|reflexivity]. apply negb_true_iff. destruct (mem_var v tabu) eqn:X; [|reflexivity].
      apply mem_var_iff in X. contradiction.
Qed.

Theorem dive_fails resolve p vars x d :
  (forall e, run_dive resolve p vars x d = Err e -> e = AttributeError /\ (dv_depth d <= max_depth)%nat /\ dv_level d = 0%nat /\
     exists v, nearest x vars (dv_tabu d) v /\ a_status (resolve 0%nat (fixing [v] p)) <> Optimal) /\
  ((dv_depth d <= max_depth)%nat -> dv_level d = 0%nat -> (exists v, candidate x vars (dv_tabu d) v) ->
   (forall v, nearest x vars (dv_tabu d) v -> a_status (resolve 0%nat (fixing [v] p)) <> Optimal) ->
   run_dive resolve p vars x d = Err AttributeError).
Proof.
  assert (N : forall v0 vs, filter (fun v => negb (mem_var v (dv_tabu d)) && negb (mem_var v []))
                  (filter (fun v => negb (Qeq_bool (fractional (x v)) 0)) vars) = v0 :: vs ->
            nearest x vars (dv_tabu d) (least (fun w => fractional (x w)) v0 vs)).
  { intros v0 vs E. destruct (least_spec (fun w => fractional (x w)) vs v0) as [L1 L2]. rewrite <- E in L1, L2. apply nearest_iff.
    split; [apply candidates_in; exact L1|]. intros w Hw. apply L2, candidates_in. exact Hw. }
  split.
  - intros e H. apply run_dive_fails in H. destruct H as (-> & H1 & H2 & v0 & vs & H3 & H4).
    split; [reflexivity|]. split; [exact H1|]. split; [exact H2|]. eexists. split; [apply (N _ _ H3)|exact H4].
  - intros H1 H2 (v & Hv) H. apply run_dive_fails. split; [reflexivity|]. split; [exact H1|]. split; [exact H2|].
    apply candidates_in in Hv. destruct (filter _ (filter _ vars)) as [|v0 vs] eqn:E; [destruct Hv|].
    exists v0, vs. split; [reflexivity|]. apply H, N. reflexivity.
Qed.

(** Over a whole run. *)
Theorem dive_fixes E C g s st s' : fresh C g s -> iteration E C s st -> find_columns E C st = Ok s' ->
  exists added, s_fixed s' = s_fixed st ++ added /\ (List.length added <= 1)%nat /\ (s_dive st = false -> added = []) /\
    NoDup (s_fixed s') /\ (List.length (s_fixed s') <= 4)%nat /\
    (s_dive st = true -> let p := fixing (s_fixed s') (program_of (s_master st)) in
     feasible (a_value (e_master E (S (S (s_tick st))) p)) p ->
     forall v, In v (s_fixed s') -> In v (map mc_var (ms_cols (s_master st))) -> s_values s' v == 1).
Proof.
  intros F It H.
  assert (DI : dive_inv st).
  { assert (Al : forall a b, starts E C a b -> dive_inv a -> dive_inv b).
    { intros a b St Ia. induction St as [M|b s1 St IH Hf T L M]; [exact Ia|]. assert (I1 := find_inv E C _ _ IH Hf).
      destruct I1. constructor; assumption. }
    assert (I0 := fresh_dive_inv C g s F). destruct It as [st St|f s1 st Hg St]; [exact (Al _ _ St I0)|].
    apply (Al _ _ St), start_dive_inv. apply generation_is_run in Hg. destruct Hg as (n & _ & R). exact (run_fixes E C n s s1 R I0). }
  destruct (s_dive st) eqn:Dv.
  - destruct (dive_iteration E C st s' Dv DI H) as (I1 & added & A1 & A2 & A3). exists added. split; [exact A1|]. split; [exact A2|].
    split; [discriminate|]. split; [exact (di_NoDup _ I1)|]. split; [assert (X := di_count _ I1); assert (Y := di_depth _ I1); unfold max_depth in Y; lia|].
    intros _ p FE v Hv Hin. rewrite A3. unfold values_of. assert (M : mem_var v (map mc_var (ms_cols (s_master st))) = true) by (apply mem_var_iff; exact Hin).
    rewrite M. apply fixing_iff in FE. apply (proj2 FE). exact Hv.
  - destruct (nodive_iteration E C st s' Dv DI H) as (I1 & A1). exists []. rewrite app_nil_r. split; [exact A1|]. split; [cbn; lia|].
    split; [reflexivity|]. split; [exact (di_NoDup _ I1)|]. split; [assert (X := di_count _ I1); assert (Y := di_depth _ I1); unfold max_depth in Y; lia|].
    discriminate.
Qed.

(** ** Remaining time *)
Theorem remaining C l t : cg_time_limit C = Some l -> 0 < l ->
  (exists r, time_remaining C false t = Some r /\
     (t - cg_start C < l -> 0 < r /\ r == l - (t - cg_start C)) /\ (l <= t - cg_start C -> r == 0)) /\
  (exists r, time_remaining C true t = Some r /\ 5 <= r /\ l - (t - cg_start C) <= r /\ (r == 5 \/ r == l - (t - cg_start C))).
Proof.
  intros El Hl. destruct (remaining_bounds C l t El Hl) as [-> ->]. split; eexists; (split; [reflexivity|]).
  - destruct (Qltb 0 _) eqn:X; [apply Qltb_lt in X|apply Qltb_ge in X]; split; intro H; lra.
  - destruct (Qltb (5 # 1) _) eqn:X; [apply Qltb_lt in X|apply Qltb_ge in X]; repeat split; lra.
Qed.

(** ** A bound on the cost of all plans *)
Theorem lower_bound E C g f s s' : fresh C g s -> column_generation E C f s = Ok s' -> s_more s' = false ->
  cg_strategy C <> None -> cg_cspy C = false ->
  network (cg_types C) g -> mo_periodic (cg_master C) = false -> mo_span (cg_master C) = false ->
  (forall fl, mo_fleet (cg_master C) = Some fl -> fl <> [] -> (cg_types C <= List.length fl)%nat) ->
  (forall k, (k < cg_types C)%nat -> mip_data g (cg_options C) (cg_caps C) k) ->
  (forall st s1 D q, starts E C s st -> solve_relaxed E C st = Ok (s1, D, q) ->
     (exists v, q = Some v /\ dual_solution (cg_master C) (s_master st) (e_duals E (S (s_tick st))) v) /\
     forall k h j p, (k < cg_types C)%nat -> add_reduced_cost D k None g = Ok h ->
       LPPricing.formulate h k (cg_caps C) (cg_options C) (cg_stops C) (cg_duration C) (e_negative E (S j) h) = Ok p ->
       exact_answer p (e_pricer E (S j) (time_remaining C false (e_clock E j)) p)) ->
  exists q, nth_error (rev (s_bounds s')) 0 = Some (Some q) /\
    forall P, serves g (cg_master C) P ->
      (forall k c, In (k, c) P -> (k < cg_types C)%nat /\
         drivable g (cg_options C) (cg_caps C) k (cg_stops C) (cg_duration C) c) ->
      q <= tours_cost g P + (1 # 1000) * inject_Z (Z.of_nat (List.length P)).
Proof.
  intros F H M. assert (R := H). apply generation_is_run in R. destruct R as (n & _ & R).
  exact (generation_bound E C g n s s' R (fresh_inv C g s F) (fs_more _ _ _ F) (fs_dive _ _ _ F) M).
Qed.

(** ** The end of column generation *)
Theorem exhausted_known E C g f s s' : fresh C g s -> cg_strategy C <> None -> column_generation E C f s = Ok s' ->
  (s_more s' = true /\ stopped E C s') \/
  (s_more s' = false /\ exists st s1 D q sl, starts E C s st /\ solve_relaxed E C st = Ok (s1, D, q) /\
     find_columns E C st = Ok sl /\ s' = tick (tick sl) /\ exact_failed_for_all E C g D (s_pool st) (s_pool s')).
Proof.
  intros F CS H. destruct (exhausted E C g f s s' F H) as (st & s1 & D & q & sl & A1 & A2 & A3 & A4 & A5 & A6).
  destruct (s_more s') eqn:M; [left; auto|right; split; [reflexivity|]]. exists st, s1, D, q, sl. auto 10.
Qed.
Theorem exhausted_dive_known E C g f f2 s s' : fresh C g s -> cg_strategy C <> None -> generate_and_dive E C f f2 s = Ok s' ->
  (s_more s' = true /\ stopped E C s') \/
  (s_more s' = false /\ exists s0 st s1 D q sl, column_generation E C f s = Ok s0 /\ starts E C (start_dive s0) st /\
     solve_relaxed E C st = Ok (s1, D, q) /\
     find_columns E C st = Ok sl /\ s' = tick (tick sl) /\ exact_failed_for_all E C g D (s_pool st) (s_pool s')).
Proof.
  intros F CS H. destruct (exhausted_dive E C g f f2 s s' F H) as (s0 & st & s1 & D & q & sl & A0 & A1 & A2 & A3 & A4 & A5 & A6).
  destruct (s_more s') eqn:M; [left; auto|right; split; [reflexivity|]]. exists s0, st, s1, D, q, sl. auto 10.
Qed.
Theorem exhausted_any E C g f s s' : fresh C g s -> column_generation E C f s = Ok s' -> s_more s' = false ->
  exists st s1 D q sl, starts E C s st /\ solve_relaxed E C st = Ok (s1, D, q) /\
    find_columns E C st = Ok sl /\ s' = tick (tick sl) /\
    (cg_strategy C <> None \/ Z.of_nat (s_noimp st) = cg_run_exact C ->
     exact_failed_for_all E C g D (s_pool st) (s_pool s')).
Proof.
  intros F H M. destruct (exhausted E C g f s s' F H) as (st & s1 & D & q & sl & A1 & A2 & A3 & A4 & A5 & A6).
  exists st, s1, D, q, sl. auto 10.
Qed.

Theorem terminates E C g f s m : fresh C g s -> cg_max_iter C = Some m -> (1 <= m)%Z -> (Z.to_nat m <= f)%nat ->
  column_generation E C f s = column_generation E C (Z.to_nat m) s /\
  forall e, column_generation E C f s = Err e -> exists st, starts E C s st /\ find_columns E C st = Err e.
Proof.
  intros F Em Hm Hf. split; [exact (fuel_irrelevant E C g f s m F Em Hm Hf)|].
  assert (G : forall f st e, starts E C s st -> (Z.to_nat (Z.max 1 (m - Z.of_nat (s_iter st))) <= f)%nat ->
    column_generation E C f st = Err e -> exists st, starts E C s st /\ find_columns E C st = Err e).
  { induction f0 as [|f0 IH]; intros st e St L H; [lia|]. cbn [column_generation] in H. rewrite (starts_more E C s st St) in H. cbn [negb] in H.
    destruct (find_columns E C st) as [s1|e1] eqn:X; cbn [bind] in H; [|injection H as <-; eauto].
    destruct (time_up E C s1) eqn:T; [discriminate|]. destruct (limit_reached C (tick (tick s1))) eqn:Lm; [discriminate|].
    change (limit_reached C (tick (tick s1))) with (limit_reached C s1) in Lm.
    destruct (s_more s1) eqn:M.
    - apply (IH (tick (tick s1)) e); [eapply starts_next; eassumption| |exact H].
      assert (Fi := find_iter _ _ g _ _ X). cbn [s_iter tick].
      unfold limit_reached in Lm. rewrite Em in Lm. apply orb_false_iff in Lm. destruct Lm as [_ Lm].
      assert (Hm0 : (m =? 0)%Z = false) by lia. rewrite Hm0 in Lm. cbn [negb andb] in Lm. lia.
    - destruct f0; cbn [column_generation s_more tick] in H; rewrite M in H; discriminate. }
  intros e. apply G; [apply starts_first; exact (fs_more _ _ _ F)|]. rewrite (fs_iter _ _ _ F). lia.
Qed.

(** ** What is counted *)
Theorem counted E C st s1 D q s2 p h cur : cg_strategy C = None -> (0 < s_iter st)%nat ->
  Z.of_nat (s_noimp st) <> cg_run_exact C ->
  solve_relaxed E C st = Ok (s1, D, q) -> next_strategy E C q s1 = Ok (s2, p) ->
  s_hyper st = Some h -> hy_current h = Some cur ->
  exists h2, s_hyper s2 = Some h2 /\
    forall x, at_ (hy_iterations h2) x =
      (at_ (hy_iterations h) x + if strat_eqb (if s_dive st then BestPaths else cur) x then 1 else 0)%nat.
Proof.
  intros CS It Ni H1 H2 Eh Ec. destruct (s_dive st) eqn:Dv.
  - exact (counting_dive E C st s1 D q s2 p h CS Dv It Ni H1 H2 Eh).
  - exact (counting E C st s1 D q s2 p h cur CS Dv It Ni H1 H2 Eh Ec).
Qed.
