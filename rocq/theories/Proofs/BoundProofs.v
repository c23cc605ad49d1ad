(** What a finished column generation proves about the cost of all plans. *)
From Verif.Base Require Import Prelude Graph.
From Verif.Spec Require Import Routes Network LinProg Pricing MIP Columns Pool Master Duality Run.
From Verif.Model Require Import Args Reach Checks Preprocess ClarkeWright Greedy Initial Pricing
  GreedyPricing LPPricing Cspy Master Dive Hyper ColGen.
From Verif.Proofs Require Import RouteLemmas PricingProofs MasterProofs SelectProofs DualityProofs PoolProofs PoolQuality
  ColGenProofs RunProofs.

Lemma get_duals_nodes g g' o m cs pi : gnodes g = gnodes g' -> get_duals g o m cs pi = get_duals g' o m cs pi.
Proof. intro H. unfold get_duals. rewrite H. reflexivity. Qed.
Lemma solve_master_nodes g g' o r cs sv pi m : gnodes g = gnodes g' ->
  solve_master g o r cs sv pi m = solve_master g' o r cs sv pi m.
Proof. intro H. unfold solve_master. rewrite (get_duals_nodes g g' o _ cs pi H). reflexivity. Qed.

Lemma initial_inv C o mixed caps dur ns perms given g rs pool m s :
  initialize o mixed caps dur ns perms given g = Ok (rs, pool) -> Master.formulate g (cg_master C) pool = Ok m ->
  s_graph s = g -> s_pool s = pool -> s_master s = m -> inv C g s.
Proof.
  intros H1 H2 G P M. constructor; rewrite ?G, ?P, ?M; [reflexivity|apply b_formulate; exact H2|].
  apply (pool_history _ _ _ _ _ _ _ _ _ _ _ H1 (Relation_Operators.rt_refl _ _ _)).
Qed.

Theorem generation_bound E C g n s s' :
  run E C n s s' -> inv C g s -> s_more s = true -> s_dive s = false -> s_more s' = false ->
  cg_strategy C <> None -> cg_cspy C = false ->
  network (cg_types C) g -> mo_periodic (cg_master C) = false -> mo_span (cg_master C) = false ->
  (forall fl, mo_fleet (cg_master C) = Some fl -> fl <> [] -> (cg_types C <= List.length fl)%nat) ->
  (forall k, (k < cg_types C)%nat -> mip_data g (cg_options C) (cg_caps C) k) ->
  (* the dual values of the last relaxation, and the exactness of the pricing solver for them *)
  (forall st s1 D q, starts E C s st -> solve_relaxed E C st = Ok (s1, D, q) ->
     (exists v, q = Some v /\ dual_solution (cg_master C) (s_master st) (e_duals E (S (s_tick st))) v) /\
     forall k h j p, (k < cg_types C)%nat -> add_reduced_cost D k None g = Ok h ->
       LPPricing.formulate h k (cg_caps C) (cg_options C) (cg_stops C) (cg_duration C) (e_negative E (S j) h) = Ok p ->
       exact_answer p (e_pricer E (S j) (time_remaining C false (e_clock E j)) p)) ->
  exists q, nth_error (rev (s_bounds s')) 0 = Some (Some q) /\
    forall P, serves g (cg_master C) P ->
      (forall k c, In (k, c) P -> (k < cg_types C)%nat /\
         drivable g (cg_options C) (cg_caps C) k (cg_stops C) (cg_duration C) c) ->
      q <= tours_cost g P + (1 # 1000) * inject_Z (Z.of_nat (List.length P)).
Proof.
  intros R I M Dv M' NH CS N PER NSP FL MD HY.
  destruct (run_exhausted E C g n s s' R I M M' NH) as (st & s1 & D & q & S1 & S2 & S3 & S4 & S5 & S6 & S7 & _).
  assert (Dst : s_dive st = false) by congruence. rewrite Dst in S7.
  destruct (HY st s1 D q S1 S5) as ((v & -> & DS) & EX).
  exists v. split; [rewrite S7, rev_app_distr; reflexivity|]. intros P SV DR.
  destruct (solve_relaxed_master E C st s1 D (Some v) Dst S5) as (SM & _).
  rewrite (solve_master_nodes _ g) in SM by (exact (strip_nodes _ _ (iv_graph _ _ _ S2))).
  refine (bound_answers (cg_types C) g (cg_master C) (s_pool st) (s_master st) _ _ _ D v (cg_options C) (cg_caps C)
            (cg_stops C) (cg_duration C) P N (iv_built _ _ _ S2) PER NSP FL SM DS MD _ SV DR).
  intros k Hk. destruct (S6 k Hk) as (pool & _ & _ & F). rewrite NSP in F. destruct F as (h & j & F1 & F2). rewrite CS in F2. cbv zeta in F2.
  destruct F2 as (p & F2 & F3). exists h, (e_negative E (S j) h), p, (e_pricer E (S j) (time_remaining C false (e_clock E j)) p).
  split; [exact F1|]. split; [exact F2|]. split; [|exact F3]. exact (EX k h j p Hk F1 F2).
Qed.
