(** The pricing MIP without ranks: a path and closed walks. *)
From Verif.Base Require Import Prelude Graph.
From Verif.Spec Require Import Routes Network LinProg Pricing MIP Columns.
From Verif.Model Require Import Args Reach Checks Preprocess ClarkeWright Greedy Initial Pricing LPPricing.
From Verif.Proofs Require Import RouteLemmas ReachLemmas PreLemmas PricingProofs FlowProofs InitialProofs
  LPProofs LPColumn LPComplete.

(** Decomposition of the chosen arcs. *)
Theorem chosen_decompose h K k caps o ns dur neg p x :
  network K h -> formulate h k caps o ns dur neg = Ok p -> feasible x p ->
  exists cs ws, NoDup cs /\ (forall v, In v cs -> v <> Source /\ v <> Sink) /\
    along (arc_list h) (trip cs) /\
    Permutation (chosen h x) (arcs (trip cs) ++ flat_map arcs ws) /\
    forall w, In w ws -> arcs w <> [] /\ exists u, walk (arc_list h) u u w.
Proof.
  intros HN F S. destruct (general_solution h K k caps o ns dur neg p x HN F S) as (q & B & Hq & Hnd & HP & HB).
  destruct (simple_walk_route h q Hq Hnd) as (cs & -> & Hcs & Hcu).
  destruct (balanced_cycles (List.length B) B) as (ws & HP2 & Hws); auto.
  exists cs, ws. split; auto. split; auto. split; [apply (walk_along _ _ _ _ Hq)|]. split.
  - eapply Permutation_trans; [apply HP|]. apply Permutation_app_head. auto.
  - intros w Hw. destruct (Hws w Hw) as (u & Hu & Hne). split; auto. exists u. apply (walk_sub B); auto.
    intros a Ha. assert (Hc : In a (chosen h x)).
    { apply (Permutation_in _ (Permutation_sym HP)), in_or_app. auto. }
    unfold chosen in Hc. apply filter_In in Hc. destruct a as [i j]. destruct Hc as (Hc & _).
    apply in_edges in Hc; auto. apply HN.
Qed.

Lemma sum_cycles (w : node -> node -> Q) ws :
  Qsum (map (fun a => w (fst a) (snd a)) (flat_map arcs ws)) == Qsum (map (path_sum w) ws).
Proof.
  induction ws as [|c ws IH]; [reflexivity|]. cbn [flat_map map]. rewrite map_app, Qsum_app, Qsum_cons, IH.
  reflexivity.
Qed.

Theorem general_column h K k caps o ns dur neg p x keys routes :
  network K h -> (k < K)%nat -> (forall v, In v (custs h) -> In v keys) ->
  formulate h k caps o ns dur neg = Ok p -> feasible x p ->
  exists c cs ws, lp_new_route h k keys routes x = Ok (routes ++ [c]) /\
    NoDup cs /\ (forall v, In v cs -> v <> Source /\ v <> Sink) /\ along (arc_list h) (trip cs) /\
    (forall w, In w ws -> arcs w <> [] /\ exists u, walk (arc_list h) u u w) /\
    Permutation (c_arcs c) (arcs (trip cs) ++ flat_map arcs ws) /\
    c_type c = k /\
    c_cost c == path_sum (cost_of h k) (trip cs) + Qsum (map (path_sum (cost_of h k)) ws) /\
    value x (p_obj p) == path_sum (weight_of h) (trip cs) + Qsum (map (path_sum (weight_of h)) ws).
Proof.
  intros HN Hk Hkeys F S.
  destruct (chosen_decompose h K k caps o ns dur neg p x HN F S) as (cs & ws & H1 & H2 & H3 & HP & Hws).
  assert (Hin : forall a, In a (chosen h x) -> In a (arc_list h)).
  { intros [u v] Ha. unfold chosen in Ha. apply filter_In in Ha. apply in_edges; [apply HN|tauto]. }
  assert (HndC : NoDup (chosen h x)) by (apply NoDup_filter, edges_NoDup, HN).
  unfold lp_new_route.
  change (filter (fun a => Qltb (1 # 2) (x (X a))) (edges h)) with (chosen h x).
  destruct (cost_fold h K k keys (chosen h x) 0 HN Hk Hin) as (q & Hq & Eq).
  { intros [u v] Ha Hs. cbn [fst] in *. apply Hkeys. specialize (Hin _ Ha).
    apply in_custs. split; [|split; auto].
    - apply (wf_ends _ (net_wf _ _ HN) u v); auto.
    - intro C. subst. apply (net_no_out _ _ HN v). auto. }
  rewrite Hq. cbn [bind].
  destruct (digraph_of (chosen h x)) as [nl el] eqn:ED.
  assert (HE : Permutation el (arcs (trip cs) ++ flat_map arcs ws)).
  { eapply Permutation_trans; [|apply HP]. apply NoDup_Permutation; auto.
    - assert (E := digraph_snd_NoDup (chosen h x)). rewrite ED in E. exact E.
    - intro a. assert (E := digraph_snd (chosen h x) a). rewrite ED in E. exact E. }
  assert (Hw : walk el Source Sink (trip cs)).
  { assert (Hl : last (trip cs) Source = Sink).
    { unfold trip. change (Source :: cs ++ [Sink]) with ((Source :: cs) ++ [Sink]). apply last_app_single. }
    rewrite <- Hl. apply walk_intro with (cs ++ [Sink]); auto.
    intros u v Huv. apply (Permutation_in _ (Permutation_sym HE)), in_or_app. auto. }
  destruct (shortest_path_complete _ _ _ _ Hw) as (sp & ->). cbn [bind].
  eexists. exists cs, ws. split; [reflexivity|]. cbn [c_arcs c_type c_cost].
  split; auto. split; auto. split; auto. split; auto. split; auto. split; auto.
  assert (HS : forall f : node -> node -> Q, Qsum (map (fun a => f (fst a) (snd a)) (chosen h x))
            == path_sum f (trip cs) + Qsum (map (path_sum f) ws)).
  { intro f. rewrite (Qsum_perm _ _ (Permutation_map _ HP)), map_app, Qsum_app, sum_cycles. reflexivity. }
  split; [rewrite Eq, (HS (cost_of h k)); lra|].
  rewrite (formulate_obj _ _ _ _ _ _ _ _ F). unfold reduced_cost_terms, value. rewrite map_map. cbn [fst snd].
  rewrite (sum_sel h K k caps o ns dur neg p x HN F S (fun a => weight_of h (fst a) (snd a))); [apply HS|].
  intros [u v] Ha. apply in_edges in Ha; auto. apply HN.
Qed.

(** without negative cycles the path alone is at least as good *)
Corollary path_as_good h K k caps o ns dur neg p x keys routes :
  network K h -> (k < K)%nat -> (forall v, In v (custs h) -> In v keys) ->
  formulate h k caps o ns dur neg = Ok p -> feasible x p -> ~ negative_cycle h ->
  exists c cs, lp_new_route h k keys routes x = Ok (routes ++ [c]) /\
    route_shape (trip cs) /\ along (arc_list h) (trip cs) /\
    (forall a, In a (arcs (trip cs)) -> In a (c_arcs c)) /\
    path_sum (weight_of h) (trip cs) <= value x (p_obj p).
Proof.
  intros HN Hk Hkeys F S Hneg.
  destruct (general_column h K k caps o ns dur neg p x keys routes HN Hk Hkeys F S)
    as (c & cs & ws & E & H1 & H2 & H3 & H4 & H5 & _ & _ & H8).
  exists c, cs. split; auto. split; [exists cs; auto|]. split; auto. split.
  - intros a Ha. apply (Permutation_in _ (Permutation_sym H5)), in_or_app. auto.
  - rewrite H8. assert (0 <= Qsum (map (path_sum (weight_of h)) ws)); [|lra].
    apply Qsum_nonneg. intros q Hq. apply in_map_iff in Hq. destruct Hq as (w & <- & Hw).
    destruct (H4 w Hw) as (_ & u & Hu). destruct (Qlt_le_dec (path_sum (weight_of h) w) 0); auto.
    exfalso. apply Hneg. exists u, w. auto.
Qed.
