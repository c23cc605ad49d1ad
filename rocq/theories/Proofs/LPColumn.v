(** The columns built from the solutions of the pricing MIP. *)
From Verif.Base Require Import Prelude Graph.
From Verif.Spec Require Import Routes Network LinProg Pricing MIP Columns.
From Verif.Model Require Import Args Reach Checks Preprocess ClarkeWright Greedy Initial Pricing LPPricing.
From Verif.Proofs Require Import RouteLemmas ReachLemmas PreLemmas PricingProofs FlowProofs InitialProofs LPProofs.

(** the graph of a list of arcs *)
Lemma digraph_fst l v : In v (fst (digraph_of l)) <-> exists a, In a l /\ (v = fst a \/ v = snd a).
Proof.
  unfold digraph_of. destruct (digraph_gen l ([], [])) as (H & _). rewrite H. simpl. intuition.
Qed.
Lemma digraph_snd l a : In a (snd (digraph_of l)) <-> In a l.
Proof. unfold digraph_of. destruct (digraph_gen l ([], [])) as (_ & H & _). rewrite H. simpl. tauto. Qed.
Lemma digraph_fst_NoDup l : NoDup (fst (digraph_of l)).
Proof. unfold digraph_of. apply (digraph_gen l ([], [])). constructor. Qed.
Lemma digraph_snd_NoDup l : NoDup (snd (digraph_of l)).
Proof.
  unfold digraph_of. cut (forall s : list node * list arc, NoDup (snd s) -> NoDup (snd (fold_left add_edge2 l s))).
  { intro H. apply H. constructor. }
  induction l as [|a l IH]; intros s Hs; cbn [fold_left]; auto.
  apply IH. unfold add_edge2. cbn [snd]. destruct (mem_arc a (snd s)) eqn:E; auto.
  apply NoDup_app_intro; auto; [repeat constructor; simpl; tauto|].
  intros b Hb [<-|[]]. apply mem_arc_In in Hb. congruence.
Qed.

(** a graph with the arcs of a simple route *)
Lemma digraph_trip l cs : NoDup (trip cs) -> Permutation l (arcs (trip cs)) ->
  Permutation (fst (digraph_of l)) (trip cs) /\ Permutation (snd (digraph_of l)) (arcs (trip cs)).
Proof.
  intros Hnd HP. split.
  - apply NoDup_Permutation; auto; [apply digraph_fst_NoDup|]. intro v. rewrite digraph_fst. split.
    + intros ([a b] & Ha & Hv). apply (Permutation_in _ HP) in Ha. apply arcs_in_nodes in Ha. simpl in Hv.
      destruct Hv; subst; tauto.
    + intro Hv. assert (Hd := digraph_nodes (trip cs) v). rewrite digraph_fst in Hd.
      apply Hd in Hv; [|unfold trip; simpl; rewrite app_length; simpl; lia].
      destruct Hv as (a & Ha & Hv). exists a. split; auto. apply (Permutation_in _ (Permutation_sym HP)); auto.
  - apply NoDup_Permutation; [apply digraph_snd_NoDup|apply arcs_NoDup; auto|].
    intro a. rewrite digraph_snd. split; intro H; [apply (Permutation_in _ HP)|apply (Permutation_in _ (Permutation_sym HP))]; auto.
Qed.

Lemma trip_shortest A cs : NoDup (trip cs) -> Permutation A (arcs (trip cs)) ->
  shortest_path A Source Sink = Ok (trip cs).
Proof.
  intros Hnd HP. apply shortest_path_simple; auto.
  - exists (Source :: cs). reflexivity.
  - exists (cs ++ [Sink]). reflexivity.
  - intro a. split; intro H; [apply (Permutation_in _ HP)|apply (Permutation_in _ (Permutation_sym HP))]; auto.
Qed.

(** summing the costs of the arcs of a column, and registering its customers *)
Lemma cost_fold g K k keys l acc :
  network K g -> (k < K)%nat -> (forall a, In a l -> In a (arc_list g)) ->
  (forall a, In a l -> fst a <> Source -> In (fst a) keys) ->
  exists q, foldM (fun q a =>
                let* c := arc_cost g k a in
                let* _ := raise_if (negb (node_eqb (fst a) Source) && negb (mem (fst a) keys)) KeyError in
                Ok (q + c)) l acc = Ok q /\
            q == acc + Qsum (map (fun a => cost_of g k (fst a) (snd a)) l).
Proof.
  intros HN Hk. revert acc. induction l as [|a l IH]; intros acc Hin Hkeys.
  - exists acc. split; auto. simpl. lra.
  - cbn [foldM]. rewrite (arc_cost_ok K g k a) by (auto; apply Hin; simpl; auto). cbn [bind].
    assert (E : negb (node_eqb (fst a) Source) && negb (mem (fst a) keys) = false).
    { destruct (node_eqb (fst a) Source) eqn:E1; auto. simpl.
      apply negb_false_iff, mem_In. apply Hkeys; [simpl; auto|]. intro C. apply node_eqb_eq in C. congruence. }
    rewrite E. cbn [raise_if bind].
    destruct (IH (acc + cost_of g k (fst a) (snd a))) as (q & Hq & Eq).
    + intros; apply Hin; simpl; auto.
    + intros; apply Hkeys; simpl; auto.
    + exists q. split; auto. rewrite Eq. cbn [map]. rewrite Qsum_cons. lra.
Qed.

Lemma lp_new_route_ok h K k keys routes x cs :
  network K h -> (k < K)%nat -> (forall v, In v (custs h) -> In v keys) ->
  elementary_route h cs -> NoDup (trip cs) -> Permutation (chosen h x) (arcs (trip cs)) ->
  exists c, lp_new_route h k keys routes x = Ok (routes ++ [c]) /\
    c_name c = CNat (S (List.length routes)) /\ c_path c = None /\ c_tag c = None /\
    is_column h k cs c /\ shortest_path (c_arcs c) Source Sink = Ok (trip cs).
Proof.
  intros HN Hk Hkeys HR Hnd HP. unfold lp_new_route.
  change (filter (fun a => Qltb (1 # 2) (x (X a))) (edges h)) with (chosen h x).
  assert (Hin : forall a, In a (chosen h x) -> In a (arc_list h)).
  { intros [u v] Ha. apply (Permutation_in _ HP) in Ha. apply (er_along _ _ HR). auto. }
  destruct (cost_fold h K k keys (chosen h x) 0 HN Hk Hin) as (q & Hq & Eq).
  { intros [u v] Ha Hs. cbn [fst] in *. apply Hkeys. specialize (Hin _ Ha).
    apply in_custs. split; [|split; auto].
    - apply (wf_ends _ (net_wf _ _ HN) u v); auto.
    - intro C. subst. apply (net_no_out _ _ HN v). auto. }
  rewrite Hq. cbn [bind].
  destruct (digraph_trip _ _ Hnd HP) as (D1 & D2).
  destruct (digraph_of (chosen h x)) as [nl el] eqn:ED. cbn [fst snd] in D1, D2.
  rewrite (trip_shortest el cs Hnd D2). cbn [bind].
  eexists. split; [reflexivity|]. cbn [c_name c_path c_tag c_arcs]. split; auto. split; auto. split; auto.
  split; [|apply trip_shortest; auto].
  constructor; cbn [c_nodes c_arcs c_cost c_type]; auto.
  rewrite Eq. rewrite (Qsum_perm _ _ (Permutation_map _ HP)).
  change (Qsum (map (fun a => cost_of h k (fst a) (snd a)) (arcs (trip cs)))) with (path_sum (cost_of h k) (trip cs)).
  lra.
Qed.

(** the objective of a solution whose arcs are a route *)
Lemma route_objective h K k caps o ns dur neg p x cs :
  network K h -> formulate h k caps o ns dur neg = Ok p -> feasible x p ->
  Permutation (chosen h x) (arcs (trip cs)) ->
  value x (reduced_cost_terms h) == path_sum (weight_of h) (trip cs).
Proof.
  intros HN F S P. unfold reduced_cost_terms.
  exact (path_value h K k caps o ns dur neg p x HN F S cs P (fun a => weight_of h (fst a) (snd a))).
Qed.

Lemma formulate_obj h k caps o ns dur neg p :
  formulate h k caps o ns dur neg = Ok p -> p_obj p = reduced_cost_terms h.
Proof.
  intro F. destruct (formulate_inv _ _ _ _ _ _ _ _ F) as (_ & _ & loads & reqs & sdc & _ & _ & _ & ->).
  reflexivity.
Qed.

Lemma update_feasible h p x : feasible x (update_prob h p) ->
  feasible x p /\ value x (reduced_cost_terms h) <= - (1).
Proof.
  intro S. split.
  - constructor.
    + intros r Hr. apply (feas_rows _ _ S). unfold update_prob. cbn [p_rows]. apply in_or_app. auto.
    + intros v b Hv. apply (feas_vars _ _ S). exact Hv.
  - assert (H : holds x (mkRow (reduced_cost_terms h) LE (- (1)))).
    { apply (feas_rows _ _ S). unfold update_prob. cbn [p_rows]. apply in_or_app. simpl. auto. }
    exact H.
Qed.

(** when the solver is run *)
Lemma lp_solve_inv h run k caps o ns dur neg tl exact solver keys routes r :
  lp_solve h run k caps o ns dur neg tl exact solver keys routes = Ok r ->
  r = (routes, false) \/
  exists p, run = true /\ formulate h k caps o ns dur neg = Ok p /\
    let a := solver (if exact then p else update_prob h p) in
    ((exists q, a_objective a = Some q /\ q < - (1 # 1000) /\ a_status a <> Infeasible) \/
     (exact = false /\ a_status a = Optimal)) /\
    exists routes1, lp_new_route h k keys routes (a_value a) = Ok routes1 /\ r = (routes1, true).
Proof.
  unfold lp_solve. destruct run; cbn [negb]; [|intro H; inversion H; auto].
  destruct (truthyQ tl && _) eqn:E; [intro H; inversion H; auto|].
  intro H. apply bind_ok in H. destruct H as (p & F & H).
  set (a := solver (if exact then p else update_prob h p)) in *.
  match type of H with (if ?b then _ else _) = _ => destruct b eqn:Eb end; [|inversion H; auto].
  right. exists p. split; auto. split; auto. cbv zeta. split.
  - apply orb_true_iff in Eb. destruct Eb as [Eb|Eb].
    + left. destruct (a_objective a) as [q|] eqn:Eo; [|discriminate].
      apply andb_true_iff in Eb. destruct Eb as (E1 & E2). exists q. split; [exact Eo|].
      split; [apply Qltb_lt; auto|]. intro C. fold a in C. rewrite C in E2. discriminate.
    + right. apply andb_true_iff in Eb. destruct Eb as (E1 & E2). split.
      * destruct exact; [discriminate|auto].
      * fold a. destruct (a_status a); try discriminate; auto.
  - apply bind_ok in H. destruct H as (routes1 & H1 & H2). exists routes1. split; auto. inversion H2; auto.
Qed.

Lemma answer_feasible h exact (p : program pvar) solver :
  (forall p : program pvar, sound_answer p (solver p)) -> p_obj p = reduced_cost_terms h ->
  let a := solver (if exact : bool then p else update_prob h p) in
  ((exists q, a_objective a = Some q /\ q < - (1 # 1000) /\ a_status a <> Infeasible) \/
     (exact = false /\ a_status a = Optimal)) ->
  feasible (a_value a) p /\ value (a_value a) (reduced_cost_terms h) < - (1 # 1000).
Proof.
  intros HS Ho a Hc. specialize (HS (if exact then p else update_prob h p)). fold a in HS.
  assert (HF : feasible (a_value a) (if exact then p else update_prob h p)).
  { apply (sa_feasible _ _ HS). destruct Hc as [(q & H1 & _ & H3)|(_ & H)]; auto.
    right. split; auto. rewrite H1. discriminate. }
  destruct exact.
  - split; auto. destruct Hc as [(q & H1 & H2 & H3)|(H & _)]; [|discriminate].
    assert (E := sa_objective _ _ HS q H1). rewrite Ho in E. rewrite <- E. auto.
  - apply update_feasible in HF. destruct HF as (H1 & H2). split; auto.
    apply Qle_lt_trans with (- (1)); auto. reflexivity.
Qed.

(** whenever the answer is one route *)
Theorem lp_solve_gen h K run k caps o ns dur neg tl exact solver keys routes routes1 more :
  network K h -> (k < K)%nat -> (forall v, In v (custs h) -> In v keys) ->
  (forall p, formulate h k caps o ns dur neg = Ok p ->
     let a := solver (if exact : bool then p else update_prob h p) in
     feasible (a_value a) p -> value (a_value a) (reduced_cost_terms h) < - (1 # 1000) ->
     exists cs, elementary_route h cs /\ Permutation (chosen h (a_value a)) (arcs (trip cs))) ->
  (o_pickup_delivery o = true -> neg || o_pickup_delivery o = true -> pairs_proper h) ->
  (forall p, sound_answer p (solver p)) ->
  lp_solve h run k caps o ns dur neg tl exact solver keys routes = Ok (routes1, more) ->
  (more = false /\ routes1 = routes) \/
  (more = true /\ run = true /\ exists cs c,
     routes1 = routes ++ [c] /\ c_name c = CNat (S (List.length routes)) /\ c_path c = None /\
     is_column h k cs c /\ drivable h o caps k ns dur cs /\
     shortest_path (c_arcs c) Source Sink = Ok (trip cs) /\
     path_sum (weight_of h) (trip cs) < - (1 # 1000)).
Proof.
  intros HN Hk Hkeys Hel Hpair HS H. apply lp_solve_inv in H.
  destruct H as [H|(p & Hrun & F & Hc & r1 & H1 & H2)]; [left; inversion H; auto|].
  right. inversion H2; subst r1 more. split; auto. split; auto.
  apply (answer_feasible h) in Hc; auto; [|eapply formulate_obj; eauto].
  specialize (Hel p F). cbv zeta in Hel.
  set (a := solver (if exact then p else update_prob h p)) in *. destruct Hc as (HF & Hv).
  destruct (Hel HF Hv) as (cs & HR & HP).
  assert (Hnd := trip_NoDup h cs HR).
  destruct (lp_new_route_ok h K k keys routes (a_value a) cs HN Hk Hkeys HR Hnd HP)
    as (c & E & C1 & C2 & C3 & C4 & C5).
  exists cs, c. rewrite H1 in E. inversion E. split; auto. split; auto. split; auto. split; auto. split; [|split; auto].
  - constructor; auto.
    + eapply solution_stops; eauto.
    + eapply solution_load; eauto.
    + eapply solution_duration; eauto.
    + intro Htw. eapply solution_windows; eauto.
    + intros Hpd l x El Ex. eapply solution_pairs; eauto. apply Hpair; auto. rewrite Hpd. apply orb_true_r.
    + intros Hdc l x El Ex. eapply solution_both; eauto.
  - rewrite <- (route_objective h K k caps o ns dur neg p (a_value a) cs HN F HF HP). exact Hv.
Qed.

Theorem lp_solve_sound h K run k caps o ns dur neg tl exact solver keys routes routes1 more :
  network K h -> (k < K)%nat -> (forall v, In v (custs h) -> In v keys) ->
  neg || o_pickup_delivery o = true ->
  (o_pickup_delivery o = true -> pairs_proper h) ->
  (forall p, sound_answer p (solver p)) ->
  lp_solve h run k caps o ns dur neg tl exact solver keys routes = Ok (routes1, more) ->
  (more = false /\ routes1 = routes) \/
  (more = true /\ run = true /\ exists cs c,
     routes1 = routes ++ [c] /\ c_name c = CNat (S (List.length routes)) /\
     is_column h k cs c /\ drivable h o caps k ns dur cs /\
     shortest_path (c_arcs c) Source Sink = Ok (trip cs) /\
     path_sum (weight_of h) (trip cs) < - (1 # 1000)).
Proof.
  intros HN Hk Hkeys Hel Hpair HS H.
  destruct (lp_solve_gen h K run k caps o ns dur neg tl exact solver keys routes routes1 more HN Hk Hkeys) as [X|(X1 & X2 & cs & c & X3 & X4 & X5 & X6)]; auto.
  - intros p F a HF _. apply (elementary_solution h K k caps o ns dur neg p (a_value a) HN F HF Hel).
  - right. split; [exact X1|]. split; [exact X2|]. exists cs, c. auto.
Qed.

(** the program can be formulated *)
Lemma formulate_total h k caps o ns dur neg :
  In Source (nodes h) -> In Sink (nodes h) ->
  (forall l, caps = Some l -> l <> [] -> (k < List.length l)%nat) ->
  (o_pickup_delivery o = true \/ o_distribution_collection o = true -> exists l, caps = Some l /\ l <> []) ->
  (o_pickup_delivery o = true -> forall v d, pair_of h v d -> In d (nodes h)) ->
  wf h ->
  exists p, formulate h k caps o ns dur neg = Ok p.
Proof.
  intros Hs Ht Hk Hcap Hreq W. unfold formulate, depot_rows.
  apply mem_In in Hs. apply mem_In in Ht. rewrite Hs, Ht. cbn [negb raise_if bind].
  assert (HC : forall l, caps = Some l -> l <> [] -> exists c, capacity_at caps k = Ok c).
  { intros l -> Hl. specialize (Hk l eq_refl Hl). cbn [capacity_at].
    destruct (nth_error l k) eqn:E; [cbn [of_opt bind]; eauto|].
    apply nth_error_None in E. lia. }
  assert (HL : exists loads, match caps with Some (_ :: _) => load_rows h k caps | _ => Ok [] end = Ok loads).
  { destruct caps as [[|c0 l]|]; eauto. unfold load_rows.
    destruct (HC (c0 :: l) eq_refl ltac:(discriminate)) as (c & ->). cbn [bind]. eauto. }
  destruct HL as (loads & ->). cbn [bind].
  assert (HRq : o_pickup_delivery o = true -> exists r, request_rows h = Ok r).
  { intro Hpd. specialize (Hreq Hpd). unfold request_rows.
    destruct (foldM_inv_ok (fun (acc : list (row pvar)) p =>
      match request (snd p) with
      | None => Ok acc
      | Some d =>
          let v := fst p in
          let* _ := raise_if (negb (mem d (nodes h))) NetworkXError in
          Ok (acc ++ [mkRow (sum_x (out_arcs h v) ++ minus (sum_x (out_arcs h d))) EQ 0;
                      mkRow [(1, Rank v); (- (1), Rank d)] LE 0])
      end) (fun _ => True) (gnodes h)) with (s := @nil (row pvar)) as (r & Hr & _); eauto.
    intros s [v n] Hin _. cbn [fst snd]. destruct (request n) as [d|] eqn:E; eauto.
    assert (Hd : mem d (nodes h) = true).
    { apply mem_In, (Hreq v d). exists n. split; auto. apply assoc_node_NoDup; auto. apply W. }
    rewrite Hd. cbn [negb raise_if bind]. eauto. }
  destruct (o_pickup_delivery o) eqn:Hpd.
  - destruct (HRq eq_refl) as (r & ->). cbn [bind].
    destruct (Hcap (or_introl eq_refl)) as (l & El & Hl). destruct (HC l El Hl) as (c & Ec).
    rewrite Ec. cbn [bind]. destruct (o_distribution_collection o); cbn [bind]; eauto.
  - cbn [bind]. destruct (o_distribution_collection o) eqn:Hdc; cbn [bind]; eauto.
    destruct (Hcap (or_intror eq_refl)) as (l & El & Hl). destruct (HC l El Hl) as (c & Ec).
    rewrite Ec. cbn [bind]. eauto.
Qed.
