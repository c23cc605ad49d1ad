(** Concrete instances on which expected properties of the pricing problems fail. *)
From Verif.Base Require Import Prelude Graph.
From Verif.Spec Require Import Routes Network LinProg Pricing MIP Columns Timing.
From Verif.Model Require Import Args Reach Checks Preprocess ClarkeWright Greedy Initial Pricing
  GreedyPricing LPPricing Cspy.
From Verif.Proofs Require Import RouteLemmas Deciders PricingProofs LPProofs PricingCor.

Definition got {A} (d : A) (r : res A) : A := match r with Ok a => a | Err _ => d end.
Definition priced (D : dual_dict) (k : nat) (g : vgraph) : vgraph := got g (add_reduced_cost D k None g).

Lemma one_key_duals v q fl : v <> Source -> v <> Sink -> (forall l, fl = Some l -> (1 <= List.length l)%nat) ->
  duals_ok 1 (mkDuals [(v, q)] fl []).
Proof.
  intros H1 H2 H3. constructor; cbn; auto; [repeat constructor; auto|].
  intros w r [E|[]]. inversion E; subst. auto.
Qed.

(** ** Randomised greedy pricing *)
(** two customers, arc from Source to Sink as after preprocessing *)
Definition netg : vgraph :=
  mkGraph [(Source, mk_node 0 0 0 0); (Cust 1, mk_node 2 4 0 0); (Cust 2, mk_node 3 4 0 0); (Sink, mk_node 0 0 0 0)]
          [mk_arc Source (Cust 1) 5 3; mk_arc Source (Cust 2) 6 3; mk_arc (Cust 1) (Cust 2) 1 1;
           mk_arc (Cust 2) (Cust 1) 1 1; mk_arc (Cust 1) Sink 5 3; mk_arc (Cust 2) Sink 6 3;
           mk_arc Source Sink 0 0].

Lemma netg_network : network 1 netg. Proof. apply networkb_ok. vm_compute. reflexivity. Qed.
Lemma netg_round : round_trips netg. Proof. apply round_tripsb_ok. vm_compute. reflexivity. Qed.

(** the fleet must be used completely: its dual is positive, and the empty trip is attractive *)
Lemma greedy_empty_trip : exists (g h : vgraph) D caps ns dur keys rnd pool c,
  network 1 g /\ round_trips g /\ duals_ok 1 D /\ add_reduced_cost D 0 None g = Ok h /\
  (forall v, In v (custs h) -> In v keys) /\
  greedy_pricing h caps ns dur 0 keys [] 1 rnd = Ok (pool, true) /\ In c pool /\ c_arcs c = [(Source, Sink)].
Proof.
  exists netg, (priced (mkDuals [(Cust 1, 1)] (Some [4]) []) 0 netg), (mkDuals [(Cust 1, 1)] (Some [4]) []),
    (Some [10%Z]), None, None, [Cust 1; Cust 2], (fun i j => match i with O => 0 | _ => 0 end)%nat.
  eexists. eexists.
  split; [apply netg_network|]. split; [apply netg_round|].
  split. { apply one_key_duals; try discriminate. intros l E. injection E as <-. cbn. lia. }
  split; [vm_compute; reflexivity|].
  split. { intros v Hv. vm_compute in Hv. cbn. tauto. }
  split; [vm_compute; reflexivity|]. split; [left; reflexivity|]. reflexivity.
Qed.

(** service times are not counted *)
Lemma greedy_too_long : exists (g h : vgraph) D caps ns dur keys rnd pool c cs,
  network 1 g /\ round_trips g /\ duals_ok 1 D /\ add_reduced_cost D 0 None g = Ok h /\
  (forall v, In v (custs h) -> In v keys /\ within_duration g dur [v]) /\
  greedy_pricing h caps ns dur 0 keys [] 1 rnd = Ok (pool, true) /\ In c pool /\
  is_column g 0 cs c /\ ~ within_duration g dur cs.
Proof.
  exists netg, (priced (mkDuals [(Cust 1, 20)] None []) 0 netg), (mkDuals [(Cust 1, 20)] None []),
    (Some [10%Z]), None, (Some 12%Z), [Cust 1; Cust 2], (fun i j => 0)%nat.
  eexists. eexists. exists [Cust 1; Cust 2].
  split; [apply netg_network|]. split; [apply netg_round|].
  split. { apply one_key_duals; try discriminate. }
  split; [vm_compute; reflexivity|].
  split.
  { intros v Hv. vm_compute in Hv. split; [cbn; tauto|]. intros T E _. injection E as <-.
    destruct Hv as [<-|[<-|[]]]; vm_compute; discriminate. }
  split; [vm_compute; reflexivity|]. split; [left; reflexivity|].
  split.
  { constructor; try reflexivity; apply Permutation_refl. }
  intro C. specialize (C 12%Z eq_refl ltac:(discriminate)). vm_compute in C. auto.
Qed.

(** the last arc is not counted when the largest number of stops is reached: neither its time ... *)
Lemma greedy_last_arc_time : exists (g h : vgraph) D caps ns dur keys rnd pool c cs,
  network 1 g /\ round_trips g /\ duals_ok 1 D /\ add_reduced_cost D 0 None g = Ok h /\
  (forall v, In v (custs h) -> In v keys) /\
  greedy_pricing h caps ns dur 0 keys [] 1 rnd = Ok (pool, true) /\ In c pool /\
  is_column g 0 cs c /\ exists T, dur = Some T /\ inject_Z T < path_sum (time_of g) (trip cs).
Proof.
  exists netg, (priced (mkDuals [(Cust 1, 20)] None []) 0 netg), (mkDuals [(Cust 1, 20)] None []),
    (Some [10%Z]), (Some 2%Z), (Some 6%Z), [Cust 1; Cust 2], (fun i j => 0)%nat.
  eexists. eexists. exists [Cust 1; Cust 2].
  split; [apply netg_network|]. split; [apply netg_round|].
  split. { apply one_key_duals; try discriminate. }
  split; [vm_compute; reflexivity|].
  split. { intros v Hv. vm_compute in Hv. cbn; tauto. }
  split; [vm_compute; reflexivity|]. split; [left; reflexivity|].
  split. { constructor; try reflexivity; apply Permutation_refl. }
  exists 6%Z. split; [reflexivity|]. vm_compute. reflexivity.
Qed.

(** ... nor its weight *)
Lemma greedy_not_negative : exists (g h : vgraph) D caps ns dur keys rnd pool c cs,
  network 1 g /\ round_trips g /\ duals_ok 1 D /\ add_reduced_cost D 0 None g = Ok h /\
  (forall v, In v (custs h) -> In v keys) /\
  greedy_pricing h caps ns dur 0 keys [] 1 rnd = Ok (pool, true) /\ In c pool /\
  is_column g 0 cs c /\ 0 < reduced_cost g D 1 0 cs.
Proof.
  exists netg, (priced (mkDuals [(Cust 1, 10)] None []) 0 netg), (mkDuals [(Cust 1, 10)] None []),
    (Some [10%Z]), (Some 2%Z), None, [Cust 1; Cust 2], (fun i j => 0)%nat.
  eexists. eexists. exists [Cust 1; Cust 2].
  split; [apply netg_network|]. split; [apply netg_round|].
  split. { apply one_key_duals; try discriminate. }
  split; [vm_compute; reflexivity|].
  split. { intros v Hv. vm_compute in Hv. cbn; tauto. }
  split; [vm_compute; reflexivity|]. split; [left; reflexivity|].
  split. { constructor; try reflexivity; apply Permutation_refl. }
  vm_compute. reflexivity.
Qed.

(** ** The MIP without elementarity constraints *)
Definition netc : vgraph :=
  mkGraph [(Source, mk_node 0 0 0 0); (Cust 1, mk_node 1 0 0 0); (Cust 2, mk_node 1 0 0 0);
           (Cust 3, mk_node 1 0 0 0); (Sink, mk_node 0 0 0 0)]
          [mk_arc Source (Cust 1) 2 0; mk_arc Source (Cust 2) 10 0; mk_arc Source (Cust 3) 10 0;
           mk_arc (Cust 2) (Cust 3) 1 0; mk_arc (Cust 3) (Cust 2) 1 0;
           mk_arc (Cust 1) Sink 2 0; mk_arc (Cust 2) Sink 10 0; mk_arc (Cust 3) Sink 10 0;
           mk_arc Source Sink 0 0].
Definition dualc : dual_dict := mkDuals [(Cust 1, 10); (Cust 2, 1); (Cust 3, 1)] None [].
Definition plain_options : options := mkOptions false false false false None false [].
Definition onec (l : list arc) : pvar -> Q :=
  fun v => match v with X a => if mem_arc a l then 1 else 0 | _ => 0 end.

Lemma dualc_ok : duals_ok 1 dualc.
Proof.
  constructor; cbn.
  - repeat constructor; cbn; intuition discriminate.
  - intros v q [E|[E|[E|[]]]]; inversion E; subst; split; discriminate.
  - discriminate.
Qed.

(** An optimal solution: the route to customer 1, and customers 2 and 3 in a circle. *)
Lemma mip_detached_cycle : exists (g h : vgraph) D p a c,
  network 1 g /\ round_trips g /\ duals_ok 1 D /\ add_reduced_cost D 0 None g = Ok h /\
  ~ negative_cycle h /\ formulate h 0 None plain_options None None false = Ok p /\
  exact_answer p a /\
  lp_solve h true 0 None plain_options None None false None true (fun _ => a) (custs g) [] = Ok ([c], true) /\
  (~ exists cs, Permutation (c_arcs c) (arcs (trip cs))) /\
  shortest_path (c_arcs c) Source Sink = Ok [Source; Cust 1; Sink] /\
  In (Cust 2) (c_nodes c).
Proof.
  set (l := [(Source, Cust 1); (Cust 1, Sink); (Cust 2, Cust 3); (Cust 3, Cust 2)]).
  assert (N : network 1 (priced dualc 0 netc)) by (apply networkb_ok; vm_compute; reflexivity).
  assert (HP : forall a b, In (a, b) (arc_list (priced dualc 0 netc)) ->
            (fun v => match v with Source => 0 | Cust 1 => 2 | Cust _ => 10 | Sink => -(6) end) b -
            (fun v => match v with Source => 0 | Cust 1 => 2 | Cust _ => 10 | Sink => -(6) end) a <=
            weight_of (priced dualc 0 netc) a b).
  { intros a b Hab. vm_compute in Hab.
    repeat (destruct Hab as [E|Hab]; [inversion E; subst; vm_compute; discriminate|]). destruct Hab. }
  set (p := got (mkProgram [] [] []) (formulate (priced dualc 0 netc) 0 None plain_options None None false)).
  exists netc, (priced dualc 0 netc), dualc, p. exists (mkAnswer Optimal (Some (-(6))) (onec l)). eexists.
  split; [apply networkb_ok; vm_compute; reflexivity|].
  split; [apply round_tripsb_ok; vm_compute; reflexivity|].
  split; [apply dualc_ok|]. split; [vm_compute; reflexivity|].
  split; [exact (potential_no_negative_cycle _ _ HP)|].
  assert (F : formulate (priced dualc 0 netc) 0 None plain_options None None false = Ok p)
    by (vm_compute; reflexivity).
  split; [exact F|].
  assert (FE : feasible (onec l) p) by (apply feasibleb_ok; vm_compute; reflexivity).
  assert (FV : value (onec l) (p_obj p) == -(6)) by (vm_compute; reflexivity).
  split.
  { constructor.
    - constructor; [intros _; exact FE|]. cbn [a_objective a_value]. intros q E. injection E as <-. symmetry. exact FV.
    - left. cbn [a_status a_objective a_value]. split; [reflexivity|]. split; [discriminate|]. intros y Hy.
      assert (B := potential_bound _ _ 0 _ _ _ _ _ _ _ _ (custs netc) N ltac:(lia) ltac:(intros v Hv; exact Hv) HP F Hy).
      cbn beta in B. rewrite FV. eapply Qle_trans; [|exact B]. vm_compute. discriminate. }
  split; [vm_compute; reflexivity|].
  split.
  { intros (cs & HPm).
    assert (HL := Permutation_length HPm). change (4 = List.length (arcs (trip cs)))%nat in HL.
    assert (H1 : In (Cust 2, Cust 3) (arcs (trip cs))).
    { apply (Permutation_in _ HPm). cbn. tauto. }
    assert (H2 : In (Source, Cust 1) (arcs (trip cs))).
    { apply (Permutation_in _ HPm). cbn. tauto. }
    assert (H3 : forall a, In a (arcs (trip cs)) -> In a l).
    { intros a Ha. apply (Permutation_in _ (Permutation_sym HPm)) in Ha. cbn in *. tauto. }
    destruct cs as [|a cs]; [cbn in HL; lia|]. unfold trip in *. cbn [app arcs] in *.
    assert (Ha : a = Cust 1).
    { assert (E := H3 (Source, a) (or_introl eq_refl)). cbn in E.
      destruct E as [E|[E|[E|[E|[]]]]]; inversion E; subst; auto. }
    subst a. destruct cs as [|b cs].
    - cbn in HL. lia.
    - cbn [app arcs] in *.
      assert (E := H3 (Cust 1, b) (or_intror (or_introl eq_refl))). cbn in E.
      assert (Hb : b = Sink) by (destruct E as [E|[E|[E|[E|[]]]]]; inversion E; subst; auto). subst b.
      assert (Hn : exists d, In (Sink, d) (arcs (Sink :: cs ++ [Sink]))).
      { destruct cs as [|d cs]; cbn; eauto. }
      destruct Hn as (d & Hd). assert (E2 := H3 (Sink, d) (or_intror (or_intror Hd))). cbn in E2.
      destruct E2 as [E2|[E2|[E2|[E2|[]]]]]; inversion E2. }
  split; [vm_compute; reflexivity|]. vm_compute. tauto.
Qed.

(** ** The MIP with time windows *)
Definition rawt : rgraph :=
  let nr l u := mkNR None None None l u None None false in
  let er c t := mkER (Some (Vec [c])) (Some t) in
  mkGraph [(Source, nr (Some 0) (Some 100)); (Cust 1, nr (Some 0) (Some 90)); (Cust 2, nr (Some 0) (Some 20));
           (Sink, nr (Some 0) (Some 100))]
          [((Source, Cust 1), er 1 0); ((Source, Cust 2), er 1 0); ((Cust 1, Cust 2), er 1 20);
           ((Cust 2, Cust 1), er 1 85); ((Cust 1, Sink), er 1 10); ((Cust 2, Sink), er 1 0)].
Definition cfgt : config := mkConfig None None None [] None 1.
Definition optt : options := mkOptions true false false false None false [].

(** Source, customer 2 at time 0, customer 1 at time 85, Sink at time 95: in time, but the unused
    arc from 1 to 2 forces the time at 1 to be at most 80 after that at 2. *)
Lemma mip_loses_route : exists c o (r : rgraph) pr p cs,
  wf r /\ pre_solve c o r = Ok pr /\ network 1 (pr_graph pr) /\
  drivable (pr_graph pr) o None 0 None None cs /\
  formulate (pr_graph pr) 0 None o None None true = Ok p /\
  ~ exists x, feasible x p /\
      forall u v, In (u, v) (arcs (trip cs)) -> 1 # 2 < x (X (u, v)).
Proof.
  exists cfgt, optt, rawt. eexists. eexists. exists [Cust 2; Cust 1].
  split; [apply wfb_ok; vm_compute; reflexivity|].
  split; [vm_compute; reflexivity|]. cbn [pr_graph].
  split; [apply networkb_ok; vm_compute; reflexivity|].
  split.
  { constructor.
    - constructor.
      + repeat constructor; cbn; intuition discriminate.
      + intros v [<-|[<-|[]]]; split; discriminate.
      + discriminate.
      + apply alongb_iff. vm_compute. reflexivity.
    - discriminate.
    - discriminate.
    - discriminate.
    - intros _. exists [0; 0; 85; 95]. vm_compute. intuition discriminate.
    - discriminate.
    - discriminate. }
  split; [vm_compute; reflexivity|].
  intros (x & FX & HX).
  match type of FX with feasible _ ?P => set (p := P) in * end.
  assert (R1 : holds x (mkRow [(1, Time (Cust 1)); (- (1), Time (Cust 2)); (100, X (Cust 1, Cust 2))] LE (100 - 0 - 20))).
  { apply (feas_rows _ _ FX). vm_compute. tauto. }
  assert (R2 : holds x (mkRow [(1, Time (Cust 2)); (- (1), Time (Cust 1)); (100, X (Cust 2, Cust 1))] LE (100 - 0 - 85))).
  { apply (feas_rows _ _ FX). vm_compute. tauto. }
  assert (B1 : in_bounds (x (X (Cust 1, Cust 2))) (mkBounds (Some 0) (Some 1) true)).
  { apply (feas_vars _ _ FX). vm_compute. tauto. }
  assert (B2 : in_bounds (x (X (Cust 2, Cust 1))) (mkBounds (Some 0) (Some 1) true)).
  { apply (feas_vars _ _ FX). vm_compute. tauto. }
  assert (Hb : 1 # 2 < x (X (Cust 2, Cust 1))) by (apply HX; cbn; tauto).
  destruct B1 as (B1 & _). specialize (B1 0 eq_refl).
  destruct B2 as (_ & _ & B2). destruct (B2 eq_refl) as (z & Hz).
  assert (Hz1 : (1 <= z)%Z).
  { assert (Hq : 1 # 2 < inject_Z z) by (rewrite <- Hz; exact Hb).
    unfold Qlt in Hq. cbn in Hq. lia. }
  rewrite Zle_Qle in Hz1. change (inject_Z 1) with 1 in Hz1.
  unfold holds, value in R1, R2. cbn in R1, R2. lra.
Qed.

(** ** Labelling *)
Lemma labelling_too_long : exists (h : vgraph) dur m cs,
  network 1 h /\ round_trips h /\ limits h plain_options 0 None (Some 3%Z) dur = Ok m /\
  elementary_route h cs /\ resource_feasible h m (extension h plain_options None dur) (trip cs) /\
  ~ within_duration h dur cs.
Proof.
  exists netg, (Some 12%Z). eexists. exists [Cust 1; Cust 2].
  split; [apply netg_network|]. split; [apply netg_round|]. split; [vm_compute; reflexivity|].
  assert (HA : along (arc_list netg) (trip [Cust 1; Cust 2])) by (apply alongb_iff; vm_compute; reflexivity).
  split.
  { constructor; auto.
    - repeat constructor; cbn; intuition discriminate.
    - intros v [<-|[<-|[]]]; split; discriminate.
    - discriminate. }
  split.
  { constructor.
    - apply CspyProofs.trip_walk. auto.
    - intros p1 p2 l E Hne El. unfold trip in E. cbn [app] in E.
      destruct p1 as [|a p1]; [congruence|]. injection E as <- E.
      destruct p1 as [|b p1]; [|injection E as <- E; destruct p1 as [|c p1];
        [|injection E as <- E; destruct p1 as [|d p1]; [|injection E as <- E; destruct p1; [|discriminate]]]];
        vm_compute in El; injection El as <-; constructor; vm_compute; discriminate.
    - intros l El. vm_compute in El. injection El as <-. constructor; vm_compute; discriminate. }
  intro C. specialize (C 12%Z eq_refl ltac:(discriminate)). vm_compute in C. auto.
Qed.

(** without num_stops half of the nodes is taken as the limit on the arcs of a route *)
Lemma labelling_loses_route : exists (h : vgraph) m cs,
  network 1 h /\ round_trips h /\ limits h plain_options 0 None None None = Ok m /\
  drivable h plain_options None 0 None None cs /\
  ~ resource_feasible h m (extension h plain_options None None) (trip cs).
Proof.
  exists netg. eexists. exists [Cust 1; Cust 2].
  split; [apply netg_network|]. split; [apply netg_round|]. split; [vm_compute; reflexivity|].
  split.
  { constructor; try discriminate. constructor.
    - repeat constructor; cbn; intuition discriminate.
    - intros v [<-|[<-|[]]]; split; discriminate.
    - discriminate.
    - apply alongb_iff. vm_compute. reflexivity. }
  intros [_ H _]. specialize (H (trip [Cust 1; Cust 2]) []). rewrite app_nil_r in H.
  specialize (H _ eq_refl ltac:(discriminate) ltac:(vm_compute; reflexivity)).
  apply ll_stops in H. vm_compute in H. auto.
Qed.

(** ** BestPaths *)
(** one customer, the way to which costs nothing (an open tour); the dual of the first master
    problem is the cost of the round trip *)
Definition neto : vgraph :=
  mkGraph [(Source, mk_node 0 0 0 0); (Cust 1, mk_node 1 0 0 0); (Sink, mk_node 0 0 0 0)]
          [mk_arc Source (Cust 1) 0 0; mk_arc (Cust 1) Sink 10 0; mk_arc Source Sink 0 0].
Lemma best_paths_crash : exists (g h : vgraph) D,
  network 1 g /\ round_trips g /\ duals_ok 1 D /\ add_reduced_cost D 0 None g = Ok h /\
  reduced_cost g D 1 0 [Cust 1] == 0 /\
  forall ksp beta, remove_edges_3 ksp beta h = Err ZeroDivisionError.
Proof.
  exists neto, (priced (mkDuals [(Cust 1, 10)] None []) 0 neto), (mkDuals [(Cust 1, 10)] None []).
  split; [apply networkb_ok; vm_compute; reflexivity|].
  split; [apply round_tripsb_ok; vm_compute; reflexivity|].
  split; [apply one_key_duals; discriminate|]. split; [vm_compute; reflexivity|].
  split; [vm_compute; reflexivity|]. intros ksp beta. vm_compute. reflexivity.
Qed.

(** two requests, 1 to 2 and 3 to 4; the three best paths visit 1 but not 2 *)
Definition netp : vgraph :=
  let req v d := mkN v 0 0 0 0 1 (Some d) false in
  mkGraph [(Source, mk_node 0 0 0 0); (Cust 1, req 1 (Cust 2)); (Cust 2, mk_node (-(1)) 0 0 0);
           (Cust 3, req 1 (Cust 4)); (Cust 4, mk_node (-(1)) 0 0 0); (Sink, mk_node 0 0 0 0)]
          [mk_arc Source (Cust 1) 1 0; mk_arc Source (Cust 2) 10 0; mk_arc Source (Cust 3) 1 0;
           mk_arc Source (Cust 4) 10 0; mk_arc (Cust 1) (Cust 2) 10 0; mk_arc (Cust 1) (Cust 3) 1 0;
           mk_arc (Cust 3) (Cust 4) 1 0; mk_arc (Cust 1) Sink 10 0; mk_arc (Cust 2) Sink 10 0;
           mk_arc (Cust 3) Sink 10 0; mk_arc (Cust 4) Sink 1 0; mk_arc Source Sink 0 0].
Definition bestp : list (list node) :=
  [[Source; Sink]; [Source; Cust 3; Cust 4; Sink]; [Source; Cust 1; Cust 3; Cust 4; Sink]].
Definition optp : options := mkOptions false true false false None false [].

Lemma best_paths_breaks_requests : exists (g h h1 : vgraph) D beta ps mx mn p,
  network 1 g /\ round_trips g /\ duals_ok 1 D /\ add_reduced_cost D 0 None g = Ok h /\
  pairs_proper h /\ (forall v d, pair_of h v d -> In d (nodes h)) /\
  largest mx (map (fun a => weight_of h (fst a) (snd a)) (edges h)) /\
  smallest mn (map (fun a => weight_of h (fst a) (snd a)) (edges h)) /\
  k_shortest (arc_list h) (fun a => clipped mx mn (weight_of h (fst a) (snd a))) beta ps /\
  remove_edges_3 (fun _ _ => ps) beta h = Ok h1 /\
  formulate h 0 (Some [5%Z]) optp None None true = Ok p /\
  formulate h1 0 (Some [5%Z]) optp None None true = Err NetworkXError.
Proof.
  set (D := mkDuals [(Cust 1, 0)] None []).
  set (h := priced D 0 netp).
  exists netp, h, (got h (remove_edges_3 (fun _ _ => bestp) 3 h)), D, 3%nat, bestp, 10, 0,
    (got (mkProgram [] [] []) (formulate h 0 (Some [5%Z]) optp None None true)).
  split; [apply networkb_ok; vm_compute; reflexivity|].
  split; [apply round_tripsb_ok; vm_compute; reflexivity|].
  split; [apply one_key_duals; discriminate|]. split; [vm_compute; reflexivity|].
  assert (HR : forall v d, pair_of h v d -> (v = Cust 1 /\ d = Cust 2) \/ (v = Cust 3 /\ d = Cust 4)).
  { intros v d (n & H1 & H2). apply assoc_node_In in H1. vm_compute in H1.
    repeat (destruct H1 as [E|H1]; [inversion E; subst; cbn in H2; inversion H2; subst; tauto|]). destruct H1. }
  split. { intros v d H. destruct (HR v d H) as [(-> & ->)|(-> & ->)]; repeat split; discriminate. }
  split. { intros v d H. destruct (HR v d H) as [(-> & ->)|(-> & ->)]; vm_compute; tauto. }
  assert (HW : forall x, In x (map (fun a => weight_of h (fst a) (snd a)) (edges h)) -> x = 10 \/ x = 1 \/ x = 0).
  { intros x Hx. vm_compute in Hx. intuition. }
  split. { split; [vm_compute; tauto|]. intros x Hx. destruct (HW x Hx) as [->|[->| ->]]; lra. }
  split. { split; [vm_compute; tauto|]. intros x Hx. destruct (HW x Hx) as [->|[->| ->]]; lra. }
  split.
  { assert (HQ : forall q, simple_path (arc_list h) q -> In q (paths_to (arc_list h) 7 [] Source)).
    { intros q (Q1 & Q2). apply paths_to_complete; auto.
      assert (HI : incl q (nodes h)).
      { intros v Hv. assert (HWf : wf h) by (apply wfb_ok; vm_compute; reflexivity).
        clear Q2. remember Sink as t eqn:Et. revert Et Hv. induction Q1 as [u|u w t q Hu Q1 IH]; intros Et Hv.
        - destruct Hv as [<-|[]]. rewrite Et. vm_compute. tauto.
        - destruct Hv as [<-|Hv]; [apply (wf_ends _ HWf u w Hu)|auto]. }
      assert (HL := NoDup_incl_length Q2 HI). vm_compute in HL |- *. lia. }
    constructor.
    - intros q Hq. assert (HA : alongb (arc_list h) q = true /\ nodupb q = true /\ route_shapeb q = true).
      { destruct Hq as [<-|[<-|[<-|[]]]]; vm_compute; auto. }
      destruct HA as (A1 & A2 & A3). apply alongb_iff in A1. apply nodupb_ok in A2. apply route_shapeb_ok in A3.
      destruct A3 as (cs & -> & _). split; auto. apply CspyProofs.trip_walk. exact A1.
    - repeat constructor; cbn; intuition discriminate.
    - cbn. lia.
    - intros q Hq Hn. split; [reflexivity|]. apply HQ in Hq. vm_compute in Hq.
      intros p Hp.
      assert (E : Qsum (map (fun a => clipped 10 0 (weight_of h (fst a) (snd a))) (arcs p)) == 0).
      { destruct Hp as [<-|[<-|[<-|[]]]]; vm_compute; reflexivity. }
      rewrite E. repeat (destruct Hq as [<-|Hq]; [vm_compute; discriminate|]). destruct Hq. }
  split; [vm_compute; reflexivity|]. split; [vm_compute; reflexivity|]. vm_compute. reflexivity.
Qed.
