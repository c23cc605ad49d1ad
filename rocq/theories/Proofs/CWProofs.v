(** Invariants of the Clarke & Wright heuristic. *)
From Verif.Base Require Import Prelude Graph.
From Verif.Spec Require Import Routes Network Feasible Prep Heuristics.
From Verif.Model Require Import Args Reach Checks Preprocess ClarkeWright.
From Verif.Proofs Require Import RouteLemmas ReachLemmas FeasProofs PreLemmas PruneProofs.

(* ------------------------------------------------------------------ *)
(** The graph copy *)
Lemma first_costs_ok (g : vgraph) K :
  network K g -> (1 <= K)%nat ->
  exists g1, first_costs g = Ok g1 /\ gnodes g1 = gnodes g /\ arc_list g1 = arc_list g /\
    network 1 g1 /\
    (forall v, nd g1 v = nd g v) /\
    (forall u v, cost_of g1 0 u v = cost_of g 0 u v) /\
    (forall u v, time_of g1 u v = time_of g u v).
Proof.
  intros N HK. pose proof (net_wf _ _ N) as W.
  destruct (map_arcsM_total (fun _ e => let* c := of_opt IndexError (nth_error (ecost e) 0) in
                        Ok (mkE [c] (etime e) (eweight e))) g W) as (g1 & H).
  { intros u v e He. apply (net_costs _ _ N) in He. destruct (ecost e) as [|c l]; simpl in He; [lia|].
    simpl. eauto. }
  exists g1. split; [exact H|]. apply map_arcsM_ok in H; auto. destruct H as (H1 & H2 & H3).
  assert (Hn : nodes g1 = nodes g) by (unfold nodes; rewrite H1; auto).
  split; auto. split; auto. split.
  - constructor.
    + apply (wf_same g); auto.
    + rewrite Hn; apply N.
    + rewrite Hn; apply N.
    + rewrite H2. apply N.
    + rewrite H2. apply N.
    + intros u v e He. specialize (H3 u v). destruct (arc_data g u v) as [e0|].
      * destruct H3 as (e' & H3 & H4). rewrite He in H4. inversion H4; subst.
        apply bind_ok in H3. destruct H3 as (c & _ & H3). inversion H3; subst. simpl. lia.
      * congruence.
  - split; [|split].
    + intro v. unfold nd, node_data. rewrite H1. auto.
    + intros u v. unfold cost_of. specialize (H3 u v). destruct (arc_data g u v) as [e0|].
      * destruct H3 as (e' & H3 & ->). apply bind_ok in H3. destruct H3 as (c & Hc & H3).
        inversion H3; subst. simpl. destruct (ecost e0); simpl in *; inversion Hc; auto.
      * rewrite H3. auto.
    + intros u v. unfold time_of. specialize (H3 u v). destruct (arc_data g u v) as [e0|].
      * destruct H3 as (e' & H3 & ->). apply bind_ok in H3. destruct H3 as (c & Hc & H3).
        inversion H3; subst. auto.
      * rewrite H3. auto.
Qed.

Lemma get_node_total (g : vgraph) v : In v (nodes g) -> get_node g v = Ok (nd g v).
Proof.
  intro H. destruct (get_node_ok g v H) as (d & Hd & _). rewrite Hd.
  apply get_node_nd in Hd. destruct Hd as (<- & _). auto.
Qed.

Lemma scost_total (g : vgraph) K u v :
  network K g -> (1 <= K)%nat -> In (u, v) (arc_list g) -> scost g u v = Ok (cost_of g 0 u v).
Proof.
  intros N HK H. unfold scost, cost_of. destruct (get_arc_ok g u v H) as (e & He & Hd).
  rewrite He, Hd. simpl. apply (net_costs _ _ N) in Hd.
  destruct (ecost e); simpl in *; [lia|auto].
Qed.

Lemma stime_total (g : vgraph) u v : In (u, v) (arc_list g) -> stime g u v = Ok (time_of g u v).
Proof.
  intro H. unfold stime, time_of. destruct (get_arc_ok g u v H) as (e & He & Hd).
  rewrite He, Hd. auto.
Qed.

(* ------------------------------------------------------------------ *)
(** Route objects *)
Lemma in_add_node1 v w l : In w (add_node1 v l) <-> w = v \/ In w l.
Proof.
  unfold add_node1. destruct (mem v l) eqn:E.
  - apply mem_In in E. split; [auto|]. intros [->|H]; auto.
  - rewrite in_app_iff. simpl. intuition congruence.
Qed.

Lemma add_node1_NoDup v l : NoDup l -> NoDup (add_node1 v l).
Proof.
  intro H. unfold add_node1. destruct (mem v l) eqn:E; auto. apply mem_false in E.
  apply NoDup_app_intro; auto.
  - constructor; [intros []|constructor].
  - intros x Hx [<-|[]]. auto.
Qed.

Lemma in_add_arc1 a b r : In b (cr_arcs (add_arc1 a r)) <-> b = a \/ In b (cr_arcs r).
Proof.
  unfold add_arc1. simpl. destruct (mem_arc a (cr_arcs r)) eqn:E.
  - apply mem_arc_In in E. split; [auto|]. intros [->|H]; auto.
  - rewrite in_app_iff. simpl. intuition congruence.
Qed.

Lemma nodes_add_arc1 a v r :
  In v (cr_nodes (add_arc1 a r)) <-> v = fst a \/ v = snd a \/ In v (cr_nodes r).
Proof. unfold add_arc1. simpl. rewrite !in_add_node1. tauto. Qed.

Lemma add_path3 u v w r :
  let r' := add_path [u; v; w] r in
  (forall b, In b (cr_arcs r') <-> b = (u, v) \/ b = (v, w) \/ In b (cr_arcs r)) /\
  (forall x, In x (cr_nodes r') <-> x = u \/ x = v \/ x = w \/ In x (cr_nodes r)) /\
  (NoDup (cr_nodes r) -> NoDup (cr_nodes r')) /\
  cr_cost r' = cr_cost r /\ cr_load r' = cr_load r /\ cr_time r' = cr_time r.
Proof.
  unfold add_path. cbn [arcs fold_left].
  split; [|split; [|split]].
  - intro b. rewrite !in_add_arc1. tauto.
  - intro x. rewrite !nodes_add_arc1. simpl. tauto.
  - intro H. unfold add_arc1. simpl. repeat apply add_node1_NoDup. auto.
  - auto.
Qed.

Lemma remove_edge_ok a r :
  In a (cr_arcs r) ->
  exists r', remove_edge a r = Ok r' /\ cr_nodes r' = cr_nodes r /\
    (forall b, In b (cr_arcs r') <-> In b (cr_arcs r) /\ b <> a) /\
    cr_cost r' = cr_cost r /\ cr_load r' = cr_load r /\ cr_time r' = cr_time r.
Proof.
  intro H. unfold remove_edge. apply mem_arc_In in H. rewrite H. eexists. split; [reflexivity|].
  simpl. repeat split; auto.
  - apply filter_In in H0. tauto.
  - apply filter_In in H0. destruct H0 as (_ & H0). apply negb_true_iff, arc_eqb_neq in H0. auto.
  - intros (H1 & H2). apply filter_In. split; auto. apply negb_true_iff, arc_eqb_neq. auto.
Qed.

(* ------------------------------------------------------------------ *)
(** Dictionaries *)
Lemma assoc_dict_set {A} v w (h : A) d :
  assoc_node w (dict_set v h d) = if node_eqb v w then Some h else assoc_node w d.
Proof.
  induction d as [|[x k] d IH]; simpl; [auto|].
  destruct (node_eqb x v) eqn:E.
  - apply node_eqb_eq in E. subst. simpl. destruct (node_eqb v w); auto.
  - simpl. rewrite IH. destruct (node_eqb x w) eqn:F; auto.
    apply node_eqb_eq in F. subst. destruct (node_eqb v w) eqn:G; auto.
    apply node_eqb_eq in G. subst. rewrite node_eqb_refl in E. discriminate.
Qed.

Lemma dict_set_keys {A} v (h : A) d :
  NoDup (map fst d) -> NoDup (map fst (dict_set v h d)) /\
  forall w, In w (map fst (dict_set v h d)) <-> w = v \/ In w (map fst d).
Proof.
  induction d as [|[x k] d IH]; simpl; intro H.
  - split; [constructor; auto; constructor|]. intro w. intuition.
  - inversion H as [|? ? Hx Hd]; subst. destruct (IH Hd) as (IH1 & IH2).
    destruct (node_eqb x v) eqn:E.
    + apply node_eqb_eq in E. subst. simpl. split; [constructor; auto|]. intro w. intuition.
    + apply node_eqb_neq in E. simpl. split.
      * constructor; auto. rewrite IH2. intros [->|?]; auto.
      * intro w. rewrite IH2. intuition.
Qed.

Lemma assoc_in_values v (d : list (node * nat)) h :
  assoc_node v d = Some h -> In h (map snd d).
Proof. intro H. apply assoc_node_In in H. apply in_map_iff. exists (v, h). auto. Qed.

Lemma value_has_key (d : list (node * nat)) h :
  NoDup (map fst d) -> In h (map snd d) -> exists v, assoc_node v d = Some h.
Proof.
  intros Hn H. apply in_map_iff in H. destruct H as ([v k] & <- & H).
  exists v. apply assoc_node_NoDup; auto.
Qed.

(* ------------------------------------------------------------------ *)
(** Paths from Source to Sink *)
Definition full (cs : list node) : list node := Source :: cs ++ [Sink].

Lemma full_snoc l i : full (l ++ [i]) = (Source :: l) ++ [i; Sink].
Proof. unfold full. rewrite <- app_assoc. reflexivity. Qed.
Lemma full_snoc2 l i j : full (l ++ [i; j]) = (Source :: l ++ [i]) ++ [j; Sink].
Proof. unfold full. simpl. rewrite <- !app_assoc. reflexivity. Qed.

Lemma arcs_full_snoc l i : arcs (full (l ++ [i])) = arcs (Source :: l ++ [i]) ++ [(i, Sink)].
Proof. rewrite full_snoc, (arcs_snoc (Source :: l)). reflexivity. Qed.
Lemma arcs_full_snoc2 l i j :
  arcs (full (l ++ [i; j])) = arcs (Source :: l ++ [i]) ++ [(i, j); (j, Sink)].
Proof.
  rewrite full_snoc2, (arcs_snoc (Source :: l ++ [i])).
  change ((Source :: l ++ [i]) ++ [j]) with (Source :: (l ++ [i]) ++ [j]).
  rewrite <- app_assoc. simpl ([i] ++ [j]).
  change (Source :: l ++ [i; j]) with ((Source :: l) ++ [i; j]).
  rewrite (arcs_snoc (Source :: l)). rewrite <- app_assoc. reflexivity.
Qed.
Lemma arcs_full_cons j l : arcs (full (j :: l)) = (Source, j) :: arcs (j :: l ++ [Sink]).
Proof. reflexivity. Qed.
Lemma arcs_full_cons2 i j l :
  arcs (full (i :: j :: l)) = (Source, i) :: (i, j) :: arcs (j :: l ++ [Sink]).
Proof. reflexivity. Qed.

Lemma last_of_full cs i :
  (forall v, In v cs -> v <> Source /\ v <> Sink) -> cs <> [] ->
  In (i, Sink) (arcs (full cs)) -> exists l, cs = l ++ [i].
Proof.
  intros Hc Hne H. destruct (exists_last Hne) as (l & x & ->). exists l. f_equal. f_equal.
  rewrite arcs_full_snoc in H. apply in_app_or in H. destruct H as [H|[H|[]]]; [|congruence].
  apply arcs_in_nodes in H. destruct H as (_ & H). destruct H as [H|H]; [discriminate|].
  apply Hc in H. tauto.
Qed.

Lemma first_of_full cs j :
  (forall v, In v cs -> v <> Source /\ v <> Sink) -> cs <> [] ->
  In (Source, j) (arcs (full cs)) -> exists l, cs = j :: l.
Proof.
  intros Hc Hne H. destruct cs as [|x l]; [congruence|]. exists l. f_equal.
  rewrite arcs_full_cons in H. destruct H as [H|H]; [congruence|].
  apply arcs_in_nodes in H. destruct H as (H & _).
  change (x :: l ++ [Sink]) with ((x :: l) ++ [Sink]) in H. apply in_app_or in H.
  destruct H as [H|[H|[]]]; [|discriminate]. apply Hc in H. tauto.
Qed.

Lemma full_shape cs :
  NoDup cs -> (forall v, In v cs -> v <> Source /\ v <> Sink) -> route_shape (full cs).
Proof. intros H1 H2. exists cs. auto. Qed.

Lemma full_stops cs : (forall v, In v cs -> v <> Source /\ v <> Sink) -> stops (full cs) = cs.
Proof. intro H. apply (route_stops (full cs) cs); auto. Qed.

Lemma in_full v cs : In v (full cs) <-> v = Source \/ In v cs \/ v = Sink.
Proof. unfold full. simpl. rewrite in_app_iff. simpl. intuition. Qed.

(* ------------------------------------------------------------------ *)
Section CW.
  Variable g : vgraph.
  Variable lim : limits.
  Variable alpha : Q.
  Hypothesis N : network 1 g.
  Hypothesis RT : round_trips g.

  Let W : wf g := net_wf _ _ N.

  Definition cost_path p := path_sum (cost_of g 0) p.

  (** What a live route object says. *)
  Record good (r : croute) (cs : list node) : Prop := {
    gd_ne : cs <> [];
    gd_nodup : NoDup cs;
    gd_custs : forall v, In v cs -> In v (custs g);
    gd_along : along (arc_list g) (full cs);
    gd_arcs : forall a, In a (cr_arcs r) <-> In a (arcs (full cs));
    gd_nd : NoDup (cr_nodes r);
    gd_nodes : forall v, In v (cr_nodes r) <-> In v (full cs);
    gd_cost : cr_cost r == path_sum (cost_of g 0) (full cs);
    gd_load : truthy (l_cap lim) = true -> cr_load r == node_sum (demand_of g) cs;
    gd_cap : forall c, l_cap lim = Some c -> c <> 0%Z ->
             (forall v, In v (custs g) -> demand_of g v <= inject_Z c) ->
             node_sum (demand_of g) cs <= inject_Z c;
    gd_stops : forall n, l_stops lim = Some n -> (1 <= n)%Z -> (Z.of_nat (List.length cs) <= n)%Z;
    gd_time : truthy (l_dur lim) = true -> symmetric_times g ->
              cr_time r == path_sum (time_of g) (full cs) + node_sum (service_of g) cs;
    gd_dur : forall D, l_dur lim = Some D -> D <> 0%Z -> symmetric_times g ->
             (forall v, In v (custs g) -> path_sum (time_of g) [Source; v; Sink] + service_of g v <= inject_Z D) ->
             path_sum (time_of g) (full cs) + node_sum (service_of g) cs <= inject_Z D
  }.

  Lemma cust_ne v : In v (custs g) -> v <> Source /\ v <> Sink.
  Proof. intro H. apply in_custs in H. tauto. Qed.

  Lemma good_ne r cs : good r cs -> forall v, In v cs -> v <> Source /\ v <> Sink.
  Proof. intros G v H. apply cust_ne. apply (gd_custs _ _ G); auto. Qed.

  Lemma good_full_NoDup r cs : good r cs -> NoDup (full cs).
  Proof.
    intro G. apply route_shape_NoDup, full_shape; [apply (gd_nodup _ _ G)|].
    apply (good_ne r); auto.
  Qed.

  Lemma good_length r cs : good r cs -> List.length (cr_nodes r) = (2 + List.length cs)%nat.
  Proof.
    intro G. assert (P : Permutation (cr_nodes r) (full cs)).
    { apply NoDup_Permutation; [apply (gd_nd _ _ G)|apply (good_full_NoDup r); auto|].
      apply (gd_nodes _ _ G). }
    apply Permutation_length in P. rewrite P. unfold full. simpl. rewrite app_length. simpl. lia.
  Qed.

  (** owned h: which customers the live object h serves *)
  Record inv (s : cw) (C : nat -> list node) : Prop := {
    i_keys : NoDup (map fst (cw_route s));
    i_lt : forall v h, assoc_node v (cw_route s) = Some h -> (h < List.length (cw_heap s))%nat;
    i_good : forall v h, assoc_node v (cw_route s) = Some h ->
             In v (C h) /\ exists r, nth_error (cw_heap s) h = Some r /\ good r (C h);
    i_own : forall v h w, assoc_node v (cw_route s) = Some h -> In w (C h) ->
            assoc_node w (cw_route s) = Some h;
    i_fresh : forall v h, assoc_node v (cw_route s) = Some h -> ~ In v (cw_done s) -> C h = [v]
  }.
  Definition covers (s : cw) (l : list node) : Prop :=
    forall v, In v l <-> exists h, assoc_node v (cw_route s) = Some h.

  Definition total (s : cw) (C : nat -> list node) : Q :=
    Qsum (map (fun h => path_sum (cost_of g 0) (full (C h))) (live_routes s)).

  (** The customers of the live routes. *)
  Definition view (s : cw) (C : nat -> list node) : list (list node) := map C (live_routes s).

  (** The customers that were merged are not on a route of their own. *)
  Definition merged (s : cw) (C : nat -> list node) : Prop :=
    forall v h, assoc_node v (cw_route s) = Some h -> In v (cw_done s) -> C h <> [v].

  (** [new] left its own route and joined the route [old], which became [cs']. *)
  Definition joined (s : cw) (C : nat -> list node) (s' : cw) (C' : nat -> list node)
      (new : node) (old cs' : list node) : Prop :=
    (merged s C -> merged s' C') /\
    exists R', Permutation (view s C) ([new] :: old :: R') /\ Permutation (view s' C') (cs' :: R').

  (* ---- initial routes ---- *)
  Lemma single_good v r :
    In v (custs g) ->
    (forall a, In a (cr_arcs r) <-> a = (Source, v) \/ a = (v, Sink)) ->
    NoDup (cr_nodes r) -> (forall x, In x (cr_nodes r) <-> x = Source \/ x = v \/ x = Sink) ->
    cr_cost r == cost_of g 0 Source v + cost_of g 0 v Sink ->
    (truthy (l_cap lim) = true -> cr_load r == demand_of g v) ->
    (truthy (l_dur lim) = true -> cr_time r == service_of g v + time_of g Source v + time_of g v Sink) ->
    good r [v].
  Proof.
    intros Hv Ha Hd Hn Hc Hl Ht. pose proof (RT v Hv) as (R1 & R2).
    constructor.
    - discriminate.
    - constructor; [intros []|constructor].
    - intros w [<-|[]]. auto.
    - unfold full. simpl. apply along_cons2. split; auto. apply along_cons2. split; auto. intros x y [].
    - intro a. rewrite Ha. simpl. intuition.
    - auto.
    - intro x. rewrite Hn. simpl. intuition.
    - rewrite Hc. unfold full, path_sum. simpl. lra.
    - intro H. rewrite Hl; auto. unfold node_sum. simpl. lra.
    - intros c H1 H2 H3. specialize (H3 v Hv). unfold node_sum. simpl. lra.
    - intros n H1 H2. simpl. lia.
    - intros H _. rewrite Ht; auto. unfold full, path_sum, node_sum. simpl. lra.
    - intros D H1 H2 _ H3. specialize (H3 v Hv). unfold full, path_sum, node_sum in *. simpl in *. lra.
  Qed.

  Lemma init_node_ok s C v l :
    inv s C -> covers s l -> ~ In v l -> In v (custs g) ->
    exists s' C', cw_init_node g lim s v = Ok s' /\ inv s' C' /\ covers s' (l ++ [v]) /\
      cw_done s' = cw_done s /\
      total s' C' == total s C + path_sum (cost_of g 0) [Source; v; Sink].
  Proof.
    intros I Cv Hnl Hv. pose proof (RT v Hv) as (R1 & R2).
    pose proof (cust_ne v Hv) as (Hn1 & Hn2).
    assert (Hnode : In v (nodes g)) by (apply in_custs in Hv; tauto).
    unfold cw_init_node. rewrite (proj2 (is_depot_false v)) by auto.
    rewrite (scost_total g 1 Source v N) by (auto; lia).
    rewrite (scost_total g 1 v Sink N) by (auto; lia). cbn [bind].
    destruct (add_path3 Source v Sink (mkCR [] [] (cost_of g 0 Source v + cost_of g 0 v Sink) 0 0))
      as (A1 & A2 & A3 & A4 & A5 & A6).
    set (r0 := add_path [Source; v; Sink] (mkCR [] [] (cost_of g 0 Source v + cost_of g 0 v Sink) 0 0)) in *.
    cbv zeta in *. clearbody r0. cbn [cr_arcs cr_nodes cr_cost cr_load cr_time] in A1, A2, A3, A4, A5, A6.
    assert (G : exists r, (let* r := (if truthy (l_cap lim) then
                 let* d := get_node g v in
                 Ok (mkCR (cr_nodes r0) (cr_arcs r0) (cr_cost r0) (demand d) (cr_time r0))
               else Ok r0) in
               (if truthy (l_dur lim) then
                 let* d := get_node g v in
                 let* t1 := stime g Source v in
                 let* t2 := stime g v Sink in
                 Ok (mkCR (cr_nodes r) (cr_arcs r) (cr_cost r) (cr_load r) (service d + t1 + t2))
               else Ok r)) = Ok r /\ good r [v]).
    { rewrite (get_node_total g v Hnode), (stime_total g Source v R1), (stime_total g v Sink R2).
      destruct (truthy (l_cap lim)) eqn:Ec; destruct (truthy (l_dur lim)) eqn:Ed; cbn [bind];
        (eexists; split; [reflexivity|]); apply single_good; simpl; auto;
        try (intro a; rewrite A1; simpl; tauto);
        try (apply A3; constructor);
        try (intro x; rewrite A2; simpl; tauto);
        try (rewrite A4; reflexivity);
        intro; try discriminate; try reflexivity; try congruence. }
    destruct G as (r & Hr & Gr).
    match type of Hr with bind ?X ?Y = _ => match goal with |- context[bind X ?Z] =>
       replace (bind X Z) with (bind (bind X Y) (fun r => Ok (mkCW (cw_heap s ++ [r]) (dict_set v (List.length (cw_heap s)) (cw_route s)) (cw_done s))))
       by (destruct X; reflexivity) end end.
    rewrite Hr. cbn [bind].
    set (n := List.length (cw_heap s)).
    assert (Hfresh : assoc_node v (cw_route s) = None).
    { destruct (assoc_node v (cw_route s)) as [h|] eqn:E; auto. exfalso. apply Hnl. apply Cv. eauto. }
    exists (mkCW (cw_heap s ++ [r]) (dict_set v n (cw_route s)) (cw_done s)).
    exists (fun h => if Nat.eqb h n then [v] else C h).
    assert (Hlt : forall w h, assoc_node w (cw_route s) = Some h -> Nat.eqb h n = false).
    { intros w h H. apply Nat.eqb_neq. apply (i_lt _ _ I) in H. unfold n. lia. }
    split; [reflexivity|]. split; [|split; [|split; [reflexivity|]]].
    - constructor; simpl.
      + apply (proj1 (dict_set_keys v n (cw_route s) (i_keys _ _ I))).
      + intros w h. rewrite assoc_dict_set, app_length. simpl. destruct (node_eqb v w).
        * intro H; inversion H; subst. unfold n. lia.
        * intro H. apply (i_lt _ _ I) in H. lia.
      + intros w h. rewrite assoc_dict_set. destruct (node_eqb v w) eqn:E.
        * intro H; inversion H; subst. apply node_eqb_eq in E. subst. rewrite Nat.eqb_refl.
          split; [simpl; auto|]. exists r. split; auto. unfold n.
          rewrite nth_error_app2 by lia. rewrite Nat.sub_diag. auto.
        * intro H. rewrite (Hlt _ _ H). pose proof (i_lt _ _ I _ _ H).
          rewrite nth_error_app1 by auto. apply (i_good _ _ I w h H).
      + intros w h x. rewrite !assoc_dict_set. destruct (node_eqb v w) eqn:E.
        * intro H; inversion H; subst. rewrite Nat.eqb_refl. intros [<-|[]].
          rewrite node_eqb_refl. auto.
        * intro H. rewrite (Hlt _ _ H). intro Hx.
          pose proof (i_own _ _ I _ _ _ H Hx) as Ho.
          destruct (node_eqb v x) eqn:F; auto. apply node_eqb_eq in F. subst. congruence.
      + intros w h. rewrite assoc_dict_set. destruct (node_eqb v w) eqn:E.
        * intro H; inversion H; subst. apply node_eqb_eq in E. subst. rewrite Nat.eqb_refl. auto.
        * intros H Hd. rewrite (Hlt _ _ H). apply (i_fresh _ _ I w h); auto.
    - intro w. simpl. rewrite in_app_iff. simpl. rewrite assoc_dict_set. split.
      + intros [H|[<-|[]]].
        * apply Cv in H. destruct H as (h & H). destruct (node_eqb v w); eauto.
        * rewrite node_eqb_refl. eauto.
      + intros (h & H). destruct (node_eqb v w) eqn:E.
        * apply node_eqb_eq in E. auto.
        * left. apply Cv. eauto.
    - unfold total, live_routes. simpl.
      assert (P : Permutation (nodup Nat.eq_dec (map snd (dict_set v n (cw_route s))))
                              (n :: nodup Nat.eq_dec (map snd (cw_route s)))).
      { apply NoDup_Permutation; [apply NoDup_nodup| |].
        - constructor; [|apply NoDup_nodup]. rewrite nodup_In. intro H.
          apply (value_has_key _ _ (i_keys _ _ I)) in H. destruct H as (w & H).
          apply Hlt in H. rewrite Nat.eqb_refl in H. discriminate.
        - intro h. simpl. rewrite !nodup_In. split.
          + intro H. apply value_has_key in H; [|apply dict_set_keys, (i_keys _ _ I)].
            destruct H as (w & H). rewrite assoc_dict_set in H. destruct (node_eqb v w).
            * inversion H; auto.
            * right. eapply assoc_in_values; eauto.
          + intros [<-|H].
            * apply (assoc_in_values v). rewrite assoc_dict_set, node_eqb_refl. auto.
            * apply (value_has_key _ _ (i_keys _ _ I)) in H. destruct H as (w & H).
              apply (assoc_in_values w). rewrite assoc_dict_set.
              destruct (node_eqb v w) eqn:E; auto. apply node_eqb_eq in E. congruence. }
      rewrite (Qsum_perm _ _ (Permutation_map _ P)). cbn [map]. rewrite Qsum_cons.
      rewrite Nat.eqb_refl.
      assert (E : Qsum (map (fun h => path_sum (cost_of g 0) (full (if Nat.eqb h n then [v] else C h)))
                            (nodup Nat.eq_dec (map snd (cw_route s)))) ==
                  Qsum (map (fun h => path_sum (cost_of g 0) (full (C h)))
                            (nodup Nat.eq_dec (map snd (cw_route s))))).
      { apply Qsum_map_ext. intros h H. apply nodup_In in H.
        apply (value_has_key _ _ (i_keys _ _ I)) in H. destruct H as (w & H).
        rewrite (Hlt _ _ H). reflexivity. }
      rewrite E. unfold full. simpl ([v] ++ [Sink]). lra.
  Qed.

  Lemma inv_empty : inv (mkCW [] [] []) (fun _ => []).
  Proof. constructor; simpl; try discriminate. constructor. Qed.

  Lemma init_ok :
    exists s C, cw_init g lim = Ok s /\ inv s C /\ covers s (custs g) /\ cw_done s = [] /\
      total s C == Qsum (map (fun v => path_sum (cost_of g 0) [Source; v; Sink]) (custs g)).
  Proof.
    assert (G : forall l done s C, inv s C -> covers s (filter is_cust done) -> NoDup (done ++ l) ->
       (forall v, In v l -> In v (nodes g)) ->
       exists s' C', foldM (cw_init_node g lim) l s = Ok s' /\ inv s' C' /\
         covers s' (filter is_cust (done ++ l)) /\ cw_done s' = cw_done s /\
         total s' C' == total s C +
           Qsum (map (fun v => path_sum (cost_of g 0) [Source; v; Sink]) (filter is_cust l))).
    { induction l as [|v l IH]; intros done s C I Cv Hd Hl; cbn [foldM].
      - rewrite app_nil_r. exists s, C. simpl. split; auto. split; auto. split; auto. split; auto. lra.
      - assert (Hv : ~ In v (filter is_cust done)).
        { rewrite filter_In. intros (H & _). apply NoDup_app_inv in Hd. destruct Hd as (_ & _ & Hd).
          apply (Hd v H). simpl; auto. }
        replace (done ++ v :: l) with ((done ++ [v]) ++ l) in * by (rewrite <- app_assoc; auto).
        destruct (is_cust v) eqn:Ec.
        + assert (Hc : In v (custs g)).
          { apply in_custs. apply is_cust_true in Ec. split; [apply Hl; simpl; auto|auto]. }
          destruct (init_node_ok s C v _ I Cv Hv Hc) as (s1 & C1 & H1 & I1 & Cv1 & D1 & T1).
          rewrite H1. cbn [bind].
          destruct (IH (done ++ [v]) s1 C1 I1) as (s2 & C2 & H2 & I2 & Cv2 & D2 & T2); auto.
          { rewrite filter_app. cbn [filter]. rewrite Ec. auto. }
          { intros; apply Hl; simpl; auto. }
          exists s2, C2. split; auto. split; auto. split; auto. split; [congruence|].
          cbn [filter]. rewrite Ec. cbn [map]. rewrite Qsum_cons, T2, T1. lra.
        + unfold cw_init_node at 1. unfold is_cust in Ec. apply negb_false_iff in Ec. rewrite Ec. cbn [bind].
          destruct (IH (done ++ [v]) s C I) as (s2 & C2 & H2 & I2 & Cv2 & D2 & T2); auto.
          { rewrite filter_app. cbn [filter]. unfold is_cust at 2. rewrite Ec. simpl. rewrite app_nil_r. auto. }
          { intros; apply Hl; simpl; auto. }
          exists s2, C2. split; auto. split; auto. split; auto. split; auto.
          cbn [filter]. unfold is_cust at 1. rewrite Ec. simpl. auto. }
    destruct (G (nodes g) [] (mkCW [] [] []) (fun _ => []) inv_empty) as (s & C & H1 & H2 & H3 & H4 & H5).
    - intro v. simpl. split; [intros []|intros (h & H); discriminate].
    - simpl. apply W.
    - auto.
    - exists s, C. split; auto. split; auto. split; auto. split; auto.
      rewrite H5. unfold total, live_routes, custs. simpl. lra.
  Qed.

  (* ---- merging ---- *)
  Lemma merge_good_sink r l i j :
    good r (l ++ [i]) -> In j (custs g) -> ~ In j (l ++ [i]) -> In (i, j) (arc_list g) ->
    (forall c, l_cap lim = Some c -> c <> 0%Z -> cr_load r + demand_of g j <= inject_Z c) ->
    (forall D, l_dur lim = Some D -> D <> 0%Z ->
       cr_time r + (time_of g i j + time_of g j Sink + service_of g j - time_of g i Sink) <= inject_Z D) ->
    (forall n, l_stops lim = Some n -> n <> 0%Z -> (Z.of_nat (List.length (cr_nodes r)) - 2 + 1 <= n)%Z) ->
    forall r',
    NoDup (cr_nodes r') ->
    (forall x, In x (cr_nodes r') <-> x = j \/ In x (cr_nodes r)) ->
    (forall a, In a (cr_arcs r') <-> (In a (cr_arcs r) \/ a = (i, j) \/ a = (j, Sink)) /\ a <> (i, Sink)) ->
    cr_cost r' == cr_cost r + (cost_of g 0 i j + cost_of g 0 j Sink - cost_of g 0 i Sink) ->
    (truthy (l_cap lim) = true -> cr_load r' == cr_load r + demand_of g j) ->
    (truthy (l_dur lim) = true -> cr_time r' == cr_time r +
        (time_of g i j + time_of g j Sink + service_of g j - time_of g i Sink)) ->
    good r' (l ++ [i; j]).
  Proof.
    intros G Hj Hnj Hij Hcap Hdur Hst r' Hnd Hn Ha Hc Hl Ht.
    pose proof (good_ne _ _ G) as Hne. pose proof (cust_ne j Hj) as (Hj1 & Hj2).
    assert (Ei : i <> Source /\ i <> Sink) by (apply Hne; apply in_or_app; simpl; auto).
    assert (El : l ++ [i; j] = (l ++ [i]) ++ [j]) by (rewrite <- app_assoc; auto).
    assert (EP : forall w, path_sum w (full (l ++ [i; j])) ==
                 path_sum w (full (l ++ [i])) + (w i j + w j Sink - w i Sink)).
    { intro w. unfold path_sum. rewrite arcs_full_snoc, arcs_full_snoc2, !map_app, !Qsum_app. simpl. lra. }
    assert (EN : forall w, node_sum w (l ++ [i; j]) == node_sum w (l ++ [i]) + w j).
    { intro w. rewrite El, node_sum_app. unfold node_sum. simpl. lra. }
    pose proof (RT j Hj) as (_ & RTj).
    constructor; auto.
    - destruct l; discriminate.
    - rewrite El. apply NoDup_app_intro; [apply (gd_nodup _ _ G)|constructor; [intros []|constructor]|].
      intros x Hx [<-|[]]. auto.
    - intros v. rewrite El, in_app_iff. intros [H|[<-|[]]]; auto. apply (gd_custs _ _ G); auto.
    - pose proof (gd_along _ _ G) as Al. intros u v. rewrite arcs_full_snoc2, in_app_iff.
      intros [H|[H|[H|[]]]].
      + apply Al. rewrite arcs_full_snoc, in_app_iff. auto.
      + inversion H; subst; auto.
      + inversion H; subst; auto.
    - intro a. rewrite Ha, (gd_arcs _ _ G), arcs_full_snoc, arcs_full_snoc2, !in_app_iff. cbn [In]. split.
      + intros ([[H|[H|[]]]|[H|H]] & Hne2); subst; auto; congruence.
      + intros [H|[H|[H|[]]]]; subst.
        * split; auto. intros ->. apply arcs_in_nodes in H. destruct H as (_ & [H|H]); [discriminate|].
          apply Hne in H. tauto.
        * split; auto. congruence.
        * split; auto. intro E. inversion E; subst. apply Hnj. apply in_or_app; simpl; auto.
    - intro v. rewrite Hn, (gd_nodes _ _ G), El, !in_full. rewrite (in_app_iff (l ++ [i]) [j]). simpl. intuition.
    - rewrite Hc, EP, (gd_cost _ _ G). lra.
    - intro H. rewrite (Hl H), EN, (gd_load _ _ G H). lra.
    - intros c H1 H2 H3. rewrite EN. specialize (Hcap c H1 H2). rewrite (gd_load _ _ G) in Hcap; auto.
      apply truthy_some. eauto.
    - intros n H1 H2. specialize (Hst n H1). rewrite (good_length _ _ G) in Hst.
      rewrite El, app_length. simpl. assert (n <> 0%Z) by lia. specialize (Hst H). lia.
    - intros H S. rewrite (Ht H), EP, EN, (gd_time _ _ G H S). lra.
    - intros D H1 H2 S H3. rewrite EP, EN. specialize (Hdur D H1 H2).
      rewrite (gd_time _ _ G) in Hdur; auto. lra. apply truthy_some. eauto.
  Qed.

  Lemma merge_good_source r l i j :
    good r (j :: l) -> In i (custs g) -> ~ In i (j :: l) -> In (i, j) (arc_list g) ->
    In (j, i) (arc_list g) ->
    (forall c, l_cap lim = Some c -> c <> 0%Z -> cr_load r + demand_of g i <= inject_Z c) ->
    (forall D, l_dur lim = Some D -> D <> 0%Z ->
       cr_time r + (time_of g j i + time_of g i Sink + service_of g i - time_of g j Sink) <= inject_Z D) ->
    (forall n, l_stops lim = Some n -> n <> 0%Z -> (Z.of_nat (List.length (cr_nodes r)) - 2 + 1 <= n)%Z) ->
    forall r',
    NoDup (cr_nodes r') ->
    (forall x, In x (cr_nodes r') <-> x = i \/ In x (cr_nodes r)) ->
    (forall a, In a (cr_arcs r') <-> (In a (cr_arcs r) \/ a = (Source, i) \/ a = (i, j)) /\ a <> (Source, j)) ->
    cr_cost r' == cr_cost r + (cost_of g 0 i j + cost_of g 0 Source i - cost_of g 0 Source j) ->
    (truthy (l_cap lim) = true -> cr_load r' == cr_load r + demand_of g i) ->
    (truthy (l_dur lim) = true -> cr_time r' == cr_time r +
        (time_of g j i + time_of g i Sink + service_of g i - time_of g j Sink)) ->
    good r' (i :: j :: l).
  Proof.
    intros G Hi Hni Hij Hji Hcap Hdur Hst r' Hnd Hn Ha Hc Hl Ht.
    pose proof (good_ne _ _ G) as Hne. pose proof (cust_ne i Hi) as (Hi1 & Hi2).
    assert (Ej : j <> Source /\ j <> Sink) by (apply Hne; simpl; auto).
    assert (Hj : In j (custs g)) by (apply (gd_custs _ _ G); simpl; auto).
    assert (EP : forall w, path_sum w (full (i :: j :: l)) ==
                 path_sum w (full (j :: l)) + (w i j + w Source i - w Source j)).
    { intro w. unfold path_sum. rewrite arcs_full_cons2, arcs_full_cons. cbn [map]. rewrite !Qsum_cons. simpl. lra. }
    assert (EN : forall w, node_sum w (i :: j :: l) == node_sum w (j :: l) + w i).
    { intro w. unfold node_sum. simpl. lra. }
    assert (ET : symmetric_times g ->
       time_of g j i + time_of g i Sink - time_of g j Sink ==
       time_of g i j + time_of g Source i - time_of g Source j).
    { intros (S1 & S2). rewrite (S1 i Hi), (S1 j Hj), (S2 i j Hi Hj Hij Hji). lra. }
    pose proof (RT i Hi) as (RTi & _).
    constructor; auto.
    - discriminate.
    - constructor; auto. apply (gd_nodup _ _ G).
    - intros v [<-|H]; auto. apply (gd_custs _ _ G); auto.
    - pose proof (gd_along _ _ G) as Al. intros u v. rewrite arcs_full_cons2.
      intros [H|[H|H]].
      + inversion H; subst; auto.
      + inversion H; subst; auto.
      + apply Al. rewrite arcs_full_cons. right; auto.
    - intro a. rewrite Ha, (gd_arcs _ _ G), arcs_full_cons, arcs_full_cons2. cbn [In]. split.
      + intros ([[H|H]|[H|H]] & Hne2); subst; auto; congruence.
      + intros [H|[H|H]]; subst.
        * split; auto. intro E; inversion E; subst. apply Hni. simpl; auto.
        * split; auto. congruence.
        * split; auto. intros ->. apply arcs_in_nodes in H. destruct H as (H & _).
          change (j :: l ++ [Sink]) with ((j :: l) ++ [Sink]) in H. apply in_app_or in H.
          destruct H as [H|[H|[]]]; [|discriminate]. apply Hne in H. tauto.
    - intro v. rewrite Hn, (gd_nodes _ _ G), !in_full. simpl. intuition.
    - rewrite Hc, EP, (gd_cost _ _ G). lra.
    - intro H. rewrite (Hl H), EN, (gd_load _ _ G H). lra.
    - intros c H1 H2 H3. rewrite EN. specialize (Hcap c H1 H2). rewrite (gd_load _ _ G) in Hcap; auto.
      apply truthy_some. eauto.
    - intros n H1 H2. specialize (Hst n H1). rewrite (good_length _ _ G) in Hst.
      assert (n <> 0%Z) by lia. specialize (Hst H). cbn [List.length] in *. lia.
    - intros H S. rewrite (Ht H), EP, EN, (gd_time _ _ G H S). specialize (ET S). lra.
    - intros D H1 H2 S H3. rewrite EP, EN. specialize (Hdur D H1 H2).
      rewrite (gd_time _ _ G) in Hdur; auto. specialize (ET S). lra. apply truthy_some. eauto.
  Qed.

  (** The dictionary after the customer [new] moved to the object of [old]. *)
  Lemma move_inv s C h old new r r' cs' don :
    inv s C -> assoc_node old (cw_route s) = Some h -> nth_error (cw_heap s) h = Some r ->
    ~ In new (cw_done s) -> (exists k, assoc_node new (cw_route s) = Some k) -> ~ In new (C h) ->
    good r' cs' -> (forall x, In x cs' <-> x = new \/ In x (C h)) ->
    (forall x, In x don <-> x = new \/ x = old \/ In x (cw_done s)) ->
    let s' := mkCW (set_nth h r' (cw_heap s)) (dict_set new h (cw_route s)) don in
    let C' := fun k => if Nat.eqb k h then cs' else C k in
    inv s' C' /\ (forall l, covers s l -> covers s' l) /\
    total s' C' == total s C + path_sum (cost_of g 0) (full cs')
                   - path_sum (cost_of g 0) (full (C h)) - path_sum (cost_of g 0) [Source; new; Sink] /\
    joined s C s' C' new (C h) cs'.
  Proof.
    intros I Ho Hr Hnew (k & Hk) Hnc G Hcs Hdon s' C'.
    pose proof (i_fresh _ _ I _ _ Hk Hnew) as HCk.
    assert (Hhk : h <> k).
    { intros ->. apply Hnc. rewrite HCk. simpl; auto. }
    assert (Hsolo : forall w, assoc_node w (cw_route s) = Some k -> w = new).
    { intros w Hw. destruct (i_good _ _ I _ _ Hw) as (H & _). rewrite HCk in H. destruct H as [H|[]]; auto. }
    assert (Hold : In old (C h)) by (apply (i_good _ _ I _ _ Ho)).
    assert (Hon : old <> new) by (intros ->; congruence).
    assert (Hlen : (h < List.length (cw_heap s))%nat) by (apply (i_lt _ _ I _ _ Ho)).
    cut (inv s' C' /\ (forall l, covers s l -> covers s' l) /\
         exists L1 L2, live_routes s' = L1 ++ h :: L2 /\ ~ In h L1 /\ ~ In h L2 /\
           Permutation (live_routes s) (k :: L1 ++ h :: L2)).
    { intros (I' & Cv' & L1 & L2 & EL & N1 & N2 & P). split; [exact I'|]. split; [exact Cv'|].
      assert (E1 : forall L, ~ In h L -> map C' L = map C L).
      { intros L Hn. apply map_ext_in. intros x Hx. unfold C'. destruct (Nat.eqb x h) eqn:E; auto.
        apply Nat.eqb_eq in E. subst. contradiction. }
      split; [|split].
      - unfold total. rewrite (Qsum_perm _ _ (Permutation_map _ P)), EL. cbn [map]. rewrite Qsum_cons.
        rewrite !map_app. cbn [map]. rewrite !Qsum_app, !Qsum_cons, HCk.
        rewrite <- !(map_map C (fun p => path_sum (cost_of g 0) (full p))).
        rewrite <- !(map_map C' (fun p => path_sum (cost_of g 0) (full p))).
        rewrite (E1 L1 N1), (E1 L2 N2). unfold C' at 1. rewrite Nat.eqb_refl.
        change (full [new]) with [Source; new; Sink]. lra.
      - intros M v x Hv Hd E. unfold C' in E. destruct (Nat.eqb x h) eqn:Ex.
        + apply Nat.eqb_eq in Ex. subst x. assert (A1 : In new cs') by (apply Hcs; auto).
          assert (A2 : In old cs') by (apply Hcs; auto). rewrite E in A1, A2.
          destruct A1 as [A1|[]], A2 as [A2|[]]. congruence.
        + apply Nat.eqb_neq in Ex. simpl in Hv. rewrite assoc_dict_set in Hv.
          destruct (node_eqb new v) eqn:En; [congruence|].
          simpl in Hd. apply Hdon in Hd. destruct Hd as [Hd|[Hd|Hd]].
          * subst v. rewrite node_eqb_refl in En. discriminate.
          * subst v. congruence.
          * apply (M v x Hv Hd E).
      - exists (map C L1 ++ map C L2). split.
        + unfold view. rewrite P. cbn [map]. rewrite HCk. apply perm_skip.
          rewrite map_app. cbn [map]. symmetry. apply Permutation_middle.
        + unfold view. rewrite EL, map_app. cbn [map]. rewrite (E1 L1 N1), (E1 L2 N2).
          unfold C' at 1. rewrite Nat.eqb_refl. symmetry. apply Permutation_middle. }
    split; [|split].
    - constructor; simpl.
      + apply (proj1 (dict_set_keys new h (cw_route s) (i_keys _ _ I))).
      + intros v x. rewrite assoc_dict_set, set_nth_length. destruct (node_eqb new v).
        * intro H; inversion H; subst; auto.
        * apply (i_lt _ _ I).
      + intros v x. rewrite assoc_dict_set. unfold C'. intro H.
        assert (Hx : (x = h /\ (v = new \/ assoc_node v (cw_route s) = Some h)) \/
                     (x <> h /\ assoc_node v (cw_route s) = Some x)).
        { destruct (node_eqb new v) eqn:E.
          - apply node_eqb_eq in E. inversion H; subst; auto.
          - destruct (Nat.eq_dec x h) as [->|]; auto. }
        rewrite (nth_error_set_nth h x r' (cw_heap s)).
        destruct Hx as [(-> & Hv)|(Hne & Hv)].
        * rewrite Nat.eqb_refl. split.
          -- apply Hcs. destruct Hv as [->|Hv]; auto. right. apply (i_good _ _ I _ _ Hv).
          -- exists r'. split; auto. rewrite ?Nat.eqb_refl. 
             destruct (Nat.ltb_spec h (List.length (cw_heap s))); [auto|lia].
        * rewrite (proj2 (Nat.eqb_neq x h)) by auto.
          rewrite ?(proj2 (Nat.eqb_neq h x)) by auto.
          apply (i_good _ _ I v x Hv).
      + intros v x w. rewrite !assoc_dict_set. unfold C'. intros H Hw.
        destruct (Nat.eqb x h) eqn:Ex.
        * apply Nat.eqb_eq in Ex. subst. apply Hcs in Hw. destruct Hw as [->|Hw].
          -- rewrite node_eqb_refl. auto.
          -- destruct (node_eqb new w); auto. apply (i_own _ _ I old h w); auto.
        * apply Nat.eqb_neq in Ex. destruct (node_eqb new v) eqn:E; [inversion H; congruence|].
          pose proof (i_own _ _ I _ _ _ H Hw) as Hxw.
          destruct (node_eqb new w) eqn:F; auto. apply node_eqb_eq in F. subst w.
          assert (x = k) by congruence. subst x. apply Hsolo in H. subst v.
          rewrite node_eqb_refl in E. discriminate.
      + intros v x. rewrite assoc_dict_set. unfold C'. intros H Hd.
        destruct (node_eqb new v) eqn:E.
        * exfalso. apply Hd. apply Hdon. apply node_eqb_eq in E. auto.
        * assert (Hd' : ~ In v (cw_done s)) by (intro; apply Hd, Hdon; auto).
          destruct (Nat.eqb x h) eqn:Ex.
          -- apply Nat.eqb_eq in Ex. subst. pose proof (i_fresh _ _ I _ _ H Hd') as HC.
             rewrite HC in Hold. destruct Hold as [Hold|[]]. exfalso. apply Hd, Hdon. auto.
          -- apply (i_fresh _ _ I v x); auto.
    - intros l Cv v. rewrite (Cv v). unfold s'. simpl. rewrite assoc_dict_set. split.
      + intros (x & Hx). destruct (node_eqb new v); eauto.
      + intros (x & Hx). destruct (node_eqb new v) eqn:E; eauto.
        apply node_eqb_eq in E. subst. eauto.
    - unfold live_routes. simpl.
      assert (P : Permutation (nodup Nat.eq_dec (map snd (cw_route s)))
                              (k :: nodup Nat.eq_dec (map snd (dict_set new h (cw_route s))))).
      { pose proof (dict_set_keys new h (cw_route s) (i_keys _ _ I)) as (K1 & _).
        apply NoDup_Permutation; [apply NoDup_nodup| |].
        - constructor; [|apply NoDup_nodup]. rewrite nodup_In. intro H.
          apply (value_has_key _ _ K1) in H. destruct H as (w & H). rewrite assoc_dict_set in H.
          destruct (node_eqb new w) eqn:E; [congruence|]. apply Hsolo in H. subst.
          rewrite node_eqb_refl in E. discriminate.
        - intro x. simpl. rewrite !nodup_In. split.
          + intro H. apply (value_has_key _ _ (i_keys _ _ I)) in H. destruct H as (w & H).
            destruct (node_eqb new w) eqn:E.
            * apply node_eqb_eq in E. subst. left. congruence.
            * right. apply (assoc_in_values w). rewrite assoc_dict_set, E. auto.
          + intros [<-|H].
            * eapply assoc_in_values; eauto.
            * apply (value_has_key _ _ K1) in H. destruct H as (w & H). rewrite assoc_dict_set in H.
              destruct (node_eqb new w).
              -- inversion H; subst. eapply assoc_in_values; eauto.
              -- eapply assoc_in_values; eauto. }
      set (L := nodup Nat.eq_dec (map snd (dict_set new h (cw_route s)))) in *.
      assert (HL : In h L).
      { unfold L. apply nodup_In. apply (assoc_in_values new). rewrite assoc_dict_set, node_eqb_refl. auto. }
      assert (HNL : NoDup L) by apply NoDup_nodup.
      apply in_split in HL. destruct HL as (L1 & L2 & EL). rewrite EL in *.
      apply NoDup_remove_2 in HNL. rewrite in_app_iff in HNL.
      exists L1, L2. split; [auto|]. split; [tauto|]. split; [tauto|]. exact P.
  Qed.

  Lemma route_of_ok s C v h r :
    inv s C -> assoc_node v (cw_route s) = Some h -> nth_error (cw_heap s) h = Some r ->
    route_id s v = Ok h /\ route_of s v = Ok r.
  Proof.
    intros I Hv Hr. unfold route_of, route_id. rewrite Hv. simpl. rewrite Hr. auto.
  Qed.

  Lemma over_false x z : over x (Some z) = false -> x <= inject_Z z.
  Proof. unfold over. apply Qltb_ge. Qed.

  Lemma extra_time_ok old new :
    In (old, new) (arc_list g) -> In new (custs g) -> In old (custs g) ->
    extra_time g old new =
    Ok (time_of g old new + time_of g new Sink + service_of g new - time_of g old Sink).
  Proof.
    intros H1 H2 H3. unfold extra_time. rewrite (stime_total g old new H1).
    rewrite (stime_total g new Sink) by (apply RT; auto).
    rewrite (get_node_total g new) by (apply in_custs in H2; tauto).
    rewrite (stime_total g old Sink) by (apply RT; auto). reflexivity.
  Qed.

  Lemma over_iff o x b :
    b = (if truthy o then over x o else false) ->
    (b = false <-> forall c, o = Some c -> c <> 0%Z -> x <= inject_Z c).
  Proof.
    intros ->. destruct (truthy o) eqn:T.
    - apply truthy_some in T. destruct T as (c & Hc & Hc0). subst o. cbn [over]. rewrite Qltb_ge. split.
      + intros H c' Hc' _. inversion Hc'; subst; auto.
      + intro H. apply H; auto.
    - split; auto. intros _ c -> H. apply truthy_Some in H. congruence.
  Qed.

  Lemma constraints_ok s C old new h r :
    inv s C -> assoc_node old (cw_route s) = Some h -> nth_error (cw_heap s) h = Some r ->
    good r (C h) -> In old (custs g) -> In new (custs g) -> In (old, new) (arc_list g) ->
    exists b, cw_constraints g lim s old new = Ok b /\
      (b = true <->
         ~ In new (C h) /\
         (forall c, l_cap lim = Some c -> c <> 0%Z -> cr_load r + demand_of g new <= inject_Z c) /\
         (forall D, l_dur lim = Some D -> D <> 0%Z ->
            cr_time r + (time_of g old new + time_of g new Sink + service_of g new - time_of g old Sink)
            <= inject_Z D) /\
         (forall n, l_stops lim = Some n -> n <> 0%Z ->
            (Z.of_nat (List.length (cr_nodes r)) - 2 + 1 <= n)%Z)).
  Proof.
    intros I Ho Hr G Hold Hnew Harc. unfold cw_constraints.
    rewrite (proj2 (route_of_ok s C old h r I Ho Hr)). cbn [bind].
    assert (Em' : mem new (cr_nodes r) = false <-> ~ In new (C h)).
    { rewrite mem_false. pose proof (cust_ne new Hnew) as (Hn1 & Hn2).
      rewrite (gd_nodes _ _ G), in_full. tauto. }
    destruct (mem new (cr_nodes r)) eqn:Em.
    { eexists; split; [reflexivity|]. split; [discriminate|]. intros (H & _). apply Em' in H. discriminate. }
    assert (Hnn : In new (nodes g)) by (apply in_custs in Hnew; tauto).
    rewrite (get_node_total g new Hnn), (extra_time_ok old new Harc Hnew Hold). cbn [bind].
    set (x := time_of g old new + time_of g new Sink + service_of g new - time_of g old Sink).
    destruct (if truthy (l_cap lim) then Ok (over (cr_load r + demand (nd g new)) (l_cap lim)) else Ok false) as [fl|] eqn:E1;
      [|destruct (truthy (l_cap lim)); discriminate].
    cbn [bind].
    assert (A1 : fl = false <->
      forall c, l_cap lim = Some c -> c <> 0%Z -> cr_load r + demand_of g new <= inject_Z c).
    { apply (over_iff (l_cap lim) (cr_load r + demand_of g new) fl). unfold demand_of. 
      destruct (truthy (l_cap lim)); inversion E1; auto. }
    destruct fl.
    { eexists; split; [reflexivity|]. split; [discriminate|]. intros (_ & H & _). apply A1 in H. discriminate. }
    destruct (if truthy (l_dur lim) then Ok (over (cr_time r + x) (l_dur lim)) else Ok false) as [lt|] eqn:E2;
      [|destruct (truthy (l_dur lim)); discriminate].
    cbn [bind].
    assert (A2 : lt = false <->
      forall D, l_dur lim = Some D -> D <> 0%Z -> cr_time r + x <= inject_Z D).
    { apply (over_iff (l_dur lim) (cr_time r + x) lt).
      destruct (truthy (l_dur lim)); inversion E2; auto. }
    destruct lt.
    { eexists; split; [reflexivity|]. split; [discriminate|]. intros (_ & _ & H & _). apply A2 in H. discriminate. }
    destruct (truthy (l_stops lim) &&
       over (inject_Z (Z.of_nat (List.length (cr_nodes r)) - 2 + 1)) (l_stops lim)) eqn:E3.
    - eexists; split; [reflexivity|]. split; [discriminate|]. intros (_ & _ & _ & H). exfalso.
      apply andb_true_iff in E3. destruct E3 as (E3 & E4). apply truthy_some in E3. destruct E3 as (n & Hn & Hn0).
      specialize (H n Hn Hn0). rewrite Hn in E4. cbn [over] in E4. apply Qltb_lt in E4.
      rewrite <- Zlt_Qlt in E4. lia.
    - eexists. split; [reflexivity|]. split; [|auto]. intros _. split; [apply Em'; auto|].
      split; [apply A1; auto|]. split; [apply A2; auto|].
      intros n Hn Hn0. rewrite Hn in E3. rewrite (proj2 (truthy_Some n) Hn0) in E3. simpl in E3.
      apply over_false in E3. rewrite <- Zle_Qle in E3. auto.
  Qed.

  (** [done] after a merge *)
  Lemma done_after (don : list node) old new x :
    In x (let don := don ++ [new] in if mem old don then don else don ++ [old]) <->
    x = new \/ x = old \/ In x don.
  Proof.
    cbv zeta. destruct (mem old (don ++ [new])) eqn:E.
    - apply mem_In in E. rewrite in_app_iff in *. simpl in *. intuition congruence.
    - rewrite !in_app_iff. simpl. intuition congruence.
  Qed.

  Definition cheap (s : cw) (C : nat -> list node) (s' : cw) (C' : nat -> list node) : Prop :=
    no_detour (cost_of g 0) (arc_list g) -> total s' C' <= total s C.

  Lemma merge_sink_ok s C i j h r :
    inv s C -> covers s (custs g) -> In i (custs g) -> In j (custs g) -> In (i, j) (arc_list g) ->
    assoc_node i (cw_route s) = Some h -> nth_error (cw_heap s) h = Some r -> good r (C h) ->
    ~ In j (cw_done s) -> In (i, Sink) (cr_arcs r) ->
    ~ In j (C h) ->
    (forall c, l_cap lim = Some c -> c <> 0%Z -> cr_load r + demand_of g j <= inject_Z c) ->
    (forall D, l_dur lim = Some D -> D <> 0%Z ->
       cr_time r + (time_of g i j + time_of g j Sink + service_of g j - time_of g i Sink) <= inject_Z D) ->
    (forall n, l_stops lim = Some n -> n <> 0%Z -> (Z.of_nat (List.length (cr_nodes r)) - 2 + 1 <= n)%Z) ->
    exists s' C', cw_merge g lim s i j true = Ok s' /\ inv s' C' /\ covers s' (custs g) /\
      cheap s C s' C' /\ exists l, C h = l ++ [i] /\ joined s C s' C' j (C h) (l ++ [i; j]).
  Proof.
    intros I Cv Hi Hj Hij Ho Hr G Hnd HiS Hnj Hcap Hdur Hst.
    pose proof (good_ne _ _ G) as Hne.
    destruct (last_of_full (C h) i Hne (gd_ne _ _ G)) as (l & El).
    { apply (gd_arcs _ _ G). auto. }
    assert (Hjn : In j (nodes g)) by (apply in_custs in Hj; tauto).
    pose proof (RT i Hi) as (RTi1 & RTi2). pose proof (RT j Hj) as (RTj1 & RTj2).
    pose proof (cust_ne i Hi) as (Hi1 & Hi2). pose proof (cust_ne j Hj) as (Hj1 & Hj2).
    unfold cw_merge. rewrite (proj1 (route_of_ok s C i h r I Ho Hr)). cbn [bind]. rewrite Hr. cbn [of_opt bind].
    destruct (add_path3 i j Sink r) as (A1 & A2 & A3 & A4 & A5 & A6).
    set (r0 := add_path [i; j; Sink] r) in *.
    destruct (remove_edge_ok (i, Sink) r0) as (r1 & R1 & R2 & R3 & R4 & R5 & R6).
    { apply A1. auto. }
    rewrite R1. cbn [bind].
    rewrite (scost_total g 1 i j N), (scost_total g 1 j Sink N), (scost_total g 1 i Sink N) by (auto; lia).
    cbn [bind].
    rewrite (get_node_total g j Hjn), (extra_time_ok i j Hij Hj Hi). cbn [bind].
    set (r2 := add_cost (cost_of g 0 i j + cost_of g 0 j Sink - cost_of g 0 i Sink) r1).
    set (x := time_of g i j + time_of g j Sink + service_of g j - time_of g i Sink) in *.
    assert (E : exists r3, (let* r := (if truthy (l_cap lim) then Ok (add_load (demand (nd g j)) r2) else Ok r2) in
                (if truthy (l_dur lim) then Ok (add_time x r) else Ok r)) = Ok r3 /\
                cr_nodes r3 = cr_nodes r1 /\ cr_arcs r3 = cr_arcs r1 /\
                cr_cost r3 = cr_cost r2 /\
                (truthy (l_cap lim) = true -> cr_load r3 = cr_load r2 + demand_of g j) /\
                (truthy (l_dur lim) = true -> cr_time r3 = cr_time r2 + x)).
    { destruct (truthy (l_cap lim)) eqn:E1, (truthy (l_dur lim)) eqn:E2; cbn [bind];
        (eexists; split; [reflexivity|]); simpl; repeat split; auto; discriminate. }
    destruct E as (r3 & E0 & E1 & E2 & E3 & E4 & E5).
    match type of E0 with bind ?X ?Y = _ => match goal with |- context[bind X ?Z] =>
       replace (bind X Z) with (bind (bind X Y) (fun r => Ok (mkCW (set_nth h r (cw_heap s)) (dict_set j h (cw_route s)) (if mem i (cw_done s ++ [j]) then cw_done s ++ [j] else (cw_done s ++ [j]) ++ [i]))))
       by (destruct X; reflexivity) end end.
    rewrite E0. cbn [bind].
    assert (G3 : good r3 (l ++ [i; j])).
    { rewrite El in G.
      apply (merge_good_sink r l i j G Hj) with (r' := r3); auto.
      - rewrite <- El. auto.
      - rewrite E1, R2. apply A3. apply (gd_nd _ _ G).
      - intro y. rewrite E1, R2, A2. split.
        + intros [->|[->|[->|H]]]; auto.
          * right. apply (gd_nodes _ _ G). apply in_full. right; left. apply in_or_app; simpl; auto.
          * right. apply (gd_nodes _ _ G). apply in_full. auto.
        + tauto.
      - intro a. rewrite E2, R3, A1. tauto.
      - rewrite E3. unfold r2. simpl. rewrite R4, A4. lra.
      - intro H. rewrite (E4 H). unfold r2. simpl. rewrite R5, A5. lra.
      - intro H. rewrite (E5 H). unfold r2. simpl. rewrite R6, A6. unfold x. lra. }
    assert (Hcs : forall y, In y (l ++ [i; j]) <-> y = j \/ In y (C h)).
    { intro y. rewrite El. rewrite !in_app_iff. simpl. intuition. }
    destruct (move_inv s C h i j r r3 (l ++ [i; j]) _ I Ho Hr Hnd (proj1 (Cv j) Hj) Hnj G3
                Hcs (done_after (cw_done s) i j)) as (I' & Cv' & T' & J').
    eexists. eexists. split; [reflexivity|]. split; [exact I'|]. split; [apply Cv'; auto|].
    split; [|exists l; split; [exact El|exact J']].
    intro ND. cbv zeta in T'. rewrite T'.
    assert (EQ : path_sum (cost_of g 0) (full (l ++ [i; j])) ==
                 path_sum (cost_of g 0) (full (C h)) +
                 (cost_of g 0 i j + cost_of g 0 j Sink - cost_of g 0 i Sink)).
    { rewrite El. unfold path_sum. rewrite arcs_full_snoc, arcs_full_snoc2, !map_app, !Qsum_app. simpl. lra. }
    rewrite EQ. specialize (ND i j Hij Hi1 Hi2 Hj1 Hj2). unfold path_sum. simpl. lra.
  Qed.

  Lemma merge_source_ok s C i j h r :
    inv s C -> covers s (custs g) -> In i (custs g) -> In j (custs g) -> In (i, j) (arc_list g) ->
    In (j, i) (arc_list g) ->
    assoc_node j (cw_route s) = Some h -> nth_error (cw_heap s) h = Some r -> good r (C h) ->
    ~ In i (cw_done s) -> In (Source, j) (cr_arcs r) ->
    ~ In i (C h) ->
    (forall c, l_cap lim = Some c -> c <> 0%Z -> cr_load r + demand_of g i <= inject_Z c) ->
    (forall D, l_dur lim = Some D -> D <> 0%Z ->
       cr_time r + (time_of g j i + time_of g i Sink + service_of g i - time_of g j Sink) <= inject_Z D) ->
    (forall n, l_stops lim = Some n -> n <> 0%Z -> (Z.of_nat (List.length (cr_nodes r)) - 2 + 1 <= n)%Z) ->
    exists s' C', cw_merge g lim s j i false = Ok s' /\ inv s' C' /\ covers s' (custs g) /\
      cheap s C s' C' /\ exists l, C h = j :: l /\ joined s C s' C' i (C h) (i :: j :: l).
  Proof.
    intros I Cv Hi Hj Hij Hji Ho Hr G Hnd HSj Hni Hcap Hdur Hst.
    pose proof (good_ne _ _ G) as Hne.
    destruct (first_of_full (C h) j Hne (gd_ne _ _ G)) as (l & El).
    { apply (gd_arcs _ _ G). auto. }
    assert (Hin : In i (nodes g)) by (apply in_custs in Hi; tauto).
    pose proof (RT i Hi) as (RTi1 & RTi2). pose proof (RT j Hj) as (RTj1 & RTj2).
    pose proof (cust_ne i Hi) as (Hi1 & Hi2). pose proof (cust_ne j Hj) as (Hj1 & Hj2).
    unfold cw_merge. rewrite (proj1 (route_of_ok s C j h r I Ho Hr)). cbn [bind]. rewrite Hr. cbn [of_opt bind].
    destruct (add_path3 Source i j r) as (A1 & A2 & A3 & A4 & A5 & A6).
    set (r0 := add_path [Source; i; j] r) in *.
    destruct (remove_edge_ok (Source, j) r0) as (r1 & R1 & R2 & R3 & R4 & R5 & R6).
    { apply A1. auto. }
    rewrite R1. cbn [bind].
    rewrite (scost_total g 1 i j N), (scost_total g 1 Source i N), (scost_total g 1 Source j N) by (auto; lia).
    cbn [bind].
    rewrite (get_node_total g i Hin), (extra_time_ok j i Hji Hi Hj). cbn [bind].
    set (r2 := add_cost (cost_of g 0 i j + cost_of g 0 Source i - cost_of g 0 Source j) r1).
    set (x := time_of g j i + time_of g i Sink + service_of g i - time_of g j Sink) in *.
    assert (E : exists r3, (let* r := (if truthy (l_cap lim) then Ok (add_load (demand (nd g i)) r2) else Ok r2) in
                (if truthy (l_dur lim) then Ok (add_time x r) else Ok r)) = Ok r3 /\
                cr_nodes r3 = cr_nodes r1 /\ cr_arcs r3 = cr_arcs r1 /\
                cr_cost r3 = cr_cost r2 /\
                (truthy (l_cap lim) = true -> cr_load r3 = cr_load r2 + demand_of g i) /\
                (truthy (l_dur lim) = true -> cr_time r3 = cr_time r2 + x)).
    { destruct (truthy (l_cap lim)) eqn:E1, (truthy (l_dur lim)) eqn:E2; cbn [bind];
        (eexists; split; [reflexivity|]); simpl; repeat split; auto; discriminate. }
    destruct E as (r3 & E0 & E1 & E2 & E3 & E4 & E5).
    match type of E0 with bind ?X ?Y = _ => match goal with |- context[bind X ?Z] =>
       replace (bind X Z) with (bind (bind X Y) (fun r => Ok (mkCW (set_nth h r (cw_heap s)) (dict_set i h (cw_route s)) (if mem j (cw_done s ++ [i]) then cw_done s ++ [i] else (cw_done s ++ [i]) ++ [j]))))
       by (destruct X; reflexivity) end end.
    rewrite E0. cbn [bind].
    assert (G3 : good r3 (i :: j :: l)).
    { rewrite El in G.
      apply (merge_good_source r l i j G Hi) with (r' := r3); auto.
      - rewrite <- El. auto.
      - rewrite E1, R2. apply A3. apply (gd_nd _ _ G).
      - intro y. rewrite E1, R2, A2. split.
        + intros [->|[->|[->|H]]]; auto.
          * right. apply (gd_nodes _ _ G). apply in_full. auto.
          * right. apply (gd_nodes _ _ G). apply in_full. simpl. auto.
        + tauto.
      - intro a. rewrite E2, R3, A1. tauto.
      - rewrite E3. unfold r2. simpl. rewrite R4, A4. lra.
      - intro H. rewrite (E4 H). unfold r2. simpl. rewrite R5, A5. lra.
      - intro H. rewrite (E5 H). unfold r2. simpl. rewrite R6, A6. unfold x. lra. }
    assert (Hcs : forall y, In y (i :: j :: l) <-> y = i \/ In y (C h)).
    { intro y. rewrite El. simpl. intuition. }
    destruct (move_inv s C h j i r r3 (i :: j :: l) _ I Ho Hr Hnd (proj1 (Cv i) Hi) Hni G3
                Hcs (done_after (cw_done s) j i)) as (I' & Cv' & T' & J').
    eexists. eexists. split; [reflexivity|]. split; [exact I'|]. split; [apply Cv'; auto|].
    split; [|exists l; split; [exact El|exact J']].
    intro ND. cbv zeta in T'. rewrite T'.
    assert (EQ : path_sum (cost_of g 0) (full (i :: j :: l)) ==
                 path_sum (cost_of g 0) (full (C h)) +
                 (cost_of g 0 i j + cost_of g 0 Source i - cost_of g 0 Source j)).
    { rewrite El. unfold path_sum. rewrite arcs_full_cons2, arcs_full_cons. cbn [map].
      rewrite !Qsum_cons. simpl. lra. }
    rewrite EQ. specialize (ND i j Hij Hi1 Hi2 Hj1 Hj2). unfold path_sum. simpl. lra.
  Qed.

  Lemma owner_of s C v :
    inv s C -> covers s (custs g) -> In v (custs g) ->
    exists h r, assoc_node v (cw_route s) = Some h /\ nth_error (cw_heap s) h = Some r /\ good r (C h).
  Proof.
    intros I Cv Hv. apply Cv in Hv. destruct Hv as (h & Hh).
    destruct (i_good _ _ I _ _ Hh) as (_ & r & Hr & G). eauto.
  Qed.

  Lemma process_ok s C i j :
    inv s C -> covers s (custs g) -> In i (custs g) -> In j (custs g) -> In (i, j) (arc_list g) ->
    exists s' C', process_edge g lim s (i, j) = Ok s' /\ inv s' C' /\ covers s' (custs g) /\
      cheap s C s' C'.
  Proof.
    intros I Cv Hi Hj Hij. unfold process_edge.
    destruct (owner_of s C i I Cv Hi) as (hi & ri & Oi & Ri & Gi).
    destruct (owner_of s C j I Cv Hj) as (hj & rj & Oj & Rj & Gj).
    assert (Same : exists s' C', Ok s = Ok s' /\ inv s' C' /\ covers s' (custs g) /\ cheap s C s' C').
    { exists s, C. split; auto. split; auto. split; auto. intro. apply Qle_refl. }
    unfold can_append.
    destruct (constraints_ok s C i j hi ri I Oi Ri Gi Hi Hj Hij) as (b1 & B1 & B1t).
    assert (Pre : exists s' C', (let* pre := can_prepend g lim s i j in
        if (pre : bool) then cw_merge g lim s j i false else Ok s) = Ok s' /\ inv s' C' /\
        covers s' (custs g) /\ cheap s C s' C').
    { unfold can_prepend. destruct (has_arc g j i) eqn:Ha; cbn [negb bind]; auto.
      destruct (mem i (cw_done s)) eqn:Em; cbn [bind]; auto.
      apply has_arc_In in Ha. apply mem_false in Em.
      destruct (constraints_ok s C j i hj rj I Oj Rj Gj Hj Hi Ha) as (b2 & B2 & B2t).
      rewrite B2. cbn [bind]. destruct b2; cbn [bind]; auto.
      rewrite (proj2 (route_of_ok s C j hj rj I Oj Rj)). cbn [bind].
      destruct (mem_arc (Source, j) (cr_arcs rj)) eqn:E; auto. apply mem_arc_In in E.
      destruct (proj1 B2t eq_refl) as (P1 & P2 & P3 & P4).
      destruct (merge_source_ok s C i j hj rj) as (s' & C' & M1 & M2 & M3 & M4 & _); auto. exists s', C'; auto. }
    destruct (mem j (cw_done s)) eqn:Em; cbn [bind]; auto.
    rewrite B1. cbn [bind]. destruct b1; cbn [bind]; auto.
    rewrite (proj2 (route_of_ok s C i hi ri I Oi Ri)). cbn [bind].
    destruct (mem_arc (i, Sink) (cr_arcs ri)) eqn:E; auto. apply mem_arc_In in E.
    apply mem_false in Em. destruct (proj1 B1t eq_refl) as (P1 & P2 & P3 & P4).
    destruct (merge_sink_ok s C i j hi ri) as (s' & C' & M1 & M2 & M3 & M4 & _); auto. exists s', C'; auto.
  Qed.

  Lemma process_all_ok l :
    (forall i j, In (i, j) l -> In i (custs g) /\ In j (custs g) /\ In (i, j) (arc_list g)) ->
    forall s C, inv s C -> covers s (custs g) ->
    exists s' C', foldM (process_edge g lim) l s = Ok s' /\ inv s' C' /\ covers s' (custs g) /\
      cheap s C s' C'.
  Proof.
    induction l as [|[i j] l IH]; intros Hl s C I Cv; cbn [foldM].
    - exists s, C. split; auto. split; auto. split; auto. intro. apply Qle_refl.
    - destruct (Hl i j (or_introl eq_refl)) as (Hi & Hj & Hij).
      destruct (process_ok s C i j I Cv Hi Hj Hij) as (s1 & C1 & H1 & I1 & Cv1 & Ch1).
      rewrite H1. cbn [bind].
      destruct (IH (fun a b H => Hl a b (or_intror H)) s1 C1 I1 Cv1) as (s2 & C2 & H2 & I2 & Cv2 & Ch2).
      exists s2, C2. split; auto. split; auto. split; auto.
      intro ND. specialize (Ch1 ND). specialize (Ch2 ND). lra.
  Qed.

  Lemma ordered_ok :
    exists l, ordered_edges g alpha = Ok l /\
      forall i j, In (i, j) l -> In i (custs g) /\ In j (custs g) /\ In (i, j) (arc_list g).
  Proof.
    unfold ordered_edges, cw_savings.
    set (E := filter (fun a => negb (node_eqb (fst a) Source) && negb (node_eqb (snd a) Sink)) (edges g)).
    assert (HE : forall i j, In (i, j) E -> In i (custs g) /\ In j (custs g) /\ In (i, j) (arc_list g)).
    { intros i j H. unfold E in H. apply filter_In in H. simpl in H. destruct H as (H & H2).
      apply (in_edges g i j W) in H. apply andb_true_iff in H2. destruct H2 as (H2 & H3).
      apply negb_true_iff, node_eqb_neq in H2. apply negb_true_iff, node_eqb_neq in H3.
      pose proof (wf_ends g W _ _ H) as (E1 & E2).
      split; [|split; auto]; apply in_custs; split; auto; split; auto; intros ->.
      - apply (net_no_out _ _ N) in H. auto.
      - apply (net_no_in _ _ N) in H. auto. }
    assert (M : mapM (fun a => let* s := saving g alpha (fst a) (snd a) in Ok (a, s)) E =
                Ok (map (fun a => (a, cost_of g 0 (fst a) Sink + cost_of g 0 Source (snd a)
                                      - alpha * cost_of g 0 (fst a) (snd a))) E)).
    { apply mapM_pure. intros [i j] H. destruct (HE i j H) as (Hi & Hj & Hij). simpl.
      unfold saving. pose proof (RT i Hi). pose proof (RT j Hj).
      rewrite (scost_total g 1 i Sink N), (scost_total g 1 Source j N), (scost_total g 1 i j N)
        by (try tauto; lia). reflexivity. }
    rewrite M. cbn [bind]. eexists. split; [reflexivity|].
    intros i j H. apply HE. apply in_map_iff in H. destruct H as ([a q] & Ha & H). simpl in Ha. subst a.
    apply (Permutation_in _ (Permutation_sym (sorted_desc_perm snd _))) in H.
    apply in_map_iff in H. destruct H as (b & Hb & H). inversion Hb; subst. auto.
  Qed.

  (* ---- the result ---- *)
  Lemma collect_ok s C L :
    inv s C -> (forall h, In h L -> exists r, nth_error (cw_heap s) h = Some r /\ good r (C h)) ->
    forall rs q, exists q',
      foldM (collect_route s) L (rs, q) = Ok (rs ++ map (fun h => full (C h)) L, q') /\
      q' == q + Qsum (map (fun h => path_sum (cost_of g 0) (full (C h))) L).
  Proof.
    intro I. induction L as [|h L IH]; intros HL rs q; cbn [foldM].
    - rewrite app_nil_r. exists q. split; auto. simpl. lra.
    - destruct (HL h (or_introl eq_refl)) as (r & Hr & G). unfold collect_route at 1.
      rewrite Hr. cbn [of_opt bind].
      rewrite (shortest_path_simple (cr_arcs r) (full (C h)) Source Sink).
      + cbn [bind fst snd].
        destruct (IH (fun x H => HL x (or_intror H)) (rs ++ [full (C h)]) (q + cr_cost r)) as (q' & H1 & H2).
        exists q'. split.
        * rewrite H1, <- app_assoc. reflexivity.
        * rewrite H2. cbn [map]. rewrite Qsum_cons, (gd_cost _ _ G). lra.
      + apply (good_full_NoDup r); auto.
      + exists (Source :: C h). reflexivity.
      + eexists. reflexivity.
      + apply (gd_arcs _ _ G).
  Qed.

  Lemma visits_map_full (C : nat -> list node) (L : list nat) v :
    v <> Source -> v <> Sink ->
    visits v (map (fun h => full (C h)) L) = visits v (map C L).
  Proof.
    intros H1 H2. induction L as [|h L IH]; cbn [map visits]; auto. rewrite IH. f_equal.
    unfold full. rewrite count_occ_cons_neq by auto. rewrite count_occ_app.
    rewrite (count_occ_cons_neq node_eq_dec [] (x := Sink)) by auto. simpl. lia.
  Qed.

  Lemma view_once s C v : inv s C -> covers s (custs g) -> In v (custs g) -> visits v (view s C) = 1%nat.
  Proof.
    intros I Cv Hv. unfold view.
    destruct (proj1 (Cv v) Hv) as (h & Hh).
    assert (Hin2 : In h (live_routes s)).
    { unfold live_routes. apply nodup_In. eapply assoc_in_values; eauto. }
    pose proof (NoDup_nodup Nat.eq_dec (map snd (cw_route s))) as Nd. fold (live_routes s) in Nd.
    destruct (i_good _ _ I _ _ Hh) as (Hvh & r & Hr & G).
    apply in_split in Hin2. destruct Hin2 as (L1 & L2 & EL). rewrite EL in *.
    rewrite map_app. cbn [map]. rewrite visits_app. cbn [visits].
    apply NoDup_remove_2 in Nd. rewrite in_app_iff in Nd.
    assert (Z : forall L, (forall x, In x L -> In x (L1 ++ h :: L2)) -> ~ In h L -> visits v (map C L) = 0%nat).
    { intros L Hsub HnL. apply visits_zero. intros p Hp Hvp. apply in_map_iff in Hp.
      destruct Hp as (x & <- & Hx). specialize (Hsub x Hx). rewrite <- EL in Hsub.
      unfold live_routes in Hsub. apply nodup_In in Hsub.
      apply (value_has_key _ _ (i_keys _ _ I)) in Hsub. destruct Hsub as (w & Hw).
      pose proof (i_own _ _ I _ _ _ Hw Hvp). assert (x = h) by congruence. subst. auto. }
    rewrite (Z L1), (Z L2); try tauto.
    + rewrite count_occ_one; auto. apply (gd_nodup _ _ G).
    + intros x Hx. apply in_or_app; simpl; auto.
    + intros x Hx. apply in_or_app; simpl; auto.
  Qed.

  Lemma run_spec perm :
    (forall l, Permutation l (perm l)) ->
    exists rs q, cw_run g lim alpha perm = Ok (rs, q) /\
      q == Qsum (map (path_sum (cost_of g 0)) rs) /\
      (no_detour (cost_of g 0) (arc_list g) ->
         q <= Qsum (map (fun v => path_sum (cost_of g 0) [Source; v; Sink]) (custs g))) /\
      each_once (custs g) rs /\
      (forall p, In p rs -> exists r cs, p = full cs /\ good r cs).
  Proof.
    intro HP. unfold cw_run.
    destruct init_ok as (s0 & C0 & H0 & I0 & Cv0 & _ & T0). rewrite H0. cbn [bind].
    destruct ordered_ok as (l & Hl & Hin). rewrite Hl. cbn [bind].
    destruct (process_all_ok l Hin s0 C0 I0 Cv0) as (s & C & Hs & I & Cv & Ch). rewrite Hs. cbn [bind].
    unfold cw_collect.
    assert (HL : forall h, In h (live_routes s) -> exists r, nth_error (cw_heap s) h = Some r /\ good r (C h)).
    { intros h H. unfold live_routes in H. apply nodup_In in H.
      apply (value_has_key _ _ (i_keys _ _ I)) in H. destruct H as (v & H).
      apply (i_good _ _ I _ _ H). }
    destruct (collect_ok s C (perm (live_routes s)) I) with (rs := @nil (list node)) (q := 0) as (q & Hq & Eq).
    { intros h H. apply HL. apply (Permutation_in _ (Permutation_sym (HP _))). auto. }
    rewrite Hq. eexists. exists q. split; [reflexivity|]. cbn [app].
    split; [|split; [|split]].
    - rewrite Eq, map_map. lra.
    - intro ND. specialize (Ch ND).
      rewrite Eq, (Qsum_perm _ _ (Permutation_map _ (Permutation_sym (HP (live_routes s))))).
      unfold total in Ch, T0. rewrite T0 in Ch. lra.
    - intros v Hv. pose proof (cust_ne v Hv) as (N1 & N2).
      rewrite (visits_map_full C _ v N1 N2).
      rewrite (visits_perm v _ (map C (live_routes s)))
        by (apply Permutation_map, Permutation_sym, HP).
      apply (view_once s C v I Cv Hv).
    - intros p Hp. apply in_map_iff in Hp. destruct Hp as (h & <- & Hh).
      destruct (HL h) as (r & _ & G); [apply (Permutation_in _ (Permutation_sym (HP _))); auto|].
      eauto.
  Qed.
End CW.

(* ------------------------------------------------------------------ *)
(** The heuristic on the solver's graph *)
Lemma custs_same (g g' : vgraph) : gnodes g' = gnodes g -> custs g' = custs g.
Proof. intro H. unfold custs, nodes. rewrite H. auto. Qed.

Lemma cw_spec (g : vgraph) K caps dur st alpha perm :
  network K g -> (1 <= K)%nat -> round_trips g -> caps <> Some [] ->
  (forall l, Permutation l (perm l)) ->
  exists rs q, clarke_wright g caps dur st alpha perm = Ok (rs, q) /\
    q == plan_cost g 0 rs /\
    (no_detour (cost_of g 0) (arc_list g) ->
       q <= plan_cost g 0 (map (fun v => [Source; v; Sink]) (custs g))) /\
    each_once (custs g) rs /\ only_visits (custs g) rs /\
    forall p, In p rs ->
      route_shape p /\ along (arc_list g) p /\ stops p <> [] /\
      (forall c l, caps = Some (c :: l) -> c <> 0%Z ->
         (forall v, In v (custs g) -> demand_of g v <= inject_Z c) ->
         node_sum (demand_of g) (stops p) <= inject_Z c) /\
      (forall n, st = Some n -> (1 <= n)%Z -> (Z.of_nat (List.length (stops p)) <= n)%Z) /\
      (forall D, limit dur D -> symmetric_times g ->
         (forall v, In v (custs g) ->
            path_sum (time_of g) [Source; v; Sink] + service_of g v <= inject_Z D) ->
         path_sum (time_of g) p + node_sum (service_of g) (stops p) <= inject_Z D).
Proof.
  intros N HK RT Hc HP. unfold clarke_wright.
  destruct (first_costs_ok g K N HK) as (g1 & E1 & Gn & Ga & N1 & En & Ec & Et).
  rewrite E1. cbn [bind].
  assert (Hcap : exists c, first_capacity caps = Ok c /\
                 forall z l, caps = Some (z :: l) -> c = Some z).
  { destruct caps as [[|z l]|]; simpl.
    - congruence.
    - exists (Some z). split; auto. intros z' l' H. inversion H; subst; auto.
    - exists None. split; auto. discriminate. }
  destruct Hcap as (c & Hc1 & Hc2). rewrite Hc1. cbn [bind].
  pose proof (custs_same g g1 Gn) as Ecu.
  assert (RT1 : round_trips g1) by (unfold round_trips; rewrite Ecu, Ga; exact RT).
  assert (Ecp : forall p, path_sum (cost_of g1 0) p == path_sum (cost_of g 0) p).
  { intro p. apply path_sum_ext. intros u v _. rewrite Ec. reflexivity. }
  assert (Etp : forall p, path_sum (time_of g1) p == path_sum (time_of g) p).
  { intro p. apply path_sum_ext. intros u v _. rewrite Et. reflexivity. }
  assert (Edp : forall p, node_sum (demand_of g1) p == node_sum (demand_of g) p).
  { intro p. apply node_sum_ext. intros u _. unfold demand_of. rewrite En. reflexivity. }
  assert (Esp : forall p, node_sum (service_of g1) p == node_sum (service_of g) p).
  { intro p. apply node_sum_ext. intros u _. unfold service_of. rewrite En. reflexivity. }
  destruct (run_spec g1 (mkLimits c dur st) alpha N1 RT1 perm HP) as (rs & q & H & Hq & Hd & He & Hg).
  exists rs, q. split; auto. rewrite Ecu in *. rewrite Ga in *.
  split; [|split; [|split; [auto|split]]].
  - rewrite Hq. unfold plan_cost. apply Qsum_map_ext. intros p _. apply Ecp.
  - intro ND. unfold plan_cost. rewrite map_map.
    rewrite (Qsum_map_ext (fun x => path_sum (cost_of g 0) [Source; x; Sink])
                          (fun x => path_sum (cost_of g1 0) [Source; x; Sink]))
      by (intros x _; symmetry; apply Ecp).
    apply Hd. intros i j. rewrite !Ec. apply ND.
  - intros p v Hp Hv Hv1 Hv2. destruct (Hg p Hp) as (r & cs & -> & G).
    apply in_full in Hv. destruct Hv as [?|[Hv|?]]; try contradiction.
    rewrite <- Ecu. apply (gd_custs _ _ _ _ G). auto.
  - intros p Hp. destruct (Hg p Hp) as (r & cs & -> & G).
    pose proof (good_ne _ _ _ _ G) as Hne. rewrite (full_stops cs Hne).
    split; [apply full_shape; auto; apply (gd_nodup _ _ _ _ G)|].
    split; [rewrite <- Ga; apply (gd_along _ _ _ _ G)|].
    split; [apply (gd_ne _ _ _ _ G)|].
    split; [|split].
    + intros z l Hz Hz0 Hfit. rewrite <- Edp. apply (gd_cap _ _ _ _ G); simpl; auto.
      * apply (Hc2 _ _ Hz).
      * intros v Hv. rewrite Ecu in Hv. unfold demand_of. rewrite En. apply Hfit; auto.
    + intros n Hn Hn1. apply (gd_stops _ _ _ _ G); auto.
    + intros D (HD & HD0) S Hfit. rewrite <- Etp, <- Esp. apply (gd_dur _ _ _ _ G); auto.
      * destruct S as (S1 & S2). split.
        -- intros v Hv. rewrite Ecu in Hv. rewrite !Et. apply S1; auto.
        -- intros u v Hu Hv. rewrite Ecu in *. rewrite Ga, !Et. apply S2; auto.
      * intros v Hv. rewrite Ecu in Hv. rewrite Etp. unfold service_of. rewrite En. apply Hfit; auto.
Qed.
