(** Consequences of the invariants of the heuristics, one per property. *)
From Verif.Base Require Import Prelude Graph.
From Verif.Spec Require Import Routes Network Feasible Prep Heuristics.
From Verif.Model Require Import Args Reach Checks Preprocess ClarkeWright Greedy Initial.
From Verif.Proofs Require Import RouteLemmas ReachLemmas FeasProofs PreLemmas PruneProofs Deciders
  CWProofs GreedyProofs InitialProofs.

Section Cor.
  Variable g : vgraph.
  Variable K : nat.
  Variables (caps : option (list Z)) (dur st : option Z).
  Hypothesis N : network K g.
  Hypothesis HK : (1 <= K)%nat.
  Hypothesis RT : round_trips g.
  Hypothesis HC : caps <> Some [].

  Section CW.
    Variable alpha : Q.
    Variable perm : list nat -> list nat.
    Hypothesis HP : forall l, Permutation l (perm l).

    Lemma cw_visits : exists rs q, clarke_wright g caps dur st alpha perm = Ok (rs, q) /\
      each_once (custs g) rs /\ only_visits (custs g) rs /\
      forall p, In p rs -> route_shape p /\ along (arc_list g) p /\ stops p <> [].
    Proof.
      destruct (cw_spec g K caps dur st alpha perm N HK RT HC HP) as (rs & q & H & _ & _ & H1 & H2 & H3).
      exists rs, q. split; auto. split; auto. split; auto. intros p Hp. destruct (H3 p Hp); tauto.
    Qed.

    Lemma cw_limits rs q : clarke_wright g caps dur st alpha perm = Ok (rs, q) ->
      forall p, In p rs ->
      (forall c l, caps = Some (c :: l) -> c <> 0%Z ->
         (forall v, In v (custs g) -> demand_of g v <= inject_Z c) ->
         node_sum (demand_of g) (stops p) <= inject_Z c) /\
      (forall n, st = Some n -> (1 <= n)%Z -> (Z.of_nat (List.length (stops p)) <= n)%Z).
    Proof.
      intro H. destruct (cw_spec g K caps dur st alpha perm N HK RT HC HP) as (rs' & q' & H' & _ & _ & H1 & H2 & H3).
      rewrite H in H'. inversion H'; subst. intros p Hp. destruct (H3 p Hp); tauto.
    Qed.

    Lemma cw_duration rs q D : clarke_wright g caps dur st alpha perm = Ok (rs, q) ->
      limit dur D -> symmetric_times g ->
      (forall v, In v (custs g) -> path_sum (time_of g) [Source; v; Sink] + service_of g v <= inject_Z D) ->
      forall p, In p rs -> path_sum (time_of g) p + node_sum (service_of g) (stops p) <= inject_Z D.
    Proof.
      intros H HD HS HR. destruct (cw_spec g K caps dur st alpha perm N HK RT HC HP) as (rs' & q' & H' & _ & _ & H1 & H2 & H3).
      rewrite H in H'. inversion H'; subst. intros p Hp.
      destruct (H3 p Hp) as (_ & _ & _ & _ & _ & X). apply X; auto.
    Qed.

    Lemma cw_value rs q : clarke_wright g caps dur st alpha perm = Ok (rs, q) -> q == plan_cost g 0 rs.
    Proof.
      intro H. destruct (cw_spec g K caps dur st alpha perm N HK RT HC HP) as (rs' & q' & H' & H1 & _).
      rewrite H in H'. inversion H'; subst. auto.
    Qed.

    Lemma cw_not_worse rs q : clarke_wright g caps dur st alpha perm = Ok (rs, q) ->
      no_detour (cost_of g 0) (arc_list g) ->
      q <= plan_cost g 0 (map (fun v => [Source; v; Sink]) (custs g)).
    Proof.
      intro H. destruct (cw_spec g K caps dur st alpha perm N HK RT HC HP) as (rs' & q' & H' & _ & H1 & _).
      rewrite H in H'. inversion H'; subst. auto.
    Qed.
  End CW.

  Hypothesis SS : In (Source, Sink) (arc_list g).
  Local Notation w := (first_vehicle caps dur st).

  Lemma greedy_routes : exists rs q, greedy_heuristic g caps st dur = Ok (rs, q) /\
    (forall p, In p rs -> route_shape p /\ along (arc_list g) p) /\
    (forall v, In v (custs g) -> (visits v rs <= 1)%nat) /\ only_visits (custs g) rs /\
    (forall v, In v (custs g) -> trip_fits g w [v] -> visits v rs = 1%nat) /\
    ((forall v, In v (custs g) -> trip_fits g w [v]) -> forall p, In p rs -> stops p <> []).
  Proof.
    destruct (greedy_spec g K caps dur st N HK RT SS HC) as (rs & q & H & H1 & H2 & H3 & H4 & H5 & H6 & H7).
    exists rs, q. split; auto. split; [|auto].
    intros p Hp. destruct (H6 p Hp); tauto.
  Qed.

  Lemma greedy_limits rs q : greedy_heuristic g caps st dur = Ok (rs, q) ->
    q == plan_cost g 0 rs /\
    forall p, In p rs ->
      (stops p <> [] -> trip_fits g w (stops p)) /\
      (forall n, st = Some n -> (1 <= n)%Z -> (Z.of_nat (List.length (stops p)) <= n)%Z).
  Proof.
    intro H. destruct (greedy_spec g K caps dur st N HK RT SS HC) as (rs' & q' & H' & H1 & H2 & H3 & H4 & H5 & H6 & H7).
    rewrite H in H'. inversion H'; subst. split; auto. intros p Hp. destruct (H6 p Hp); tauto.
  Qed.

  Lemma greedy_nearest rs q : greedy_heuristic g caps st dur = Ok (rs, q) ->
    forall rs1 p rs2, rs = rs1 ++ p :: rs2 -> nearest_rule g w (unvisited g rs1) (stops p).
  Proof.
    intro H. destruct (greedy_spec g K caps dur st N HK RT SS HC) as (rs' & q' & H' & H1 & H2 & H3 & H4 & H5 & H6 & H7).
    rewrite H in H'. inversion H'; subst. auto.
  Qed.
End Cor.

(** the order in which savings are considered *)
Lemma savings_order (g : vgraph) alpha l :
  network 1 g -> round_trips g -> ordered_edges g alpha = Ok l ->
  (forall i j, In (i, j) l <-> In (i, j) (arc_list g) /\ In i (custs g) /\ In j (custs g)) /\ NoDup l /\
  (forall l1 i j l2 i' j' l3, l = l1 ++ (i, j) :: l2 ++ (i', j') :: l3 ->
     cost_of g 0 i' Sink + cost_of g 0 Source j' - alpha * cost_of g 0 i' j'
     <= cost_of g 0 i Sink + cost_of g 0 Source j - alpha * cost_of g 0 i j).
Proof.
  intros N RT. pose proof (net_wf _ _ N) as W. unfold ordered_edges, cw_savings.
  set (E := filter (fun a => negb (node_eqb (fst a) Source) && negb (node_eqb (snd a) Sink)) (edges g)).
  assert (HE : forall i j, In (i, j) E <-> In (i, j) (arc_list g) /\ In i (custs g) /\ In j (custs g)).
  { intros i j. unfold E. rewrite filter_In. simpl. rewrite (in_edges g i j W), andb_true_iff, !negb_true_iff, !node_eqb_neq.
    rewrite !in_custs. split.
    - intros (H & H2 & H3). pose proof (wf_ends g W _ _ H) as (E1 & E2).
      split; auto. split; split; auto; split; auto; intros ->.
      + apply (net_no_out _ _ N) in H. auto.
      + apply (net_no_in _ _ N) in H. auto.
    - tauto. }
  set (val := fun a : arc => cost_of g 0 (fst a) Sink + cost_of g 0 Source (snd a) - alpha * cost_of g 0 (fst a) (snd a)).
  assert (M : mapM (fun a => let* s := saving g alpha (fst a) (snd a) in Ok (a, s)) E =
              Ok (map (fun a => (a, val a)) E)).
  { apply mapM_pure. intros [i j] H. destruct (proj1 (HE i j) H) as (Hij & Hi & Hj). simpl.
    unfold saving. pose proof (RT i Hi). pose proof (RT j Hj).
    rewrite (scost_total g 1 i Sink N), (scost_total g 1 Source j N), (scost_total g 1 i j N)
      by (try tauto; lia). reflexivity. }
  rewrite M. cbn [bind]. intro H. inversion H; subst l; clear H.
  pose proof (sorted_desc_perm snd (map (fun a => (a, val a)) E)) as P.
  pose proof (sorted_desc_descending snd (map (fun a => (a, val a)) E)) as D.
  set (S := sorted_desc snd (map (fun a => (a, val a)) E)) in *. clearbody S.
  assert (PE : Permutation E (map fst S)).
  { eapply Permutation_trans; [|apply Permutation_map, P]. rewrite map_map. simpl. rewrite map_id. auto. }
  assert (Hval : forall a q, In (a, q) S -> q = val a).
  { intros a q Ha. apply (Permutation_in _ (Permutation_sym P)) in Ha. apply in_map_iff in Ha.
    destruct Ha as (b & Hb & _). inversion Hb; subst. auto. }
  split; [|split].
  - intros i j. rewrite <- HE. split; apply Permutation_in; auto using Permutation_sym.
  - apply (Permutation_NoDup PE). unfold E. apply NoDup_filter, edges_NoDup. auto.
  - intros l1 i j l2 i' j' l3 Hl. apply map_eq_app in Hl. destruct Hl as (s1 & s2 & -> & _ & H2).
    destruct s2 as [|[a q] s2]; [discriminate|]. cbn [map fst] in H2. inversion H2 as [[Ea H3]]. subst a.
    apply map_eq_app in H3. destruct H3 as (s3 & s4 & -> & _ & H4).
    destruct s4 as [|[b q'] s4]; [discriminate|]. cbn [map fst] in H4. inversion H4 as [[Eb H5]]. subst b.
    assert (Q1 : q = val (i, j)) by (apply Hval; apply in_or_app; simpl; auto).
    assert (Q2 : q' = val (i', j')) by (apply Hval; apply in_or_app; simpl; right; right; apply in_or_app; simpl; auto).
    assert (X : q' <= q).
    { clear - D. revert D. induction s1 as [|x s1 IH]; cbn [app descending]; intros (D1 & D2).
      - apply (D1 (i', j', q')). apply in_or_app; simpl; auto.
      - apply IH; auto. }
    rewrite Q1, Q2 in X. exact X.
Qed.

(** conversion of initial routes, without naming the model's auxiliary predicate *)
Lemma convert_ok (g : vgraph) K caps rs :
  network K g -> (1 <= K)%nat ->
  (forall r, In r rs -> along (arc_list g) r /\ (2 <= List.length r)%nat) ->
  (exists cs, convert_initial_routes g caps rs = Ok cs /\ List.length cs = List.length rs /\
     forall i r, nth_error rs i = Some r -> exists c, nth_error cs i = Some c /\
       c_name c = CNat (S i) /\
       (forall v, In v (c_nodes c) <-> In v r) /\ NoDup (c_nodes c) /\
       (forall a, In a (c_arcs c) <-> In a (arcs r)) /\
       c_cost c == path_sum (cost_of g 0) r /\
       first_fitting caps (node_sum (demand_of g) r) (c_type c)) \/
  (convert_initial_routes g caps rs = Err ValueError /\
     exists r, In r rs /\ none_fits caps (node_sum (demand_of g) r)).
Proof.
  intros N HK H. destruct (convert_from_ok g K N HK caps rs 1 H) as [(cs & H1 & H2 & H3)|X].
  - left. exists cs. split; auto. split; auto. intros i r Hi. destruct (H3 i r Hi) as (c & C1 & C2).
    exists c. split; auto. destruct C2 as (X1 & X2 & X3 & X4 & X5 & X6 & X7 & X8). auto 8.
  - right. exact X.
Qed.

Lemma fits_excl caps load k : first_fitting caps load k -> none_fits caps load -> False.
Proof.
  intros F (c & l & -> & H). simpl in F. destruct F as ((x & Hx & Hl) & _).
  apply nth_error_In in Hx. specialize (H x Hx). lra.
Qed.

Lemma convert_raises (g : vgraph) K caps rs :
  network K g -> (1 <= K)%nat ->
  (forall r, In r rs -> along (arc_list g) r /\ (2 <= List.length r)%nat) ->
  (convert_initial_routes g caps rs = Err ValueError <->
   exists r, In r rs /\ none_fits caps (node_sum (demand_of g) r)).
Proof.
  intros N HK H. destruct (convert_ok g K caps rs N HK H) as [(cs & H1 & H2 & H3)|(H1 & H2)].
  - split; [congruence|]. intros (r & Hr & F). exfalso. apply In_nth_error in Hr. destruct Hr as (i & Hi).
    destruct (H3 i r Hi) as (c & _ & _ & _ & _ & _ & _ & X). eapply fits_excl; eauto.
  - tauto.
Qed.

(** round trips *)
Lemma round_trip_ok g : wf g ->
  each_once (custs g) (round_trip_routes g) /\
  List.length (round_trip_routes g) = List.length (custs g) /\
  forall r, In r (round_trip_routes g) <-> exists v, In v (custs g) /\ r = [Source; v; Sink].
Proof.
  intro W. rewrite round_trips_map. split; [|split].
  - intros v Hv. pose proof (cust_ne g v Hv) as (H1 & H2). rewrite visits_trips by auto.
    apply NoDup_count_occ'; auto. apply custs_NoDup; auto.
  - apply map_length.
  - intro r. rewrite in_map_iff. split; intros (v & H1 & H2); exists v; auto.
Qed.

Lemma round_trip_used o mixed caps dur st perms g :
  plain o mixed = false -> o_pickup_delivery o = false ->
  get_initial_solution o mixed caps dur st perms g = Ok (round_trip_routes g).
Proof. intros H1 H2. unfold get_initial_solution. rewrite H1, H2. auto. Qed.

Lemma plain_initial (g : vgraph) K caps dur st perms o mixed :
  network K g -> (1 <= K)%nat -> round_trips g -> In (Source, Sink) (arc_list g) -> caps <> Some [] ->
  (forall x l, Permutation l (perms x l)) ->
  o_time_windows o = false -> o_pickup_delivery o = false -> o_distribution_collection o = false ->
  mixed = false -> truthy (o_periodic o) = false ->
  exists rs, get_initial_solution o mixed caps dur st perms g = Ok rs /\
    (forall v, In v (custs g) -> exists r, In r rs /\ In v r) /\
    forall p, In p rs ->
    route_shape p /\ along (arc_list g) p /\ (forall v, In v (stops p) -> In v (custs g)) /\
    (forall c l, caps = Some (c :: l) -> (0 < c)%Z ->
       (forall v, In v (custs g) -> demand_of g v <= inject_Z c) ->
       node_sum (demand_of g) (stops p) <= inject_Z c) /\
    (forall n, st = Some n -> (1 <= n)%Z -> (Z.of_nat (List.length (stops p)) <= n)%Z) /\
    (forall D, limit dur D -> symmetric_times g ->
       (forall v, In v (custs g) ->
          path_sum (time_of g) [Source; v; Sink] + service_of g v <= inject_Z D) ->
       stops p <> [] -> path_sum (time_of g) p + node_sum (service_of g) (stops p) <= inject_Z D).
Proof.
  intros N HK RT SS HC HP E1 E2 E3 E4 E5.
  assert (Pl : plain o mixed = true) by (unfold plain; rewrite E1, E2, E3, E4, E5; reflexivity).
  destruct (plain_initial_ok g K N HK RT SS caps dur st HC perms HP o mixed Pl) as (rs & H & H1 & H2).
  exists rs. split; auto. split.
  - intros v Hv. apply H2 in Hv. unfold covered in Hv. apply in_flat_map in Hv. destruct Hv as (r & Hr & Hv).
    exists r. split; auto. unfold inner in Hv. destruct r as [|x r]; simpl in Hv; [destruct Hv|]. right.
    clear - Hv. revert Hv. induction r as [|y r IH]; simpl; auto. destruct r; [intros []|].
    intros [->|Hv]; auto.
  - intros p Hp. destruct (H1 p Hp) as (P1 & P2 & P3 & P4 & P5 & P6).
    split; auto. split; auto. split; auto. split; [|split; auto].
    intros c l Hc Hpos Hd. apply (P4 c l); auto; [lia|]. change 0 with (inject_Z 0). rewrite <- Zle_Qle. lia.
Qed.
