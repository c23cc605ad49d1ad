(** The Clarke and Wright heuristic performs the savings procedure of Spec/Savings. *)
From Verif.Base Require Import Prelude Graph.
From Verif.Spec Require Import Routes Network Heuristics Savings.
From Verif.Model Require Import Args Reach Checks Preprocess ClarkeWright.
From Verif.Proofs Require Import RouteLemmas CWProofs HeurCor.

Section Run.
  Variable g : vgraph.
  Variable lim : limits.
  Hypothesis N : network 1 g.
  Hypothesis RT : round_trips g.
  Hypothesis Sym : truthy (l_dur lim) = true -> symmetric_times g.

  Let w := mkVehicle (l_cap lim) (l_dur lim) (l_stops lim).

  Lemma live_has s C h : inv g lim s C -> In h (live_routes s) ->
    exists v, assoc_node v (cw_route s) = Some h /\ forall x, In x (C h) -> assoc_node x (cw_route s) = Some h.
  Proof.
    intros I H. unfold live_routes in H. apply nodup_In in H.
    apply (value_has_key _ _ (i_keys _ _ _ _ I)) in H. destruct H as (v & Hv).
    exists v. split; auto. intros x Hx. apply (i_own _ _ _ _ I v h x); auto.
  Qed.

  Lemma view_of s C v h x : inv g lim s C -> assoc_node v (cw_route s) = Some h ->
    In x (view s C) -> In v x -> x = C h.
  Proof.
    intros I Hv Hx Hin. unfold view in Hx. apply in_map_iff in Hx. destruct Hx as (k & <- & Hk).
    destruct (live_has s C k I Hk) as (y & _ & H). specialize (H v Hin). congruence.
  Qed.

  Lemma view_split s C h k : inv g lim s C -> In h (live_routes s) -> In k (live_routes s) -> h <> k ->
    exists R', Permutation (view s C) (C h :: C k :: R').
  Proof.
    intros I Hh Hk Hne. unfold view.
    apply in_split in Hh. destruct Hh as (L1 & L2 & E). rewrite E in *.
    assert (P : Permutation (L1 ++ h :: L2) (h :: L1 ++ L2)) by (symmetry; apply Permutation_middle).
    assert (Hk' : In k (L1 ++ L2)).
    { apply (Permutation_in _ P) in Hk. destruct Hk; [congruence|auto]. }
    apply in_split in Hk'. destruct Hk' as (M1 & M2 & EM).
    exists (map C (M1 ++ M2)).
    rewrite P, EM. cbn [map]. apply perm_skip. rewrite !map_app. cbn [map]. symmetry. apply Permutation_middle.
  Qed.

  Lemma live_of s C v h : inv g lim s C -> assoc_node v (cw_route s) = Some h -> In h (live_routes s).
  Proof. intros I H. unfold live_routes. apply nodup_In. eapply assoc_in_values; eauto. Qed.

  (** two trips that are different entries of the view have no common customer *)
  Lemma view_disjoint s C x y R' v : inv g lim s C -> covers s (custs g) -> In v (custs g) ->
    Permutation (view s C) (x :: y :: R') -> In v x -> ~ In v y.
  Proof.
    intros I Cv Hc P H1 H2. pose proof (view_once g lim s C v I Cv Hc) as V.
    rewrite (visits_perm v _ _ P) in V. cbn [visits] in V.
    apply (count_occ_In node_eq_dec) in H1. apply (count_occ_In node_eq_dec) in H2. lia.
  Qed.

  Lemma fits_append r l i j : good g lim r (l ++ [i]) ->
    (fits g w (l ++ [i; j]) <->
     (forall c, l_cap lim = Some c -> c <> 0%Z -> cr_load r + demand_of g j <= inject_Z c) /\
     (forall D, l_dur lim = Some D -> D <> 0%Z ->
        cr_time r + (time_of g i j + time_of g j Sink + service_of g j - time_of g i Sink) <= inject_Z D) /\
     (forall n, l_stops lim = Some n -> n <> 0%Z -> (Z.of_nat (List.length (cr_nodes r)) - 2 + 1 <= n)%Z)).
  Proof.
    intro G.
    assert (El : l ++ [i; j] = (l ++ [i]) ++ [j]) by (rewrite <- app_assoc; auto).
    assert (EP : forall u, path_sum u (full (l ++ [i; j])) ==
                 path_sum u (full (l ++ [i])) + (u i j + u j Sink - u i Sink)).
    { intro u. unfold path_sum. rewrite arcs_full_snoc, arcs_full_snoc2, !map_app, !Qsum_app. simpl. lra. }
    assert (EN : forall u, node_sum u (l ++ [i; j]) == node_sum u (l ++ [i]) + u j).
    { intro u. rewrite El, node_sum_app. unfold node_sum. simpl. lra. }
    unfold fits, trip_fits. cbn [v_cap v_dur v_stops w]. fold (full (l ++ [i; j])).
    assert (A1 : forall c, l_cap lim = Some c -> c <> 0%Z ->
      (node_sum (demand_of g) (l ++ [i; j]) <= inject_Z c <-> cr_load r + demand_of g j <= inject_Z c)).
    { intros c Hc Hc0. rewrite EN, (gd_load _ _ _ _ G); [tauto|]. rewrite Hc. apply truthy_Some; auto. }
    assert (A2 : forall D, l_dur lim = Some D -> D <> 0%Z ->
      (path_sum (time_of g) (full (l ++ [i; j])) + node_sum (service_of g) (l ++ [i; j]) <= inject_Z D <->
       cr_time r + (time_of g i j + time_of g j Sink + service_of g j - time_of g i Sink) <= inject_Z D)).
    { intros D HD HD0. assert (T : truthy (l_dur lim) = true) by (rewrite HD; apply truthy_Some; auto).
      rewrite EP, EN, (gd_time _ _ _ _ G T (Sym T)). split; intro; lra. }
    assert (A3 : (Z.of_nat (List.length (l ++ [i; j])) = Z.of_nat (List.length (cr_nodes r)) - 2 + 1)%Z).
    { rewrite (good_length _ _ _ _ G), El, !app_length. cbn [List.length]. lia. }
    split.
    - intros ((H1 & H2) & H3). split; [|split].
      + intros c X Y. apply A1; auto.
      + intros D X Y. apply A2; auto.
      + intros n X Y. rewrite <- A3. auto.
    - intros (H1 & H2 & H3). split; [split|].
      + intros c X Y. apply A1; auto.
      + intros D X Y. apply A2; auto.
      + intros n X Y. rewrite A3. auto.
  Qed.

  Lemma fits_prepend r l i j : good g lim r (j :: l) -> In i (custs g) ->
    In (i, j) (arc_list g) -> In (j, i) (arc_list g) ->
    (fits g w (i :: j :: l) <->
     (forall c, l_cap lim = Some c -> c <> 0%Z -> cr_load r + demand_of g i <= inject_Z c) /\
     (forall D, l_dur lim = Some D -> D <> 0%Z ->
        cr_time r + (time_of g j i + time_of g i Sink + service_of g i - time_of g j Sink) <= inject_Z D) /\
     (forall n, l_stops lim = Some n -> n <> 0%Z -> (Z.of_nat (List.length (cr_nodes r)) - 2 + 1 <= n)%Z)).
  Proof.
    intros G Hi Hij Hji.
    assert (Hj : In j (custs g)) by (apply (gd_custs _ _ _ _ G); simpl; auto).
    assert (EP : forall u, path_sum u (full (i :: j :: l)) ==
                 path_sum u (full (j :: l)) + (u i j + u Source i - u Source j)).
    { intro u. unfold path_sum. rewrite arcs_full_cons2, arcs_full_cons. cbn [map]. rewrite !Qsum_cons. simpl. lra. }
    assert (EN : forall u, node_sum u (i :: j :: l) == node_sum u (j :: l) + u i).
    { intro u. unfold node_sum. simpl. lra. }
    assert (ET : symmetric_times g ->
       time_of g j i + time_of g i Sink - time_of g j Sink ==
       time_of g i j + time_of g Source i - time_of g Source j).
    { intros (S1 & S2). rewrite (S1 i Hi), (S1 j Hj), (S2 i j Hi Hj Hij Hji). lra. }
    unfold fits, trip_fits. cbn [v_cap v_dur v_stops w].
    change (Source :: (i :: j :: l) ++ [Sink]) with (full (i :: j :: l)).
    assert (A1 : forall c, l_cap lim = Some c -> c <> 0%Z ->
      (node_sum (demand_of g) (i :: j :: l) <= inject_Z c <-> cr_load r + demand_of g i <= inject_Z c)).
    { intros c Hc Hc0. rewrite EN, (gd_load _ _ _ _ G); [tauto|]. rewrite Hc. apply truthy_Some; auto. }
    assert (A2 : forall D, l_dur lim = Some D -> D <> 0%Z ->
      (path_sum (time_of g) (full (i :: j :: l)) + node_sum (service_of g) (i :: j :: l) <= inject_Z D <->
       cr_time r + (time_of g j i + time_of g i Sink + service_of g i - time_of g j Sink) <= inject_Z D)).
    { intros D HD HD0. assert (T : truthy (l_dur lim) = true) by (rewrite HD; apply truthy_Some; auto).
      rewrite EP, EN, (gd_time _ _ _ _ G T (Sym T)). specialize (ET (Sym T)). split; intro; lra. }
    assert (A3 : (Z.of_nat (List.length (i :: j :: l)) = Z.of_nat (List.length (cr_nodes r)) - 2 + 1)%Z).
    { rewrite (good_length _ _ _ _ G). cbn [List.length]. lia. }
    split.
    - intros ((H1 & H2) & H3). split; [|split].
      + intros c X Y. apply A1; auto.
      + intros D X Y. apply A2; auto.
      + intros n X Y. rewrite <- A3. auto.
    - intros (H1 & H2 & H3). split; [split|].
      + intros c X Y. apply A1; auto.
      + intros D X Y. apply A2; auto.
      + intros n X Y. rewrite A3. auto.
  Qed.

  Lemma step_ok s C i j :
    inv g lim s C -> covers s (custs g) -> merged s C ->
    In i (custs g) -> In j (custs g) -> In (i, j) (arc_list g) ->
    exists s' C', process_edge g lim s (i, j) = Ok s' /\ inv g lim s' C' /\ covers s' (custs g) /\
      merged s' C' /\ merge_step g w (i, j) (view s C) (view s' C').
  Proof.
    intros I Cv M Hi Hj Hij. unfold process_edge.
    destruct (owner_of g lim s C i I Cv Hi) as (hi & ri & Oi & Ri & Gi).
    destruct (owner_of g lim s C j I Cv Hj) as (hj & rj & Oj & Rj & Gj).
    destruct (i_good _ _ _ _ I _ _ Oi) as (Ii & _). destruct (i_good _ _ _ _ I _ _ Oj) as (Ij & _).
    (* what the specification says about appending *)
    assert (App : appendable g w (view s C) i j ->
       ~ In j (cw_done s) /\ ~ In j (C hi) /\ In (i, Sink) (cr_arcs ri) /\
       exists a, C hi = a ++ [i] /\ fits g w (a ++ [i; j])).
    { intros (a & R' & P & F).
      assert (E1 : [j] = C hj).
      { apply (view_of s C j hj _ I Oj); [|simpl; auto]. apply (Permutation_in _ (Permutation_sym P)). simpl; auto. }
      assert (E2 : a ++ [i] = C hi).
      { apply (view_of s C i hi _ I Oi); [|apply in_or_app; simpl; auto].
        apply (Permutation_in _ (Permutation_sym P)). simpl; auto. }
      assert (Dj : ~ In j (C hi)).
      { rewrite <- E2. apply (view_disjoint s C [j] (a ++ [i]) R' j I Cv Hj P). simpl; auto. }
      split; [intro H; apply (M j hj Oj H); auto|]. split; auto. split.
      - apply (gd_arcs _ _ _ _ Gi). rewrite <- E2, arcs_full_snoc. apply in_or_app. simpl; auto.
      - exists a. auto. }
    assert (Pre : prependable g w (view s C) i j ->
       In (j, i) (arc_list g) /\ ~ In i (cw_done s) /\ ~ In i (C hj) /\ In (Source, j) (cr_arcs rj) /\
       exists a, C hj = j :: a /\ fits g w (i :: j :: a)).
    { intros (Hji & a & R' & P & F).
      assert (E1 : [i] = C hi).
      { apply (view_of s C i hi _ I Oi); [|simpl; auto]. apply (Permutation_in _ (Permutation_sym P)). simpl; auto. }
      assert (E2 : j :: a = C hj).
      { apply (view_of s C j hj _ I Oj); [|simpl; auto].
        apply (Permutation_in _ (Permutation_sym P)). simpl; auto. }
      assert (Di : ~ In i (C hj)).
      { rewrite <- E2. apply (view_disjoint s C [i] (j :: a) R' i I Cv Hi P). simpl; auto. }
      split; auto. split; [intro H; apply (M i hi Oi H); auto|]. split; auto. split.
      - apply (gd_arcs _ _ _ _ Gj). rewrite <- E2, arcs_full_cons. simpl; auto.
      - exists a. auto. }
    assert (Rest : ~ appendable g w (view s C) i j ->
       exists s' C', (let* pre := can_prepend g lim s i j in
          if (pre : bool) then cw_merge g lim s j i false else Ok s) = Ok s' /\ inv g lim s' C' /\
        covers s' (custs g) /\ merged s' C' /\ merge_step g w (i, j) (view s C) (view s' C')).
    { intro NA.
      assert (Skip : ~ prependable g w (view s C) i j ->
         exists s' C', Ok s = Ok s' /\ inv g lim s' C' /\ covers s' (custs g) /\ merged s' C' /\
           merge_step g w (i, j) (view s C) (view s' C')).
      { intro NP. exists s, C. split; auto. split; auto. split; auto. split; auto. apply ms_skip; auto. }
      unfold can_prepend. destruct (has_arc g j i) eqn:Ha; cbn [negb bind].
      2:{ apply Skip. intro H. apply Pre in H. destruct H as (H & _). apply has_arc_In in H. congruence. }
      destruct (mem i (cw_done s)) eqn:Em; cbn [bind].
      { apply Skip. intro H. apply Pre in H. destruct H as (_ & H & _). apply mem_false in H. congruence. }
      apply has_arc_In in Ha. apply mem_false in Em.
      destruct (constraints_ok g lim RT s C j i hj rj I Oj Rj Gj Hj Hi Ha) as (b2 & B2 & B2t).
      rewrite B2. cbn [bind]. destruct b2; cbn [bind].
      2:{ apply Skip. intro H. apply Pre in H. destruct H as (_ & _ & H1 & _ & a & H3 & H4).
          assert (X : false = true); [|discriminate]. apply B2t. split; auto.
          rewrite H3 in Gj. apply (fits_prepend rj a i j Gj Hi Hij Ha). auto. }
      rewrite (proj2 (route_of_ok g lim s C j hj rj I Oj Rj)). cbn [bind].
      destruct (mem_arc (Source, j) (cr_arcs rj)) eqn:E.
      2:{ apply Skip. intro H. apply Pre in H. destruct H as (_ & _ & _ & H & _). apply mem_arc_In in H. congruence. }
      apply mem_arc_In in E. destruct (proj1 B2t eq_refl) as (P1 & P2 & P3 & P4).
      destruct (merge_source_ok g lim N RT s C i j hj rj) as (s' & C' & M1 & M2 & M3 & _ & l & El & J1 & R' & J2 & J3); auto.
      exists s', C'. split; auto. split; auto. split; auto. split; auto.
      rewrite El in J2. apply (ms_prepend g w i j l _ R'); auto.
      rewrite El in Gj. apply (fits_prepend rj l i j Gj Hi Hij Ha). auto. }
    unfold can_append.
    destruct (constraints_ok g lim RT s C i j hi ri I Oi Ri Gi Hi Hj Hij) as (b1 & B1 & B1t).
    destruct (mem j (cw_done s)) eqn:Em; cbn [bind].
    { apply Rest. intro H. apply App in H. destruct H as (H & _). apply mem_false in H. congruence. }
    rewrite B1. cbn [bind]. destruct b1; cbn [bind].
    2:{ apply Rest. intro H. apply App in H. destruct H as (_ & H1 & _ & a & H3 & H4).
        assert (X : false = true); [|discriminate]. apply B1t. split; auto.
        rewrite H3 in Gi. apply (fits_append ri a i j Gi). auto. }
    rewrite (proj2 (route_of_ok g lim s C i hi ri I Oi Ri)). cbn [bind].
    destruct (mem_arc (i, Sink) (cr_arcs ri)) eqn:E.
    2:{ apply Rest. intro H. apply App in H. destruct H as (_ & _ & H & _). apply mem_arc_In in H. congruence. }
    apply mem_arc_In in E. apply mem_false in Em. destruct (proj1 B1t eq_refl) as (P1 & P2 & P3 & P4).
    destruct (merge_sink_ok g lim N RT s C i j hi ri) as (s' & C' & M1 & M2 & M3 & _ & l & El & J1 & R' & J2 & J3); auto.
    exists s', C'. split; auto. split; auto. split; auto. split; auto.
    rewrite El in J2. apply (ms_append g w i j l _ R'); auto.
    rewrite El in Gi. apply (fits_append ri l i j Gi). auto.
  Qed.

  Lemma steps_ok l :
    (forall i j, In (i, j) l -> In i (custs g) /\ In j (custs g) /\ In (i, j) (arc_list g)) ->
    forall s C, inv g lim s C -> covers s (custs g) -> merged s C ->
    exists s' C', foldM (process_edge g lim) l s = Ok s' /\ inv g lim s' C' /\ covers s' (custs g) /\
      merge_run g w l (view s C) (view s' C').
  Proof.
    induction l as [|[i j] l IH]; intros Hl s C I Cv M; cbn [foldM].
    - exists s, C. split; auto. split; auto. split; auto. constructor. auto.
    - destruct (Hl i j (or_introl eq_refl)) as (Hi & Hj & Hij).
      destruct (step_ok s C i j I Cv M Hi Hj Hij) as (s1 & C1 & H1 & I1 & Cv1 & M1 & St).
      rewrite H1. cbn [bind].
      destruct (IH (fun a b H => Hl a b (or_intror H)) s1 C1 I1 Cv1 M1) as (s2 & C2 & H2 & I2 & Cv2 & Ru).
      exists s2, C2. split; auto. split; auto. split; auto. econstructor; eauto.
  Qed.

  Lemma start_view s C : inv g lim s C -> covers s (custs g) -> cw_done s = [] ->
    Permutation (view s C) (round_trips_only g).
  Proof.
    intros I Cv D. unfold view, round_trips_only.
    assert (F : forall h, In h (live_routes s) -> exists v, In v (custs g) /\ assoc_node v (cw_route s) = Some h /\ C h = [v]).
    { intros h H. destruct (live_has s C h I H) as (v & Hv & _). exists v.
      split; [apply Cv; eauto|]. split; auto. apply (i_fresh _ _ _ _ I v h Hv). rewrite D. intros []. }
    apply NoDup_Permutation.
    - apply (NoDup_map_inj C (live_routes s)); [|apply NoDup_nodup].
      intros h k Hh Hk E. destruct (F h Hh) as (v & _ & Hv & Ev). destruct (F k Hk) as (u & _ & Hu & Eu).
      assert (u = v) by congruence. subst. congruence.
    - apply (NoDup_map_inj (fun v : node => [v]) (custs g)).
      + intros x y _ _ E. congruence.
      + unfold custs. apply NoDup_filter. apply (net_wf _ _ N).
    - intro x. rewrite !in_map_iff. split.
      + intros (h & <- & Hh). destruct (F h Hh) as (v & Hc & _ & Ev). exists v. auto.
      + intros (v & <- & Hv). destruct (proj1 (Cv v) Hv) as (h & Hh).
        exists h. split; [|apply (live_of s C v h I Hh)]. apply (i_fresh _ _ _ _ I v h Hh). rewrite D. intros [].
  Qed.

  Lemma merge_run_perm l R R1 R2 : Permutation R R1 -> merge_run g w l R1 R2 -> merge_run g w l R R2.
  Proof.
    intros P H. destruct H as [R1 R2 H|a l R1 R3 R2 H H2].
    - constructor. eapply Permutation_trans; eauto.
    - apply mr_cons with R3; auto.
      assert (NA : forall i j, ~ appendable g w R1 i j -> ~ appendable g w R i j).
      { intros i j X (b & R' & Y & Z). apply X. exists b, R'. split; auto. rewrite <- Y. symmetry. auto. }
      assert (NP : forall i j, ~ prependable g w R1 i j -> ~ prependable g w R i j).
      { intros i j X (U & b & R' & Y & Z). apply X. split; auto. exists b, R'. split; auto. rewrite <- Y. symmetry. auto. }
      inversion H; subst.
      + eapply ms_append; eauto. eapply Permutation_trans; eauto.
      + eapply ms_prepend; eauto. eapply Permutation_trans; eauto.
      + apply ms_skip; auto. eapply Permutation_trans; eauto.
  Qed.

  Lemma run_is_savings alpha perm :
    (forall l, Permutation l (perm l)) ->
    exists rs q l R, cw_run g lim alpha perm = Ok (rs, q) /\ by_saving g alpha l /\
      merge_run g w l (round_trips_only g) R /\ Permutation rs (map (fun cs => Source :: cs ++ [Sink]) R).
  Proof.
    intro HP. unfold cw_run.
    destruct (init_ok g lim N RT) as (s0 & C0 & H0 & I0 & Cv0 & D0 & _). rewrite H0. cbn [bind].
    destruct (ordered_ok g alpha N RT) as (l & Hl & Hin). rewrite Hl. cbn [bind].
    assert (M0 : merged s0 C0) by (intros v h _ Hd; rewrite D0 in Hd; destruct Hd).
    destruct (steps_ok l Hin s0 C0 I0 Cv0 M0) as (s & C & Hs & I & Cv & Ru). rewrite Hs. cbn [bind].
    unfold cw_collect.
    destruct (collect_ok g lim s C (perm (live_routes s)) I) with (rs := @nil (list node)) (q := 0) as (q & Hq & Eq).
    { intros h H. apply (Permutation_in _ (Permutation_sym (HP _))) in H.
      destruct (live_has s C h I H) as (v & Hv & _). apply (i_good _ _ _ _ I _ _ Hv). }
    rewrite Hq. exists (map (fun h => full (C h)) (perm (live_routes s))), q, l, (view s C).
    split; auto. split.
    - destruct (savings_order g alpha l N RT Hl) as (S1 & S2 & S3). split; auto. split; auto.
      intros l1 [i j] l2 [i' j'] l3 E. apply (S3 l1 i j l2 i' j' l3 E).
    - split; [eapply merge_run_perm; [|exact Ru]; symmetry; apply start_view; auto|].
      unfold view. rewrite map_map. apply Permutation_map. symmetry. apply HP.
  Qed.
End Run.
