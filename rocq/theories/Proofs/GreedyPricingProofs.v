(** The columns found by the randomised greedy pricing. *)
From Verif.Base Require Import Prelude Graph.
From Verif.Spec Require Import Routes Network LinProg Pricing MIP Columns.
From Verif.Model Require Import Args Reach Checks Preprocess ClarkeWright Greedy Initial Pricing GreedyPricing.
From Verif.Proofs Require Import RouteLemmas ReachLemmas PreLemmas CWProofs GreedyProofs PricingProofs InitialProofs LPProofs
  LPColumn.

Lemma foldM_filter_map {A B} (c : A -> res bool) (f : A -> res B) (C : A -> bool) (F : A -> B) l acc :
  (forall v, In v l -> c v = Ok (C v)) -> (forall v, In v l -> C v = true -> f v = Ok (F v)) ->
  foldM (fun acc v => let* ok := c v in
           if ok then let* w := f v in Ok (acc ++ [(v, w)]) else Ok acc) l acc
  = Ok (acc ++ map (fun v => (v, F v)) (filter C l)).
Proof.
  revert acc. induction l as [|v l IH]; intros acc Hc Hf; simpl.
  - rewrite app_nil_r. reflexivity.
  - rewrite (Hc v) by (simpl; auto). cbn [bind]. destruct (C v) eqn:E.
    + rewrite (Hf v) by (simpl; auto). cbn [bind]. rewrite IH; [|intros; apply Hc; simpl; auto|intros; apply Hf; simpl; auto].
      simpl. rewrite <- app_assoc. reflexivity.
    + apply IH; [intros; apply Hc; simpl; auto|intros; apply Hf; simpl; auto].
Qed.

Section GP.
  Variable h : vgraph.
  Variable K : nat.
  Variable caps : option (list Z).
  Variable ns dur : option Z.
  Variable k : nat.
  Hypothesis HN : network K h.
  Hypothesis Hk : (k < K)%nat.
  Hypothesis Hcaps : forall l, caps = Some l -> l <> [] -> (k < List.length l)%nat.
  Hypothesis Hsrc : demand_of h Source == 0.
  Hypothesis Hsink : demand_of h Sink == 0.

  Lemma arc_time_ok u v : In (u, v) (arc_list h) -> arc_time h (u, v) = Ok (time_of h u v).
  Proof.
    intro H. unfold arc_time. cbn [fst snd]. destruct (get_arc_ok h u v H) as (e & -> & E).
    cbn [bind]. unfold time_of. rewrite E. reflexivity.
  Qed.
  Lemma arc_weight_ok u v : In (u, v) (arc_list h) -> arc_weight h (u, v) = Ok (weight_of h u v).
  Proof.
    intro H. unfold arc_weight. cbn [fst snd]. destruct (get_arc_ok h u v H) as (e & -> & E).
    cbn [bind]. unfold weight_of. rewrite E. reflexivity.
  Qed.

  Definition fits (s : pstate) (v : node) : bool :=
    match caps with
    | Some ((_ :: _) as l) => Qle_bool (ps_load s + demand_of h v) (inject_Z (nth k l 0%Z))
    | _ => true
    end.
  Definition fits_time (s : pstate) (a : arc) : bool :=
    match dur with
    | Some D => if (D =? 0)%Z then true
                else Qle_bool (ps_time s + time_of h (fst a) (snd a)) (inject_Z D)
    | None => true
    end.
  Definition eligible (s : pstate) (fw : bool) (u v : node) : bool :=
    negb (mem v (ps_path s) || (node_eqb u Source && node_eqb v Sink)) && fits s v && fits_time s (ends fw u v).

  Lemma constraints_ok s fw u v : In (ends fw u v) (arc_list h) ->
    p_constraints h caps dur k s fw u v = Ok (eligible s fw u v).
  Proof.
    intro Ha. unfold p_constraints, eligible.
    destruct (mem v (ps_path s) || (node_eqb u Source && node_eqb v Sink)) eqn:E1; [reflexivity|].
    cbn [negb andb].
    assert (Hv : In v (nodes h)).
    { unfold ends in Ha. destruct fw; apply (wf_ends _ (net_wf _ _ HN)) in Ha; tauto. }
    assert (E2 : match caps with
                 | Some ((_ :: _) as l) => p_check_capacity h k s l v
                 | _ => Ok true
                 end = Ok (fits s v)).
    { unfold fits. revert Hcaps. destruct caps as [[|c l]|]; auto. intro Hcaps'.
      unfold p_check_capacity. rewrite (get_node_total h v Hv). cbn [bind].
      assert (Hlt : (k < List.length (c :: l))%nat) by (apply Hcaps'; [reflexivity|discriminate]).
      rewrite (nth_error_nth' (c :: l) 0%Z Hlt). reflexivity. }
    assert (E3 : match dur with
                 | Some D => if (D =? 0)%Z then Ok true else p_check_duration h s fw D u v
                 | None => Ok true
                 end = Ok (fits_time s (ends fw u v))).
    { unfold fits_time. destruct dur as [D|]; auto. destruct (D =? 0)%Z; auto.
      unfold p_check_duration. destruct (ends fw u v) as [a b] eqn:Eab. rewrite (arc_time_ok a b) by auto. reflexivity. }
    rewrite E2. cbn [bind]. destruct (fits s v); cbn [negb]; [|reflexivity].
    rewrite E3. cbn [bind]. destruct (fits_time s (ends fw u v)); reflexivity.
  Qed.

  Definition nbrs (fw : bool) (u : node) : list node := if fw then succs h u else preds h u.
  Lemma nbrs_arc fw u v : In v (nbrs fw u) <-> In (ends fw u v) (arc_list h).
  Proof. unfold nbrs, ends. destruct fw; [apply in_succs|apply in_preds]. Qed.

  Lemma extend_ok s fw pick u : path_end fw (ps_path s) = Ok u ->
    exists r, p_extend h caps dur k s fw pick = Ok r /\
      match r with
      | None => forall v, In (ends fw u v) (arc_list h) -> eligible s fw u v = false
      | Some v => In (ends fw u v) (arc_list h) /\ eligible s fw u v = true
      end.
  Proof.
    intro Hu. unfold p_extend. rewrite Hu. cbn [bind]. fold (nbrs fw u).
    rewrite (foldM_filter_map _ _ (eligible s fw u)
               (fun v => weight_of h (fst (ends fw u v)) (snd (ends fw u v)))).
    2:{ intros v Hv. apply constraints_ok, nbrs_arc. auto. }
    2:{ intros v Hv _. apply nbrs_arc in Hv. destruct (ends fw u v) as [a b] eqn:Eab.
        cbn [fst snd]. apply arc_weight_ok. auto. }
    cbn [bind app].
    set (out := map (fun v => (v, weight_of h (fst (ends fw u v)) (snd (ends fw u v))))
                  (filter (eligible s fw u) (nbrs fw u))).
    assert (Hin : forall v, In v (firstn 5 (map fst (sorted_asc snd out))) ->
              In (ends fw u v) (arc_list h) /\ eligible s fw u v = true).
    { intros v Hv. assert (Hv2 : In v (map fst (sorted_asc snd out))).
      { rewrite <- (firstn_skipn 5). apply in_or_app. auto. }
      apply (Permutation_in _ (Permutation_sym (Permutation_map fst (sorted_asc_perm snd out)))) in Hv2.
      unfold out in Hv2. rewrite map_map in Hv2. cbn [fst] in Hv2. rewrite map_id in Hv2.
      apply filter_In in Hv2. rewrite nbrs_arc in Hv2. tauto. }
    destruct (firstn 5 (map fst (sorted_asc snd out))) as [|x pool] eqn:Ep.
    - exists None. split; auto. intros v Hv.
      destruct (eligible s fw u v) eqn:E; auto. exfalso.
      assert (Ho : In (v, weight_of h (fst (ends fw u v)) (snd (ends fw u v))) out).
      { unfold out. apply (in_map (fun v => (v, weight_of h (fst (ends fw u v)) (snd (ends fw u v))))).
        apply filter_In. split; auto. apply nbrs_arc; auto. }
      apply (Permutation_in _ (sorted_asc_perm snd out)) in Ho.
      destruct (sorted_asc snd out) as [|y t]; [destruct Ho|discriminate].
    - eexists. split; [reflexivity|]. apply Hin. apply nth_In.
      apply Nat.mod_upper_bound. discriminate.
  Qed.

  Lemma eligible_spec s fw u v : eligible s fw u v = true ->
    ~ In v (ps_path s) /\ ~ (u = Source /\ v = Sink) /\
    (forall l c, caps = Some l -> nth_error l k = Some c -> ps_load s + demand_of h v <= inject_Z c) /\
    (forall D, dur = Some D -> D <> 0%Z ->
       ps_time s + time_of h (fst (ends fw u v)) (snd (ends fw u v)) <= inject_Z D).
  Proof.
    unfold eligible. intro H. apply andb_true_iff in H. destruct H as (H & H3).
    apply andb_true_iff in H. destruct H as (H1 & H2). apply negb_true_iff, orb_false_iff in H1.
    destruct H1 as (H0 & H1). split; [apply mem_false; auto|]. split.
    { intros (-> & ->). discriminate. }
    split.
    - intros l c Hl Hc. unfold fits in H2. rewrite Hl in H2. destruct l as [|c0 l]; [destruct k; discriminate|].
      rewrite (nth_error_nth _ _ _ Hc) in H2. apply Qle_bool_iff in H2. auto.
    - intros D HD Hz. unfold fits_time in H3. rewrite HD in H3. apply Z.eqb_neq in Hz. rewrite Hz in H3.
      apply Qle_bool_iff in H3. auto.
  Qed.

  (** the state of a search that visited the customers [cs] *)
  Definition partial_path (fw : bool) (cs : list node) : list node :=
    if fw then Source :: cs else cs ++ [Sink].

  Record searching (fw : bool) (cs : list node) (s : pstate) : Prop := {
    se_path : ps_path s = partial_path fw cs;
    se_NoDup : NoDup cs;
    se_custs : forall v, In v cs -> v <> Source /\ v <> Sink;
    se_along : along (arc_list h) (partial_path fw cs);
    se_weight : ps_weight s == path_sum (weight_of h) (partial_path fw cs);
    se_time : ps_time s == path_sum (time_of h) (partial_path fw cs);
    se_load : ps_load s == node_sum (demand_of h) cs;
    se_stops : ps_stops s = Z.of_nat (List.length cs);
    se_fits : cs <> [] -> forall l c, caps = Some l -> nth_error l k = Some c ->
                node_sum (demand_of h) cs <= inject_Z c;
    se_fits_time : cs <> [] -> forall D, dur = Some D -> D <> 0%Z ->
                path_sum (time_of h) (partial_path fw cs) <= inject_Z D
  }.

  (** what a completed search has found *)
  Record found (fw : bool) (cs : list node) (s : pstate) : Prop := {
    fo_path : ps_path s = trip cs;
    fo_NoDup : NoDup cs;
    fo_custs : forall v, In v cs -> v <> Source /\ v <> Sink;
    fo_along : along (arc_list h) (trip cs);
    fo_some : cs <> [] \/ fw = false;
    fo_stops : forall n, ns = Some n -> (0 < n)%Z -> (Z.of_nat (List.length cs) <= n)%Z;
    fo_load : within_load h caps k cs;
    fo_rest :
      (ps_weight s == path_sum (weight_of h) (trip cs) /\
       forall D, dur = Some D -> D <> 0%Z -> path_sum (time_of h) (trip cs) <= inject_Z D) \/
      (fw = true /\ ns = Some (Z.of_nat (List.length cs)) /\
       ps_weight s == path_sum (weight_of h) (Source :: cs) /\
       forall D, dur = Some D -> D <> 0%Z -> path_sum (time_of h) (Source :: cs) <= inject_Z D)
  }.

  Definition far_end (fw : bool) (cs : list node) : node :=
    if fw then last (Source :: cs) Source else hd Sink cs.

  Lemma searching_end fw cs s : searching fw cs s -> path_end fw (ps_path s) = Ok (far_end fw cs).
  Proof.
    intro Hs. rewrite (se_path _ _ _ Hs). unfold path_end, partial_path, far_end. destruct fw.
    - apply last_node_ok.
    - destruct cs; reflexivity.
  Qed.

  Lemma last_split cs : exists p, Source :: cs = p ++ [last (Source :: cs) Source].
  Proof. exists (removelast (Source :: cs)). apply app_removelast_last. discriminate. Qed.

  Lemma path_sum_more w fw cs v :
    let p := partial_path fw cs in
    let a := ends fw (far_end fw cs) v in
    path_sum w (if fw then p ++ [v] else v :: p) == path_sum w p + w (fst a) (snd a).
  Proof.
    unfold partial_path, far_end, ends. destruct fw; cbn [fst snd].
    - destruct (last_split cs) as (p & E). rewrite E at 1 2. rewrite <- app_assoc. cbn [app].
      rewrite path_sum_snoc. reflexivity.
    - destruct cs as [|c cs]; cbn [app hd]; rewrite path_sum_cons2; lra.
  Qed.
  Lemma along_more fw cs v :
    along (arc_list h) (partial_path fw cs) -> In (ends fw (far_end fw cs) v) (arc_list h) ->
    along (arc_list h) (if fw then partial_path fw cs ++ [v] else v :: partial_path fw cs).
  Proof.
    unfold partial_path, far_end, ends. destruct fw; intros H1 H2.
    - destruct (last_split cs) as (p & E). rewrite E in H1 |- *. rewrite <- app_assoc. cbn [app].
      apply along_snoc. split; auto.
    - destruct cs as [|c cs]; cbn [app hd] in *; apply along_cons2; auto.
  Qed.

  (** one step of the search *)
  Lemma update_ok fw cs s v :
    searching fw cs s -> In (ends fw (far_end fw cs) v) (arc_list h) ->
    eligible s fw (far_end fw cs) v = true ->
    (forall n, ns = Some n -> (0 < n)%Z -> (Z.of_nat (List.length cs) < n)%Z) ->
    exists s1 new ext, p_update h ns s fw v = Ok (s1, new, ext) /\
      ((ext = true /\ exists cs1, searching fw cs1 s1 /\ List.length cs1 = S (List.length cs) /\
          (forall n, ns = Some n -> (0 < n)%Z -> (Z.of_nat (List.length cs1) < n)%Z)) \/
       (ext = false /\ new = false) \/
       (ext = false /\ new = true /\ exists cs1, found fw cs1 s1)).
  Proof.
    intros Hs Ha He Hn. assert (Hend := searching_end _ _ _ Hs).
    destruct (eligible_spec _ _ _ _ He) as (Hnew & Hss & Hcap & Hdur).
    assert (Hv : In v (nodes h)).
    { unfold ends in Ha. destruct fw; apply (wf_ends _ (net_wf _ _ HN)) in Ha; tauto. }
    assert (Ho : v <> (if fw then Source else Sink)).
    { intro C. subst v. unfold ends in Ha. destruct fw.
      - apply (net_no_in _ _ HN _ Ha).
      - apply (net_no_out _ _ HN _ Ha). }
    assert (HNw := path_sum_more (weight_of h) fw cs v).
    assert (HNt := path_sum_more (time_of h) fw cs v). cbv zeta in HNw, HNt.
    assert (HA := along_more fw cs v (se_along _ _ _ Hs) Ha).
    assert (Ew : arc_weight h (ends fw (far_end fw cs) v) =
            Ok (weight_of h (fst (ends fw (far_end fw cs) v)) (snd (ends fw (far_end fw cs) v)))).
    { destruct (ends fw (far_end fw cs) v) as [a b] eqn:Eab. apply arc_weight_ok. exact Ha. }
    assert (Et : arc_time h (ends fw (far_end fw cs) v) =
            Ok (time_of h (fst (ends fw (far_end fw cs) v)) (snd (ends fw (far_end fw cs) v)))).
    { destruct (ends fw (far_end fw cs) v) as [a b] eqn:Eab. apply arc_time_ok. exact Ha. }
    unfold p_update. rewrite Hend. cbn [bind]. rewrite (get_node_total h v Hv). cbn [bind].
    change (demand (nd h v)) with (demand_of h v). rewrite Ew, Et. cbn [bind].
    set (wt := weight_of h (fst (ends fw (far_end fw cs) v)) (snd (ends fw (far_end fw cs) v))) in *.
    set (tt := time_of h (fst (ends fw (far_end fw cs) v)) (snd (ends fw (far_end fw cs) v))) in *.
    rewrite (se_path _ _ _ Hs). cbn [ps_stops ps_load ps_time ps_weight].
    assert (Hload : ps_load s + demand_of h v == node_sum (demand_of h) cs + demand_of h v)
      by (rewrite (se_load _ _ _ Hs); reflexivity).
    destruct (node_eq_dec v (goal fw)) as [Eg|Eg].
    - (* the other depot *)
      assert (Eg2 : node_eqb v (goal fw) = true) by (apply node_eqb_eq; auto).
      rewrite Eg2. cbn [negb]. rewrite andb_false_r.
      eexists _, _, _. split; [reflexivity|]. right. right. split; auto. split; auto.
      assert (Ep : (if fw then partial_path fw cs ++ [v] else v :: partial_path fw cs) = trip cs).
      { rewrite Eg. unfold partial_path, goal, trip. destruct fw; reflexivity. }
      exists cs. constructor; cbn [ps_path ps_weight].
      + exact Ep.
      + apply (se_NoDup _ _ _ Hs).
      + apply (se_custs _ _ _ Hs).
      + rewrite <- Ep. exact HA.
      + destruct fw; auto. left. intro C. apply Hss. split; [|exact Eg]. rewrite C. reflexivity.
      + intros n E1 E2. specialize (Hn n E1 E2). lia.
      + intros l c E1 E2. rewrite node_sum_app, node_sum_cons, node_sum_nil, Hsink.
        specialize (Hcap l c E1 E2). rewrite Hload in Hcap.
        assert (Hz : demand_of h v == 0) by (rewrite Eg; destruct fw; auto).
        rewrite Hz in Hcap. lra.
      + left. split.
        * rewrite <- Ep, HNw, (se_weight _ _ _ Hs). fold wt. reflexivity.
        * intros D E1 E2. rewrite <- Ep, HNt. rewrite <- (se_time _ _ _ Hs). apply Hdur; auto.
    - assert (Eg2 : node_eqb v (goal fw) = false) by (apply node_eqb_neq; auto).
      rewrite Eg2. cbn [negb]. rewrite andb_true_r.
      assert (Hvc : v <> Source /\ v <> Sink).
      { unfold goal in Eg. destruct fw; auto. }
      assert (Hnc : ~ In v cs).
      { intro C. apply Hnew. rewrite (se_path _ _ _ Hs). unfold partial_path. destruct fw; [right|apply in_or_app; left]; auto. }
      set (cs1 := if fw then cs ++ [v] else v :: cs).
      assert (HP1 : Permutation cs1 (v :: cs)).
      { unfold cs1. destruct fw; [|apply Permutation_refl]. apply Permutation_sym, Permutation_cons_append. }
      assert (Ep : (if fw then partial_path fw cs ++ [v] else v :: partial_path fw cs) = partial_path fw cs1).
      { unfold cs1, partial_path. destruct fw; reflexivity. }
      assert (Hlen : List.length cs1 = S (List.length cs)).
      { rewrite (Permutation_length HP1). reflexivity. }
      assert (Hsum : node_sum (demand_of h) cs1 == node_sum (demand_of h) cs + demand_of h v).
      { rewrite (node_sum_perm _ _ _ HP1), node_sum_cons. lra. }
      assert (HS1 : searching fw cs1
         (mkPS (if fw then partial_path fw cs ++ [v] else v :: partial_path fw cs) (ps_load s + demand_of h v)
            (ps_time s + tt) (ps_stops s + 1)%Z (ps_weight s + wt))).
      { constructor; cbn [ps_path ps_weight ps_time ps_load ps_stops].
        - exact Ep.
        - apply (Permutation_NoDup (Permutation_sym HP1)). constructor; auto. apply (se_NoDup _ _ _ Hs).
        - intros x Hx. apply (Permutation_in _ HP1) in Hx. destruct Hx as [<-|Hx]; auto. apply (se_custs _ _ _ Hs); auto.
        - rewrite <- Ep. exact HA.
        - rewrite <- Ep, HNw, (se_weight _ _ _ Hs). reflexivity.
        - rewrite <- Ep, HNt, (se_time _ _ _ Hs). reflexivity.
        - rewrite Hsum. exact Hload.
        - rewrite (se_stops _ _ _ Hs), Hlen. lia.
        - intros _ l c E1 E2. rewrite Hsum, <- Hload. eapply Hcap; eauto.
        - intros _ D E1 E2. rewrite <- Ep, HNt, <- (se_time _ _ _ Hs). apply Hdur; auto. }
      destruct (match ns with Some n => (ps_stops s + 1 =? n)%Z | None => false end) eqn:En.
      + assert (Hns : ns = Some (Z.of_nat (List.length cs1))).
        { revert En. case_eq ns; [|discriminate]. intros n _ En. apply Z.eqb_eq in En.
          rewrite (se_stops _ _ _ Hs) in En. f_equal. lia. }
        destruct fw.
        * destruct (mem v (preds h Sink)) eqn:Em; [|eexists _, _, _; split; [reflexivity|auto]].
          eexists _, _, _. split; [reflexivity|]. right. right. split; auto. split; auto.
          apply mem_In, in_preds in Em. exists cs1. unfold cs1 in *. cbn [partial_path] in *.
          constructor; cbn [ps_path ps_weight].
          -- unfold trip. cbn [app]. reflexivity.
          -- apply (se_NoDup _ _ _ HS1).
          -- apply (se_custs _ _ _ HS1).
          -- assert (HA1 := se_along _ _ _ HS1). cbn [partial_path] in HA1. unfold trip.
             rewrite <- app_assoc. cbn [app]. change (Source :: cs ++ [v; Sink]) with ((Source :: cs) ++ [v; Sink]).
             apply along_snoc. split; auto.
          -- left. destruct cs; discriminate.
          -- intros n E1 E2. rewrite Hns in E1. injection E1 as <-. lia.
          -- intros l c E1 E2. rewrite node_sum_app, node_sum_cons, node_sum_nil, Hsink.
             assert (H := se_fits _ _ _ HS1 ltac:(destruct cs; discriminate) l c E1 E2). lra.
          -- right. split; auto. split; auto. split.
             ++ exact (se_weight _ _ _ HS1).
             ++ apply (se_fits_time _ _ _ HS1). destruct cs; discriminate.
        * assert (Em : mem v (succs h Sink) = false).
          { apply mem_false. intro C. apply in_succs in C. apply (net_no_out _ _ HN _ C). }
          rewrite Em. eexists _, _, _. split; [reflexivity|]. auto.
      + eexists _, _, _. split; [reflexivity|]. left. split; auto. exists cs1. split; auto. split; auto.
        intros n E1 E2. specialize (Hn n E1 E2). rewrite Hlen. rewrite E1, (se_stops _ _ _ Hs) in En.
        apply Z.eqb_neq in En. lia.
  Qed.

  Lemma searching_bound fw cs s : searching fw cs s -> (List.length cs < List.length (nodes h))%nat.
  Proof.
    intro Hs. change (S (List.length cs) <= List.length (nodes h))%nat.
    change (S (List.length cs)) with (List.length (Source :: cs)).
    apply NoDup_incl_length.
    - constructor; [|apply (se_NoDup _ _ _ Hs)]. intro C. apply (se_custs _ _ _ Hs) in C. tauto.
    - intros v [<-|Hv]; [apply (net_source _ _ HN)|].
      assert (HA := se_along _ _ _ Hs). destruct fw; unfold partial_path in HA.
      + assert (Hin : In v (map snd (arcs (Source :: cs)))) by (rewrite arcs_map_snd; auto).
        apply in_map_iff in Hin. destruct Hin as ([a b] & Eb & Hab). simpl in Eb. subst b.
        apply HA, (wf_ends _ (net_wf _ _ HN)) in Hab. tauto.
      + destruct cs as [|c cs]; [destruct Hv|].
        assert (Hin : In v (map fst (arcs (c :: cs ++ [Sink])))).
        { rewrite arcs_map_fst. change (c :: cs ++ [Sink]) with ((c :: cs) ++ [Sink]).
          rewrite removelast_last. auto. }
        apply in_map_iff in Hin. destruct Hin as ([a b] & Eb & Hab). simpl in Eb. subst a.
        apply HA, (wf_ends _ (net_wf _ _ HN)) in Hab. tauto.
  Qed.

  Lemma loop_ok fuel : forall fw cs s pick,
    searching fw cs s -> (List.length (nodes h) <= fuel + List.length cs)%nat ->
    (forall n, ns = Some n -> (0 < n)%Z -> (Z.of_nat (List.length cs) < n)%Z) ->
    exists s1 new, p_loop h caps ns dur k fuel s fw pick = Ok (s1, new) /\
      (new = true -> exists cs1, found fw cs1 s1).
  Proof.
    induction fuel as [|f IH]; intros fw cs s pick Hs Hf Hn.
    - apply searching_bound in Hs. lia.
    - cbn [p_loop]. destruct (extend_ok s fw (pick 0%nat) _ (searching_end _ _ _ Hs)) as (r & -> & Hr).
      cbn [bind]. destruct r as [v|]; [|eexists _, _; split; [reflexivity|discriminate]].
      destruct (negb (node_truthy v)); [eexists _, _; split; [reflexivity|discriminate]|].
      destruct Hr as (Ha & He). destruct (update_ok fw cs s v Hs Ha He Hn) as (s1 & new & ext & -> & Hc).
      cbn [bind]. destruct Hc as [(-> & cs1 & H1 & H2 & H3)|[(-> & ->)|(-> & -> & cs1 & H1)]].
      + apply (IH fw cs1); auto. lia.
      + eexists _, _. split; [reflexivity|discriminate].
      + eexists _, _. split; [reflexivity|]. eauto.
  Qed.

  Lemma run_ok fw pick : exists s new, p_run h caps ns dur k fw pick = Ok (s, new) /\
    (new = true -> exists cs, found fw cs s).
  Proof.
    unfold p_run. apply (loop_ok _ fw []); [|simpl; lia|intros; simpl; lia].
    constructor; cbn [ps_path ps_weight ps_time ps_load ps_stops]; try (destruct fw; reflexivity);
      try tauto; try constructor; try congruence.
    intros u v Huv. destruct fw; destruct Huv.
  Qed.

  (** the column of a completed search *)
  Variable keys : list node.
  Hypothesis Hkeys : forall v, In v (custs h) -> In v keys.

  Lemma new_route_ok routes cs :
    NoDup cs -> (forall v, In v cs -> v <> Source /\ v <> Sink) -> along (arc_list h) (trip cs) ->
    exists c, p_new_route h k keys routes (trip cs) = Ok (routes ++ [c]) /\
      c_name c = CNat (S (List.length routes)) /\ is_column h k cs c /\
      shortest_path (c_arcs c) Source Sink = Ok (trip cs).
  Proof.
    intros H1 H2 H3. unfold p_new_route.
    assert (Hnd : NoDup (trip cs)) by (apply route_shape_NoDup; exists cs; auto).
    destruct (digraph_trip _ _ Hnd (Permutation_refl _)) as (D1 & D2).
    destruct (digraph_of (arcs (trip cs))) as [nl el] eqn:ED. cbn [fst snd] in D1, D2.
    assert (Hin : forall a, In a el -> In a (arc_list h)).
    { intros [u v] Ha. apply H3, (Permutation_in _ D2). auto. }
    destruct (cost_fold h K k keys el 0 HN Hk Hin) as (q & -> & Eq).
    { intros [u v] Ha Hs. cbn [fst] in *. apply Hkeys. specialize (Hin _ Ha).
      apply in_custs. split; [|split; auto].
      - apply (wf_ends _ (net_wf _ _ HN) u v); auto.
      - intro C. subst. apply (net_no_out _ _ HN v). auto. }
    cbn [bind]. eexists. split; [reflexivity|]. cbn [c_name]. split; auto. split; [|apply trip_shortest; auto].
    constructor; cbn [c_nodes c_arcs c_cost c_type]; auto.
    rewrite Eq, (Qsum_perm _ _ (Permutation_map _ D2)).
    change (Qsum (map (fun a => cost_of h k (fst a) (snd a)) (arcs (trip cs)))) with (path_sum (cost_of h k) (trip cs)).
    lra.
  Qed.

  (** what is known about a column of the greedy pricing *)
  Record greedy_column (n : nat) (c : column) (cs : list node) : Prop := {
    gc_name : c_name c = CNat (S n);
    gc_col : is_column h k cs c;
    gc_short : shortest_path (c_arcs c) Source Sink = Ok (trip cs);
    gc_shape : route_shape (trip cs);
    gc_along : along (arc_list h) (trip cs);
    gc_some : cs = [] -> weight_of h Source Sink < 0;
    gc_stops : forall n, ns = Some n -> (0 < n)%Z -> (Z.of_nat (List.length cs) <= n)%Z;
    gc_load : within_load h caps k cs;
    gc_rest :
      (path_sum (weight_of h) (trip cs) < 0 /\
       forall D, dur = Some D -> D <> 0%Z -> path_sum (time_of h) (trip cs) <= inject_Z D) \/
      (ns = Some (Z.of_nat (List.length cs)) /\ path_sum (weight_of h) (Source :: cs) < 0 /\
       forall D, dur = Some D -> D <> 0%Z -> path_sum (time_of h) (Source :: cs) <= inject_Z D)
  }.

  Lemma attempt_ok fw routes more pick :
    exists r, p_attempt h caps ns dur k keys fw (routes, more) pick = Ok r /\
      (r = (routes, more) \/
       exists c cs, r = (routes ++ [c], true) /\ greedy_column (List.length routes) c cs).
  Proof.
    unfold p_attempt. destruct (run_ok fw pick) as (s & new & -> & Hr). cbn [bind fst snd].
    destruct new; cbn [andb]; [|eauto]. destruct (Qltb (ps_weight s) 0) eqn:Ew; [|eauto].
    destruct (Hr eq_refl) as (cs & F). rewrite (fo_path _ _ _ F).
    destruct (new_route_ok routes cs (fo_NoDup _ _ _ F) (fo_custs _ _ _ F) (fo_along _ _ _ F))
      as (c & -> & C1 & C2 & C3). cbn [bind].
    eexists. split; [reflexivity|]. right. exists c, cs. split; auto. apply Qltb_lt in Ew.
    constructor; auto.
    - exists cs. split; [reflexivity|]. split; [apply (fo_NoDup _ _ _ F)|apply (fo_custs _ _ _ F)].
    - apply (fo_along _ _ _ F).
    - intro C. destruct (fo_some _ _ _ F) as [A|A]; [congruence|].
      destruct (fo_rest _ _ _ F) as [(B & _)|(B & _)]; [|congruence].
      rewrite C in B. unfold path_sum in B. cbn in B. lra.
    - apply (fo_stops _ _ _ F).
    - apply (fo_load _ _ _ F).
    - destruct (fo_rest _ _ _ F) as [(A & B)|(A1 & A2 & A3 & A4)]; [left|right].
      + rewrite <- A. auto.
      + rewrite <- A3. auto.
  Qed.

  (** the columns appended to a pool *)
  Definition pool_step (s r : list column * bool) : Prop :=
    exists l, fst r = fst s ++ l /\ (snd r = true <-> snd s = true \/ l <> []) /\
      forall i c, nth_error l i = Some c -> exists cs, greedy_column (List.length (fst s) + i) c cs.

  Lemma pool_step_refl s : pool_step s s.
  Proof.
    exists []. rewrite app_nil_r. split; auto. split; [intuition|]. intros i c H. destruct i; discriminate.
  Qed.
  Lemma pool_step_trans s1 s2 s3 : pool_step s1 s2 -> pool_step s2 s3 -> pool_step s1 s3.
  Proof.
    intros (l1 & A1 & A2 & A3) (l2 & B1 & B2 & B3). exists (l1 ++ l2).
    split; [rewrite B1, A1, app_assoc; reflexivity|]. split.
    - rewrite B2, A2. destruct l1, l2; simpl; intuition discriminate.
    - intros i c Hi. destruct (lt_dec i (List.length l1)) as [H|H].
      + rewrite nth_error_app1 in Hi by auto. apply A3; auto.
      + rewrite nth_error_app2 in Hi by lia. destruct (B3 _ _ Hi) as (cs & H1). exists cs.
        rewrite A1, app_length in H1.
        replace (List.length (fst s1) + i)%nat with (List.length (fst s1) + List.length l1 + (i - List.length l1))%nat by lia.
        exact H1.
  Qed.

  Lemma attempts_ok fw picks s :
    exists r, foldM (p_attempt h caps ns dur k keys fw) picks s = Ok r /\ pool_step s r.
  Proof.
    apply (foldM_inv_ok _ (pool_step s)); [|apply pool_step_refl].
    intros [routes more] pick _ H1. destruct (attempt_ok fw routes more pick) as (r & -> & Hr).
    exists r. split; auto. apply (pool_step_trans _ _ _ H1). destruct Hr as [->|(c & cs & -> & G)].
    - apply pool_step_refl.
    - exists [c]. split; auto. split; [simpl; intuition discriminate|].
      intros [|i] c' Hi; [|destruct i; discriminate]. injection Hi as <-. exists cs.
      rewrite Nat.add_0_r. exact G.
  Qed.

  Theorem greedy_pricing_ok routes n rnd :
    exists l more, greedy_pricing h caps ns dur k keys routes n rnd = Ok (routes ++ l, more) /\
      (more = true <-> l <> []) /\
      forall i c, nth_error l i = Some c -> exists cs, greedy_column (List.length routes + i) c cs.
  Proof.
    unfold greedy_pricing. destruct (attempts_ok true (map rnd (seq 0 n)) (routes, false)) as (r1 & -> & S1).
    cbn [bind]. destruct (attempts_ok false (map rnd (seq n n)) r1) as (r2 & -> & S2).
    destruct (pool_step_trans _ _ _ S1 S2) as (l & A1 & A2 & A3). cbn [fst snd] in *.
    exists l, (snd r2). split; [destruct r2; cbn [fst snd] in *; rewrite A1; reflexivity|].
    split; auto. rewrite A2. intuition discriminate.
  Qed.
End GP.
