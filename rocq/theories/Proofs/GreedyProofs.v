(** Invariants of the greedy initial heuristic. *)
From Verif.Base Require Import Prelude Graph.
From Verif.Spec Require Import Routes Network Feasible Prep Heuristics.
From Verif.Model Require Import Args Reach Checks Preprocess ClarkeWright Greedy.
From Verif.Proofs Require Import RouteLemmas ReachLemmas FeasProofs PreLemmas PruneProofs CWProofs.

Lemma list_remove_ok v l :
  In v l -> exists l', list_remove v l = Ok l' /\ Permutation l (v :: l').
Proof.
  induction l as [|w l IH]; intro H; [destruct H|]. cbn [list_remove].
  destruct (node_eqb w v) eqn:E.
  - apply node_eqb_eq in E. subst. exists l. auto.
  - destruct H as [->|H]; [rewrite node_eqb_refl in E; discriminate|].
    destruct (IH H) as (l' & -> & P). cbn [bind]. exists (w :: l'). split; auto.
    eapply Permutation_trans; [apply perm_skip, P|apply perm_swap].
Qed.

Lemma last_node_ok u l : last_node (u :: l) = Ok (last (u :: l) u).
Proof. reflexivity. Qed.

Lemma last_snoc {A} (l : list A) x d : last (l ++ [x]) d = x.
Proof. apply last_app_single. Qed.

Lemma last_cons_snoc {A} (u : A) l x d : last (u :: l ++ [x]) d = x.
Proof. change (u :: l ++ [x]) with ((u :: l) ++ [x]). apply last_app_single. Qed.

Section Greedy.
  Variable g : vgraph.
  Variable lim : limits.
  Hypothesis N : network 1 g.
  Hypothesis RT : round_trips g.
  Hypothesis SS : In (Source, Sink) (arc_list g).
  Let W : wf g := net_wf _ _ N.
  Let veh := mkVehicle (l_cap lim) (l_dur lim) (l_stops lim).

  Lemma path_last cs (w : node -> node -> Q) v :
    path_sum w (Source :: cs ++ [v]) == path_sum w (Source :: cs) + w (last (Source :: cs) Source) v.
  Proof.
    destruct cs as [|c cs] using rev_ind.
    - simpl. unfold path_sum. simpl. lra.
    - rewrite last_cons_snoc.
      replace (Source :: (cs ++ [c]) ++ [v]) with ((Source :: cs) ++ [c; v]) by (simpl; rewrite <- app_assoc; auto).
      rewrite path_sum_snoc. reflexivity.
  Qed.

  Lemma along_last A cs v :
    along A (Source :: cs ++ [v]) <-> along A (Source :: cs) /\ In (last (Source :: cs) Source, v) A.
  Proof.
    destruct cs as [|c cs] using rev_ind.
    - simpl. rewrite along_cons2. split.
      + intros (H & _). split; auto. intros x y [].
      + intros (_ & H). split; auto. intros x y [].
    - rewrite last_cons_snoc.
      replace (Source :: (cs ++ [c]) ++ [v]) with ((Source :: cs) ++ [c; v]) by (simpl; rewrite <- app_assoc; auto).
      rewrite along_snoc. reflexivity.
  Qed.

  Lemma ns_snoc (w : node -> Q) cs v : node_sum w (cs ++ [v]) == node_sum w cs + w v.
  Proof. rewrite node_sum_app. unfold node_sum. simpl. lra. Qed.

  (** The state of a forward run that started with the customers [T0] waiting and value [v0],
      after visiting [cs]. *)
  Record open (T0 : list node) (v0 : Q) (s : gstate) (cs : list node) : Prop := {
    op_path : gs_path s = Some (Source :: cs);
    op_todo : Permutation T0 (cs ++ gs_todo s);
    op_along : along (arc_list g) (Source :: cs);
    op_load : gs_load s == node_sum (demand_of g) cs;
    op_time : gs_time s == path_sum (time_of g) (Source :: cs) + node_sum (service_of g) cs;
    op_value : gs_value s == v0 + path_sum (cost_of g 0) (Source :: cs);
    op_stops : gs_stops s = Z.of_nat (List.length cs);
    op_less : forall n, l_stops lim = Some n -> cs <> [] -> Z.of_nat (List.length cs) <> n;
    op_rule : forall a v b, cs = a ++ v :: b ->
       can_go_on g veh T0 a v /\
       forall x, can_go_on g veh T0 a x ->
         cost_of g 0 (last (Source :: a) Source) v <= cost_of g 0 (last (Source :: a) Source) x
  }.

  Variable T0 : list node.
  Hypothesis HT : NoDup T0.
  Hypothesis HTc : forall v, In v T0 -> In v (custs g).

  Lemma open_custs v0 s cs : open T0 v0 s cs ->
    (forall v, In v cs -> In v (custs g)) /\ NoDup cs /\
    (forall v, In v (gs_todo s) <-> In v T0 /\ ~ In v cs).
  Proof.
    intro O. pose proof (op_todo _ _ _ _ O) as P.
    pose proof (Permutation_NoDup P HT) as Nd. apply NoDup_app_inv in Nd. destruct Nd as (N1 & N2 & N3).
    split; [|split; auto].
    - intros v H. apply HTc. apply (Permutation_in _ (Permutation_sym P)). apply in_or_app; auto.
    - intro v. split.
      + intro H. split; [apply (Permutation_in _ (Permutation_sym P)); apply in_or_app; auto|].
        intro H2. apply (N3 v); auto.
      + intros (H1 & H2). apply (Permutation_in _ P) in H1. apply in_app_or in H1. tauto.
  Qed.

  Lemma open_last v0 s cs : open T0 v0 s cs -> In (last (Source :: cs) Source) (nodes g).
  Proof.
    intro O. destruct cs as [|c cs _] using rev_ind.
    - simpl. apply N.
    - rewrite last_cons_snoc. destruct (open_custs _ _ _ O) as (H & _).
      specialize (H c). rewrite in_custs in H. apply H. apply in_or_app; simpl; auto.
  Qed.

  (** _constraints_met for a successor *)
  Lemma g_constraints_ok v0 s cs v :
    open T0 v0 s cs -> In (last (Source :: cs) Source, v) (arc_list g) ->
    exists b, g_constraints g lim s (Source :: cs) (last (Source :: cs) Source) v = Ok b /\
      (In v T0 -> ~ In v cs -> (b = true <-> trip_fits g veh (cs ++ [v]))).
  Proof.
    intros O Ha. unfold g_constraints.
    set (u := last (Source :: cs) Source) in *.
    assert (Hv : In v (nodes g)) by (apply (wf_ends g W) in Ha; tauto).
    destruct (open_custs _ _ _ O) as (Hcs & _).
    destruct (mem v (Source :: cs) || (node_eqb u Source && node_eqb v Sink)) eqn:E1.
    - eexists. split; [reflexivity|]. intros HvT Hvc. exfalso.
      pose proof (cust_ne g v (HTc v HvT)) as (Hn1 & Hn2).
      apply orb_true_iff in E1. destruct E1 as [E1|E1].
      + apply mem_In in E1. destruct E1; congruence.
      + apply andb_true_iff in E1. destruct E1 as (_ & E1). apply node_eqb_eq in E1. auto.
    - unfold g_check_capacity, g_check_duration.
      rewrite (get_node_total g v Hv), (stime_total g u v Ha). cbn [bind].
      assert (Hb : exists b, (if node_eqb v Sink then Ok 0 else stime g v Sink) = Ok b /\
                   (v <> Sink -> b = time_of g v Sink)).
      { destruct (node_eqb v Sink) eqn:Es.
        - apply node_eqb_eq in Es. eexists. split; [reflexivity|congruence].
        - apply node_eqb_neq in Es.
          assert (Hs : v <> Source). { intros ->. apply (net_no_in _ _ N) in Ha. auto. }
          rewrite (stime_total g v Sink); [eauto|]. apply RT. apply in_custs. auto. }
      destruct Hb as (bk & Hb & Hbk). rewrite Hb. cbn [bind].
      set (t2 := negb (over (gs_time s + service (nd g v) + time_of g u v + bk) (l_dur lim))).
      set (t1 := negb (over (gs_load s + demand (nd g v)) (l_cap lim))).
      exists ((if truthy (l_cap lim) then t1 else true) && (if truthy (l_dur lim) then t2 else true)).
      split.
      + destruct (truthy (l_cap lim)), (truthy (l_dur lim)); cbn [bind];
          destruct t1; destruct t2; reflexivity.
      + intros HvT Hvc. pose proof (cust_ne g v (HTc v HvT)) as (Hn1 & Hn2). specialize (Hbk Hn2).
        unfold trip_fits. simpl (v_cap veh). simpl (v_dur veh). rewrite andb_true_iff.
        assert (ED : path_sum (time_of g) (Source :: (cs ++ [v]) ++ [Sink]) + node_sum (service_of g) (cs ++ [v]) ==
                     gs_time s + service (nd g v) + time_of g u v + bk).
        { rewrite path_last, last_cons_snoc, path_last, ns_snoc, (op_time _ _ _ _ O). fold u.
          rewrite Hbk. unfold service_of. lra. }
        assert (EC : node_sum (demand_of g) (cs ++ [v]) == gs_load s + demand (nd g v)).
        { rewrite ns_snoc, (op_load _ _ _ _ O). reflexivity. }
        split.
        * intros (B1 & B2). split.
          -- intros c Hc Hc0. rewrite Hc in B1. rewrite (proj2 (truthy_Some c) Hc0) in B1.
             unfold t1 in B1. rewrite Hc in B1. apply negb_true_iff, over_false in B1. rewrite EC. auto.
          -- intros D HD HD0. rewrite HD in B2. rewrite (proj2 (truthy_Some D) HD0) in B2.
             unfold t2 in B2. rewrite HD in B2. apply negb_true_iff, over_false in B2. rewrite ED. auto.
        * intros (F1 & F2). split.
          -- destruct (truthy (l_cap lim)) eqn:Et; auto. apply truthy_some in Et. destruct Et as (c & Hc & Hc0).
             unfold t1. rewrite Hc. apply negb_true_iff. unfold over. apply Qltb_ge.
             rewrite <- EC. apply F1; auto.
          -- destruct (truthy (l_dur lim)) eqn:Et; auto. apply truthy_some in Et. destruct Et as (D & HD & HD0).
             unfold t2. rewrite HD. apply negb_true_iff. unfold over. apply Qltb_ge.
             rewrite <- ED. apply F2; auto.
  Qed.

  Lemma g_next_ok v0 s cs :
    open T0 v0 s cs ->
    exists v, g_next g lim s = Ok v /\
      ((v = Sink /\ forall x, ~ can_go_on g veh T0 cs x) \/
       (can_go_on g veh T0 cs v /\ forall x, can_go_on g veh T0 cs x ->
          cost_of g 0 (last (Source :: cs) Source) v <= cost_of g 0 (last (Source :: cs) Source) x)).
  Proof.
    intro O. unfold g_next. rewrite (op_path _ _ _ _ O). rewrite last_node_ok. cbn [bind].
    set (u := last (Source :: cs) Source).
    destruct (open_custs _ _ _ O) as (Hcs & Hnd & Htodo).
    set (f := fun acc v =>
            let* ok := g_constraints g lim s (Source :: cs) u v in
            if ok && mem v (gs_todo s)
            then let* c := scost g u v in Ok (acc ++ [(v, c)])
            else Ok acc).
    assert (G : forall l acc, (forall v, In v l -> In (u, v) (arc_list g)) ->
       exists out, foldM f l acc = Ok out /\
         forall v c, In (v, c) out <-> In (v, c) acc \/
            (In v l /\ In v T0 /\ ~ In v cs /\ trip_fits g veh (cs ++ [v]) /\ c = cost_of g 0 u v)).
    { induction l as [|w l IH]; intros acc Hl; cbn [foldM].
      - exists acc. split; auto. intros v c. simpl. tauto.
      - assert (Hw : In (u, w) (arc_list g)) by (apply Hl; simpl; auto).
        destruct (g_constraints_ok v0 s cs w O Hw) as (b & Hb & Hbt). fold u in Hb.
        unfold f at 1. rewrite Hb. cbn [bind].
        destruct (b && mem w (gs_todo s)) eqn:E.
        + apply andb_true_iff in E. destruct E as (-> & E). apply mem_In, Htodo in E. destruct E as (E1 & E2).
          rewrite (scost_total g 1 u w N) by (auto; lia). cbn [bind].
          destruct (IH (acc ++ [(w, cost_of g 0 u w)])) as (out & H1 & H2); [intros; apply Hl; simpl; auto|].
          exists out. split; auto. intros v c. rewrite H2, in_app_iff. simpl. split.
          * intros [[H|[H|[]]]|H]; auto.
            -- inversion H; subst. right. repeat split; auto; apply (proj1 (Hbt E1 E2) eq_refl).
            -- right. tauto.
          * intros [H|([<-|H] & Hr)]; auto. left. right. left. destruct Hr as (_ & _ & _ & ->). auto.
        + destruct (IH acc) as (out & H1 & H2); [intros; apply Hl; simpl; auto|].
          cbn [bind]. exists out. split; auto. intros v c. rewrite H2. simpl. split.
          * intros [H|H]; tauto.
          * intros [H|([<-|H] & Hr)]; auto. exfalso. destruct Hr as (H3 & H4 & H5 & _).
            apply andb_false_iff in E. destruct E as [E|E].
            -- apply (proj2 (Hbt H3 H4)) in H5. congruence.
            -- apply mem_false in E. apply E. apply Htodo. auto. }
    destruct (G (succs g u) []) as (out & H1 & H2); [intros v; apply in_succs|].
    rewrite H1. cbn [bind].
    assert (Hcan : forall x, can_go_on g veh T0 cs x <-> In (x, cost_of g 0 u x) out).
    { intro x. rewrite H2. unfold can_go_on. fold u. rewrite in_succs. simpl. intuition. }
    assert (Hc : forall x c, In (x, c) out -> c = cost_of g 0 u x).
    { intros x c H. apply H2 in H. simpl in H. tauto. }
    pose proof (sorted_asc_perm snd out) as P. pose proof (sorted_asc_ascending snd out) as A.
    destruct (sorted_asc snd out) as [|[v c] rest].
    - exists Sink. split; auto. left. split; auto. intros x Hx. apply Hcan in Hx.
      apply (Permutation_in _ P) in Hx. destruct Hx.
    - exists v. split; auto. right.
      assert (Hv : In (v, c) out) by (apply (Permutation_in _ (Permutation_sym P)); simpl; auto).
      pose proof (Hc v c Hv). subst c. split; [apply Hcan; auto|].
      intros x Hx. apply Hcan in Hx. apply (Permutation_in _ P) in Hx.
      simpl in A. destruct A as (A & _). destruct Hx as [Hx|Hx]; [inversion Hx; lra|].
      apply (A _ Hx).
  Qed.

  (** A completed forward run. *)
  Record closed (v0 : Q) (s : gstate) (cs : list node) : Prop := {
    cl_path : gs_path s = Some (full cs);
    cl_todo : Permutation T0 (cs ++ gs_todo s);
    cl_along : along (arc_list g) (full cs);
    cl_value : gs_value s == v0 + path_sum (cost_of g 0) (full cs);
    cl_stops : forall n, l_stops lim = Some n -> (1 <= n)%Z -> (Z.of_nat (List.length cs) <= n)%Z;
    cl_rule : nearest_rule g veh T0 cs
  }.

  Lemma last_to_sink v0 s cs : open T0 v0 s cs -> In (last (Source :: cs) Source, Sink) (arc_list g).
  Proof.
    intro O. destruct cs as [|c cs _] using rev_ind; [simpl; auto|].
    rewrite last_cons_snoc. destruct (open_custs _ _ _ O) as (H & _). apply RT. apply H.
    apply in_or_app; simpl; auto.
  Qed.

  Lemma forward_ok fuel : forall v0 s cs,
    open T0 v0 s cs -> (forall n, l_stops lim = Some n -> (1 <= n)%Z -> (Z.of_nat (List.length cs) < n)%Z) ->
    (List.length (gs_todo s) < fuel)%nat ->
    exists s' cs', g_forward g lim fuel s = Ok s' /\ closed v0 s' cs' /\
      (cs <> [] -> cs' <> []) /\ ((exists x, can_go_on g veh T0 cs x) -> cs' <> []).
  Proof.
    induction fuel as [|fuel IH]; intros v0 s cs O Hst Hf; [lia|]. cbn [g_forward].
    destruct (g_next_ok v0 s cs O) as (v & Hv & Hcase). rewrite Hv. cbn [bind].
    unfold g_update. rewrite (op_path _ _ _ _ O). rewrite last_node_ok.
    set (u := last (Source :: cs) Source) in *.
    destruct (open_custs _ _ _ O) as (Hcs & Hnd & Htodo).
    destruct Hcase as [(-> & Hno)|(Hcan & Hmin)].
    - (* back to the depot *)
      pose proof (last_to_sink v0 s cs O) as Hu. fold u in Hu.
      rewrite (get_node_total g Sink) by apply N. cbn [bind is_depot].
      rewrite (scost_total g 1 u Sink N) by (auto; lia).
      rewrite (stime_total g u Sink Hu). cbn [bind].
      rewrite node_eqb_refl. cbn [negb]. rewrite andb_false_r. cbn [bind fst snd].
      rewrite node_eqb_refl. eexists. exists cs. split; [reflexivity|]. split; [|split].
      + constructor; simpl.
        * reflexivity.
        * apply (op_todo _ _ _ _ O).
        * unfold full. apply along_last. split; [apply (op_along _ _ _ _ O)|auto].
        * unfold full. rewrite path_last. fold u. rewrite (op_value _ _ _ _ O). lra.
        * intros n Hn Hn1. specialize (Hst n Hn Hn1). lia.
        * split; [apply (op_rule _ _ _ _ O)|right; auto].
      + auto.
      + intros (x & Hx). exfalso. eapply Hno; eauto.
    - pose proof Hcan as Hcan0. destruct Hcan as (HvT & Hvc & Harc & Hfit). fold u in Harc.
      pose proof (HTc v HvT) as Hvcust. pose proof (cust_ne g v Hvcust) as (Hn1 & Hn2).
      assert (Hvn : In v (nodes g)) by (apply in_custs in Hvcust; tauto).
      rewrite (get_node_total g v Hvn). cbn [bind].
      rewrite (proj2 (is_depot_false v)) by auto.
      destruct (list_remove_ok v (gs_todo s)) as (todo & Ht & Pt); [apply Htodo; auto|].
      rewrite Ht. cbn [bind].
      rewrite (scost_total g 1 u v N) by (auto; lia). rewrite (stime_total g u v Harc). cbn [bind gs_stops].
      rewrite (proj2 (node_eqb_neq v Sink)) by auto. cbn [negb]. rewrite andb_true_r.
      assert (Ptodo : Permutation T0 ((cs ++ [v]) ++ todo)).
      { eapply Permutation_trans; [apply (op_todo _ _ _ _ O)|].
        rewrite <- app_assoc. apply Permutation_app_head. exact Pt. }
      assert (Hrule : forall a w b, cs ++ [v] = a ++ w :: b ->
         can_go_on g veh T0 a w /\
         forall x, can_go_on g veh T0 a x ->
           cost_of g 0 (last (Source :: a) Source) w <= cost_of g 0 (last (Source :: a) Source) x).
      { intros a w b E. destruct b as [|y b _] using rev_ind.
        - apply app_inj_tail in E. destruct E as (<- & <-). auto.
        - replace (a ++ w :: b ++ [y]) with ((a ++ w :: b) ++ [y]) in E by (rewrite <- app_assoc; auto).
          apply app_inj_tail in E. destruct E as (-> & _). apply (op_rule _ _ _ _ O a w b). auto. }
      assert (Hal : along (arc_list g) (Source :: cs ++ [v])).
      { apply along_last. split; [apply (op_along _ _ _ _ O)|auto]. }
      rewrite (op_stops _ _ _ _ O).
      destruct (match l_stops lim with Some n => (Z.of_nat (List.length cs) + 1 =? n)%Z | None => false end) eqn:Es.
      + (* num_stops reached *)
        pose proof (RT v Hvcust) as (_ & RTv).
        rewrite (proj2 (has_arc_In g v Sink) RTv).
        rewrite (scost_total g 1 v Sink N) by (auto; lia). cbn [bind fst snd].
        rewrite node_eqb_refl. eexists. exists (cs ++ [v]). split; [reflexivity|].
        assert (El : l_stops lim = Some (Z.of_nat (List.length (cs ++ [v])))).
        { rewrite app_length. simpl. clear - Es. destruct (l_stops lim) as [n|]; [|discriminate].
          apply Z.eqb_eq in Es. f_equal. lia. }
        split; [|split].
        * constructor; simpl.
          -- unfold full. rewrite <- app_assoc. reflexivity.
          -- auto.
          -- unfold full. apply along_last. split; auto. rewrite last_cons_snoc. auto.
          -- unfold full. rewrite path_last, last_cons_snoc, path_last. fold u.
             rewrite (op_value _ _ _ _ O). lra.
          -- intros m Hm Hm1. rewrite El in Hm. inversion Hm; subst m. lia.
          -- split; auto. left. split; [|destruct cs; discriminate]. exact El.
        * intros _. destruct cs; discriminate.
        * intros _. destruct cs; discriminate.
      + cbn [bind fst snd]. rewrite (proj2 (node_eqb_neq v Sink)) by auto.
        match goal with |- context[g_forward g lim fuel ?S] => set (s1 := S) end.
        destruct (IH v0 s1 (cs ++ [v])) as (s' & cs' & H1 & H2 & H3 & H4).
        * constructor; simpl; auto.
          -- rewrite ns_snoc, (op_load _ _ _ _ O). reflexivity.
          -- rewrite path_last, ns_snoc, (op_time _ _ _ _ O). fold u. unfold service_of. lra.
          -- rewrite path_last, (op_value _ _ _ _ O). fold u. lra.
          -- rewrite app_length. simpl. lia.
          -- intros n Hn _. rewrite Hn in Es. apply Z.eqb_neq in Es. rewrite app_length. simpl. lia.
        * intros n Hn Hn1'. rewrite Hn in Es. apply Z.eqb_neq in Es. specialize (Hst n Hn Hn1').
          rewrite app_length. simpl. lia.
        * simpl. apply Permutation_length in Pt. simpl in Pt. lia.
        * exists s', cs'. split; auto. split; auto.
          assert (cs' <> []) by (apply H3; destruct cs; discriminate). split; auto.
  Qed.
End Greedy.

Section Run.
  Variable g : vgraph.
  Variable lim : limits.
  Hypothesis N : network 1 g.
  Hypothesis RT : round_trips g.
  Hypothesis SS : In (Source, Sink) (arc_list g).
  Let veh := mkVehicle (l_cap lim) (l_dur lim) (l_stops lim).

  (** customers not visited by the trips [css] *)
  Definition waiting (css : list (list node)) : list node :=
    filter (fun v => negb (mem v (List.concat css))) (custs g).

  Lemma in_waiting css v : In v (waiting css) <-> In v (custs g) /\ ~ In v (List.concat css).
  Proof. unfold waiting. rewrite filter_In, negb_true_iff, mem_false. reflexivity. Qed.

  Lemma can_go_on_ext T T' a v : (forall x, In x T <-> In x T') ->
    can_go_on g veh T a v <-> can_go_on g veh T' a v.
  Proof. intro E. unfold can_go_on. rewrite E. reflexivity. Qed.

  Lemma nearest_ext T T' cs : (forall x, In x T <-> In x T') ->
    nearest_rule g veh T cs -> nearest_rule g veh T' cs.
  Proof.
    intros E (H1 & H2). split.
    - intros a v b Hc. destruct (H1 a v b Hc) as (A & B). split.
      + apply (can_go_on_ext T T'); auto.
      + intros x Hx. apply B. apply (can_go_on_ext T T'); auto.
    - destruct H2 as [H2|H2]; auto. right. intros x Hx. apply (H2 x). apply (can_go_on_ext T T'); auto.
  Qed.

  (** Facts about the trips [css] built so far. *)
  Record built (css : list (list node)) (todo : list node) (val : Q) : Prop := {
    bl_perm : Permutation (custs g) (List.concat css ++ todo);
    bl_along : forall cs, In cs css -> along (arc_list g) (full cs);
    bl_value : val == plan_cost g 0 (map full css);
    bl_stops : forall cs n, In cs css -> l_stops lim = Some n -> (1 <= n)%Z -> (Z.of_nat (List.length cs) <= n)%Z;
    bl_rule : forall a cs b, css = a ++ cs :: b -> nearest_rule g veh (waiting a) cs
  }.

  Lemma built_waiting css todo val : built css todo val -> forall v, In v (waiting css) <-> In v todo.
  Proof.
    intros B v. rewrite in_waiting. pose proof (bl_perm _ _ _ B) as P.
    pose proof (Permutation_NoDup P (custs_NoDup g (net_wf _ _ N))) as Nd.
    apply NoDup_app_inv in Nd. destruct Nd as (_ & _ & D). split.
    - intros (H1 & H2). apply (Permutation_in _ P) in H1. apply in_app_or in H1. tauto.
    - intro H. split.
      + apply (Permutation_in _ (Permutation_sym P)). apply in_or_app; auto.
      + intro H2. apply (D v); auto.
  Qed.

  Lemma run_ok (reach : bool) fuel : forall css s,
    (reach = true -> forall v, In v (custs g) -> trip_fits g veh [v]) ->
    built css (gs_todo s) (gs_value s) -> (List.length (gs_todo s) < fuel)%nat ->
    exists css' s', g_run g lim fuel (map full css) s = Ok (map full css', s') /\
      built css' (gs_todo s') (gs_value s') /\
      (reach = true -> gs_todo s' = [] /\
         ((forall cs, In cs css -> cs <> []) -> forall cs, In cs css' -> cs <> [])) /\
      (forall v, In v (gs_todo s') -> ~ can_go_on g veh (gs_todo s') [] v).
  Proof.
    induction fuel as [|fuel IH]; intros css s Hreach B Hf; [lia|]. cbn [g_run].
    destruct (gs_todo s) as [|v0 tl] eqn:Etodo.
    - exists css, s. rewrite Etodo. split; [|split; [|split]]; auto.
    - assert (Hne0 : gs_todo s <> []) by congruence. rewrite <- Etodo in *. clear v0 tl Etodo.
      set (s0 := mkGS (gs_todo s) (gs_value s) (Some [Source]) 0 0 0).
      pose proof (bl_perm _ _ _ B) as P.
      pose proof (Permutation_NoDup P (custs_NoDup g (net_wf _ _ N))) as Nd.
      apply NoDup_app_inv in Nd. destruct Nd as (Nd1 & Nd2 & Nd3).
      assert (HTc : forall v, In v (gs_todo s) -> In v (custs g)).
      { intros v H. apply (Permutation_in _ (Permutation_sym P)). apply in_or_app; auto. }
      destruct (forward_ok g lim N RT SS (gs_todo s) Nd2 HTc (2 + List.length (gs_todo s)) (gs_value s) s0 [])
        as (s1 & cs & H1 & C & _ & Hne).
      { constructor; simpl; auto.
        - intros x y [].
        - unfold node_sum. simpl. lra.
        - unfold path_sum, node_sum. simpl. lra.
        - unfold path_sum. simpl. lra.
        - intros a v b E. destruct a; discriminate. }
      { intros n Hn Hn1. simpl. lia. }
      { simpl. lia. }
      rewrite H1. cbn [bind].
      rewrite (cl_path _ _ _ _ _ _ C). unfold full at 2.
      assert (B1 : built (css ++ [cs]) (gs_todo s1) (gs_value s1)).
      { constructor.
        - rewrite concat_app. cbn [List.concat]. rewrite app_nil_r, <- app_assoc.
          eapply Permutation_trans; [exact P|]. apply Permutation_app_head. apply (cl_todo _ _ _ _ _ _ C).
        - intros c Hc. apply in_app_or in Hc. destruct Hc as [Hc|[<-|[]]].
          + apply (bl_along _ _ _ B); auto.
          + apply (cl_along _ _ _ _ _ _ C).
        - rewrite (cl_value _ _ _ _ _ _ C), (bl_value _ _ _ B). rewrite map_app.
          unfold plan_cost. rewrite map_app, Qsum_app. simpl. lra.
        - intros c n Hc Hn Hn1. apply in_app_or in Hc. destruct Hc as [Hc|[<-|[]]].
          + apply (bl_stops _ _ _ B c n); auto.
          + apply (cl_stops _ _ _ _ _ _ C n); auto.
        - intros a c b E. destruct b as [|y b _] using rev_ind.
          + apply app_inj_tail in E. destruct E as (<- & <-).
            eapply nearest_ext; [|apply (cl_rule _ _ _ _ _ _ C)]. intro x. symmetry.
            apply (built_waiting css _ _ B).
          + replace (a ++ c :: b ++ [y]) with ((a ++ c :: b) ++ [y]) in E by (rewrite <- app_assoc; auto).
            apply app_inj_tail in E. destruct E as (-> & _). apply (bl_rule _ _ _ B a c b). auto. }
      assert (Hcase : cs = [] \/ cs <> []) by (destruct cs; [left|right]; auto; discriminate).
      destruct Hcase as [->|Hc0].
      + cbn [app is_source_sink].
        exists (css ++ [[]]), s1. rewrite map_app. split; [reflexivity|]. split; auto.
        pose proof (cl_todo _ _ _ _ _ _ C) as Pt. cbn [app] in Pt.
        assert (Hn : forall v, ~ can_go_on g veh (gs_todo s) [] v).
        { intros v Hv. apply Hne; eauto. }
        split.
        * intro Hr. exfalso.
          destruct (gs_todo s) as [|v tl] eqn:Et.
          -- congruence.
          -- apply (Hn v). split; [simpl; auto|]. split; [auto|].
             simpl. split; [|apply Hreach; auto; apply HTc; simpl; auto].
             apply RT. apply HTc. simpl; auto.
        * intros v _ Hv. apply (Hn v). apply (can_go_on_ext (gs_todo s) (gs_todo s1)); auto.
          intro x. split; apply Permutation_in; auto using Permutation_sym.
      + assert (Eis : is_source_sink (Some (Source :: cs ++ [Sink])) = false).
        { destruct cs as [|c cs]; [congruence|].
          assert (Hc : In c (custs g)).
          { apply HTc. apply (Permutation_in _ (Permutation_sym (cl_todo _ _ _ _ _ _ C))). simpl; auto. }
          apply cust_ne in Hc. simpl. destruct c; try tauto; auto. }
        fold (full cs) in Eis. rewrite Eis.
        destruct (IH (css ++ [cs]) s1) as (css' & s' & E1 & E2 & E3 & E4); auto.
        * pose proof (cl_todo _ _ _ _ _ _ C) as Pt. apply Permutation_length in Pt.
          rewrite app_length in Pt. destruct cs; [congruence|]. simpl in Pt. lia.
        * exists css', s'. rewrite map_app in E1. split; [exact E1|]. split; auto. split; auto.
          intro Hr. destruct (E3 Hr) as (F1 & F2). split; auto. intro Hall. apply F2.
          intros c Hc. apply in_app_or in Hc. destruct Hc as [Hc|[<-|[]]]; auto.
  Qed.
End Run.

Lemma visits_full v css : v <> Source -> v <> Sink ->
  visits v (map full css) = count_occ node_eq_dec (List.concat css) v.
Proof.
  intros H1 H2. induction css as [|cs css IH]; cbn [map visits List.concat]; auto.
  rewrite IH, count_occ_app. unfold full. rewrite count_occ_cons_neq by auto. rewrite count_occ_app.
  rewrite (count_occ_cons_neq node_eq_dec [] (x := Sink)) by auto. simpl. lia.
Qed.

Lemma can_go_on_same (g g1 : vgraph) w T a v :
  arc_list g1 = arc_list g -> (forall v, nd g1 v = nd g v) ->
  (forall u v, time_of g1 u v = time_of g u v) ->
  can_go_on g1 w T a v <-> can_go_on g w T a v.
Proof.
  intros Ea En Et. unfold can_go_on, trip_fits. rewrite Ea.
  assert (Etp : forall p, path_sum (time_of g1) p == path_sum (time_of g) p).
  { intro p. apply path_sum_ext. intros x y _. rewrite Et. reflexivity. }
  assert (Edp : forall p, node_sum (demand_of g1) p == node_sum (demand_of g) p).
  { intro p. apply node_sum_ext. intros u _. unfold demand_of. rewrite En. reflexivity. }
  assert (Esp : forall p, node_sum (service_of g1) p == node_sum (service_of g) p).
  { intro p. apply node_sum_ext. intros u _. unfold service_of. rewrite En. reflexivity. }
  split; intros (H1 & H2 & H3 & H4 & H5); repeat split; auto; intros x Hx Hx0.
  - rewrite <- Edp. auto.
  - rewrite <- Etp, <- Esp. auto.
  - rewrite Edp. auto.
  - rewrite Etp, Esp. auto.
Qed.

Lemma nearest_fits g w T cs : nearest_rule g w T cs -> cs <> [] -> trip_fits g w cs.
Proof.
  intros (H & _) Hne. destruct cs as [|c cs _] using rev_ind; [congruence|].
  destruct (H cs c [] eq_refl) as ((_ & _ & _ & F) & _). exact F.
Qed.

Lemma greedy_spec (g : vgraph) K caps dur st :
  network K g -> (1 <= K)%nat -> round_trips g -> In (Source, Sink) (arc_list g) -> caps <> Some [] ->
  exists rs q, greedy_heuristic g caps st dur = Ok (rs, q) /\
    q == plan_cost g 0 rs /\
    (forall v, In v (custs g) -> (visits v rs <= 1)%nat) /\ only_visits (custs g) rs /\
    (forall v, In v (custs g) -> trip_fits g (first_vehicle caps dur st) [v] -> visits v rs = 1%nat) /\
    ((forall v, In v (custs g) -> trip_fits g (first_vehicle caps dur st) [v]) ->
       forall p, In p rs -> stops p <> []) /\
    (forall p, In p rs ->
      route_shape p /\ along (arc_list g) p /\
      (stops p <> [] -> trip_fits g (first_vehicle caps dur st) (stops p)) /\
      (forall n, st = Some n -> (1 <= n)%Z -> (Z.of_nat (List.length (stops p)) <= n)%Z)) /\
    (forall rs1 p rs2, rs = rs1 ++ p :: rs2 ->
       nearest_rule g (first_vehicle caps dur st) (unvisited g rs1) (stops p)).
Proof.
  intros N HK RT SS Hcaps. unfold greedy_heuristic.
  destruct (first_costs_ok g K N HK) as (g1 & E1 & Gn & Ga & N1 & En & Ec & Et).
  rewrite E1. cbn [bind].
  assert (Hcap : first_capacity caps = Ok (v_cap (first_vehicle caps dur st))).
  { destruct caps as [[|z l]|]; simpl; congruence. }
  rewrite Hcap. cbn [bind].
  set (w := first_vehicle caps dur st) in *.
  pose proof (custs_same g g1 Gn) as Ecu.
  assert (RT1 : round_trips g1) by (unfold round_trips; rewrite Ecu, Ga; exact RT).
  assert (SS1 : In (Source, Sink) (arc_list g1)) by (rewrite Ga; auto).
  set (lim := mkLimits (v_cap w) dur st).
  assert (Ew : mkVehicle (l_cap lim) (l_dur lim) (l_stops lim) = w) by reflexivity.
  assert (B0 : built g1 lim [] (custs g1) 0).
  { constructor; simpl; auto; try tauto.
    - unfold plan_cost. simpl. lra.
    - intros a cs b E. destruct a; discriminate. }
  assert (Run : forall reach, (reach = true -> forall v, In v (custs g1) -> trip_fits g1 w [v]) -> _) by
    (intros reach Hr; exact (run_ok g1 lim N1 RT1 SS1 reach (S (List.length (custs g1))) []
                               (mkGS (custs g1) 0 None 0 0 0) Hr B0 (Nat.lt_succ_diag_r _))).
  destruct (Run false) as (css & s & H & B & _ & Hno); [discriminate|].
  cbn [map] in H. rewrite H. cbn [bind fst snd].
  exists (map full css), (gs_value s). split; [reflexivity|].
  assert (Ecp : forall p, path_sum (cost_of g1 0) p == path_sum (cost_of g 0) p).
  { intro p. apply path_sum_ext. intros u v _. rewrite Ec. reflexivity. }
  pose proof (bl_perm _ _ _ _ _ B) as P.
  pose proof (Permutation_NoDup P (custs_NoDup g1 (net_wf _ _ N1))) as Nd.
  apply NoDup_app_inv in Nd. destruct Nd as (Nd1 & Nd2 & Nd3).
  assert (Hcc : forall cs v, In cs css -> In v cs -> In v (custs g1)).
  { intros cs v Hc Hv. apply (Permutation_in _ (Permutation_sym P)). apply in_or_app. left.
    apply in_concat. eauto. }
  assert (Hnd : forall cs, In cs css -> NoDup cs).
  { intros cs Hc. apply in_split in Hc. destruct Hc as (l1 & l2 & ->).
    rewrite concat_app in Nd1. cbn [List.concat] in Nd1. apply NoDup_app_inv in Nd1.
    destruct Nd1 as (_ & X & _). apply NoDup_app_inv in X. tauto. }
  assert (Hne : forall cs v, In cs css -> In v cs -> v <> Source /\ v <> Sink).
  { intros cs v Hc Hv. apply (cust_ne g1). eauto. }
  assert (Hst : forall cs, In cs css -> stops (full cs) = cs).
  { intros cs Hc. apply full_stops. intros v Hv. eauto. }
  assert (Hfits : forall v, trip_fits g1 w [v] <-> trip_fits g w [v]).
  { intro v. unfold trip_fits.
    assert (Etp : path_sum (time_of g1) (Source :: [v] ++ [Sink]) == path_sum (time_of g) (Source :: [v] ++ [Sink])).
    { apply path_sum_ext. intros x y _. rewrite Et. reflexivity. }
    assert (Edp : node_sum (demand_of g1) [v] == node_sum (demand_of g) [v]).
    { apply node_sum_ext. intros u _. unfold demand_of. rewrite En. reflexivity. }
    assert (Esp : node_sum (service_of g1) [v] == node_sum (service_of g) [v]).
    { apply node_sum_ext. intros u _. unfold service_of. rewrite En. reflexivity. }
    split; intros (F1 & F2); split; intros x Hx Hx0.
    - rewrite <- Edp. auto.
    - rewrite <- Etp, <- Esp. auto.
    - rewrite Edp. auto.
    - rewrite Etp, Esp. auto. }
  assert (Hrule : forall a cs b, css = a ++ cs :: b -> nearest_rule g w (unvisited g (map full a)) cs).
  { intros a cs b E. pose proof (bl_rule _ _ _ _ _ B a cs b E) as R. rewrite Ew in R.
    assert (EqT : forall x, In x (waiting g1 a) <-> In x (unvisited g (map full a))).
    { intro x. rewrite in_waiting. unfold unvisited. rewrite filter_In, Ecu, Nat.eqb_eq.
      split; intros (X1 & X2); split; auto.
      - rewrite visits_full by (apply (cust_ne g); auto). apply count_occ_not_In. auto.
      - rewrite visits_full in X2 by (apply (cust_ne g); auto). apply count_occ_not_In in X2. auto. }
    apply (nearest_ext g1 lim _ _ cs EqT) in R. rewrite Ew in R.
    destruct R as (R1 & R2). split.
    - intros a' v b' E'. destruct (R1 a' v b' E') as (X1 & X2). split.
      + apply (can_go_on_same g g1 w _ a' v Ga En Et). auto.
      + intros x Hx. rewrite <- !Ec. apply X2. apply (can_go_on_same g g1 w _ a' x Ga En Et). auto.
    - destruct R2 as [R2|R2]; auto. right. intros x Hx. apply (R2 x).
      apply (can_go_on_same g g1 w _ cs x Ga En Et). auto. }
  rewrite <- Ecu.
  split; [|split; [|split; [|split; [|split; [|split]]]]].
  - rewrite (bl_value _ _ _ _ _ B). unfold plan_cost. apply Qsum_map_ext. intros p _. apply Ecp.
  - intros v Hv. pose proof (cust_ne g1 v Hv) as (X1 & X2). rewrite visits_full by auto.
    apply NoDup_count_occ. auto.
  - intros p v Hp Hv X1 X2. apply in_map_iff in Hp. destruct Hp as (cs & <- & Hc).
    apply in_full in Hv. destruct Hv as [?|[Hv|?]]; try contradiction. eauto.
  - intros v Hv Hf. pose proof (cust_ne g1 v Hv) as (X1 & X2). rewrite visits_full by auto.
    apply NoDup_count_occ'; auto.
    pose proof (Permutation_in _ P Hv) as X. apply in_app_or in X. destruct X as [X|X]; auto.
    exfalso. apply (Hno v X). rewrite Ew. split; auto. split; [auto|]. split.
    + simpl. apply RT1. auto.
    + apply Hfits. auto.
  - intros Hall p Hp. destruct (Run true) as (css' & s' & H' & _ & H1' & _).
    + intros _ v Hv. apply Hfits. apply Hall. auto.
    + cbn [map] in H'. rewrite H in H'. inversion H' as [[X1 X2]]. rewrite X1 in Hp.
      destruct (H1' eq_refl) as (_ & Y). apply in_map_iff in Hp. destruct Hp as (cs & <- & Hc).
      specialize (Y (fun _ F => match F with end) cs Hc).
      assert (Hin : In (full cs) (map full css)) by (rewrite X1; apply in_map; auto).
      apply in_map_iff in Hin. destruct Hin as (cs2 & E2 & Hc2).
      assert (cs2 = cs). { unfold full in E2. inversion E2 as [E3]. apply app_inj_tail in E3. tauto. }
      subst cs2. rewrite Hst; auto.
  - intros p Hp. apply in_map_iff in Hp. destruct Hp as (cs & <- & Hc). rewrite (Hst cs Hc).
    split; [apply full_shape; eauto|]. split; [rewrite <- Ga; apply (bl_along _ _ _ _ _ B); auto|].
    split.
    + intro Hne0. apply in_split in Hc. destruct Hc as (l1 & l2 & E).
      eapply nearest_fits; [apply (Hrule l1 cs l2 E)|auto].
    + intros n Hn Hn1. apply (bl_stops _ _ _ _ _ B cs n); auto.
  - intros rs1 p rs2 E. apply map_eq_app in E. destruct E as (l1 & l2 & E & <- & E2).
    destruct l2 as [|cs l2]; [discriminate|]. cbn [map] in E2. inversion E2; subst p rs2.
    rewrite Hst; [|rewrite E; apply in_or_app; simpl; auto]. apply (Hrule l1 cs l2 E).
Qed.
