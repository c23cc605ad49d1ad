(** Column generation on a plain network raises no exception, unless the solver fails on a master
    problem that has a solution. *)
From Verif.Base Require Import Prelude Graph.
From Verif.Spec Require Import Routes Network LinProg Pricing MIP Columns Timing Labelling Pool Master Run Results.
From Verif.Model Require Import Args Reach Checks Preprocess ClarkeWright Greedy Initial Pricing
  GreedyPricing LPPricing Cspy Master Dive Hyper ColGen Post.
From Verif.Proofs Require Import RouteLemmas ReachLemmas ChecksProofs PricingProofs LPProofs LPColumn LPComplete CspyProofs CspyCall PricingCor PoolProofs PoolQuality
  MasterProofs MasterCor SelectProofs MasterEnd DualityProofs BoundProofs ColGenProofs RunProofs ColGenCor ColGenEnd PostEnd ExactPool PlanGen.

Section Total.
  Variables (E : env) (C : cgconfig) (g : vgraph).
  Local Notation K := (cg_types C).
  Local Notation o := (cg_options C).
  Local Notation mo := (cg_master C).
  Hypothesis Net : network K g.
  Hypothesis Cap : forall k l, (k < K)%nat -> cg_caps C = Some l -> l <> [] -> (k < List.length l)%nat.
  Hypothesis TW : o_time_windows o = false.
  Hypothesis PD : o_pickup_delivery o = false.
  Hypothesis SDC : o_distribution_collection o = false.
  Hypothesis DS : demand_of g Source == 0.
  Hypothesis DT : demand_of g Sink == 0.
  Hypothesis Keys : forall v, In v (custs g) -> In v (cg_keys C).
  Hypothesis NAux : forall v d, In (v, d) (gnodes g) -> is_aux_depot d = false.
  Hypothesis PER : mo_periodic mo = false.
  Hypothesis SP : mo_span mo = false.
  Hypothesis FL : forall fl, mo_fleet mo = Some fl -> fl <> [] -> (K <= List.length fl)%nat.
  Hypothesis Cu : custs g <> [].
  Hypothesis Ar : arc_list g <> [].
  Hypothesis ST : exists p, cg_strategy C = Some p /\ p <> BestPaths.
  Hypothesis LB : cg_cspy C = true -> forall n tl h, sound_labelling h (e_label E n tl h).
  Hypothesis LP1 : cg_cspy C = false -> forall n tl p, sound_answer p (e_pricer E n tl p).
  Hypothesis LP2 : cg_cspy C = false -> no_circles E.

  (** ** Columns *)

  Record sane (c : column) : Prop := {
    sn_nodes : forall v, In v (served c) -> v <> Source -> v <> Sink -> In v (custs g);
    sn_route : (exists cs, route_shape (trip cs) /\ forall a, In a (c_arcs c) <-> In a (arcs (trip cs))) \/
               exists i, c_name c = CNonElem i
  }.

  Lemma customers v : In v (custs g) -> exists d, customer g v d.
  Proof.
    intro H. apply in_custs in H. destruct H as (Hn & H1 & H2). unfold nodes in Hn. apply in_map_iff in Hn.
    destruct Hn as ((x & d) & E1 & Hn). cbn in E1. subst x. exists d. split; [exact Hn|]. split; [exact H1|]. split; [exact H2|].
    exact (NAux v d Hn).
  Qed.

  Lemma sane_addable c : sane c -> addable g mo c.
  Proof.
    intros [S1 _]. constructor.
    - rewrite SP. intros v Hv H1 H2. apply customers. apply S1; assumption.
    - rewrite SP. discriminate.
  Qed.

  Lemma part_nodes_in h h' : strip h = strip g -> part_of h' h -> forall v, In v (nodes h') -> v <> Source -> v <> Sink -> In v (custs g).
  Proof.
    intros Hs Pt v Hv H1 H2. apply in_custs. split; [|auto]. apply node_data_In in Hv. destruct Hv as (d & Hd).
    apply (part_nodes _ _ Pt) in Hd. apply strip_same in Hs. destruct Hs as (E1 & _). apply node_data_In. exists d.
    unfold node_data in *. rewrite E1. exact Hd.
  Qed.

  Lemma column_sane h h' k cs c : strip h = strip g -> part_of h' h -> route_shape (trip cs) -> along (arc_list h') (trip cs) ->
    (c_path c = None \/ c_path c = Some (trip cs)) -> is_column h' k cs c -> sane c.
  Proof.
    intros Hs Pt Sh Al Pa [I1 I2 I3 I4]. constructor.
    - intros v Hv. apply (part_nodes_in h h' Hs Pt). apply (along_nodes h' (trip cs)); [exact (part_wf _ _ Pt)|exact Sh|exact Al|].
      unfold served in Hv. destruct Pa as [Pa|Pa]; rewrite Pa in Hv; [|exact Hv]. exact (Permutation_in _ I1 Hv).
    - left. exists cs. split; [exact Sh|]. intro a. split; apply Permutation_in; [exact I2|apply Permutation_sym; exact I2].
  Qed.

  Lemma neg_route h h' n tl k pr : strip h = strip g -> network K h' -> part_of h' h -> cg_cspy C = false -> (k < K)%nat ->
    LPPricing.formulate h' k (cg_caps C) o (cg_stops C) (cg_duration C) (e_negative E n h) = Ok pr ->
    let an := e_pricer E n tl pr in
    feasible (a_value an) pr -> value (a_value an) (reduced_cost_terms h') < - (1 # 1000) ->
    exists cs, elementary_route h' cs /\ Permutation (LPProofs.chosen h' (a_value an)) (arcs (trip cs)).
  Proof.
    intros Hs Nh' Pt EC Hk F an HF Hv. destruct (e_negative E n h || o_pickup_delivery o) eqn:En.
    - apply (elementary_solution h' K k (cg_caps C) o (cg_stops C) (cg_duration C) (e_negative E n h) pr (a_value an)); auto.
    - apply orb_false_iff in En. destruct En as (En & _). rewrite En in F.
      destruct (LP2 EC n tl h h' k _ _ _ _ pr Pt En F) as (cs & Rr & A).
      + exact HF.
      + rewrite (formulate_obj _ _ _ _ _ _ _ _ F). exact Hv.
      + exists cs. split; [exact Rr|]. apply iff_chosen; try apply Rr; [exact (net_wf _ _ Nh')|exact A].
  Qed.

  Lemma stripped_network h : strip h = strip g -> network K h /\ same_but_weights g h.
  Proof. intro Hs. symmetry in Hs. apply strip_same in Hs. split; [exact (same_network K g h Net Hs)|exact Hs]. Qed.

  Lemma keys_part h h' : strip h = strip g -> part_of h' h -> forall v, In v (custs h') -> In v (cg_keys C).
  Proof.
    intros Hs Pt v Hv. apply Keys. apply in_custs in Hv. apply (part_nodes_in h h' Hs Pt); tauto.
  Qed.

  Lemma priced_sane p1 p2 : priced E C g p1 p2 -> (forall c, In c p1 -> sane c) -> forall c, In c p2 -> sane c.
  Proof.
    intros Pr Us. destruct Pr as [D k route s n h hr more Hk Ha Hg Hs|D k h n more Hk Hga Ha Hs].
    - cbv zeta in Hs. pose proof (add_strip _ _ _ _ _ Ha) as Sw. destruct (stripped_network h Sw) as (Nh & _).
      assert (Pt := pricing_graph_part _ _ _ _ _ _ (net_wf _ _ Nh) Hg).
      assert (EC : cg_cspy C = true \/ cg_cspy C = false) by (destruct (cg_cspy C); auto). destruct EC as [EC|EC]; rewrite EC in Hs.
      + set (alg := e_label E (S (S n)) (cspy_limit (time_remaining C false (e_clock E (S n)))) (fst hr)) in *.
        assert (Sl : sound_labelling (fst hr) alg) by (apply (LB EC)).
        destruct (mem Source (nodes (fst hr)) && mem Sink (nodes (fst hr))) eqn:Est.
        2:{ apply cspy_nothing in Hs; [rewrite Hs; exact Us|]. intros m ref e thr. destruct (alg m ref e thr) as [(q, x)|] eqn:El; [|reflexivity].
            exfalso. destruct (Sl _ _ _ _ _ _ El) as (Rf & _).
            destruct (walk_ends_in _ _ _ _ (part_wf _ _ Pt) (rf_walk _ _ _ _ Rf)) as (Y1 & Y2); [discriminate|].
            rewrite (proj2 (mem_In _ _) Y1), (proj2 (mem_In _ _) Y2) in Est. discriminate. }
        apply andb_true_iff in Est. destruct Est as (S' & T'). apply mem_In in S', T'.
        assert (Nh' := part_network K _ _ Nh Pt S' T').
        apply (cspy_added h (fst hr) K) in Hs; [|exact Nh'|exact Hk|exact Sl|exact (net_wf _ _ Nh)].
        destruct Hs as [->|(m & q & c & Hm & Rf & Fc & ->)]; [exact Us|].
        intros c' Hc'. apply in_app_or in Hc'. destruct Hc' as [Hc'|[<-|[]]]; [exact (Us _ Hc')|].
        destruct (no_repeat q) eqn:Eq.
        * apply CspyProofs.no_repeat_NoDup in Eq. assert (Pa := fc_path _ _ _ _ _ Fc). destruct (fc_elem _ _ _ _ _ Fc Eq) as (_ & _ & cs & -> & Sh & Al & Ic).
          eapply column_sane; [exact Sw|exact Pt|exact Sh|exact Al|right; exact Pa|exact Ic].
        * constructor.
          -- intros v Hv. apply (part_nodes_in h (fst hr) Sw Pt). unfold served in Hv. rewrite (fc_path _ _ _ _ _ Fc) in Hv.
             exact (walk_nodes_in _ _ _ _ (part_wf _ _ Pt) S' (rf_walk _ _ _ _ Rf) v Hv).
          -- right. exists (S (List.length p1)). apply (fc_nonelem _ _ _ _ _ Fc). intro Y.
             pose proof (proj2 (CspyProofs.no_repeat_NoDup q) Y). congruence.
      + destruct (lp_solve_inv _ _ _ _ _ _ _ _ _ _ _ _ _ _ Hs) as [Q|(pr & _ & F & _)]; [injection Q as -> _; exact Us|].
        destruct (formulate_inv _ _ _ _ _ _ _ _ F) as (S' & T' & _).
        assert (Nh' := part_network K _ _ Nh Pt S' T').
        apply (lp_solve_gen _ K) in Hs; auto.
        * destruct Hs as [(_ & ->)|(_ & _ & cs & c & -> & _ & Pa & Ic & Dr & _)]; [exact Us|].
          intros c' Hc'. apply in_app_or in Hc'. destruct Hc' as [Hc'|[<-|[]]]; [exact (Us _ Hc')|].
          destruct Dr as [[R1 R2 R3 R4] _ _ _ _ _ _]. eapply column_sane; [exact Sw|exact Pt| |exact R4|left; exact Pa|exact Ic].
          exists cs. auto.
        * exact (keys_part h (fst hr) Sw Pt).
        * intros pr' F' an. exact (neg_route h (fst hr) _ _ k pr' Sw Nh' Pt EC Hk F').
        * rewrite PD. discriminate.
    - pose proof (add_strip _ _ _ _ _ Ha) as Sw. destruct (stripped_network h Sw) as (Nh & Sb). destruct (same_figures _ _ Sb) as (F1 & _).
      assert (Pt : part_of h h) by (constructor; auto; apply (net_wf _ _ Nh)).
      destruct (greedy_columns h K (cg_caps C) (cg_stops C) (cg_duration C) k Nh) with (keys := cg_keys C) (pool := p1) (n := 20%nat) (rnd := e_random E n)
        as (new & more' & Hn & _ & Hc).
      + lia.
      + intros l El. apply Cap; assumption.
      + destruct (F1 Source) as (-> & _). exact DS.
      + destruct (F1 Sink) as (-> & _). exact DT.
      + exact (keys_part h h Sw Pt).
      + rewrite Hs in Hn. injection Hn as -> _. intros c Hc'.
        destruct (greedy_path _ _ _ _ _ _ _ _ _ _ _ Hs c Hc') as [Hc0|Pa]; [exact (Us _ Hc0)|].
        apply in_app_or in Hc'. destruct Hc' as [Hc'|Hc']; [exact (Us _ Hc')|].
        destruct (Hc c Hc') as (cs & Ic & Sh & Al & _).
        eapply column_sane; [exact Sw|exact Pt|exact Sh|exact Al|left; exact Pa|exact Ic].
  Qed.

  Lemma untag_sane c c' : untag c = untag c' -> sane c' -> sane c.
  Proof.
    intros Eu [S1 S2]. destruct c, c'. unfold untag in Eu. cbn in Eu. injection Eu as -> -> -> -> -> ->. split; [exact S1|exact S2].
  Qed.
  Lemma grown_sane p1 p2 : grown E C g p1 p2 -> (forall c, In c p1 -> sane c) -> forall c, In c p2 -> sane c.
  Proof.
    intros G Us. induction G as [|a b G IH Pr|a b G IH Sm]; [exact Us|exact (priced_sane _ _ Pr IH)|].
    intros c Hc. apply (in_map untag) in Hc. unfold same_columns in Sm. rewrite Sm in Hc. apply in_map_iff in Hc.
    destruct Hc as (d & Ed & Hd). exact (untag_sane _ _ (eq_sym Ed) (IH d Hd)).
  Qed.

  (** ** Pricing problems *)

  Definition gentle (p : pricing) : Prop := match p with PPaths _ => False | _ => True end.

  Lemma edges_1_total D k alpha h : network K h -> (k < K)%nat -> d_nodes D <> [] -> exists r, remove_edges_1 D k alpha h = Ok r /\ nodes (fst r) = nodes h.
  Proof.
    intros N Hk Dn. unfold remove_edges_1.
    assert (P : exists L, pymax (map snd (d_nodes D) ++ map snd (d_span D)) = Ok L).
    { destruct (d_nodes D) as [|x l]; [congruence|]. cbn. eauto. }
    destruct P as (L & ->). cbn [bind].
    assert (F : forall l, (forall a, In a l -> In a (arc_list h)) -> forall acc, exists out, foldM (fun acc a =>
                let* c := arc_cost h k a in Ok (if Qltb (alpha * L) c then acc ++ [a] else acc)) l acc = Ok out).
    { induction l as [|a l IH]; intros Hl acc; cbn [foldM]; [eauto|].
      rewrite (PricingProofs.arc_cost_ok K h k a N Hk (Hl a (or_introl eq_refl))). cbn [bind]. apply IH. intros b Hb. apply Hl. right. exact Hb. }
    destruct (F (edges h)) with (acc := @nil arc) as (out & ->).
    - intros (x, y) Ha. apply in_edges; [apply N|exact Ha].
    - cbn [bind]. eexists. split; [reflexivity|]. reflexivity.
  Qed.

  Lemma gentle_total D k p n h : gentle p -> network K h -> (k < K)%nat -> d_nodes D <> [] ->
    exists hr, pricing_graph (e_paths E n) p D k h = Ok hr /\ nodes (fst hr) = nodes h.
  Proof.
    intros Ge N Hk Dn. destruct p as [|alpha|ratio|beta]; cbn [pricing_graph].
    - exists (h, true). auto.
    - apply edges_1_total; assumption.
    - eexists. split; [reflexivity|]. reflexivity.
    - destruct Ge.
  Qed.

  Lemma limits_plain h k : (k < K)%nat -> exists m, limits h o k (cg_caps C) (cg_stops C) (cg_duration C) = Ok m.
  Proof.
    intro Hk. unfold limits. rewrite TW, PD, SDC. cbn [bind raise_if].
    destruct (cg_caps C) as [[|c l]|] eqn:Ec; cbn [bind]; eauto.
    assert (Hl := Cap k (c :: l) Hk eq_refl ltac:(discriminate)). apply nth_error_Some in Hl.
    destruct (nth_error (c :: l) k) as [x|]; [|congruence]. cbn [of_opt bind]. eauto.
  Qed.

  Lemma subproblem_total D k p s : gentle p -> (k < K)%nat -> duals_ok K D -> d_nodes D <> [] -> strip (s_graph s) = strip g ->
    exists r, subproblem E C D k None p s = Ok r.
  Proof.
    intros Ge Hk Du Dn Hs. unfold subproblem. destruct (stripped_network _ Hs) as (Ng & _).
    destruct (add_reduced_cost_ok K (s_graph s) D k None 1 Ng Hk Du eq_refl) as (h & Ha & _ & _). rewrite Ha. cbn [bind].
    assert (Sw : strip h = strip g) by (rewrite (add_strip _ _ _ _ _ Ha); exact Hs).
    destruct (stripped_network _ Sw) as (Nh & _).
    destruct (gentle_total D k p (s_tick s) h Ge Nh Hk Dn) as (hr & Hg & Nd). rewrite Hg. cbn [bind].
    assert (Pt := pricing_graph_part _ _ _ _ _ _ (net_wf _ _ Nh) Hg).
    assert (Nh' : network K (fst hr)) by (apply (part_network K _ h Nh Pt); rewrite Nd; apply Nh).
    assert (Ky := keys_part h (fst hr) Sw Pt).
    set (tl := time_remaining C false (now E (tick s))). set (n := s_tick (tick (tick s))).
    match goal with |- exists r, bind ?x _ = Ok r => assert (T : exists r, x = Ok r) end.
    { assert (EC : cg_cspy C = true \/ cg_cspy C = false) by (destruct (cg_cspy C); auto). destruct EC as [EC|EC]; rewrite EC.
      - destruct (limits_plain (fst hr) k Hk) as (m & Hm).
        destruct (cspy_solve_ok h (fst hr) K k (cg_caps C) o (cg_stops C) (cg_duration C) (e_label E n (cspy_limit tl) (fst hr)) (cg_keys C)
                    Nh' Hk Ky (LB EC _ _ _) (snd hr) (cg_elementary C) m (s_pool s)) as (r & Hr & _); [|exact Hm|eauto].
        intro Z. assert (A0 : arc_list h = []).
        { destruct (arc_list h) as [|(x, y) l] eqn:El; [reflexivity|]. exfalso.
          assert (Hin : In (x, y) (edges h)) by (apply in_edges; [apply Nh|rewrite El; left; reflexivity]). rewrite Z in Hin. destruct Hin. }
        apply Ar. rewrite <- (strip_arcs _ _ Sw). exact A0.
      - unfold lp_solve. destruct (snd hr); cbn [negb]; [|eauto]. assert (Ru : truthyQ tl && match tl with Some q => Qle_bool q 0 | None => false end = false) by apply remaining_usable. rewrite Ru.
        destruct (LPColumn.formulate_total (fst hr) k (cg_caps C) o (cg_stops C) (cg_duration C) (e_negative E n h)) as (pr & F).
        + apply Nh'.
        + apply Nh'.
        + intros l. apply Cap. exact Hk.
        + rewrite PD, SDC. intros [Z|Z]; discriminate.
        + rewrite PD. discriminate.
        + apply Nh'.
        + rewrite F. cbn [bind].
          match goal with |- context [if ?b then _ else _] => destruct b eqn:Eb end; [|eauto].
          rewrite orb_false_r in Eb.
          assert (Sa := answer_feasible (fst hr) true pr (e_pricer E n tl) (LP1 EC n tl) (formulate_obj _ _ _ _ _ _ _ _ F)).
          cbn [negb] in Sa. cbv zeta in Sa. destruct Sa as (HF & Hv).
          { left. destruct (a_objective _) as [q|]; [|discriminate]. exists q. apply andb_true_iff in Eb. destruct Eb as (E1 & E2).
            split; [reflexivity|]. split; [apply Qltb_lt; exact E1|]. intro Z. rewrite Z in E2. discriminate. }
          destruct (neg_route h (fst hr) n tl k pr Sw Nh' Pt EC Hk F HF Hv) as (cs & Rr & Pm).
          destruct (lp_new_route_ok (fst hr) K k (cg_keys C) (s_pool s) (a_value (e_pricer E n tl pr)) cs Nh' Hk Ky Rr) as (c & -> & _).
          * destruct Rr as [R1 R2 R3 R4]. apply route_shape_NoDup. exists cs. auto.
          * exact Pm.
          * cbn [bind]. eauto. }
    destruct T as (r & ->). cbn [bind]. eauto.
  Qed.

  Lemma attempts_total D k (Hk : (k < K)%nat) (Du : duals_ok K D) (Dn : d_nodes D <> []) : forall ps s, (forall p, In p ps -> gentle p) -> strip (s_graph s) = strip g ->
    exists r, attempts E C D k None ps s = Ok r.
  Proof.
    induction ps as [|p ps IH]; intros s Ge Hs; cbn [attempts]; [eauto|].
    destruct (subproblem_total D k p s (Ge p (or_introl eq_refl)) Hk Du Dn Hs) as ([s1 b] & H1). rewrite H1. cbn [bind snd fst].
    destruct b; [eauto|]. apply IH; [intros q Hq; apply Ge; right; exact Hq|].
    apply (subproblem_looked E C g) in H1; [|exact Hk]. exact (fr_graph _ _ _ (lk_frame _ _ _ _ _ _ H1) Hs).
  Qed.

  Lemma attempt_total D k p s : p <> BestPaths -> (k < K)%nat -> duals_ok K D -> d_nodes D <> [] -> strip (s_graph s) = strip g ->
    exists r, attempt E C D k None p s = Ok r.
  Proof.
    intros Hp Hk Du Dn Hs. destruct p; [congruence| | |].
    - apply attempts_total; auto. intros q Hq. cbn in Hq. repeat (destruct Hq as [<-|Hq]; [exact I|]). destruct Hq.
    - apply attempts_total; auto. intros q Hq. cbn in Hq. repeat (destruct Hq as [<-|Hq]; [exact I|]). destruct Hq.
    - apply subproblem_total; auto. exact I.
  Qed.

  Lemma attempt_looked D k p s s' b : (k < K)%nat -> attempt E C D k None p s = Ok (s', b) -> looked E C g s s' b.
  Proof.
    intros Hk H. destruct p; [eapply attempts_looked; eassumption|eapply attempts_looked; eassumption|eapply attempts_looked; eassumption|eapply subproblem_looked; eassumption].
  Qed.

  Lemma solve_subproblem_total D k p s : p <> BestPaths -> (k < K)%nat -> duals_ok K D -> d_nodes D <> [] -> strip (s_graph s) = strip g ->
    exists r, solve_subproblem E C p D k None s = Ok r.
  Proof.
    intros Hp Hk Du Dn Hs. unfold solve_subproblem. destruct ST as (st & -> & _).
    assert (T : forall q s, q <> BestPaths -> strip (s_graph s) = strip g -> exists r, attempt E C D k None q s = Ok r) by (intros; apply attempt_total; assumption).
    assert (Q : exists r, (let* r := attempt E C D k None p s in if snd r then Ok r else attempt E C D k None Exact (fst r)) = Ok r).
    { destruct (T p s Hp Hs) as ([s1 b] & H1). rewrite H1. cbn [bind snd fst]. destruct b; [eauto|]. apply T; [discriminate|].
      apply attempt_looked in H1; [|exact Hk]. exact (fr_graph _ _ _ (lk_frame _ _ _ _ _ _ H1) Hs). }
    destruct p; try exact Q. apply T; assumption.
  Qed.

  (** ** The columns enter the master problem *)

  Lemma updates_total new : forall old m, built g mo old m -> (forall c, In c new -> addable g mo c) ->
    exists m1, foldM (fun m c => if has_variable m (c_name c) then Ok m else update mo m c) new m = Ok m1.
  Proof.
    induction new as [|c new IH]; intros old m B Ad; cbn [foldM]; [eauto|]. destruct (has_variable m (c_name c)) eqn:Hv; cbn [bind].
    - apply (IH old m B). intros d Hd. apply Ad. right. exact Hd.
    - destruct (proj2 (proj1 (MasterCor.update_ok g mo old m c B)) (Ad c (or_introl eq_refl))) as (m2 & H2). rewrite H2. cbn [bind].
      apply (IH (old ++ [c]) m2); [eapply b_update; eassumption|]. intros d Hd. apply Ad. right. exact Hd.
  Qed.

  Lemma greedy_step_total D k s : (k < K)%nat -> duals_ok K D -> inv C g s -> (forall c, In c (s_pool s) -> sane c) ->
    exists s', greedy_step E C D k s = Ok s'.
  Proof.
    intros Hk Du I Sn. unfold greedy_step. destruct (greedy_applies C) eqn:GA; [|eauto].
    assert (Hs := iv_graph _ _ _ I). destruct (stripped_network _ Hs) as (Ng & _).
    destruct (add_reduced_cost_ok K (s_graph s) D k None 1 Ng Hk Du eq_refl) as (h & Ha & _ & _). rewrite Ha. cbn [bind].
    assert (Sw : strip h = strip g) by (rewrite (add_strip _ _ _ _ _ Ha); exact Hs).
    destruct (stripped_network _ Sw) as (Nh & Sb). destruct (same_figures _ _ Sb) as (F1 & _).
    assert (Pt : part_of h h) by (constructor; auto; apply (net_wf _ _ Nh)).
    destruct (greedy_columns h K (cg_caps C) (cg_stops C) (cg_duration C) k Nh) with (keys := cg_keys C) (pool := s_pool s) (n := 20%nat) (rnd := e_random E (s_tick s))
      as (new & more' & Hn & _ & _).
    { exact Hk. }
    { intros l. apply Cap. exact Hk. }
    { destruct (F1 Source) as (-> & _). exact DS. }
    { destruct (F1 Sink) as (-> & _). exact DT. }
    { exact (keys_part h h Sw Pt). }
    assert (Hn' := Hn). rewrite Hn. cbn [bind fst snd]. destruct more'; [|eauto].
    assert (Ph : add_reduced_cost D k None g = Ok h) by (rewrite <- Ha; symmetry; apply add_strip_eq; exact Hs).
    assert (GA' : greedy_allowed C).
    { unfold greedy_applies in GA. rewrite !andb_true_iff, !negb_true_iff in GA. unfold greedy_allowed. tauto. }
    assert (P : priced E C g (s_pool s) (s_pool s ++ new)) by (eapply p_greedy; [exact Hk|exact GA'|exact Ph|exact Hn']).
    destruct (updates_total (s_pool s ++ new) (s_pool s) (s_master s) (iv_built _ _ _ I)) as (m1 & Hm).
    { intros c Hc. apply sane_addable. exact (priced_sane _ _ P Sn c Hc). }
    cbn [s_master tick set_pool]. rewrite Hm. cbn [bind]. eauto.
  Qed.

  Lemma adopt_total p s s1 b : inv C g s -> (forall c, In c (s_pool s) -> sane c) -> looked E C g s s1 true -> exists s', adopt C p (set_more b s1) = Ok s'.
  Proof.
    intros I Sn L. unfold adopt. cbn [s_pool set_more s_master]. destruct (lk_some _ _ _ _ _ _ L eq_refl) as (c & Ep).
    assert (G := lk_grown _ _ _ _ _ _ L (iv_graph _ _ _ I)).
    rewrite Ep, tag_last_snoc, rev_app_distr. cbn [rev app nth_error of_opt bind].
    rewrite (fr_master _ _ _ (lk_frame _ _ _ _ _ _ L)).
    destruct (proj2 (proj1 (MasterCor.update_ok g mo (s_pool s) (s_master s) (set_tag (tag_of p) c) (iv_built _ _ _ I)))) as (m1 & Hm).
    - apply sane_addable. apply (untag_sane _ c); [destruct c; reflexivity|]. apply (grown_sane _ _ G Sn). rewrite Ep. apply in_or_app. right. left. reflexivity.
    - rewrite Hm. cbn [bind]. eauto.
  Qed.

  Lemma vehicles_total p D : p <> BestPaths -> duals_ok K D -> d_nodes D <> [] -> forall ks s, (forall k, In k ks -> (k < K)%nat) -> inv C g s ->
    (forall c, In c (s_pool s) -> sane c) -> exists s', vehicles E C p D ks s = Ok s'.
  Proof.
    intros Hp Du Dn. induction ks as [|k ks IH]; intros s Hks I Sn; cbn [vehicles]; [eauto|].
    assert (Hk := Hks k (or_introl eq_refl)).
    destruct (greedy_step_total D k s Hk Du I Sn) as (s1 & H1). rewrite H1. cbn [bind]. cbv zeta.
    destruct (greedy_step_ok _ _ _ _ _ _ _ Hk I H1) as (I1 & G1 & _).
    assert (Sn1 := grown_sane _ _ G1 Sn). assert (I1' := inv_more _ _ false _ I1). rewrite SP.
    destruct (solve_subproblem_total D k p (set_more false s1) Hp Hk Du Dn (iv_graph _ _ _ I1')) as ([s2 b] & H2). rewrite H2. cbn [bind fst snd].
    assert (L : looked E C g (set_more false s1) s2 b) by (eapply solve_subproblem_looked; eassumption).
    destruct b; [exact (adopt_total p _ s2 true I1' Sn1 L)|].
    destruct ST as (st & -> & _). cbn [bind]. apply IH.
    - intros j Hj. apply Hks. right. exact Hj.
    - apply inv_more. eapply looked_inv; eassumption.
    - cbn [s_pool set_more]. rewrite (lk_none _ _ _ _ _ _ L eq_refl). exact Sn1.
  Qed.

  (** ** The master problem has a solution and its values are bounded *)

  Definition failed : Prop := exists n q x b, feasible x q /\ (forall y, feasible y q -> b <= value y (p_obj q)) /\
    a_status (e_master E n q) <> Optimal.

  Lemma nonneg_sum {A} (f : A -> Q) l : (forall a, In a l -> 0 <= f a) -> 0 <= Qsum_over l f.
  Proof.
    unfold Qsum_over. induction l as [|a l IH]; intro H; cbn [map]; [unfold Qsum; cbn; lra|]. rewrite Qsum_cons.
    pose proof (H a (or_introl eq_refl)). assert (0 <= Qsum (map f l)) by (apply IH; intros b Hb; apply H; right; exact Hb). lra.
  Qed.
  Lemma sum_bound {A} (f h : A -> Q) l : (forall a, In a l -> f a <= h a) -> Qsum_over l f <= Qsum_over l h.
  Proof.
    unfold Qsum_over. induction l as [|a l IH]; intro H; cbn [map]; [unfold Qsum; cbn; lra|]. rewrite !Qsum_cons.
    pose proof (H a (or_introl eq_refl)). assert (Qsum (map f l) <= Qsum (map h l)) by (apply IH; intros b Hb; apply H; right; exact Hb). lra.
  Qed.

  Lemma solution_bounded cs : exists b, forall final x, solution g mo cs final x -> b <= total_cost g mo cs x.
  Proof.
    set (lo := fun q : Q => if Qltb q 0 then q else 0).
    assert (Lo : forall c x, 0 <= x -> x <= 1 -> lo c <= c * x).
    { intros c x H1 H2. unfold lo. destruct (Qltb c 0) eqn:Ec; [apply Qltb_lt in Ec|apply Qltb_ge in Ec]; nra. }
    set (N := inject_Z (Z.of_nat (List.length (custs g)))).
    exists (Qsum_over cs (fun c => lo (c_cost c)) + match mo_drop mo with Some p => lo p * N | None => 0 end).
    intros final x S. unfold total_cost. rewrite SP, PER.
    assert (A1 : Qsum_over cs (fun c => lo (c_cost c)) <= Qsum_over cs (fun c => c_cost c * x (Y (c_name c)))).
    { apply sum_bound. intros c Hc. destruct (so_routes _ _ _ _ _ S c Hc) as (R1 & R2 & _). apply Lo; assumption. }
    assert (A2 : 0 <= Qsum_over (seq 0 (match mo_fleet mo with Some l => List.length l | None => 0 end)) (fun k => x (Extra k))).
    { apply nonneg_sum. intros k Hk. apply in_seq in Hk. destruct (mo_fleet mo) as [l|] eqn:Ef; [|lia].
      exact (proj1 (so_extra _ _ _ _ _ S l Ef k ltac:(lia))). }
    assert (A3 : match mo_drop mo with Some p => lo p * N | None => 0 end <=
      match mo_drop mo with Some p => p * (if truthyQ (mo_drop mo) then Qsum_over (custs g) (fun v => x (Drop v)) else 0) | None => 0 end).
    { destruct (mo_drop mo) as [p|] eqn:Ed; [|lra].
      assert (LN : lo p <= 0) by (unfold lo; destruct (Qltb p 0) eqn:Ep; [apply Qltb_lt in Ep; lra|lra]).
      assert (N0 : 0 <= N) by (unfold N; change 0 with (inject_Z 0); rewrite <- Zle_Qle; lia).
      destruct (truthyQ (Some p)) eqn:Et; [|nra].
      assert (Dr : drops mo p).
      { split; [exact Ed|]. cbn [truthyQ] in Et. apply negb_true_iff in Et. intro Z. apply Qeq_bool_iff in Z. congruence. }
      assert (B1 : 0 <= Qsum_over (custs g) (fun v => x (Drop v))) by (apply nonneg_sum; intros v Hv; apply (so_drop _ _ _ _ _ S p Dr v Hv)).
      assert (B2 : Qsum_over (custs g) (fun v => x (Drop v)) <= N).
      { unfold N. assert (B3 : Qsum_over (custs g) (fun v => x (Drop v)) <= Qsum_over (custs g) (fun _ => 1)).
        { apply sum_bound. intros v Hv. apply (so_drop _ _ _ _ _ S p Dr v Hv). }
        assert (B4 : forall l : list node, Qsum_over l (fun _ => 1) == inject_Z (Z.of_nat (List.length l))).
        { clear. unfold Qsum_over. induction l as [|y l IH]; [reflexivity|]. cbn [map List.length]. rewrite Qsum_cons, IH, Nat2Z.inj_succ, <- Z.add_1_r, inject_Z_plus. change (inject_Z 1) with 1. lra. }
        rewrite B4 in B3. exact B3. }
      unfold lo. destruct (Qltb p 0) eqn:Ep; [apply Qltb_lt in Ep|apply Qltb_ge in Ep]; nra. }
    lra.
  Qed.

  Lemma relaxed_solution cs x : solution g mo cs true x -> solution g mo cs false x.
  Proof.
    intros [S1 S2 S3 S4 S5 S6 S7 S8]. constructor; auto.
    - intros v d Hc. split; [apply (S1 v d Hc)|discriminate].
    - intros c Hc. destruct (S4 c Hc) as (A & B & D & _). split; [exact A|]. split; [exact B|]. split; [intros [Z|Z]; [discriminate|apply D; right; exact Z]|discriminate].
    - intros P v d Hv Hs Hf. split; [apply (S6 P v d Hv Hs Hf)|discriminate].
    - intros l Hl k Hk. split; [apply (S7 l Hl k Hk)|discriminate].
  Qed.

  Lemma optimal_or_failed (final : bool) n s : inv C g s -> fine (s_pool s) -> (exists sel dr, valid_selection g mo (s_pool s) sel dr) ->
    a_status (e_master E n (program_of (if final then integral (s_master s) else s_master s))) = Optimal \/ failed.
  Proof.
    intros I F (sel & dr & V). set (q := program_of (if final then integral (s_master s) else s_master s)).
    destruct (a_status (e_master E n q)) eqn:Ea; [left; reflexivity| | | |]; right.
    all: assert (W := net_wf _ _ Net); assert (La : forall c, In c (s_pool s) -> labelled c) by (intros c Hc; apply (F c Hc)).
    all: assert (Nd := ColGenProofs.names_NoDup _ (iv_numbered _ _ _ I)); assert (B := iv_built _ _ _ I).
    all: destruct (selections_are_solutions g mo (s_pool s) W La Nd PER SP (s_master s) sel dr B V) as (x & Fx & _).
    all: destruct (solution_bounded (s_pool s)) as (b & Hb).
    all: exists n, q, x, b; split; [|split; [|congruence]].
    all: try (intros y Fy; destruct (documented g mo (s_pool s) (s_master s) final y W La B) as (D1 & D2); unfold q; rewrite D2; apply (Hb final); apply D1; exact Fy).
    all: destruct (documented g mo (s_pool s) (s_master s) true x W La B) as (D1 & _); apply D1 in Fx.
    all: destruct (documented g mo (s_pool s) (s_master s) final x W La B) as (D3 & _); apply D3.
    all: destruct final; [exact Fx|apply relaxed_solution; exact Fx].
  Qed.

  (** ** The loop *)

  Record sound (s : state) : Prop := {
    sd_inv : inv C g s;
    sd_sane : forall c, In c (s_pool s) -> sane c;
    sd_fine : fine (s_pool s);
    sd_dive : s_dive s = false;
    sd_bounds : s_iter s = List.length (s_bounds s);
    sd_plan : exists sel dr, valid_selection g mo (s_pool s) sel dr
  }.

  Lemma sound_tick s : sound s -> sound (tick s).
  Proof. intros [[I1 I2 I3] S2 S3 S4 S5 S6]. constructor; auto. constructor; assumption. Qed.

  Lemma plan_grown p1 p2 : grown E C g p1 p2 -> numbered p1 -> (exists sel dr, valid_selection g mo p1 sel dr) -> exists sel dr, valid_selection g mo p2 sel dr.
  Proof.
    intros G N (sel & dr & V). destruct (selection_grown E C g mo p1 p2 sel dr G (ColGenProofs.names_NoDup _ N) (ColGenProofs.names_NoDup _ (grown_numbered _ _ _ _ _ G N)) V) as (sel' & V' & _).
    eauto.
  Qed.

  Lemma find_columns_total s : sound s -> failed \/ exists s', find_columns E C s = Ok s' /\ sound s'.
  Proof.
    intros [I Sn Fi Dv Bo Pl]. unfold find_columns, solve_relaxed. cbn [s_dive tick]. rewrite Dv. cbn [s_master s_graph s_pool s_tick tick].
    set (n := S (s_tick s)). destruct (optimal_or_failed false n s I Fi Pl) as [Op|]; [|left; assumption]. right.
    assert (SM : exists D, solve_master (s_graph s) mo true (s_pool s) (e_master E n) (e_duals E n) (s_master s) =
        Ok (s_master s, D, a_objective (e_master E n (program_of (s_master s)))) /\ get_duals g mo (s_master s) (s_pool s) (e_duals E n) = Ok D).
    { rewrite (solve_master_nodes (s_graph s) g) by (exact (strip_nodes _ _ (iv_graph _ _ _ I))).
      destruct (proj1 (solve_master_cases g mo true (s_pool s) (e_master E n) (e_duals E n) (s_master s) (iv_built _ _ _ I)) Op) as (D & HD).
      exists D. split; [exact HD|]. unfold solve_master in HD. apply bind_ok in HD. destruct HD as (u & _ & HD). apply bind_ok in HD. destruct HD as (D' & H1 & HD).
      injection HD as <-. exact H1. }
    destruct SM as (D & HS & HD). rewrite HS. cbn [bind].
    assert (SH := built_shape _ _ _ _ (iv_built _ _ _ I)).
    assert (Du : duals_ok K D) by (apply (duals_are_ok g mo (s_pool s) (s_master s) (e_duals E n) (net_wf _ _ Net) SH PER SP D HD K FL)).
    assert (Dn : d_nodes D <> []).
    { destruct (get_duals_ok g mo (s_pool s) (s_master s) (e_duals E n) SH PER SP) as (fl & _ & HD'). rewrite HD' in HD. injection HD as <-. cbn [d_nodes].
      destruct (custs g) as [|v l] eqn:Ec; [congruence|]. destruct (customers v) as (d & H1 & H2 & H3 & H4); [rewrite Ec; left; reflexivity|].
      assert (Hin : In (v, d) (filter must_visit (gnodes g))).
      { apply filter_In. split; [exact H1|]. unfold must_visit. cbn [fst snd]. rewrite H4, (proj2 (is_depot_false v)) by auto. reflexivity. }
      intro Z. apply map_eq_nil in Z. rewrite Z in Hin. destruct Hin. }
    set (s1 := tick (set_solution _ _ _ _)).
    assert (I1 : inv C g s1) by (destruct I as [J1 J2 J3]; constructor; assumption).
    assert (NS : exists p, next_strategy E C (a_objective (e_master E n (program_of (s_master s)))) s1 = Ok (s1, p) /\ p <> BestPaths).
    { unfold next_strategy. destruct (_ =? _)%Z; [exists Exact; split; [reflexivity|discriminate]|]. destruct ST as (st & Es & Hst). rewrite Es. eauto. }
    destruct NS as (p & Hn & Hp). rewrite Hn. cbn [bind snd fst].
    destruct (vehicles_total p D Hp Du Dn (seq 0 K) s1) as (s3 & H3); [intros k Hk; apply in_seq in Hk; lia|exact I1|exact Sn|].
    rewrite H3. cbn [bind]. destruct (vehicles_ok E C g p D (seq 0 K) s1 s3 ltac:(intros k Hk; apply in_seq in Hk; lia) I1 H3) as (I3 & G3 & K3 & _).
    assert (Di : s_dive s3 = false) by (rewrite (kp_dive _ _ K3); exact Dv).
    assert (Bi : s_iter s3 = List.length (s_bounds s3)) by (rewrite (kp_iter _ _ K3), (kp_bounds _ _ K3); exact Bo).
    unfold progress.
    match goal with |- exists s', bind ?x _ = Ok s' /\ _ => assert (T : exists b, x = Ok b) end.
    { destruct (1 <? S (s_iter s3))%nat eqn:E1; [|eauto]. apply Nat.ltb_lt in E1.
      destruct (nth_error (rev (s_bounds s3)) 0) as [b|] eqn:Eb; [cbn [of_opt bind]; eauto|].
      exfalso. apply nth_error_None in Eb. rewrite rev_length in Eb. lia. }
    destruct T as (b & ->). cbn [bind]. rewrite Di. eexists. split; [reflexivity|].
    constructor; cbn [s_pool s_dive s_iter s_bounds set_progress].
    - destruct I3 as [J1 J2 J3]. constructor; assumption.
    - exact (grown_sane _ _ G3 Sn).
    - exact (grown_fine _ _ _ _ _ G3 Fi).
    - exact Di.
    - rewrite app_length. cbn. lia.
    - exact (plan_grown _ _ G3 (iv_numbered _ _ _ I) Pl).
  Qed.

  Theorem generation_total : forall f s, sound s -> failed \/ column_generation E C f s = Err OutOfFuel \/ exists s', column_generation E C f s = Ok s' /\ sound s'.
  Proof.
    induction f as [|f IH]; intros s Hs; cbn [column_generation]; destruct (negb (s_more s)); eauto.
    destruct (find_columns_total s Hs) as [Z|(s1 & H1 & S1)]; [left; exact Z|]. rewrite H1. cbn [bind]. cbv zeta.
    assert (S2 := sound_tick _ (sound_tick _ S1)).
    destruct (time_up E C s1); [eauto|]. destruct (limit_reached C _); [eauto|]. exact (IH _ S2).
  Qed.

  Lemma conclude_total s : sound s -> failed \/ exists r, conclude E C false s = Ok (Some r).
  Proof.
    intros [I Sn Fi Dv Bo Pl]. unfold conclude. set (n := s_tick s).
    assert (L2 : (2 <? List.length (gnodes (s_graph s)))%nat = true).
    { apply Nat.ltb_lt. rewrite (strip_nodes _ _ (iv_graph _ _ _ I)).
      destruct (custs g) as [|v l] eqn:Ec; [congruence|]. assert (Hv : In v (custs g)) by (rewrite Ec; left; reflexivity). apply in_custs in Hv. destruct Hv as (V1 & V2 & V3).
      assert (Inc : incl [Source; Sink; v] (nodes g)).
      { intros x [<-|[<-|[<-|[]]]]; [apply Net|apply Net|exact V1]. }
      apply NoDup_incl_length in Inc; [unfold nodes in Inc; rewrite map_length in Inc; cbn in Inc; lia|].
      constructor; [intros [Z|[Z|[]]]; congruence|]. constructor; [intros [Z|[]]; congruence|]. constructor; [intros []|constructor]. }
    rewrite L2. destruct (optimal_or_failed true (S n) s I Fi Pl) as [Op|]; [|left; assumption]. right.
    destruct (proj1 (solve_master_cases g mo false (s_pool s) (e_master E (S n)) (e_duals E (S n)) (s_master s) (iv_built _ _ _ I)) Op) as (D & HD).
    rewrite (solve_master_nodes (s_graph s) g) by (exact (strip_nodes _ _ (iv_graph _ _ _ I))). rewrite HD. cbn [bind fst].
    destruct (get_total_runs g mo (s_pool s) (s_master s) true (a_value (e_master E (S n) (program_of (integral (s_master s)))))
                (a_objective (e_master E (S (S n)) (program_of (integral (s_master s))))) (fun c Hc => proj1 (Fi c Hc)) (iv_built _ _ _ I)) as (sel & dr & ->).
    cbn [bind]. eauto.
  Qed.

  Theorem columns_total f f2 s : sound s -> failed \/ solve_columns E C f f2 false s = Err OutOfFuel \/
    exists s' r, solve_columns E C f f2 false s = Ok (s', Some r) /\ sound s'.
  Proof.
    intro Hs. unfold solve_columns. destruct (generation_total f s Hs) as [Z|[->|(s1 & -> & S1)]]; [auto|auto|]. cbn [bind].
    destruct (conclude_total s1 S1) as [Z|(r & ->)]; [auto|]. right. right. exists s1, r. auto.
  Qed.
End Total.
