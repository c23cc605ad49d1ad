(** Weak duality: when pricing fails, the value of the relaxation is a lower bound. *)
From Verif.Base Require Import Prelude Graph.
From Verif.Spec Require Import Routes Network LinProg Pricing MIP Master Duality.
From Verif.Model Require Import Args Reach Checks Preprocess ClarkeWright Greedy Initial Pricing LPPricing Master.
From Verif.Proofs Require Import RouteLemmas PreLemmas PruneProofs PricingProofs LPComplete MasterProofs SelectProofs.

Lemma node_sum_app' f l1 l2 : node_sum f (l1 ++ l2) == node_sum f l1 + node_sum f l2.
Proof. unfold node_sum. rewrite map_app, Qsum_app. reflexivity. Qed.

Lemma node_sum_sub f (l1 l2 : list node) : NoDup l1 -> (forall v, In v l1 -> In v l2) -> (forall v, 0 <= f v) ->
  node_sum f l1 <= node_sum f l2.
Proof.
  revert l2. induction l1 as [|v l1 IH]; intros l2 ND HI HF.
  - unfold node_sum at 1. simpl. apply Qsum_nonneg. intros q Hq. apply in_map_iff in Hq. destruct Hq as (u & <- & _). apply HF.
  - inversion ND as [|v' l' Hv NDl]; subst. destruct (in_split v l2 (HI v (or_introl eq_refl))) as (a & b & ->).
    assert (H : node_sum f l1 <= node_sum f (a ++ b)).
    { apply IH; auto. intros u Hu. assert (Hin := HI u (or_intror Hu)). apply in_app_or in Hin. apply in_or_app.
      destruct Hin as [Hin|[<-|Hin]]; auto. contradiction. }
    rewrite node_sum_app' in *. unfold node_sum in *. cbn [map]. rewrite !Qsum_cons. lra.
Qed.

Lemma tours_nodes f (P : list (nat * list node)) :
  Qsum_over P (fun t => node_sum f (snd t)) == node_sum f (flat_map snd P).
Proof.
  unfold Qsum_over. induction P as [|t P IH]; [reflexivity|]. cbn [map flat_map]. rewrite Qsum_cons, IH, node_sum_app'. reflexivity.
Qed.

(** Sums over the types. *)
Lemma tours_types (f : list Q) (P : list (nat * list node)) :
  Qsum_over P (fun t => nth (fst t) f 0) ==
  Qsum_over (seq 0 (List.length f))
    (fun k => nth k f 0 * inject_Z (Z.of_nat (List.length (filter (fun t => (fst t =? k)%nat) P)))).
Proof.
  induction P as [|t P IH].
  - unfold Qsum_over. cbn [map filter List.length]. rewrite Qsum_map_zero; [reflexivity|]. intros k _. change (inject_Z (Z.of_nat 0)) with 0. ring.
  - assert (E : forall k, inject_Z (Z.of_nat (List.length (filter (fun t => (fst t =? k)%nat) (t :: P)))) ==
                (if (fst t =? k)%nat then 1 else 0) + inject_Z (Z.of_nat (List.length (filter (fun t => (fst t =? k)%nat) P)))).
    { intro k. cbn [filter]. destruct (fst t =? k)%nat; [|lra]. cbn [List.length].
      rewrite Nat2Z.inj_succ, <- Z.add_1_r, inject_Z_plus. change (inject_Z 1) with 1. lra. }
    unfold Qsum_over in *. cbn [map]. rewrite Qsum_cons, IH.
    rewrite (Qsum_map_ext (fun k => nth k f 0 * inject_Z (Z.of_nat (List.length (filter (fun t => (fst t =? k)%nat) (t :: P)))))
               (fun k => (if (fst t =? k)%nat then nth k f 0 else 0) +
                         nth k f 0 * inject_Z (Z.of_nat (List.length (filter (fun t => (fst t =? k)%nat) P))))).
    + rewrite Qsum_map_plus. apply Qplus_comp; [|reflexivity].
      rewrite (Qsum_single Nat.eq_dec (fun k => if (fst t =? k)%nat then nth k f 0 else 0) _ (fst t) (seq_NoDup _ _)).
      * destruct (in_dec Nat.eq_dec (fst t) (seq 0 (List.length f))) as [_|Hn].
        -- rewrite Nat.eqb_refl. reflexivity.
        -- rewrite nth_overflow; [reflexivity|]. destruct (le_lt_dec (List.length f) (fst t)) as [H|H]; [exact H|].
           exfalso. apply Hn. apply in_seq. lia.
      * intros b _ Hb. assert (E0 : (fst t =? b)%nat = false) by (apply Nat.eqb_neq; congruence). rewrite E0. reflexivity.
    + intros k _. rewrite E. destruct (fst t =? k)%nat; ring.
Qed.

Section Duals.
  Variables (g : vgraph) (o : moptions) (cs : list column) (m : master) (pi : mrow -> Q).
  Hypothesis WF : wf g.
  Hypothesis SH : shape g o cs m.
  Hypothesis PERIOD : mo_periodic o = false.
  Hypothesis NOSPAN : mo_span o = false.

  Lemma get_duals_ok : exists fl, mo_fleet o = Some fl /\
    get_duals g o m cs pi = Ok (mkDuals (map (fun p => (fst p, pi (Visit (fst p)))) (filter must_visit (gnodes g)))
      (if nonempty fl then Some (map (fun k => pi (Fleet k)) (seq 0 (List.length fl))) else None) []).
  Proof.
    destruct (sh_fleet _ _ _ _ SH) as (fl & Ef & _). exists fl. split; [exact Ef|].
    unfold get_duals. rewrite (sh_rows _ _ _ _ SH).
    rewrite (mapM_pure _ (fun p => (fst p, pi (Visit (fst p))))).
    - cbn [bind]. unfold has_fleet, fleet_size. rewrite Ef, PERIOD, NOSPAN. cbn [negb option_map of_opt bind].
      rewrite andb_true_r. destruct fl as [|a fl]; [reflexivity|]. cbn [nonempty].
      rewrite (mapM_pure _ (fun k => pi (Fleet k))); [reflexivity|].
      intros k Hk. apply in_seq in Hk. rewrite row_at_in; [reflexivity|].
      apply in_rows_fleet. exists (a :: fl). split; [|lia]. split; [exact Ef|]. split; [discriminate|exact PERIOD].
    - intros [v d] Hp. cbn [fst]. apply filter_In in Hp. destruct Hp as [Hin Hm].
      unfold must_visit in Hm. cbn [fst snd] in Hm. apply andb_true_iff in Hm. destruct Hm as [H1 H2].
      apply negb_true_iff in H1, H2. apply is_depot_false in H1.
      rewrite row_at_in; [reflexivity|]. apply in_rows_visit. exists d. repeat split; tauto.
  Qed.

  Variable D : dual_dict.
  Hypothesis HD : get_duals g o m cs pi = Ok D.

  Lemma duals_keys : NoDup (map fst (d_nodes D)).
  Proof.
    destruct get_duals_ok as (fl & _ & E). rewrite E in HD. inversion HD. cbn [d_nodes]. rewrite map_map. cbn [fst].
    assert (H := wf_nodes _ WF). unfold nodes in H. revert H. generalize (gnodes g).
    induction l as [|p l IH]; cbn [filter map]; intro ND; [constructor|].
    inversion ND as [|a l' Ha NDl]; subst. destruct (must_visit p); [|auto]. cbn [map]. constructor; [|auto].
    intro C. apply Ha. apply in_map_iff in C. destruct C as (q & Eq & Hq). apply filter_In in Hq.
    rewrite <- Eq. apply in_map. tauto.
  Qed.

  Lemma duals_customers v q : In (v, q) (d_nodes D) -> q = pi (Visit v) /\ exists d, customer g v d.
  Proof.
    destruct get_duals_ok as (fl & _ & E). rewrite E in HD. inversion HD. cbn [d_nodes]. intro H.
    apply in_map_iff in H. destruct H as ([w d] & Ew & Hp). cbn [fst] in Ew. inversion Ew; subst.
    split; [reflexivity|]. exists d. apply filter_In in Hp. destruct Hp as [Hin Hm].
    unfold must_visit in Hm. cbn [fst snd] in Hm. apply andb_true_iff in Hm. destruct Hm as [H1 H2].
    apply negb_true_iff in H1, H2. apply is_depot_false in H1. repeat split; tauto.
  Qed.

  Lemma dual_customer v d : customer g v d -> dual_of D v = pi (Visit v).
  Proof.
    intros (Hin & H1 & H2 & H3). assert (K := duals_keys).
    unfold dual_of. rewrite (assoc_node_NoDup v (pi (Visit v)) (d_nodes D) K); [reflexivity|].
    destruct get_duals_ok as (fl & _ & E). rewrite E in HD. inversion HD. cbn [d_nodes].
    apply in_map_iff. exists (v, d). split; [reflexivity|]. apply filter_In. split; [exact Hin|].
    unfold must_visit. cbn [fst snd]. rewrite (proj2 (is_depot_false v) (conj H1 H2)), H3. reflexivity.
  Qed.

  Lemma dual_nonneg : (forall v, 0 <= pi (Visit v)) -> forall v, 0 <= dual_of D v.
  Proof.
    intros H v. unfold dual_of. destruct (assoc_node v (d_nodes D)) as [q|] eqn:E; [|lra].
    apply assoc_node_In in E. destruct (duals_customers v q E) as [-> _]. apply H.
  Qed.

  Lemma fleet_duals fl k : mo_fleet o = Some fl -> fleet_dual D k = nth k (map (fun k => pi (Fleet k)) (seq 0 (List.length fl))) 0.
  Proof.
    intro Ef. destruct get_duals_ok as (fl' & Ef' & E). rewrite Ef in Ef'. inversion Ef'; subst fl'.
    rewrite E in HD. inversion HD. unfold fleet_dual. cbn [d_fleet]. destruct fl as [|a fl]; [destruct k; reflexivity|reflexivity].
  Qed.

  Lemma duals_are_ok K : (forall fl, mo_fleet o = Some fl -> fl <> [] -> (K <= List.length fl)%nat) -> duals_ok K D.
  Proof.
    intro HK. constructor.
    - exact duals_keys.
    - intros v q H. destruct (duals_customers v q H) as (_ & d & _ & H1 & H2 & _). auto.
    - intros l El. destruct get_duals_ok as (fl & Ef & E). rewrite E in HD. inversion HD as [ED]. rewrite <- ED in El.
      cbn [d_fleet] in El. destruct fl as [|a fl]; [discriminate|]. cbn [nonempty] in El. inversion El as [El'].
      assert (L := HK _ Ef ltac:(discriminate)). cbn [List.length map] in *. rewrite map_length, seq_length. exact L.
  Qed.

  Lemma dual_value_split fl : mo_fleet o = Some fl ->
    dual_value m pi == node_sum (dual_of D) (map fst (d_nodes D)) +
      Qsum_over (seq 0 (List.length fl)) (fun k => pi (Fleet k) * nth k fl 0).
  Proof.
    intro Ef. unfold dual_value. rewrite (sh_rows _ _ _ _ SH). unfold all_rows, Qsum_over. rewrite !map_app, !Qsum_app.
    assert (A1 : Qsum (map (fun r => pi (fst r) * snd (snd r)) (covering_rows g o)) == node_sum (dual_of D) (map fst (d_nodes D))).
    { unfold covering_rows. rewrite map_map, PERIOD. cbn [fst snd].
      assert (EN : d_nodes D = map (fun p => (fst p, pi (Visit (fst p)))) (filter must_visit (gnodes g))).
      { destruct get_duals_ok as (fl' & _ & E). rewrite E in HD. inversion HD. reflexivity. }
      unfold node_sum. rewrite map_map.
      assert (R : forall f, Qsum (map (fun p : node * Q => f (fst p)) (d_nodes D)) == Qsum (map (fun p => f (fst p)) (filter must_visit (gnodes g)))).
      { intro f. rewrite EN, map_map. cbn [fst]. reflexivity. }
      rewrite (R (dual_of D)). apply Qsum_map_ext. intros [v d] Hp. cbn [fst].
      apply filter_In in Hp. destruct Hp as [Hin Hm].
      unfold must_visit in Hm. cbn [fst snd] in Hm. apply andb_true_iff in Hm. destruct Hm as [H1 H2].
      apply negb_true_iff in H1, H2. apply is_depot_false in H1.
      rewrite (dual_customer v d); [ring|]. repeat split; tauto. }
    assert (A2 : Qsum (map (fun r => pi (fst r) * snd (snd r)) (bound_rows o)) ==
                 Qsum (map (fun k => pi (Fleet k) * nth k fl 0) (seq 0 (List.length fl)))).
    { unfold bound_rows. rewrite Ef, PERIOD. cbn [negb]. rewrite andb_true_r. destruct fl as [|a fl]; [reflexivity|]. cbn [nonempty].
      rewrite map_map. cbn [fst snd]. generalize (a :: fl) as l. intro l.
      assert (G : forall (l l0 : list Q), Qsum (map (fun p => pi (Fleet (fst p)) * snd p) (combine (seq (List.length l0) (List.length l)) l)) ==
                  Qsum (map (fun k => pi (Fleet k) * nth k (l0 ++ l) 0) (seq (List.length l0) (List.length l)))).
      { clear. induction l as [|b l IH]; intro l0; [reflexivity|]. cbn [List.length seq combine map]. rewrite !Qsum_cons. cbn [fst snd].
        rewrite app_nth2, Nat.sub_diag by lia. cbn [nth]. apply Qplus_comp; [reflexivity|].
        specialize (IH (l0 ++ [b])). rewrite app_length in IH. cbn [List.length] in IH. rewrite Nat.add_1_r in IH.
        rewrite <- app_assoc in IH. exact IH. }
      exact (G l []). }
    assert (A3 : Qsum (map (fun r => pi (fst r) * snd (snd r)) (span_rows o)) == 0).
    { unfold span_rows. rewrite NOSPAN. reflexivity. }
    rewrite A1, A2, A3. lra.
  Qed.

  Theorem weak_duality_each q eps P :
    dual_solution o m pi q -> serves g o P ->
    (forall t, In t P -> - eps t <= reduced_cost g D 1 (fst t) (snd t)) ->
    q <= tours_cost g P + Qsum_over P eps.
  Proof.
    intros [S1 S2 S3] [V1 V2] R. destruct (sh_fleet _ _ _ _ SH) as (fl & Ef & _).
    rewrite (dual_value_split fl Ef) in S3.
    assert (B1 : node_sum (dual_of D) (map fst (d_nodes D)) <= node_sum (dual_of D) (flat_map snd P)).
    { apply node_sum_sub; [exact duals_keys| |apply dual_nonneg, S1].
      intros v Hv. apply in_map_iff in Hv. destruct Hv as ([u x] & <- & Hin). cbn [fst].
      destruct (duals_customers u x Hin) as (_ & d & Hc). destruct (V1 u d Hc) as (t & Ht & Hu).
      apply in_flat_map. exists t. auto. }
    assert (B2 : Qsum_over (seq 0 (List.length fl)) (fun k => pi (Fleet k) * nth k fl 0) <=
                 Qsum_over P (fun t => fleet_dual D (fst t))).
    { assert (E : Qsum_over P (fun t => fleet_dual D (fst t)) ==
                  Qsum_over P (fun t => nth (fst t) (map (fun k => pi (Fleet k)) (seq 0 (List.length fl))) 0)).
      { unfold Qsum_over. apply Qsum_map_ext. intros t _. rewrite (fleet_duals fl (fst t) Ef). reflexivity. }
      rewrite E, tours_types. rewrite map_length, seq_length. unfold Qsum_over. apply Qsum_map_le.
      intros k Hk. apply in_seq in Hk.
      assert (EK : nth k (map (fun k => pi (Fleet k)) (seq 0 (List.length fl))) 0 = pi (Fleet k)).
      { rewrite (nth_indep _ 0 (pi (Fleet (List.length fl)))) by (rewrite map_length, seq_length; lia).
        rewrite (map_nth (fun k => pi (Fleet k))). rewrite seq_nth by lia. reflexivity. }
      rewrite EK.
      assert (Hn : nth_error fl k = Some (nth k fl 0)) by (apply nth_error_nth'; lia).
      assert (FB : fleet_bound o fl).
      { split; [exact Ef|]. split; [destruct fl; [simpl in Hk; lia|discriminate]|exact PERIOD]. }
      destruct (V2 fl FB k _ Hn) as [H1 H2]. destruct (mo_all o) eqn:Ea.
      - rewrite (H2 eq_refl). lra.
      - specialize (S2 k eq_refl). rewrite !(Qmult_comm (pi (Fleet k))). nra. }
    assert (B3 : - Qsum_over P eps <= Qsum_over P (fun t => reduced_cost g D 1 (fst t) (snd t))).
    { unfold Qsum_over. clear - R. induction P as [|t P IH]; [cbn [map]; change (Qsum []) with 0; lra|]. cbn [map]. rewrite !Qsum_cons.
      assert (H1 := R t (or_introl eq_refl)). assert (H2 := IH (fun t' H' => R t' (or_intror H'))). lra. }
    assert (B4 : Qsum_over P (fun t => reduced_cost g D 1 (fst t) (snd t)) ==
                 tours_cost g P - node_sum (dual_of D) (flat_map snd P) - Qsum_over P (fun t => fleet_dual D (fst t))).
    { rewrite <- tours_nodes. unfold tours_cost, Qsum_over, reduced_cost, trip. rewrite <- !Qsum_map_minus.
      apply Qsum_map_ext. intros t _. ring. }
    lra.
  Qed.
  Theorem weak_duality q eps P :
    dual_solution o m pi q -> serves g o P ->
    (forall t, In t P -> - eps <= reduced_cost g D 1 (fst t) (snd t)) ->
    q <= tours_cost g P + eps * inject_Z (Z.of_nat (List.length P)).
  Proof.
    intros A B R. assert (H := weak_duality_each q (fun _ => eps) P A B R).
    assert (X : Qsum_over P (fun _ => eps) == eps * inject_Z (Z.of_nat (List.length P))); [|lra].
    clear. unfold Qsum_over. induction P as [|t P IH]; [cbn [map List.length]; change (Qsum []) with 0; change (inject_Z (Z.of_nat 0)) with 0; ring|].
    cbn [List.length map]. rewrite Qsum_cons, IH, Nat2Z.inj_succ, <- Z.add_1_r, inject_Z_plus. change (inject_Z 1) with 1. ring.
  Qed.
End Duals.

(** ** Networks that differ only in the pricing weights *)
Section SameData.
  Variables (g h : vgraph) (K : nat).
  Hypothesis N : network K g.
  Hypothesis S : same_but_weights g h.

  Lemma same_nodes : gnodes h = gnodes g.
  Proof. exact (proj1 S). Qed.
  Lemma same_arcs : arc_list h = arc_list g.
  Proof. exact (proj1 (proj2 S)). Qed.
  Lemma same_nd : nd h = nd g.
  Proof. unfold nd, node_data. rewrite same_nodes. reflexivity. Qed.
  Lemma same_demand : demand_of h = demand_of g.
  Proof. unfold demand_of. rewrite same_nd. reflexivity. Qed.
  Lemma same_collect : collect_of h = collect_of g.
  Proof. unfold collect_of. rewrite same_nd. reflexivity. Qed.
  Lemma same_service : service_of h = service_of g.
  Proof. unfold service_of. rewrite same_nd. reflexivity. Qed.
  Lemma same_lower : lower_of h = lower_of g.
  Proof. unfold lower_of. rewrite same_nd. reflexivity. Qed.
  Lemma same_upper : upper_of h = upper_of g.
  Proof. unfold upper_of. rewrite same_nd. reflexivity. Qed.
  Lemma same_node_list : nodes h = nodes g.
  Proof. unfold nodes. rewrite same_nodes. reflexivity. Qed.
  Lemma same_custs : custs h = custs g.
  Proof. unfold custs. rewrite same_node_list. reflexivity. Qed.
  Lemma same_node_data v : node_data h v = node_data g v.
  Proof. unfold node_data. rewrite same_nodes. reflexivity. Qed.

  Lemma same_wf : wf h.
  Proof. apply (wf_same g); [exact same_node_list|exact same_arcs|apply N]. Qed.

  Lemma same_time u v : time_of h u v = time_of g u v.
  Proof.
    unfold time_of. destruct (arc_data h u v) as [e1|] eqn:E1.
    - destruct (proj2 (proj2 S) u v e1 E1) as (e & E & _ & Et). rewrite E. exact Et.
    - destruct (arc_data g u v) as [e|] eqn:E; [|reflexivity]. exfalso.
      assert (Hin : In (u, v) (arc_list h)) by (rewrite same_arcs; apply arc_data_In; eauto).
      apply arc_data_In in Hin. destruct Hin as (e' & He'). rewrite E1 in He'. discriminate.
  Qed.

  Lemma same_network : network K h.
  Proof.
    constructor.
    - exact same_wf.
    - rewrite same_node_list. apply N.
    - rewrite same_node_list. apply N.
    - rewrite same_arcs. apply N.
    - rewrite same_arcs. apply N.
    - intros u v e1 E1. destruct (proj2 (proj2 S) u v e1 E1) as (e & E & Ec & _). rewrite Ec.
      exact (net_costs _ _ N u v e E).
  Qed.

  Lemma same_times p : path_sum (time_of h) p == path_sum (time_of g) p.
  Proof. apply path_sum_ext. intros u v _. rewrite same_time. reflexivity. Qed.

  Lemma same_pair v d : pair_of h v d <-> pair_of g v d.
  Proof. unfold pair_of. rewrite same_node_data. reflexivity. Qed.

  Lemma same_drivable o caps k ns dur cs : drivable g o caps k ns dur cs -> drivable h o caps k ns dur cs.
  Proof.
    intros [A1 A2 A3 A4 A5 A6 A7]. constructor; auto.
    - destruct A1 as [B1 B2 B3 B4]. constructor; auto. rewrite same_arcs. exact B4.
    - unfold within_load. rewrite same_demand. exact A3.
    - unfold within_duration. rewrite same_service. intros D H1 H2. rewrite same_times. exact (A4 D H1 H2).
    - intro H. specialize (A5 H). unfold within_windows, tw_feasible in *. destruct A5 as (T & HT). exists T.
      rewrite same_lower, same_upper, same_service. revert HT. apply timetable_ext; auto. intros u v _. rewrite same_time. reflexivity.
    - intros H l c H1 H2. destruct (A6 H l c H1 H2) as [B1 B2 B3 B4]. constructor; rewrite ?same_demand; auto.
      + intros v d Hp. apply B1. apply same_pair. exact Hp.
      + intros v d Hp. apply B2. apply same_pair. exact Hp.
    - intros H l c H1 H2. unfold both_fit. rewrite same_demand, same_collect. exact (A7 H l c H1 H2).
  Qed.

  Lemma same_mip_data o caps k : mip_data g o caps k -> mip_data h o caps k.
  Proof.
    intros [A1 A2 A3 A4 A5 A6]. constructor;
      rewrite ?same_lower, ?same_upper, ?same_service, ?same_demand, ?same_collect, ?same_arcs, ?same_node_list, ?same_custs; auto.
    - intros H v Hv. rewrite same_time. auto.
    - intros H u v Huv Hu. rewrite same_time. auto.
    - intros H v d Hp. apply (A4 H). apply same_pair. exact Hp.
  Qed.
End SameData.

(** ** The bound *)
Theorem bound_answers K g o cs m solver pi m1 D q po caps ns dur P :
  network K g -> built g o cs m -> mo_periodic o = false -> mo_span o = false ->
  (forall fl, mo_fleet o = Some fl -> fl <> [] -> (K <= List.length fl)%nat) ->
  solve_master g o true cs solver pi m = Ok (m1, D, Some q) -> dual_solution o m pi q ->
  (forall k, (k < K)%nat -> mip_data g po caps k) ->
  (forall k, (k < K)%nat -> exists h neg p a, add_reduced_cost D k None g = Ok h /\
     LPPricing.formulate h k caps po ns dur neg = Ok p /\ exact_answer p a /\ nothing_found a) ->
  serves g o P -> (forall k c, In (k, c) P -> (k < K)%nat /\ drivable g po caps k ns dur c) ->
  q <= tours_cost g P + (1 # 1000) * inject_Z (Z.of_nat (List.length P)).
Proof.
  intros N B PER NSP FL SM DS MD PR SV DR. assert (SH := built_shape _ _ _ _ B).
  assert (HD : get_duals g o m cs pi = Ok D).
  { unfold solve_master in SM. apply bind_ok in SM. destruct SM as (u & _ & SM). apply bind_ok in SM.
    destruct SM as (D' & HD & SM). inversion SM; subst. exact HD. }
  assert (W : wf g) by apply N.
  assert (OK : duals_ok K D) by exact (duals_are_ok g o cs m pi W SH PER NSP D HD K FL).
  apply (weak_duality g o cs m pi W SH PER NSP D HD q (1 # 1000) P DS SV).
  intros [k c] Ht. cbn [fst snd]. destruct (DR k c Ht) as [Hk Hd].
  destruct (PR k Hk) as (h & neg & p & a & A1 & A2 & EX & NF).
  destruct (reduced_cost_route K g D k None 1 N Hk OK eq_refl) as (h' & A1' & S & RC).
  assert (EH : h' = h) by congruence. subst h'.
  rewrite <- (RC c).
  - apply (nothing_below h K k caps po ns dur neg p a (same_network g h K N S)
             (same_mip_data g h S po caps k (MD k Hk)) A2 EX NF).
    exact (same_drivable g h S po caps k ns dur c Hd).
  - intros v Hv. exact (er_custs _ _ (dr_route _ _ _ _ _ _ _ Hd) v Hv).
  - exact (er_along _ _ (dr_route _ _ _ _ _ _ _ Hd)).
Qed.
Theorem lower_bound K g o cs m solver pi m1 D q po caps ns dur P :
  network K g -> built g o cs m -> mo_periodic o = false -> mo_span o = false ->
  (forall fl, mo_fleet o = Some fl -> fl <> [] -> (K <= List.length fl)%nat) ->
  solve_master g o true cs solver pi m = Ok (m1, D, Some q) -> dual_solution o m pi q ->
  (forall k, (k < K)%nat -> mip_data g po caps k) ->
  (forall k, (k < K)%nat -> exists h neg tl pricer keys routes, add_reduced_cost D k None g = Ok h /\
     (forall t, tl = Some t -> 0 < t \/ t == 0) /\
     (forall p, LPPricing.formulate h k caps po ns dur neg = Ok p -> exact_answer p (pricer p)) /\
     lp_solve h true k caps po ns dur neg tl true pricer keys routes = Ok (routes, false)) ->
  serves g o P -> (forall k c, In (k, c) P -> (k < K)%nat /\ drivable g po caps k ns dur c) ->
  q <= tours_cost g P + (1 # 1000) * inject_Z (Z.of_nat (List.length P)).
Proof.
  intros N B PER NSP FL SM DS MD PR SV DR.
  refine (bound_answers K g o cs m solver pi m1 D q po caps ns dur P N B PER NSP FL SM DS MD _ SV DR).
  intros k Hk. destruct (PR k Hk) as (h & neg & tl & pricer & keys & routes & A1 & TL & EX & A2).
  destruct (lp_solve_nothing _ _ _ _ _ _ _ _ _ _ _ _ (usable_limit tl TL) A2) as (p & Hp & NF).
  exists h, neg, p, (pricer p). auto.
Qed.
