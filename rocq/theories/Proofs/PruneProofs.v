(** Proofs about pruning. *)
From Verif.Base Require Import Prelude Graph.
From Verif.Spec Require Import Routes Network Inputs Feasible Prep.
From Verif.Model Require Import Args Reach Checks Preprocess.
From Verif.Proofs Require Import RouteLemmas ChecksProofs FeasProofs Deciders PreLemmas.

Lemma get_node_nd (g : vgraph) v d : get_node g v = Ok d -> nd g v = d /\ node_data g v = Some d.
Proof.
  unfold get_node, of_opt, nd. destruct (node_data g v); intro H; inversion H; subst; auto.
Qed.

Lemma get_arc_time (g : vgraph) u v e : get_arc g u v = Ok e -> time_of g u v = etime e /\ arc_data g u v = Some e.
Proof.
  unfold get_arc, of_opt, time_of. destruct (arc_data g u v); intro H; inversion H; subst; auto.
Qed.

(* ------------------------------------------------------------------ *)
(** * Capacity *)

Lemma foldM_filter {A} (f : A -> res bool) l : forall acc r,
  foldM (fun acc a => let* b := f a in Ok (if b : bool then acc ++ [a] else acc)) l acc = Ok r ->
  exists bad, r = acc ++ bad /\ (forall a, In a l -> exists b, f a = Ok b) /\
              forall a, In a bad <-> In a l /\ f a = Ok true.
Proof.
  induction l as [|x l IH]; intros acc r H; simpl in H.
  - inversion H; subst. exists []. rewrite app_nil_r. repeat split; auto; try intros a []; try contradiction.
    intros []. contradiction.
  - apply bind_ok in H. destruct H as (acc1 & H1 & H2). apply bind_ok in H1. destruct H1 as (b & Hb & H1).
    inversion H1; subst. apply IH in H2. destruct H2 as (bad & -> & T & B).
    destruct b.
    + exists (x :: bad). rewrite <- app_assoc. split; auto. split.
      * intros a [<-|Ha]; eauto.
      * intro a. simpl. rewrite B. split.
        -- intros [<-|(H3 & H4)]; auto.
        -- intros ([<-|H3] & H4); auto.
    + exists bad. split; auto. split.
      * intros a [<-|Ha]; eauto.
      * intro a. simpl. rewrite B. split.
        -- intros (H3 & H4); auto.
        -- intros ([<-|H3] & H4); auto. congruence.
Qed.

Lemma foldM_filter_total {A} (f : A -> res bool) l : (forall a, In a l -> exists b, f a = Ok b) ->
  forall acc, exists r,
  foldM (fun acc a => let* b := f a in Ok (if b : bool then acc ++ [a] else acc)) l acc = Ok r.
Proof.
  induction l as [|x l IH]; intros T acc; simpl; eauto.
  destruct (T x (or_introl eq_refl)) as (b & ->). simpl. apply IH. intros; apply T; right; auto.
Qed.

Lemma capacity_prune_eq cap (g : vgraph) :
  remove_infeasible_arcs_capacities cap g =
  (let* bad := foldM (fun acc a =>
      let* b := (let* di := get_node g (fst a) in
                 let* dj := get_node g (snd a) in
                 Ok (Qltb (inject_Z cap) (demand di + demand dj))) in
      Ok (if b : bool then acc ++ [a] else acc)) (edges g) [] in
   Ok (remove_arcs bad g)).
Proof.
  unfold remove_infeasible_arcs_capacities. f_equal.
  match goal with |- foldM ?f _ _ = foldM ?h _ _ => cut (forall l acc, foldM f l acc = foldM h l acc); [auto|] end.
  induction l as [|a l IH]; intro acc; simpl; auto.
  destruct (get_node g (fst a)); simpl; auto. destruct (get_node g (snd a)); simpl; auto.
Qed.

Lemma capacity_prune_ok cap (g : vgraph) : wf g ->
  exists g', remove_infeasible_arcs_capacities cap g = Ok g' /\
    gnodes g' = gnodes g /\ wf g' /\
    (forall u v, In (u, v) (arc_list g') <->
       In (u, v) (arc_list g) /\ demand_of g u + demand_of g v <= inject_Z cap) /\
    (forall u v, In (u, v) (arc_list g') -> arc_data g' u v = arc_data g u v).
Proof.
  intro W.
  assert (T : forall a, In a (edges g) -> exists b,
     (let* di := get_node g (fst a) in let* dj := get_node g (snd a) in
      Ok (Qltb (inject_Z cap) (demand di + demand dj))) = Ok b /\
     b = Qltb (inject_Z cap) (demand_of g (fst a) + demand_of g (snd a))).
  { intros [u v] Hin. apply in_edges in Hin; auto. destruct (wf_ends g W _ _ Hin) as (Hu & Hv).
    destruct (get_node_ok g u Hu) as (du & Eu & Du). destruct (get_node_ok g v Hv) as (dv & Ev & Dv).
    simpl. rewrite Eu, Ev. simpl. eexists. split; [reflexivity|].
    unfold demand_of, nd. rewrite Du, Dv. auto. }
  rewrite capacity_prune_eq.
  match goal with |- exists g', (let* bad := ?X in _) = _ /\ _ => destruct X as [bad|e] eqn:Eb end.
  2:{ exfalso.
      destruct (foldM_filter_total (fun a => let* di := get_node g (fst a) in let* dj := get_node g (snd a) in
          Ok (Qltb (inject_Z cap) (demand di + demand dj))) (edges g)
          (fun a Ha => match T a Ha with ex_intro _ b (conj Hb _) => ex_intro _ b Hb end) []) as (r & Hr).
      simpl in Hr. congruence. }
  apply foldM_filter in Eb. destruct Eb as (bad' & -> & _ & B). simpl.
  exists (remove_arcs bad' g). split; auto. split; [reflexivity|]. split; [apply wf_remove_arcs; auto|].
  assert (BB : forall u v, In (u, v) (arc_list g) ->
            (In (u, v) bad' <-> inject_Z cap < demand_of g u + demand_of g v)).
  { intros u v Hin. rewrite B, in_edges by auto. split.
    - intros (_ & H). destruct (T (u, v)) as (b & Hb & Eq); [apply in_edges; auto|]. rewrite Hb in H.
      inversion H; subst. simpl in H1. apply Qltb_lt; auto.
    - intro H. split; auto. destruct (T (u, v)) as (b & Hb & Eq); [apply in_edges; auto|]. rewrite Hb, Eq.
      simpl. f_equal. apply Qltb_lt. auto. }
  split.
  - intros u v. rewrite in_remove_arcs. split.
    + intros (H1 & H2). split; auto. destruct (Qlt_le_dec (inject_Z cap) (demand_of g u + demand_of g v)); auto.
      exfalso. apply H2. apply BB; auto.
    + intros (H1 & H2). split; auto. rewrite BB by auto. lra.
  - intros u v H. rewrite arc_data_remove_arcs. apply in_remove_arcs in H. destruct H as (_ & H).
    apply mem_arc_false in H. rewrite H. auto.
Qed.

(** In a route two consecutive nodes are different positions. *)
Lemma two_nodes_sum w r u v : (forall x, 0 <= w x) -> In (u, v) (arcs r) -> w u + w v <= node_sum w r.
Proof.
  intros P H. apply arcs_in in H. destruct H as (p & q & ->). rewrite node_sum_app, !node_sum_cons.
  pose proof (node_sum_nonneg w p (fun x _ => P x)). pose proof (node_sum_nonneg w q (fun x _ => P x)). lra.
Qed.

Lemma running_load_at d p : forall acc v q, exists l,
  In l (running_loads d acc (p ++ v :: q)) /\ l == acc + node_sum d p + d v.
Proof.
  induction p as [|x p IH]; intros acc v q; simpl.
  - exists (acc + d v). split; auto. rewrite node_sum_nil. lra.
  - destruct (IH (acc + d x) v q) as (l & Hl & E). exists l. split; auto. rewrite E, node_sum_cons. lra.
Qed.

Lemma running_loads_arc d cap r u v : loads_within d cap r -> In (u, v) (arcs r) -> d u + d v <= cap.
Proof.
  intros H Ha. apply arcs_in in Ha. destruct Ha as (p & q & ->).
  assert (E1 : 0 <= node_sum d p).
  { destruct p as [|x p] using rev_ind; [rewrite node_sum_nil; lra|].
    rewrite <- app_assoc in H. simpl in H. destruct (running_load_at d p 0 x (u :: v :: q)) as (l & Hl & E).
    apply H in Hl. rewrite node_sum_app, node_sum_cons, node_sum_nil. lra. }
  replace (p ++ u :: v :: q) with ((p ++ [u]) ++ v :: q) in H by (rewrite <- app_assoc; auto).
  destruct (running_load_at d (p ++ [u]) 0 v q) as (l & Hl & E). apply H in Hl.
  rewrite node_sum_app, node_sum_cons, node_sum_nil in E. lra.
Qed.

Lemma capacity_prune_keeps cap (g g' : vgraph) r : wf g ->
  remove_infeasible_arcs_capacities cap g = Ok g' -> along (arc_list g) r ->
  (nonneg_demands g /\ node_sum (demand_of g) r <= inject_Z cap) \/ loads_within (demand_of g) (inject_Z cap) r ->
  along (arc_list g') r.
Proof.
  intros W H Ha Hl. destruct (capacity_prune_ok cap g W) as (g1 & H1 & _ & _ & A & _).
  assert (g1 = g') by congruence. subst. intros u v Huv. apply A. split; [apply Ha; auto|].
  destruct Hl as [(P & S)|L].
  - pose proof (two_nodes_sum (demand_of g) r u v P Huv). lra.
  - apply (running_loads_arc _ _ r); auto.
Qed.

Lemma capacity_prune_round_trips cap (g g' : vgraph) : wf g ->
  remove_infeasible_arcs_capacities cap g = Ok g' -> round_trips g ->
  demand_of g Source <= 0 -> demand_of g Sink <= 0 ->
  (forall v, In v (custs g) -> demand_of g v <= inject_Z cap) -> round_trips g'.
Proof.
  intros W H R S T D. destruct (capacity_prune_ok cap g W) as (g1 & H1 & G & _ & A & _).
  assert (g1 = g') by congruence. subst. intros v Hv.
  assert (Hc : In v (custs g)) by (unfold custs, nodes in *; rewrite G in Hv; auto).
  destruct (R v Hc) as (R1 & R2). specialize (D v Hc). split; apply A; split; auto; lra.
Qed.

(* ------------------------------------------------------------------ *)
(** * Time windows *)

Definition tighten_node (g : vgraph) (v : node) (d : ndata) : ndata :=
  if is_depot v then d else
  set_upper (pymin2 (upper d) (upper_of g Sink - time_of g v Sink))
    (set_lower (pymax2 (lower d) (lower_of g Source + time_of g Source v)) d).
Definition tightened (g : vgraph) : vgraph := map_nodes (tighten_node g) g.

Lemma nd_map_nodes f (g : vgraph) v : In v (nodes g) -> nd (map_nodes f g) v = f v (nd g v).
Proof.
  intro H. unfold nd. rewrite node_data_map_nodes. apply node_data_In in H. destruct H as (d & ->). auto.
Qed.

Lemma time_map_nodes f (g : vgraph) u v : time_of (map_nodes f g) u v = time_of g u v.
Proof. unfold time_of. rewrite arc_data_map_nodes. auto. Qed.

Section Strengthen.
  Variable g : vgraph.
  Hypothesis W : wf g.
  Hypothesis HS : In Source (nodes g).
  Hypothesis HT : In Sink (nodes g).
  Hypothesis R : round_trips g.

  (** graph in which the nodes of [done] have been strengthened *)
  Definition partly (done : list node) : vgraph :=
    map_nodes (fun v d => if mem v done then tighten_node g v d else d) g.

  Lemma partly_depot done v : is_depot v = true -> nd (partly done) v = nd g v.
  Proof.
    intro H. unfold nd, partly. rewrite node_data_map_nodes. destruct (node_data g v); simpl; auto.
    unfold tighten_node. rewrite H. destruct (mem v done); auto.
  Qed.

  Lemma strengthen_step done v : In v (nodes g) -> ~ In v done ->
    strengthen_node (partly done) v = Ok (partly (done ++ [v])).
  Proof.
    intros Hv Hn. unfold strengthen_node. destruct (is_depot v) eqn:Ed.
    - f_equal. unfold partly, map_nodes. f_equal. apply map_ext. intros [w d]. simpl. f_equal.
      unfold mem. rewrite existsb_app. simpl. rewrite orb_false_r.
      destruct (existsb (node_eqb w) done); simpl; auto.
      destruct (node_eqb w v) eqn:E; auto. apply node_eqb_eq in E. subst.
      unfold tighten_node. rewrite Ed. auto.
    - assert (Hc : In v (custs g)) by (apply in_custs; split; auto; apply is_depot_false; auto).
      destruct (R v Hc) as (R1 & R2).
      assert (Np : nodes (partly done) = nodes g) by apply nodes_map_nodes.
      assert (Ap : arc_list (partly done) = arc_list g) by apply arc_list_map_nodes.
      destruct (get_node_ok (partly done) v) as (d & E1 & D1); [rewrite Np; auto|].
      destruct (get_node_ok (partly done) Source) as (s & E2 & D2); [rewrite Np; auto|].
      destruct (get_node_ok (partly done) Sink) as (t & E3 & D3); [rewrite Np; auto|].
      destruct (get_arc_ok (partly done) Source v) as (e1 & E4 & D4); [rewrite Ap; auto|].
      destruct (get_arc_ok (partly done) v Sink) as (e2 & E5 & D5); [rewrite Ap; auto|].
      rewrite E1, E2, E4, E3, E5. cbn [bind].
      assert (Ls : lower s = lower_of g Source).
      { apply get_node_nd in E2. destruct E2 as (E2 & _). rewrite partly_depot in E2 by auto.
        unfold lower_of. congruence. }
      assert (Ut : upper t = upper_of g Sink).
      { apply get_node_nd in E3. destruct E3 as (E3 & _). rewrite partly_depot in E3 by auto.
        unfold upper_of. congruence. }
      assert (T1 : etime e1 = time_of g Source v).
      { apply get_arc_time in E4. destruct E4 as (E4 & _). unfold partly in E4. rewrite time_map_nodes in E4. auto. }
      assert (T2 : etime e2 = time_of g v Sink).
      { apply get_arc_time in E5. destruct E5 as (E5 & _). unfold partly in E5. rewrite time_map_nodes in E5. auto. }
      assert (Dv : nd g v = d).
      { apply get_node_nd in E1. destruct E1 as (E1 & _). unfold partly in E1. rewrite nd_map_nodes in E1 by auto.
        apply mem_false in Hn. rewrite Hn in E1. auto. }
      f_equal. unfold partly, map_nodes. f_equal. simpl. rewrite map_map. apply map_ext_in.
      intros [w x] Hin. simpl. f_equal. unfold mem. rewrite existsb_app. simpl. rewrite orb_false_r.
      destruct (node_eqb w v) eqn:E.
      + apply node_eqb_eq in E. subst w. apply mem_false in Hn. unfold mem in Hn. rewrite Hn. simpl.
        assert (x = d).
        { pose proof (gnodes_data g v x W Hin) as Hx. unfold nd in Dv. rewrite Hx in Dv. auto. }
        subst x. unfold tighten_node. rewrite Ed, Ls, Ut, T1, T2. auto.
      + rewrite orb_false_r. auto.
  Qed.

  Lemma strengthen_all : foldM strengthen_node (nodes g) g = Ok (tightened g).
  Proof.
    assert (G : forall l done, (forall v, In v l -> In v (nodes g)) -> NoDup (done ++ l) ->
              foldM strengthen_node l (partly done) = Ok (partly (done ++ l))).
    { induction l as [|v l IH]; intros done Hi Hn; simpl.
      - rewrite app_nil_r. auto.
      - rewrite strengthen_step.
        + simpl. rewrite (IH (done ++ [v])).
          * rewrite <- app_assoc. auto.
          * intros; apply Hi; right; auto.
          * rewrite <- app_assoc. auto.
        + apply Hi. left; auto.
        + intro C. apply NoDup_remove_2 in Hn. apply Hn. apply in_or_app. auto. }
    assert (E0 : g = partly []).
    { unfold partly, map_nodes. destruct g as [ns es]. simpl. f_equal.
      induction ns as [|[w d] ns IH]; simpl; auto. f_equal.
      clear -ns. induction ns as [|[w d] ns IH]; simpl; auto. f_equal. auto. }
    rewrite E0 at 2. rewrite (G (nodes g) []).
    - f_equal. simpl. unfold partly, tightened, map_nodes. f_equal. apply map_ext_in. intros [w d] Hin. simpl.
      assert (M : mem w (nodes g) = true) by (apply mem_In; apply in_map_iff; exists (w, d); auto).
      rewrite M. auto.
    - auto.
    - simpl. apply W.
  Qed.
End Strengthen.

Lemma pymax2_idem a b : pymax2 (pymax2 a b) b = pymax2 a b.
Proof.
  unfold pymax2. destruct (Qltb a b) eqn:E.
  - destruct (Qltb b b); auto.
  - rewrite E. auto.
Qed.
Lemma pymin2_idem a b : pymin2 (pymin2 a b) b = pymin2 a b.
Proof.
  unfold pymin2. destruct (Qltb b a) eqn:E.
  - destruct (Qltb b b); auto.
  - rewrite E. auto.
Qed.

Lemma tightened_nd g v : In v (nodes g) -> nd (tightened g) v = tighten_node g v (nd g v).
Proof. apply nd_map_nodes. Qed.

Lemma tightened_lower g v : In v (nodes g) -> lower_of (tightened g) v = tight_lower g v.
Proof.
  intro H. unfold lower_of at 1. rewrite tightened_nd by auto. unfold tighten_node, tight_lower.
  destruct (is_depot v); auto.
Qed.
Lemma tightened_upper g v : In v (nodes g) -> upper_of (tightened g) v = tight_upper g v.
Proof.
  intro H. unfold upper_of at 1. rewrite tightened_nd by auto. unfold tighten_node, tight_upper.
  destruct (is_depot v); auto.
Qed.
Lemma tightened_service g v : service_of (tightened g) v = service_of g v.
Proof.
  unfold service_of, nd, tightened. rewrite node_data_map_nodes. destruct (node_data g v); simpl; auto.
  unfold tighten_node. destruct (is_depot v); auto.
Qed.
Lemma tightened_demand g v : demand_of (tightened g) v = demand_of g v.
Proof.
  unfold demand_of, nd, tightened. rewrite node_data_map_nodes. destruct (node_data g v); simpl; auto.
  unfold tighten_node. destruct (is_depot v); auto.
Qed.
Lemma tightened_collect g v : collect_of (tightened g) v = collect_of g v.
Proof.
  unfold collect_of, nd, tightened. rewrite node_data_map_nodes. destruct (node_data g v); simpl; auto.
  unfold tighten_node. destruct (is_depot v); auto.
Qed.
Lemma tightened_time g u v : time_of (tightened g) u v = time_of g u v.
Proof. apply time_map_nodes. Qed.

Lemma tightened_idem g : In Source (nodes g) -> In Sink (nodes g) -> tightened (tightened g) = tightened g.
Proof.
  intros HS HT. unfold tightened at 1 3. unfold map_nodes. simpl. f_equal. rewrite map_map. apply map_ext.
  intros [v d]. simpl. f_equal. unfold tighten_node at 1.
  rewrite (tightened_upper g Sink HT), (tightened_lower g Source HS), !tightened_time.
  unfold tight_upper, tight_lower, tighten_node. simpl is_depot. cbn match.
  destruct (is_depot v) eqn:E; auto. unfold set_upper, set_lower. simpl.
  rewrite pymax2_idem, pymin2_idem. auto.
Qed.

Lemma tightened_round g : round_trips g -> round_trips (tightened g).
Proof.
  intros R v Hv. unfold tightened in *. unfold custs in Hv. rewrite nodes_map_nodes in Hv.
  rewrite arc_list_map_nodes. apply R. exact Hv.
Qed.

Lemma tw_step_ok g bad a : wf g -> In Source (nodes g) -> In Sink (nodes g) -> round_trips g ->
  In a (arc_list g) ->
  exists b : bool, tw_step (g, bad) a = Ok (tightened g, if b then bad ++ [a] else bad) /\
    (b = true <-> too_late (time_of g) (service_of g) (lower_of g) (upper_of g) (fst a) (snd a)).
Proof.
  intros W HS HT R Hin. destruct a as [u v]. unfold tw_step. cbn [fst snd].
  destruct (get_arc_ok g u v Hin) as (e & Ee & De). rewrite Ee. cbn [bind].
  destruct (wf_ends g W _ _ Hin) as (Hu & Hv).
  destruct (get_node_ok g u Hu) as (du & Eu & Du). rewrite Eu. cbn [bind].
  destruct (get_node_ok g v Hv) as (dv & Ev & Dv). rewrite Ev. cbn [bind].
  rewrite (strengthen_all g W HS HT R). cbn [bind].
  exists (Qltb (upper dv) (lower du + etime e + service du)). split; auto.
  rewrite Qltb_lt. unfold too_late, upper_of, lower_of, time_of, service_of, nd. rewrite Du, Dv, De. tauto.
Qed.

Lemma tw_loop_ok g l : wf g -> In Source (nodes g) -> In Sink (nodes g) -> round_trips g ->
  (forall a, In a l -> In a (arc_list g)) -> forall bad, exists new,
  foldM tw_step l (tightened g, bad) = Ok (tightened g, bad ++ new) /\
  forall a, In a new <-> In a l /\ too_late (time_of g) (service_of g) (tight_lower g) (tight_upper g) (fst a) (snd a).
Proof.
  intros W HS HT R. induction l as [|a l IH]; intros Hl bad; cbn [foldM].
  - exists []. rewrite app_nil_r. split; auto. intro a. simpl. tauto.
  - assert (W' : wf (tightened g)) by (apply wf_map_nodes; auto).
    assert (HS' : In Source (nodes (tightened g))) by (unfold tightened; rewrite nodes_map_nodes; auto).
    assert (HT' : In Sink (nodes (tightened g))) by (unfold tightened; rewrite nodes_map_nodes; auto).
    assert (Ha : In a (arc_list g)) by (apply Hl; left; auto).
    destruct (tw_step_ok (tightened g) bad a W' HS' HT' (tightened_round g R)) as (b & Hb & Tb).
    { unfold tightened. rewrite arc_list_map_nodes. auto. }
    rewrite tightened_idem in Hb by auto.
    pose proof (f_equal (fun z => bind z (foldM tw_step l)) Hb) as Hb2. cbn [bind] in Hb2.
    assert (Tb' : b = true <-> too_late (time_of g) (service_of g) (tight_lower g) (tight_upper g) (fst a) (snd a)).
    { rewrite Tb. unfold too_late. rewrite tightened_time, tightened_service.
      destruct a as [u v]. destruct (wf_ends g W _ _ Ha) as (Hu & Hv). cbn [fst snd].
      rewrite tightened_lower, tightened_upper by auto. tauto. }
    destruct (IH (fun a' H => Hl a' (or_intror H)) (if b then bad ++ [a] else bad)) as (new & Hn & An).
    destruct b.
    + exists (a :: new). split.
      { eapply eq_trans; [exact Hb2|]. rewrite <- app_assoc in Hn. exact Hn. }
      intro x. simpl. rewrite An. split.
      * intros [<-|(H1 & H2)]; auto. split; auto. apply Tb'; auto.
      * intros ([<-|H1] & H2); auto.
    + exists new. split; [eapply eq_trans; [exact Hb2|exact Hn]|]. intro x. rewrite An. simpl. split.
      * intros (H1 & H2); auto.
      * intros ([<-|H1] & H2); auto. apply Tb' in H2. discriminate.
Qed.

(** Exact effect: windows tightened by the direct trips; an arc is removed exactly if it is too
    late for the tightened windows (for the original ones if it is the first arc looked at). *)
Lemma tw_prune_ok g : wf g -> In Source (nodes g) -> In Sink (nodes g) -> round_trips g ->
  exists g', remove_infeasible_arcs_time_windows g = Ok g' /\ wf g' /\ nodes g' = nodes g /\
    (forall v, demand_of g' v = demand_of g v /\ collect_of g' v = collect_of g v /\
               service_of g' v = service_of g v) /\
    (arc_list g <> [] -> forall v, In v (nodes g) ->
        lower_of g' v = tight_lower g v /\ upper_of g' v = tight_upper g v) /\
    (forall u v, In (u, v) (arc_list g') <-> In (u, v) (arc_list g) /\
       ~ (if match edges g with a :: _ => arc_eqb a (u, v) | [] => false end
          then too_late (time_of g) (service_of g) (lower_of g) (upper_of g) u v
          else too_late (time_of g) (service_of g) (tight_lower g) (tight_upper g) u v)) /\
    (forall u v, In (u, v) (arc_list g') -> arc_data g' u v = arc_data g u v).
Proof.
  intros W HS HT R. unfold remove_infeasible_arcs_time_windows.
  pose proof (edges_NoDup g W) as ND.
  assert (Hin : forall a, In a (edges g) -> In a (arc_list g)).
  { intros [u v] H. apply in_edges in H; auto. }
  destruct (edges g) as [|a0 rest] eqn:Ee.
  - (* no arc at all *)
    simpl. exists (remove_arcs [] g). split; auto. split; [apply wf_remove_arcs; auto|].
    split; [reflexivity|]. split; [intro v; repeat split; reflexivity|].
    assert (Hno : forall u v, ~ In (u, v) (arc_list g)).
    { intros u v H. apply (in_edges g u v W) in H. rewrite Ee in H. destruct H. }
    split; [|split].
    + intro Hne. exfalso. destruct (arc_list g) as [|[u v] l]; [congruence|]. apply (Hno u v). left; auto.
    + intros u v. rewrite in_remove_arcs. split; [intros (H & _)|intros (H & _)]; exfalso; eapply Hno; eauto.
    + intros u v H. apply in_remove_arcs in H. exfalso. eapply Hno. apply H.
  - assert (Ha0 : In a0 (arc_list g)) by (apply Hin; left; auto).
    destruct (tw_step_ok g [] a0 W HS HT R Ha0) as (b & Hb & Tb).
    destruct (tw_loop_ok g rest W HS HT R (fun a H => Hin a (or_intror H)) (if b then [] ++ [a0] else [])) as (new & Hn & An).
    set (bad := (if b then [] ++ [a0] else []) ++ new) in *.
    exists (remove_arcs bad (tightened g)). split.
    { assert (X : foldM tw_step (a0 :: rest) (g, []) = Ok (tightened g, bad)).
      { pose proof (f_equal (fun z => bind z (foldM tw_step rest)) Hb) as Hb2. cbn [bind] in Hb2.
        eapply eq_trans; [exact Hb2|exact Hn]. }
      match goal with |- bind ?Y _ = _ => replace Y with (Ok (tightened g, bad)) by (symmetry; exact X) end.
      reflexivity. }
    split; [apply wf_remove_arcs, wf_map_nodes; auto|].
    split; [rewrite nodes_remove_arcs; apply nodes_map_nodes|].
    split.
    { intro v. unfold demand_of, collect_of, service_of, nd. rewrite node_data_remove_arcs.
      fold (nd (tightened g) v). split; [apply tightened_demand|]. split; [apply tightened_collect|apply tightened_service]. }
    split.
    { intros _ v Hv. unfold lower_of at 1, upper_of at 1, nd. rewrite node_data_remove_arcs.
      fold (nd (tightened g) v). split; [apply tightened_lower; auto|apply tightened_upper; auto]. }
    inversion ND as [|? ? Hni ND']; subst.
    assert (Bad : forall u v, In (u, v) (arc_list g) ->
       (In (u, v) bad <->
        if arc_eqb a0 (u, v) then too_late (time_of g) (service_of g) (lower_of g) (upper_of g) u v
        else too_late (time_of g) (service_of g) (tight_lower g) (tight_upper g) u v)).
    { intros u v H. unfold bad. rewrite in_app_iff, An. destruct (arc_eqb a0 (u, v)) eqn:E0.
      - apply arc_eqb_eq in E0. subst a0. cbn [fst snd] in Tb. rewrite <- Tb. split.
        + intros [Hx|(Hx & _)]; [|contradiction]. destruct b; auto.
        + intros ->. left. simpl. auto.
      - cbn [fst snd]. split.
        + intros [Hx|(_ & Hx)]; auto. destruct b; simpl in Hx; [destruct Hx as [Hx|[]]|destruct Hx].
          subst. rewrite (proj2 (arc_eqb_eq _ _) eq_refl) in E0. discriminate.
        + intro Hx. right. split; auto. apply (in_edges g u v W) in H. rewrite Ee in H.
          destruct H as [H|H]; auto. subst. rewrite (proj2 (arc_eqb_eq _ _) eq_refl) in E0. discriminate. }
    split.
    + intros u v. rewrite in_remove_arcs. unfold tightened. rewrite arc_list_map_nodes. split.
      * intros (H1 & H2). split; auto. rewrite <- Bad by auto. auto.
      * intros (H1 & H2). split; auto. rewrite Bad by auto. auto.
    + intros u v H. rewrite arc_data_remove_arcs. apply in_remove_arcs in H. destruct H as (_ & H).
      apply mem_arc_false in H. rewrite H. unfold tightened. apply arc_data_map_nodes.
Qed.

Lemma Ok_inj {A} (x y : A) : Ok x = Ok y -> x = y.
Proof. congruence. Qed.

(** The remaining node attributes are not touched. *)
Lemma tw_prune_rest g g' : wf g -> In Source (nodes g) -> In Sink (nodes g) -> round_trips g ->
  remove_infeasible_arcs_time_windows g = Ok g' ->
  forall v, freq (nd g' v) = freq (nd g v) /\ request (nd g' v) = request (nd g v) /\
            is_aux_depot (nd g' v) = is_aux_depot (nd g v).
Proof.
  intros W HS HT R. unfold remove_infeasible_arcs_time_windows.
  assert (Hin : forall a, In a (edges g) -> In a (arc_list g)).
  { intros [u v] H. apply in_edges in H; auto. }
  destruct (edges g) as [|a0 rest] eqn:Ee.
  - intro H. inversion H; subst. auto.
  - assert (Ha0 : In a0 (arc_list g)) by (apply Hin; left; auto).
    destruct (tw_step_ok g [] a0 W HS HT R Ha0) as (b & Hb & _).
    destruct (tw_loop_ok g rest W HS HT R (fun a H => Hin a (or_intror H)) (if b then [] ++ [a0] else [])) as (new & Hn & _).
    set (bad := (if b then [] ++ [a0] else []) ++ new) in *.
    assert (X : foldM tw_step (a0 :: rest) (g, []) = Ok (tightened g, bad)).
    { pose proof (f_equal (fun z => bind z (foldM tw_step rest)) Hb) as Hb2. cbn [bind] in Hb2.
      eapply eq_trans; [exact Hb2|exact Hn]. }
    intro H. apply bind_ok in H. destruct H as (st & H1 & H2).
    assert (st = (tightened g, bad)) by (eapply Ok_inj; eapply eq_trans; [symmetry; exact H1|exact X]). subst st.
    apply Ok_inj in H2. subst g'. intro v. unfold nd. cbn [fst snd]. rewrite node_data_remove_arcs. unfold tightened.
    rewrite node_data_map_nodes. destruct (node_data g v); simpl; auto.
    unfold tighten_node. destruct (is_depot v); auto.
Qed.

(* ------------------------------------------------------------------ *)
(** With the triangle inequality the preprocessing keeps every feasible timetable. *)

Lemma timetable_mono time service low up low' up' p T :
  timetable time service low up p T ->
  (forall u t, In (u, t) (combine p T) -> low u <= t -> t <= up u -> low' u <= t /\ t <= up' u) ->
  timetable time service low' up' p T.
Proof.
  revert T. induction p as [|u p IH]; intros [|t T] H Hm; simpl in H; auto.
  - destruct p as [|v p]; destruct T as [|t' T]; try contradiction.
    + destruct H as (H1 & H2). apply Hm; simpl; auto.
    + destruct H as (H1 & H2 & H3 & H4). simpl.
      destruct (Hm u t (or_introl eq_refl) H1 H2) as (A & B). split; auto. split; auto. split; auto.
      apply (IH (t' :: T)); auto. intros x y Hxy. apply Hm. right. auto.
Qed.

Lemma in_combine_split {A B} (p q : list A) (T : list B) v t :
  In (v, t) (combine (p ++ q) T) -> ~ In v q -> In (v, t) (combine p T).
Proof.
  revert T. induction p as [|a p IH]; intros T H Hq; simpl in *.
  - apply in_combine_l in H. contradiction.
  - destruct T as [|b T]; [auto|]. destruct H as [H|H]; [left; auto|right; apply IH; auto].
Qed.

Section Triangle.
  Variable g : vgraph.
  Hypothesis D : direct_is_fastest g.
  Hypothesis P : nonneg_services g.
  Local Notation tt_ := (timetable (time_of g) (service_of g) (lower_of g) (upper_of g)).

  Lemma chain_lower base cs : forall c t T,
    (forall v, In v (c :: cs) -> v <> Source /\ v <> Sink) ->
    along (arc_list g) (c :: cs ++ [Sink]) -> tt_ (c :: cs ++ [Sink]) (t :: T) ->
    base + time_of g Source c <= t ->
    forall v s, In (v, s) (combine (c :: cs) (t :: T)) -> base + time_of g Source v <= s.
  Proof.
    induction cs as [|c2 cs IH]; intros c t T Hc Ha Ht Hb v s Hin.
    - destruct Hin as [Hin|[]]. inversion Hin; subst; auto.
    - destruct Hin as [Hin|Hin]; [inversion Hin; subst; auto|].
      simpl app in Ha, Ht. apply along_cons2 in Ha. destruct Ha as (Ha1 & Ha2).
      destruct T as [|t2 T]; [destruct Ht|].
      simpl in Ht. destruct Ht as (H1 & H2 & H3 & H4).
      apply (IH c2 t2 T); auto.
      + intros x Hx. apply Hc. right; auto.
      + destruct D as (D1 & _). pose proof (D1 c c2 Ha1 (proj1 (Hc c (or_introl eq_refl)))
                                       (proj2 (Hc c2 (or_intror (or_introl eq_refl))))). lra.
  Qed.

  Lemma chain_upper cs : forall c t T,
    (forall v, In v (c :: cs) -> v <> Source /\ v <> Sink) ->
    along (arc_list g) (c :: cs ++ [Sink]) -> tt_ (c :: cs ++ [Sink]) (t :: T) ->
    forall v s, In (v, s) (combine (c :: cs) (t :: T)) -> s + time_of g v Sink <= upper_of g Sink.
  Proof.
    induction cs as [|c2 cs IH]; intros c t T Hc Ha Ht v s Hin.
    - destruct Hin as [Hin|[]]. inversion Hin; subst. simpl in Ht. destruct T as [|t2 T]; [destruct Ht|].
      destruct Ht as (H1 & H2 & H3 & H4). destruct T; [|destruct H4]. pose proof (P v). lra.
    - simpl app in Ha, Ht. apply along_cons2 in Ha. destruct Ha as (Ha1 & Ha2).
      destruct T as [|t2 T]; [destruct Ht|].
      simpl in Ht. destruct Ht as (H1 & H2 & H3 & H4).
      assert (IH' : forall v s, In (v, s) (combine (c2 :: cs) (t2 :: T)) -> s + time_of g v Sink <= upper_of g Sink).
      { apply IH; auto. intros x Hx. apply Hc. right; auto. }
      destruct Hin as [Hin|Hin]; auto. inversion Hin; subst.
      specialize (IH' c2 t2 (or_introl eq_refl)).
      destruct D as (_ & D2). pose proof (D2 v c2 Ha1 (proj1 (Hc v (or_introl eq_refl)))
                                       (proj2 (Hc c2 (or_intror (or_introl eq_refl))))). lra.
  Qed.

  Lemma timetable_tight r T : route_shape r -> along (arc_list g) r -> tt_ r T ->
    timetable (time_of g) (service_of g) (tight_lower g) (tight_upper g) r T.
  Proof.
    intros (cs & -> & _ & Hc) Ha Ht. apply (timetable_mono _ _ _ _ _ _ _ _ Ht).
    intros v t Hin Hl Hu. unfold tight_lower, tight_upper. destruct (is_depot v) eqn:Ed; auto.
    apply is_depot_false in Ed. destruct Ed as (Es & Ek).
    assert (K : lower_of g Source + time_of g Source v <= t /\ t + time_of g v Sink <= upper_of g Sink).
    { destruct cs as [|c cs].
      - exfalso. simpl in Hin. destruct T as [|t0 T]; [destruct Hin|]. destruct Hin as [Hin|Hin];
          [inversion Hin; subst; congruence|]. destruct T as [|t1 T]; [destruct Hin|].
        destruct Hin as [Hin|Hin]; [inversion Hin; subst; congruence|]. simpl in Hin. destruct Hin.
      - simpl app in *. destruct T as [|t0 T]; [destruct Ht|]. destruct T as [|t1 T]; [simpl in Ht; tauto|].
        apply along_cons2 in Ha. destruct Ha as (_ & Ha).
        destruct Ht as (H1 & H2 & H3 & H4).
        assert (Hin' : In (v, t) (combine (c :: cs) (t1 :: T))).
        { destruct Hin as [Hin|Hin]; [inversion Hin; subst; congruence|].
          apply (in_combine_split (c :: cs) [Sink]); auto.
          simpl. intros [Hx|[]]. congruence. }
        split.
        + apply (chain_lower (lower_of g Source) cs c t1 T); auto. pose proof (P Source). lra.
        + apply (chain_upper cs c t1 T); auto. }
    destruct K as (K1 & K2). split.
    - destruct (pymax2_spec (lower_of g v) (lower_of g Source + time_of g Source v)) as (_ & _ & [->| ->]); auto.
    - destruct (pymin2_spec (upper_of g v) (upper_of g Sink - time_of g v Sink)) as (_ & _ & [->| ->]); auto. lra.
  Qed.
End Triangle.

Lemma timetable_not_late time service low up r : forall T, timetable time service low up r T ->
  forall u v, In (u, v) (arcs r) -> ~ too_late time service low up u v.
Proof.
  unfold too_late. induction r as [|a r IH]; intros T Ht u v Hin; [destruct Hin|].
  destruct r as [|b r]; [destruct Hin|]. destruct T as [|t T]; [destruct Ht|].
  destruct T as [|t2 T]; [simpl in Ht; tauto|]. destruct Ht as (H1 & H2 & H3 & H4).
  rewrite arcs_cons2 in Hin. destruct Hin as [Hin|Hin].
  - inversion Hin; subst. destruct r as [|c r]; destruct T as [|t3 T]; simpl in H4; try tauto.
    + destruct H4. lra.
    + destruct H4 as (A & B & _). lra.
  - apply (IH (t2 :: T)); auto.
Qed.

Lemma timetable_ext time time' service service' low low' up up' r : forall T,
  (forall u v, In (u, v) (arcs r) -> time u v = time' u v) ->
  (forall v, In v r -> service v = service' v /\ low v = low' v /\ up v = up' v) ->
  timetable time service low up r T -> timetable time' service' low' up' r T.
Proof.
  induction r as [|a r IH]; intros T Hd Hn Ht; [auto|].
  destruct (Hn a (or_introl eq_refl)) as (N1 & N2 & N3).
  destruct r as [|b r]; destruct T as [|t T]; try (destruct Ht; fail).
  - destruct T; simpl in *; [rewrite <- N2, <- N3; auto|auto].
  - destruct T as [|t2 T]; [simpl in Ht; tauto|]. destruct Ht as (H1 & H2 & H3 & H4).
    assert (X : timetable time' service' low' up' (b :: r) (t2 :: T)).
    { apply IH; auto.
      - intros u v Huv. apply Hd. rewrite arcs_cons2. right; auto.
      - intros v Hv. apply Hn. right; auto. }
    cbn [timetable]. rewrite <- N1, <- N2, <- N3, <- (Hd a b) by (rewrite arcs_cons2; left; auto).
    repeat (split; [assumption|]). exact X.
Qed.

Lemma route_ne r : route_shape r -> exists u v, In (u, v) (arcs r).
Proof.
  intros (cs & -> & _ & _). destruct cs as [|c cs]; simpl.
  - exists Source, Sink. auto.
  - exists Source, c. auto.
Qed.

Lemma route_in_graph (g : vgraph) r : wf g -> route_shape r -> along (arc_list g) r ->
  forall v, In v r -> In v (nodes g).
Proof.
  intros W (cs & -> & _ & _) Ha v Hv.
  assert (Q : forall p u w, along (arc_list g) (u :: w :: p) -> forall x, In x (u :: w :: p) -> In x (nodes g)).
  { induction p as [|y p IH]; intros u w A x Hx; apply along_cons2 in A; destruct A as (A1 & A2);
      destruct (wf_ends g W _ _ A1); destruct Hx as [<-|Hx]; auto.
    - destruct Hx as [<-|[]]; auto.
    - apply (IH w y); auto. }
  destruct cs as [|c cs]; simpl in *; eapply Q; eauto.
Qed.

Lemma tw_prune_keeps (g g' : vgraph) r T : wf g -> In Source (nodes g) -> In Sink (nodes g) -> round_trips g ->
  direct_is_fastest g -> nonneg_services g ->
  remove_infeasible_arcs_time_windows g = Ok g' ->
  route_shape r -> along (arc_list g) r ->
  timetable (time_of g) (service_of g) (lower_of g) (upper_of g) r T ->
  along (arc_list g') r /\ timetable (time_of g') (service_of g') (lower_of g') (upper_of g') r T.
Proof.
  intros W HS HT R D P H Hr Ha Ht.
  destruct (tw_prune_ok g W HS HT R) as (g1 & H1 & W' & N & F & Win & A & E).
  assert (g1 = g') by congruence. subst g1.
  pose proof (timetable_tight g D P r T Hr Ha Ht) as Ht'.
  assert (Ha' : along (arc_list g') r).
  { intros u v Huv. apply A. split; [apply Ha; auto|].
    destruct (match edges g with a :: _ => arc_eqb a (u, v) | [] => false end);
      eapply timetable_not_late; eauto. }
  split; auto.
  assert (Hne : arc_list g <> []).
  { destruct (route_ne r Hr) as (u & v & Huv). apply Ha in Huv. intro C. rewrite C in Huv. destruct Huv. }
  apply (timetable_ext (time_of g) _ (service_of g) _ (tight_lower g) _ (tight_upper g)); auto.
  - intros u v Huv. unfold time_of. rewrite E; auto.
  - intros v Hv. destruct (F v) as (_ & _ & ->). destruct (Win Hne v (route_in_graph g r W Hr Ha v Hv)) as (-> & ->).
    auto.
Qed.

(** Pruning never makes a route feasible that was not. *)
Lemma tw_prune_sound (g g' : vgraph) r T : wf g -> In Source (nodes g) -> In Sink (nodes g) -> round_trips g ->
  remove_infeasible_arcs_time_windows g = Ok g' ->
  route_shape r -> along (arc_list g') r ->
  timetable (time_of g') (service_of g') (lower_of g') (upper_of g') r T ->
  along (arc_list g) r /\ timetable (time_of g) (service_of g) (lower_of g) (upper_of g) r T.
Proof.
  intros W HS HT R H Hr Ha Ht.
  destruct (tw_prune_ok g W HS HT R) as (g1 & H1 & W' & N & F & Win & A & E).
  assert (g1 = g') by congruence. subst g1.
  assert (Ha' : along (arc_list g) r) by (intros u v Huv; apply (proj1 (proj1 (A u v) (Ha u v Huv)))).
  split; auto.
  assert (Hne : arc_list g <> []).
  { destruct (route_ne r Hr) as (u & v & Huv). apply Ha' in Huv. intro C. rewrite C in Huv. destruct Huv. }
  assert (Ht2 : timetable (time_of g) (service_of g) (tight_lower g) (tight_upper g) r T).
  { apply (timetable_ext (time_of g') _ (service_of g') _ (lower_of g') _ (upper_of g')); auto.
    - intros u v Huv. unfold time_of. rewrite E; auto.
    - intros v Hv. destruct (F v) as (_ & _ & ->). destruct (Win Hne v (route_in_graph g r W Hr Ha' v Hv)) as (-> & ->).
      auto. }
  apply (timetable_mono _ _ _ _ _ _ _ _ Ht2). intros v t _ L U. unfold tight_lower, tight_upper in *.
  destruct (is_depot v); auto.
  destruct (pymax2_spec (lower_of g v) (lower_of g Source + time_of g Source v)) as (X1 & _ & _).
  destruct (pymin2_spec (upper_of g v) (upper_of g Sink - time_of g v Sink)) as (X2 & _ & _). split; lra.
Qed.

(** Without the triangle inequality a usable arc is removed. *)
Definition net10 : vgraph :=
  let n low up := mkN 0 0 0 low up 1 None false in
  let a u v t := ((u, v), mkE [1] t 0) in
  mkGraph [(Source, n 0 200); (Cust 1, n 0 50); (Cust 2, n 0 50); (Cust 3, n 0 60); (Sink, n 0 200)]
          [a Source (Cust 1) 1; a Source (Cust 2) 100; a Source (Cust 3) 1;
           a (Cust 1) (Cust 2) 1; a (Cust 2) (Cust 3) 1;
           a (Cust 1) Sink 1; a (Cust 2) Sink 1; a (Cust 3) Sink 1].

Lemma tw_prune_loses_route : exists K (g g' : vgraph) r,
  network K g /\ round_trips g /\ nonneg_times g /\ nonneg_services g /\
  remove_infeasible_arcs_time_windows g = Ok g' /\
  route_shape r /\ along (arc_list g) r /\ windows_ok g r /\ ~ along (arc_list g') r.
Proof.
  eexists 1%nat, net10, _, [Source; Cust 1; Cust 2; Cust 3; Sink].
  split; [apply networkb_ok; vm_compute; reflexivity|].
  split; [apply round_tripsb_ok; vm_compute; reflexivity|].
  split; [apply nonneg_timesb_ok; vm_compute; reflexivity|].
  split; [apply nonneg_servicesb_ok; vm_compute; reflexivity|].
  split; [vm_compute; reflexivity|].
  split; [apply route_shapeb_ok; vm_compute; reflexivity|].
  split; [apply alongb_iff; vm_compute; reflexivity|].
  split.
  - exists [0; 1; 2; 3; 4]. vm_compute. intuition discriminate.
  - intro H. apply alongb_iff in H. vm_compute in H. discriminate.
Qed.
