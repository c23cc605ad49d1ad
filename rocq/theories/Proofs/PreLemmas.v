(** Proofs about attributes, fixed costs and locking. *)
From Verif.Base Require Import Prelude Graph.
From Verif.Spec Require Import Routes Network Inputs Feasible Prep.
From Verif.Model Require Import Args Reach Checks Preprocess.
From Verif.Proofs Require Import RouteLemmas ChecksProofs FeasProofs.

(* ------------------------------------------------------------------ *)
Lemma map_arcsM_ok {N E E'} (f : arc -> E -> res E') (g : graph N E) g' :
  wf g -> map_arcsM f g = Ok g' ->
  gnodes g' = gnodes g /\ arc_list g' = arc_list g /\
  forall u v, match arc_data g u v with
              | Some e => exists e', f (u, v) e = Ok e' /\ arc_data g' u v = Some e'
              | None => arc_data g' u v = None
              end.
Proof.
  intros W H. unfold map_arcsM in H. apply bind_ok in H. destruct H as (l & Hl & H).
  inversion H; subst; clear H. apply mapM_ok in Hl. simpl.
  assert (G : forall es l, Forall2 (fun p q => (let* e := f (fst p) (snd p) in Ok (fst p, e)) = Ok q) es l ->
     map fst l = map fst es /\
     forall a, match assoc_arc a es with
               | Some e => exists e', f a e = Ok e' /\ assoc_arc a l = Some e'
               | None => assoc_arc a l = None
               end).
  { clear. induction 1 as [|[a e] [b e'] es l H1 H2 (IH1 & IH2)]; simpl; auto.
    simpl in H1. apply bind_ok in H1. destruct H1 as (x & Hx & H1). inversion H1; subst.
    split; [f_equal; auto|]. intro c. destruct (arc_eqb b c) eqn:Eb.
    - apply arc_eqb_eq in Eb. subst. eauto.
    - apply IH2. }
  destruct (G _ _ Hl) as (G1 & G2). split; auto. split; [exact G1|].
  intros u v. apply G2.
Qed.

Lemma map_arcsM_total {N E E'} (f : arc -> E -> res E') (g : graph N E) :
  wf g -> (forall u v e, arc_data g u v = Some e -> exists e', f (u, v) e = Ok e') ->
  exists g', map_arcsM f g = Ok g'.
Proof.
  intros W H.
  assert (G : forall es, (forall a e, In (a, e) es -> exists e', f a e = Ok e') ->
     exists l, mapM (fun p => let* e := f (fst p) (snd p) in Ok (fst p, e)) es = Ok l).
  { clear. induction es as [|[a e] es IH]; simpl; intro H; [eauto|].
    destruct (H a e (or_introl eq_refl)) as (e' & He'). rewrite He'. simpl.
    destruct IH as (l & Hl); [intros; eapply H; eauto|]. rewrite Hl. simpl. eauto. }
  destruct (G (gedges g)) as (l & Hl).
  { intros [u v] e Hin. apply (H u v e). apply assoc_arc_NoDup; auto. apply W. }
  unfold map_arcsM. rewrite Hl. simpl. eauto.
Qed.

Lemma wf_same {N E N' E'} (g : graph N E) (g' : graph N' E') :
  nodes g' = nodes g -> arc_list g' = arc_list g -> wf g -> wf g'.
Proof. intros Hn Ha [W1 W2 W3]. constructor; rewrite ?Hn, ?Ha; auto. Qed.

Lemma upd_at_ok {A} (f : A -> A) k l l' : upd_at f k l = Ok l' ->
  List.length l' = List.length l /\
  forall i, nth_error l' i = (if Nat.eqb k i then option_map f (nth_error l i) else nth_error l i).
Proof.
  unfold upd_at. destruct (nth_error l k) as [x|] eqn:E; intro H; inversion H; subst.
  split; [apply set_nth_length|]. intro i. rewrite nth_error_set_nth.
  destruct (Nat.eqb_spec k i) as [->|]; auto.
  assert (Hlt : (i < List.length l)%nat) by (apply nth_error_Some; congruence).
  apply Nat.ltb_lt in Hlt. rewrite Hlt, E. auto.
Qed.

Lemma upd_at_total {A} (f : A -> A) k (l : list A) : (k < List.length l)%nat -> exists l', upd_at f k l = Ok l'.
Proof.
  intro H. unfold upd_at. destruct (nth_error l k) eqn:E; [eauto|].
  apply nth_error_None in E. lia.
Qed.

Lemma upd_loop_ok {A} (step : list A -> nat -> res (list A)) (f : nat -> A -> A) :
  (forall l k l', step l k = Ok l' -> upd_at (f k) k l = Ok l') ->
  forall n s l l', foldM step (seq s n) l = Ok l' ->
    List.length l' = List.length l /\
    forall i, nth_error l' i =
      if (Nat.leb s i && Nat.ltb i (s + n))%bool then option_map (f i) (nth_error l i) else nth_error l i.
Proof.
  intros Hs. induction n as [|n IH]; intros s l l' H; simpl in H.
  - inversion H; subst. split; auto. intro i.
    destruct (Nat.leb_spec s i); destruct (Nat.ltb_spec i (s + 0)); simpl; auto. lia.
  - apply bind_ok in H. destruct H as (l1 & H1 & H2). apply Hs in H1. apply upd_at_ok in H1.
    destruct H1 as (L1 & N1). apply IH in H2. destruct H2 as (L2 & N2). split; [congruence|].
    intro i. rewrite N2, N1.
    destruct (Nat.eqb_spec s i) as [->|Hne].
    + assert (E1 : (Nat.leb (S i) i && Nat.ltb i (S i + n))%bool = false)
        by (rewrite (proj2 (Nat.leb_gt (S i) i)) by lia; auto).
      assert (E2 : (Nat.leb i i && Nat.ltb i (i + S n))%bool = true).
      { rewrite (proj2 (Nat.leb_le i i)), (proj2 (Nat.ltb_lt i (i + S n))) by lia. auto. }
      rewrite E1, E2. auto.
    + assert (E1 : Nat.leb (S s) i = Nat.leb s i).
      { destruct (Nat.leb_spec (S s) i); destruct (Nat.leb_spec s i); auto; lia. }
      assert (E2 : Nat.ltb i (S s + n) = Nat.ltb i (s + S n)) by (f_equal; lia).
      rewrite E1, E2. auto.
Qed.

Lemma upd_loop_total {A} (step : list A -> nat -> res (list A)) (f : nat -> A -> A) (P : nat -> Prop) :
  (forall l k, P k -> step l k = upd_at (f k) k l) ->
  forall n s l, (forall k, (s <= k < s + n)%nat -> P k) -> (s + n <= List.length l)%nat ->
  exists l', foldM step (seq s n) l = Ok l'.
Proof.
  intros Hs. induction n as [|n IH]; intros s l HP Hl; simpl; [eauto|].
  rewrite Hs by (apply HP; lia). destruct (upd_at_total (f s) s l ltac:(lia)) as (l1 & E1). rewrite E1. simpl.
  apply IH; [intros; apply HP; lia|]. apply upd_at_ok in E1. lia.
Qed.

(* ------------------------------------------------------------------ *)
(** * Fixed costs *)

Lemma add_fixed_cost_arc_ok K fixed e e' : add_fixed_cost_arc K fixed e = Ok e' ->
  exists l l', r_cost e = Some (Vec l) /\ r_cost e' = Some (Vec l') /\ r_time e' = r_time e /\
    List.length l' = List.length l /\
    forall k, nth_error l' k = if Nat.ltb k K then option_map (fun x => x + nth k fixed 0) (nth_error l k)
                               else nth_error l k.
Proof.
  unfold add_fixed_cost_arc. destruct (r_cost e) as [[q|l]|]; try discriminate. intro H.
  apply bind_ok in H. destruct H as (l' & H & E). inversion E; subst. simpl.
  exists l, l'. split; auto. split; auto. split; auto.
  apply (upd_loop_ok _ (fun k x => x + nth k fixed 0)) in H.
  - destruct H as (H1 & H2). split; auto.
  - intros l1 k l2 Hs. apply bind_ok in Hs. destruct Hs as (c & Hc & Hs).
    unfold of_opt in Hc. destruct (nth_error fixed k) as [c'|] eqn:Ec; inversion Hc; subst.
    rewrite (nth_error_nth fixed k 0 Ec). auto.
Qed.

Lemma add_fixed_cost_arc_total K fixed e l :
  r_cost e = Some (Vec l) -> (K <= List.length l)%nat -> (K <= List.length fixed)%nat ->
  exists e', add_fixed_cost_arc K fixed e = Ok e'.
Proof.
  intros Hr Hl Hf. unfold add_fixed_cost_arc. rewrite Hr.
  destruct (upd_loop_total
    (fun l k => let* c := of_opt IndexError (nth_error fixed k) in upd_at (fun x => x + c) k l)
    (fun k x => x + nth k fixed 0) (fun k => (k < K)%nat)) with (n := K) (s := 0%nat) (l := l) as (l' & E).
  - intros l1 k Hk. destruct (nth_error fixed k) eqn:Ec.
    + simpl. rewrite (nth_error_nth fixed k 0 Ec). auto.
    + apply nth_error_None in Ec. lia.
  - intros k Hk. lia.
  - lia.
  - rewrite E. simpl. eauto.
Qed.

Lemma mem_source_succs {N E} (g : graph N E) u v : In (u, v) (arc_list g) ->
  mem_arc (u, v) (map (fun v => (Source, v)) (succs g Source)) = node_eqb u Source.
Proof.
  intro Hin. destruct (node_eqb u Source) eqn:Eu.
  - apply node_eqb_eq in Eu. subst. apply mem_arc_In, in_map_iff. exists v. split; auto.
    apply in_succs; auto.
  - apply mem_arc_false. intro C. apply in_map_iff in C. destruct C as (w & E0 & _). inversion E0; subst.
    rewrite node_eqb_refl in Eu. discriminate.
Qed.

Lemma add_fixed_costs_ok K fixed g g' : wf g -> add_fixed_costs K fixed g = Ok g' ->
  gnodes g' = gnodes g /\ arc_list g' = arc_list g /\ wf g' /\
  (forall u v, u <> Source -> arc_data g' u v = arc_data g u v) /\
  (forall v e, arc_data g Source v = Some e ->
     exists e' l l', arc_data g' Source v = Some e' /\ r_time e' = r_time e /\
       r_cost e = Some (Vec l) /\ r_cost e' = Some (Vec l') /\ List.length l' = List.length l /\
       forall k, nth_error l' k =
         if Nat.ltb k K then option_map (fun x => x + nth k fixed 0) (nth_error l k) else nth_error l k).
Proof.
  intros W H. apply map_arcsM_ok in H; auto. destruct H as (H1 & H2 & H3).
  split; auto. split; auto. split.
  { apply (wf_same g); auto. unfold nodes. congruence. }
  split.
  - intros u v Hu. specialize (H3 u v). destruct (arc_data g u v) as [e|] eqn:Ee; auto.
    assert (Hin : In (u, v) (arc_list g)) by (apply arc_data_In; eauto).
    rewrite (mem_source_succs g u v Hin) in H3. rewrite (proj2 (node_eqb_neq u Source) Hu) in H3.
    destruct H3 as (e' & E' & ->). congruence.
  - intros v e He. specialize (H3 Source v). rewrite He in H3.
    assert (Hin : In (Source, v) (arc_list g)) by (apply arc_data_In; eauto).
    rewrite (mem_source_succs g Source v Hin) in H3. rewrite node_eqb_refl in H3.
    destruct H3 as (e' & E' & Hd). apply add_fixed_cost_arc_ok in E'.
    destruct E' as (l & l' & A & B & C & D & F). exists e', l, l'. repeat split; auto.
Qed.

Lemma add_fixed_costs_total K fixed g : wf g -> cost_lists K g -> (K <= List.length fixed)%nat ->
  exists g', add_fixed_costs K fixed g = Ok g'.
Proof.
  intros W C F. apply map_arcsM_total; auto. intros u v e He.
  destruct (mem_arc (u, v) _); [|eauto].
  destruct (C u v e He) as (l & Hl & Hk). apply add_fixed_cost_arc_total with l; auto.
Qed.

Lemma add_fixed_costs_cost K fixed g g' k u v : wf g -> cost_lists K g -> add_fixed_costs K fixed g = Ok g' ->
  (k < K)%nat -> In (u, v) (arc_list g) ->
  raw_cost g' k u v == raw_cost g k u v + (if node_eqb u Source then nth k fixed 0 else 0).
Proof.
  intros W C H Hk Hin. apply add_fixed_costs_ok in H; auto. destruct H as (_ & _ & _ & H1 & H2).
  unfold raw_cost. destruct (node_eqb u Source) eqn:Eu.
  - apply node_eqb_eq in Eu. subst. apply arc_data_In in Hin. destruct Hin as (e & He). rewrite He.
    destruct (C Source v e He) as (l0 & E0 & L0).
    destruct (H2 v e He) as (e' & l & l' & -> & _ & E1 & -> & Hl & Hn).
    rewrite E0 in E1. inversion E1; subst l0. rewrite E0.
    specialize (Hn k). rewrite (proj2 (Nat.ltb_lt k K) Hk) in Hn.
    destruct (nth_error l k) as [x|] eqn:Ex; simpl in Hn.
    + rewrite (nth_error_nth _ _ _ Hn), (nth_error_nth _ _ _ Ex). lra.
    + apply nth_error_None in Ex. lia.
  - apply node_eqb_neq in Eu. rewrite H1 by auto. lra.
Qed.

Lemma cost_lists_fixed K fixed g g' : wf g -> cost_lists K g -> add_fixed_costs K fixed g = Ok g' ->
  cost_lists K g'.
Proof.
  intros W C H u v e He. pose proof (add_fixed_costs_ok K fixed g g' W H) as (_ & Ha & _ & H1 & H2).
  destruct (node_eq_dec u Source) as [->|Hu].
  - assert (Hin : In (Source, v) (arc_list g)) by (rewrite <- Ha; apply arc_data_In; eauto).
    apply arc_data_In in Hin. destruct Hin as (e0 & He0).
    destruct (H2 v e0 He0) as (e' & l & l' & E1 & _ & E2 & E3 & Hl & _).
    destruct (C _ _ _ He0) as (l0 & E4 & L). rewrite E2 in E4. inversion E4; subst l0.
    assert (e = e') by congruence. subst. exists l'. split; auto. lia.
  - rewrite H1 in He by auto. eauto.
Qed.

(* ------------------------------------------------------------------ *)
(** * Default attributes *)

Lemma default_given {A} (o : option A) d : given_or o d (default o d).
Proof. destruct o; simpl; auto. Qed.

Lemma given_unique {A} (o : option A) d x : given_or o d x -> x = default o d.
Proof. destruct o; simpl; auto. Qed.

Lemma zero_node_filled v r : filled v r (zero_node v r).
Proof.
  unfold filled, zero_node; simpl.
  repeat split; auto using default_given.
  intros x Hx. apply given_unique in Hx. subst. auto.
Qed.

Lemma assoc_node_map2 {V W} (f : node -> V -> W) v (l : list (node * V)) :
  assoc_node v (map (fun p => (fst p, f (fst p) (snd p))) l) = option_map (f v) (assoc_node v l).
Proof.
  induction l as [|[w d] l IH]; simpl; auto. destruct (node_eqb w v) eqn:E; auto.
  apply node_eqb_eq in E. subst. auto.
Qed.

Lemma zero_attr_nodes g : nodes (set_zero_attributes g) = nodes g.
Proof. unfold nodes, set_zero_attributes. simpl. rewrite map_map. apply map_ext. auto. Qed.
Lemma zero_attr_arcs g : arc_list (set_zero_attributes g) = arc_list g.
Proof. reflexivity. Qed.
Lemma zero_attr_node_data g v :
  node_data (set_zero_attributes g) v = option_map (zero_node v) (node_data g v).
Proof. unfold node_data, set_zero_attributes. simpl. apply assoc_node_map2. Qed.

(** The three graph-shape steps together, before Sink is readjusted. *)
Definition with_defaults (K : nat) (g : rgraph) : res vgraph :=
  set_time_to_zero (add_source_sink K (set_zero_attributes g)).

Lemma with_defaults_ok K g h : wf g -> In Source (nodes g) -> In Sink (nodes g) ->
  with_defaults K g = Ok h ->
  nodes h = nodes g /\ wf h /\
  (forall v, node_data h v = option_map (zero_node v) (node_data g v)) /\
  (forall u v, match arc_data g u v with
               | Some e => exists e', arc_data h u v = Some e' /\ filled_arc e e'
               | None => arc_data h u v = if arc_eqb (u, v) (Source, Sink)
                                          then Some (mkE (repeat 0 K) 0 0) else None
               end) /\
  (forall a, In a (arc_list h) <-> In a (arc_list g) \/ a = (Source, Sink)).
Proof.
  intros W HS HT H. unfold with_defaults in H.
  set (g1 := set_zero_attributes g) in *.
  assert (W1 : wf g1) by (apply (wf_same g); [apply zero_attr_nodes|reflexivity|auto]).
  assert (Harc : forall u v, arc_data (add_source_sink K g1) u v =
            match arc_data g u v with
            | Some e => Some e
            | None => if arc_eqb (u, v) (Source, Sink) then Some (mkER (Some (Vec (repeat 0 K))) None) else None
            end).
  { intros u v. unfold add_source_sink. destruct (has_arc g1 Source Sink) eqn:Eh.
    - change (arc_data g1 u v) with (arc_data g u v). destruct (arc_data g u v) eqn:Ea; auto.
      destruct (arc_eqb (u, v) (Source, Sink)) eqn:Eb; auto.
      apply arc_eqb_eq in Eb. inversion Eb; subst. apply has_arc_In, arc_data_In in Eh.
      destruct Eh as (d & Hd). change (arc_data g1 Source Sink) with (arc_data g Source Sink) in Hd. congruence.
    - rewrite arc_data_add, (arc_eqb_sym (Source, Sink) (u, v)). reflexivity. }
  assert (W2 : wf (add_source_sink K g1)).
  { unfold add_source_sink. destruct (has_arc g1 Source Sink) eqn:Eh; auto.
    apply wf_add_new_arc; [auto| | |apply has_arc_false; auto]; unfold g1; rewrite zero_attr_nodes; auto. }
  assert (Gn : gnodes (add_source_sink K g1) = gnodes g1).
  { unfold add_source_sink. destruct (has_arc g1 Source Sink); auto. }
  pose proof (map_arcsM_ok _ _ _ W2 H) as (M1 & M2 & M3).
  assert (Nh : nodes h = nodes g).
  { unfold nodes. rewrite M1, Gn. fold (nodes g1). apply zero_attr_nodes. }
  split; auto. split.
  { apply (wf_same (add_source_sink K g1)); auto. unfold nodes. congruence. }
  split.
  { intro v. rewrite <- zero_attr_node_data. unfold node_data. rewrite M1, Gn. reflexivity. }
  split.
  - intros u v. specialize (M3 u v). rewrite Harc in M3. destruct (arc_data g u v) as [e|] eqn:Ea.
    + destruct M3 as (e' & E' & Hd). exists e'. split; auto. unfold zero_arc in E'.
      destruct (r_cost e) as [[q|l]|] eqn:Er; inversion E'; subst. split; simpl; eauto using default_given.
    + destruct (arc_eqb (u, v) (Source, Sink)); auto. destruct M3 as (e' & E' & ->).
      unfold zero_arc in E'. simpl in E'. inversion E'; subst. reflexivity.
  - intros [u v]. rewrite M2, <- !arc_data_In. rewrite Harc. destruct (arc_data g u v) as [e|] eqn:Ea.
    + split; eauto.
    + destruct (arc_eqb (u, v) (Source, Sink)) eqn:Eb.
      * apply arc_eqb_eq in Eb. rewrite Eb. split; eauto.
      * split; [intros (d & Hd); discriminate|]. intros [(d & Hd)|Hd]; [discriminate|].
        rewrite Hd, (proj2 (arc_eqb_eq _ _) eq_refl) in Eb. discriminate.
Qed.

Lemma with_defaults_total K g : wf g -> In Source (nodes g) -> In Sink (nodes g) ->
  cost_lists 0 g -> exists h, with_defaults K g = Ok h.
Proof.
  intros W HS HT C. unfold with_defaults. set (g1 := set_zero_attributes g).
  assert (W1 : wf g1) by (apply (wf_same g); [apply zero_attr_nodes|reflexivity|auto]).
  assert (W2 : wf (add_source_sink K g1)).
  { unfold add_source_sink. destruct (has_arc g1 Source Sink) eqn:Eh; auto.
    apply wf_add_new_arc; [auto| | |apply has_arc_false; auto]; unfold g1; rewrite zero_attr_nodes; auto. }
  apply map_arcsM_total; auto. intros u v e He.
  assert (Hv : exists l, r_cost e = Some (Vec l)).
  { unfold add_source_sink in He. destruct (has_arc g1 Source Sink).
    - change (arc_data g u v = Some e) in He. destruct (C u v e He) as (l & Hl & _). eauto.
    - rewrite arc_data_add in He. change (arc_data g1 u v) with (arc_data g u v) in He.
      destruct (arc_data g u v) as [e0|] eqn:Ea.
      + inversion He; subst. destruct (C u v e Ea) as (l & Hl & _). eauto.
      + destruct (arc_eqb _ _); inversion He; subst. simpl. eauto. }
  destruct Hv as (l & Hl). unfold zero_arc. rewrite Hl. eauto.
Qed.

Lemma readjust_sink_ok g h : wf g -> readjust_sink g = Ok h ->
  nodes h = nodes g /\ gedges h = gedges g /\ wf h /\
  (forall v, v <> Sink -> node_data h v = node_data g v) /\
  exists s s', node_data g Sink = Some s /\ node_data h Sink = Some s' /\
    (~ upper s == 0 -> s' = s) /\
    (upper s == 0 -> s' = set_upper (upper s') s /\
      (forall u, In (u, Sink) (arc_list g) -> upper_of g u + service_of g u + time_of g u Sink <= upper s') /\
      (exists u, In (u, Sink) (arc_list g) /\ upper s' == upper_of g u + service_of g u + time_of g u Sink)).
Proof.
  intros W H. unfold readjust_sink in H. apply bind_ok in H. destruct H as (s & Hs & H).
  unfold get_node, of_opt in Hs. destruct (node_data g Sink) as [s0|] eqn:Es; inversion Hs; subst s0; clear Hs.
  destruct (Qeq_bool (upper s) 0) eqn:Eu.
  - apply bind_ok in H. destruct H as (l & Hl & H). apply bind_ok in H. destruct H as (m & Hm & H).
    inversion H; subst; clear H. apply Qeq_bool_iff in Eu.
    split; [apply nodes_map_nodes|]. split; [reflexivity|]. split; [apply wf_map_nodes; auto|]. split.
    { intros v Hv. rewrite node_data_map_nodes. rewrite (proj2 (node_eqb_neq v Sink) Hv).
      destruct (node_data g v); auto. }
    exists s, (set_upper m s). split; auto. split.
    { rewrite node_data_map_nodes, Es, node_eqb_refl. reflexivity. }
    split; [tauto|]. intros _. split; [reflexivity|]. simpl.
    apply mapM_ok in Hl. apply pymax_ok in Hm. destruct Hm as (Hin & Hmax).
    assert (V : forall u q, In u (preds g Sink) ->
       (let* d := get_node g u in let* e := get_arc g u Sink in Ok (upper d + service d + etime e)) = Ok q ->
       q = upper_of g u + service_of g u + time_of g u Sink).
    { intros u q Hu Hq. apply bind_ok in Hq. destruct Hq as (d & Hd & Hq).
      apply bind_ok in Hq. destruct Hq as (e & He & Hq). inversion Hq; subst.
      unfold get_node, get_arc, of_opt in *. unfold upper_of, service_of, time_of, nd.
      destruct (node_data g u); inversion Hd; subst. destruct (arc_data g u Sink); inversion He; subst. auto. }
    split.
    + intros u Hu. apply in_preds in Hu.
      assert (E : exists q, In q l /\ q = upper_of g u + service_of g u + time_of g u Sink).
      { clear -Hl Hu V. induction Hl as [|x q xs l Hx Hl IH]; [destruct Hu|].
        assert (V' : forall u q, In u xs -> _ -> q = upper_of g u + service_of g u + time_of g u Sink)
          by (intros u0 q0 Hu0; apply V; right; exact Hu0).
        destruct Hu as [->|Hu].
        - exists q. split; [left; auto|]. apply V; auto. left; auto.
        - destruct (IH V' Hu) as (q' & Hq & E). exists q'. split; auto. right; auto. }
      destruct E as (q & Hq & <-). auto.
    + assert (E : exists u, In u (preds g Sink) /\ m = upper_of g u + service_of g u + time_of g u Sink).
      { clear -Hl Hin V. induction Hl as [|x q xs l Hx Hl IH]; [destruct Hin|].
        assert (V' : forall u q, In u xs -> _ -> q = upper_of g u + service_of g u + time_of g u Sink)
          by (intros u0 q0 Hu0; apply V; right; exact Hu0).
        destruct Hin as [<-|Hin].
        - exists x. split; [left; auto|]. apply V; auto. left; auto.
        - destruct (IH Hin V') as (u & Hu & E). exists u. split; auto. right; auto. }
      destruct E as (u & Hu & ->). exists u. split; [apply in_preds; auto|reflexivity].
  - inversion H; subst. split; auto. split; auto. split; auto. split; auto.
    exists s, s. split; auto. split; auto. split; auto. intro C. apply Qeq_bool_iff in C. congruence.
Qed.

Lemma readjust_sink_total g : wf g -> In (Source, Sink) (arc_list g) -> exists h, readjust_sink g = Ok h.
Proof.
  intros W Hss. unfold readjust_sink.
  destruct (wf_ends g W _ _ Hss) as (_ & Ht). destruct (get_node_ok g Sink Ht) as (s & Es & _).
  rewrite Es. cbn [bind]. destruct (Qeq_bool (upper s) 0); [|eauto].
  assert (L : exists l, mapM (fun u => let* d := get_node g u in let* e := get_arc g u Sink in
                 Ok (upper d + service d + etime e)) (preds g Sink) = Ok l).
  { assert (P : forall u, In u (preds g Sink) -> In (u, Sink) (arc_list g)) by (intros; apply in_preds; auto).
    induction (preds g Sink) as [|u p IH]; simpl; [eauto|].
    destruct IH as (l & Hl); [intros; apply P; right; auto|].
    pose proof (P u (or_introl eq_refl)) as Hu. destruct (wf_ends g W _ _ Hu) as (Hn & _).
    destruct (get_node_ok g u Hn) as (d & Ed & _). destruct (get_arc_ok g u Sink Hu) as (e & Ee & _).
    rewrite Ed, Ee. cbn [bind]. rewrite Hl. cbn [bind]. eauto. }
  destruct L as (l & Hl). rewrite Hl. cbn [bind].
  assert (Hne : l <> []).
  { intros ->. apply mapM_ok in Hl. apply in_preds in Hss. destruct (preds g Sink); [destruct Hss|inversion Hl]. }
  destruct l as [|q l]; [congruence|]. cbn [pymax bind]. eauto.
Qed.

Lemma update_dummy_unfold K g :
  update_dummy_attributes K g = (let* g1 := with_defaults K g in readjust_sink g1).
Proof. reflexivity. Qed.

Lemma update_dummy_ok K g h : wf g -> In Source (nodes g) -> In Sink (nodes g) ->
  update_dummy_attributes K g = Ok h ->
  nodes h = nodes g /\ wf h /\
  (forall v r, node_data g v = Some r -> exists d, node_data h v = Some d /\ filled v r d) /\
  (forall u v, match arc_data g u v with
               | Some e => exists e', arc_data h u v = Some e' /\ filled_arc e e'
               | None => arc_data h u v = if arc_eqb (u, v) (Source, Sink)
                                          then Some (mkE (repeat 0 K) 0 0) else None
               end).
Proof.
  intros W HS HT H. rewrite update_dummy_unfold in H. apply bind_ok in H. destruct H as (g1 & H1 & H2).
  apply with_defaults_ok in H1; auto. destruct H1 as (N1 & W1 & D1 & A1 & L1).
  apply readjust_sink_ok in H2; auto. destruct H2 as (N2 & E2 & W2 & D2 & s & s' & Hs & Hs' & U1 & U2).
  split; [congruence|]. split; auto. split.
  - intros v r Hr. destruct (node_eq_dec v Sink) as [->|Hv].
    + exists s'. split; auto. rewrite D1, Hr in Hs. simpl in Hs. inversion Hs; subst s. clear Hs.
      pose proof (zero_node_filled Sink r) as F.
      destruct (Qeq_dec (upper (zero_node Sink r)) 0) as [E|E].
      * destruct (U2 E) as (-> & _). unfold filled in *. simpl in *.
        destruct F as (F1 & F2 & F3 & F4 & F5 & F6 & F7 & F8). repeat split; auto.
        intros [C|(x & Hx & Hne)]; [congruence|]. exfalso. rewrite Hx in E. simpl in E. auto.
      * rewrite (U1 E). auto.
    + rewrite D2, D1, Hr by auto. simpl. eexists. split; [reflexivity|]. apply zero_node_filled.
  - intros u v. specialize (A1 u v). unfold arc_data in *. rewrite E2. exact A1.
Qed.

Lemma update_dummy_total K g : wf g -> In Source (nodes g) -> In Sink (nodes g) -> cost_lists 0 g ->
  exists h, update_dummy_attributes K g = Ok h.
Proof.
  intros W HS HT C. rewrite update_dummy_unfold. destruct (with_defaults_total K g W HS HT C) as (g1 & H1).
  rewrite H1. cbn [bind]. apply with_defaults_ok in H1; auto. destruct H1 as (N1 & W1 & D1 & A1 & L1).
  apply readjust_sink_total; auto. apply L1; auto.
Qed.

Lemma update_dummy_sink K g h r : wf g -> In Source (nodes g) -> In Sink (nodes g) ->
  (forall v, ~ In (Sink, v) (arc_list g)) ->
  node_data g Sink = Some r -> (r_upper r = None \/ exists x, r_upper r = Some x /\ x == 0) ->
  update_dummy_attributes K g = Ok h ->
  (forall u t, In (u, Sink) (arc_list h) -> t <= upper_of h u ->
     t + service_of h u + time_of h u Sink <= upper_of h Sink) /\
  (forall U, (forall u t, In (u, Sink) (arc_list h) -> t <= upper_of h u ->
                t + service_of h u + time_of h u Sink <= U) -> upper_of h Sink <= U).
Proof.
  intros W HS HT Hno Hr Hu H. rewrite update_dummy_unfold in H. apply bind_ok in H. destruct H as (g1 & H1 & H2).
  apply with_defaults_ok in H1; auto. destruct H1 as (N1 & W1 & D1 & A1 & L1).
  apply readjust_sink_ok in H2; auto. destruct H2 as (N2 & E2 & W2 & D2 & s & s' & Hs & Hs' & U1 & U2).
  assert (Es : upper s == 0).
  { rewrite D1, Hr in Hs. simpl in Hs. inversion Hs; subst. simpl.
    destruct Hu as [->|(x & -> & Hx)]; simpl; auto. reflexivity. }
  destruct (U2 Es) as (_ & M1 & (u0 & Hu0 & Eu0)).
  assert (Hal : arc_list h = arc_list g1) by (unfold arc_list; congruence).
  assert (Hns : forall u, In (u, Sink) (arc_list g1) -> u <> Sink).
  { intros u Hin ->. apply L1 in Hin. destruct Hin as [Hin|Hin]; [eapply Hno; eauto|discriminate]. }
  assert (Hup : upper_of h Sink = upper s') by (unfold upper_of, nd; rewrite Hs'; auto).
  assert (Sam : forall u, u <> Sink -> upper_of h u = upper_of g1 u /\ service_of h u = service_of g1 u).
  { intros u Hn. unfold upper_of, service_of, nd. rewrite D2 by auto. auto. }
  assert (Tm : forall u v, time_of h u v = time_of g1 u v).
  { intros u v. unfold time_of, arc_data. rewrite E2. auto. }
  rewrite Hup. split.
  - intros u t Hin Ht. rewrite Hal in Hin. destruct (Sam u (Hns u Hin)) as (E & F).
    rewrite E in Ht. rewrite F, Tm. pose proof (M1 u Hin). lra.
  - intros U HU. rewrite Eu0. destruct (Sam u0 (Hns u0 Hu0)) as (E & F). rewrite <- E, <- F, <- Tm.
    apply HU; [congruence|lra].
Qed.

(** Reported costs: travel cost plus the fixed cost once per non-empty route. *)
Lemma update_dummy_cost K g h k u v : wf g -> In Source (nodes g) -> In Sink (nodes g) ->
  update_dummy_attributes K g = Ok h -> In (u, v) (arc_list g) -> cost_of h k u v = raw_cost g k u v.
Proof.
  intros W HS HT H Hin. apply update_dummy_ok in H; auto. destruct H as (_ & _ & _ & A).
  specialize (A u v). apply arc_data_In in Hin. destruct Hin as (e & He). rewrite He in A.
  destruct A as (e' & He' & (l & Hl & El) & _). unfold cost_of, raw_cost. rewrite He, He', Hl, El. auto.
Qed.

Lemma route_first_arc cs : (forall v, In v cs -> v <> Source /\ v <> Sink) -> cs <> [] ->
  forall f : node -> node -> Q, forall c,
  path_sum (fun u v => f u v + (if node_eqb u Source then c else 0)) (Source :: cs ++ [Sink])
  == path_sum f (Source :: cs ++ [Sink]) + c.
Proof.
  intros Hc Hne f c. destruct cs as [|x cs]; [congruence|]. simpl app.
  rewrite !path_sum_cons2. cbn [node_eqb].
  assert (E : path_sum (fun u v => f u v + (if node_eqb u Source then c else 0)) (x :: cs ++ [Sink])
              == path_sum f (x :: cs ++ [Sink])).
  { apply path_sum_ext. intros u v Huv. apply arcs_in_nodes in Huv. destruct Huv as (Hu & _).
    destruct (node_eqb u Source) eqn:Eu; [|lra]. apply node_eqb_eq in Eu. subst. exfalso.
    change (x :: cs ++ [Sink]) with ((x :: cs) ++ [Sink]) in Hu. apply in_app_iff in Hu.
    destruct Hu as [Hu|[Hu|[]]]; [|discriminate]. apply Hc in Hu. tauto. }
  rewrite E. lra.
Qed.

Lemma fixed_cost_once K fixed g g1 h k cs :
  wf g -> In Source (nodes g) -> In Sink (nodes g) -> cost_lists K g ->
  add_fixed_costs K fixed g = Ok g1 -> update_dummy_attributes K g1 = Ok h -> (k < K)%nat ->
  cs <> [] -> route_shape (Source :: cs ++ [Sink]) -> along (arc_list g) (Source :: cs ++ [Sink]) ->
  path_sum (cost_of h k) (Source :: cs ++ [Sink])
  == path_sum (raw_cost g k) (Source :: cs ++ [Sink]) + nth k fixed 0.
Proof.
  intros W HS HT C Hf Hu Hk Hne Hs Ha.
  pose proof (add_fixed_costs_ok K fixed g g1 W Hf) as (G1 & G2 & W1 & _).
  assert (N1 : nodes g1 = nodes g) by (unfold nodes; congruence).
  assert (Hc : forall v, In v cs -> v <> Source /\ v <> Sink).
  { destruct Hs as (cs' & E & _ & Hc'). inversion E as [E']. apply app_inj_tail in E'. destruct E' as (-> & _). auto. }
  rewrite <- (route_first_arc cs Hc Hne). apply path_sum_ext. intros u v Huv.
  rewrite (update_dummy_cost K g1 h k u v); auto; try (rewrite N1; auto).
  - apply (add_fixed_costs_cost K); auto.
  - rewrite G2. auto.
Qed.

Lemma fixed_cost_frame K fixed g g1 h k u v :
  wf g -> In Source (nodes g) -> In Sink (nodes g) -> cost_lists K g ->
  add_fixed_costs K fixed g = Ok g1 -> update_dummy_attributes K g1 = Ok h -> (k < K)%nat ->
  In (u, v) (arc_list g) -> u <> Source -> cost_of h k u v == raw_cost g k u v.
Proof.
  intros W HS HT C Hf Hu Hk Hin Hne.
  pose proof (add_fixed_costs_ok K fixed g g1 W Hf) as (G1 & G2 & W1 & _).
  assert (N1 : nodes g1 = nodes g) by (unfold nodes; congruence).
  rewrite (update_dummy_cost K g1 h k u v); auto; try (rewrite N1; auto); [|rewrite G2; auto].
  rewrite (add_fixed_costs_cost K fixed g g1 k u v); auto. rewrite (proj2 (node_eqb_neq u Source) Hne). lra.
Qed.

(* ------------------------------------------------------------------ *)
(** * Locking *)

Lemma is_complete_spec r b : is_complete r = Ok b ->
  (b = true <-> exists p, r = Source :: p ++ [Sink]) .
Proof.
  unfold is_complete. destruct r as [|x p]; [discriminate|]. cbn [first_node bind last_node].
  destruct (node_eqb x Source) eqn:E; intro H; inversion H; subst.
  - apply node_eqb_eq in E. subst. rewrite node_eqb_eq, <- ends_shape. split.
    + intro L. exists p. auto.
    + intros (q & _ & L). auto.
  - split; [discriminate|]. intros (q & Eq). inversion Eq; subst. rewrite node_eqb_refl in E. discriminate.
Qed.

Lemma is_complete_total r : r <> [] -> exists b, is_complete r = Ok b.
Proof. destruct r as [|x p]; [congruence|]. intros _. unfold is_complete. simpl. destruct (node_eqb x Source); eauto. Qed.

Lemma inner_route p : inner (Source :: p ++ [Sink]) = p.
Proof. unfold inner. simpl. rewrite removelast_app by discriminate. simpl. apply app_nil_r. Qed.

(** A complete preassignment removes exactly its inner nodes. *)
Lemma lock_complete K g p : lock_route K g (Source :: p ++ [Sink]) = Ok (remove_nodes p g).
Proof.
  unfold lock_route. destruct (is_complete_total (Source :: p ++ [Sink])) as (b & Hb); [discriminate|].
  rewrite Hb. cbn [bind]. pose proof (is_complete_spec _ _ Hb) as Hs.
  assert (b = true) by (apply Hs; eauto). subst. rewrite inner_route. auto.
Qed.

Lemma zero_cost_ok K e e' : zero_cost K e = Ok e' ->
  etime e' = etime e /\ eweight e' = eweight e /\ List.length (ecost e') = List.length (ecost e) /\
  forall k, nth k (ecost e') 0 = if Nat.ltb k K then 0 else nth k (ecost e) 0.
Proof.
  unfold zero_cost. intro H. apply bind_ok in H. destruct H as (l & H & E). inversion E; subst. simpl.
  apply (upd_loop_ok _ (fun _ _ => 0)) in H; [|auto]. destruct H as (H1 & H2).
  split; auto. split; auto. split; auto. intro k. specialize (H2 k).
  assert (E0 : Nat.leb 0 k = true) by (apply Nat.leb_le; lia). rewrite E0 in H2. cbn [andb plus] in H2.
  destruct (nth_error l k) as [x|] eqn:Ex.
  - rewrite (nth_error_nth _ _ _ Ex). destruct (Nat.ltb k K).
    + destruct (nth_error (ecost e) k); simpl in H2; congruence.
    + rewrite (nth_error_nth _ _ 0 (eq_sym H2)). auto.
  - apply nth_error_None in Ex. rewrite (nth_overflow l) by auto.
    destruct (Nat.ltb k K); auto. rewrite nth_overflow; auto. congruence.
Qed.

Lemma zero_cost_total K e : (K <= List.length (ecost e))%nat -> exists e', zero_cost K e = Ok e'.
Proof.
  intro H. unfold zero_cost.
  destruct (upd_loop_total (fun l k => upd_at (fun _ => 0) k l) (fun _ _ => 0) (fun _ => True))
    with (n := K) (s := 0%nat) (l := ecost e) as (l & Hl); auto.
  rewrite Hl. simpl. eauto.
Qed.

Lemma zero_arc_cost_ok K g a g' : wf g -> zero_arc_cost K g a = Ok g' ->
  gnodes g' = gnodes g /\ arc_list g' = arc_list g /\ wf g' /\ In a (arc_list g) /\
  (forall u v, time_of g' u v = time_of g u v) /\
  (forall u v, option_map (fun e => List.length (ecost e)) (arc_data g' u v) =
               option_map (fun e => List.length (ecost e)) (arc_data g u v)) /\
  (forall k u v, cost_of g' k u v =
     if (arc_eqb (u, v) a && Nat.ltb k K)%bool then 0 else cost_of g k u v).
Proof.
  destruct a as [x y]. intros W H. unfold zero_arc_cost in H. cbn [fst snd] in H.
  apply bind_ok in H. destruct H as (e & He & H). apply bind_ok in H. destruct H as (e' & He' & H).
  inversion H; subst; clear H. apply zero_cost_ok in He'. destruct He' as (T & _ & L & C).
  unfold get_arc, of_opt in He. destruct (arc_data g x y) as [e0|] eqn:Ee; inversion He; subst e0.
  split; [reflexivity|]. split; [apply arc_list_map_arcs|]. split; [apply wf_map_arcs; auto|].
  split; [apply arc_data_In; eauto|]. split; [|split].
  - intros u v. unfold time_of. rewrite arc_data_map_arcs. destruct (arc_eqb (u, v) (x, y)) eqn:E.
    + apply arc_eqb_eq in E. inversion E; subst. rewrite Ee. simpl. auto.
    + destruct (arc_data g u v); auto.
  - intros u v. rewrite arc_data_map_arcs. destruct (arc_eqb (u, v) (x, y)) eqn:E.
    + apply arc_eqb_eq in E. inversion E; subst. rewrite Ee. simpl. congruence.
    + destruct (arc_data g u v); auto.
  - intros k u v. unfold cost_of. rewrite arc_data_map_arcs. destruct (arc_eqb (u, v) (x, y)) eqn:E.
    + apply arc_eqb_eq in E. inversion E; subst. rewrite Ee. simpl. rewrite C. auto.
    + destruct (arc_data g u v); auto.
Qed.

(** A partial preassignment sets exactly the costs of its arcs to 0. *)
Lemma lock_partial K g r g' : wf g -> ~ (exists p, r = Source :: p ++ [Sink]) ->
  lock_route K g r = Ok g' ->
  gnodes g' = gnodes g /\ arc_list g' = arc_list g /\ wf g' /\ along (arc_list g) r /\
  (forall u v, time_of g' u v = time_of g u v) /\
  (forall u v, option_map (fun e => List.length (ecost e)) (arc_data g' u v) =
               option_map (fun e => List.length (ecost e)) (arc_data g u v)) /\
  (forall k u v, cost_of g' k u v =
     if (mem_arc (u, v) (arcs r) && Nat.ltb k K)%bool then 0 else cost_of g k u v).
Proof.
  intros W Hn H. unfold lock_route in H. apply bind_ok in H. destruct H as (b & Hb & H).
  apply is_complete_spec in Hb. destruct b; [exfalso; apply Hn, Hb; auto|]. clear Hb Hn.
  unfold along. generalize dependent g. induction (arcs r) as [|a l IH]; intros g W H; simpl in H.
  - inversion H; subst. split; auto. split; auto. split; auto. split; [intros u v []|].
    split; auto.
  - apply bind_ok in H. destruct H as (g1 & H1 & H2). apply zero_arc_cost_ok in H1; auto.
    destruct H1 as (A1 & A2 & A3 & A4 & A5 & A6 & A7).
    apply IH in H2; auto. destruct H2 as (B1 & B2 & B3 & B4 & B5 & B6 & B7).
    split; [congruence|]. split; [congruence|]. split; auto. split.
    { intros u v [<-|Hin]; auto. rewrite <- A2. auto. }
    split; [intros; rewrite B5; auto|]. split; [intros; rewrite B6; auto|].
    intros k u v. rewrite B7, A7. unfold mem_arc. cbn [existsb]. fold (mem_arc (u, v) l).
    destruct (arc_eqb (u, v) a); destruct (mem_arc (u, v) l); destruct (Nat.ltb k K); auto.
Qed.
