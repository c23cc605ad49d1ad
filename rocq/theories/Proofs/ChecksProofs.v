From Verif.Base Require Import Prelude Graph.
From Verif.Spec Require Import Routes Network Inputs.
From Verif.Proofs Require Import RouteLemmas ReachLemmas.
From Verif.Model Require Import Args Reach Checks.

(* ------------------------------------------------------------------ *)
(** * check_vrp *)

Lemma nonempty_false {A} (l : list A) : nonempty l = false <-> forall x, ~ In x l.
Proof.
  destruct l as [|a l]; simpl; split; intro H; auto.
  - discriminate.
  - exfalso. apply (H a). auto.
Qed.

Lemma nonempty_true {A} (l : list A) : nonempty l = true <-> exists x, In x l.
Proof.
  destruct l as [|a l]; simpl; split; intro H; auto; try discriminate.
  - destruct H as (x & []).
  - exists a; auto.
Qed.

Lemma check_depot_ok g v :
  check_depot g v = Ok tt <->
  In v (nodes g) /\ In Source (nodes g) /\ In Sink (nodes g) /\
  (forall u, ~ In (u, Source) (arc_list g)) /\ (forall u, ~ In (Sink, u) (arc_list g)).
Proof.
  unfold check_depot.
  destruct (mem v (nodes g)) eqn:E1; simpl.
  2:{ apply mem_false in E1. split; [discriminate|tauto]. }
  destruct (mem Source (nodes g)) eqn:E2; simpl.
  2:{ apply mem_false in E2. split; [discriminate|tauto]. }
  destruct (nonempty (preds g Source)) eqn:E3; simpl.
  { apply nonempty_true in E3. destruct E3 as (u & Hu). apply in_preds in Hu.
    split; [discriminate|]. intros (_ & _ & _ & H & _). exfalso. eapply H; eauto. }
  destruct (mem Sink (nodes g)) eqn:E4; simpl.
  2:{ apply mem_false in E4. split; [discriminate|tauto]. }
  destruct (nonempty (succs g Sink)) eqn:E5; simpl.
  { apply nonempty_true in E5. destruct E5 as (u & Hu). apply in_succs in Hu.
    split; [discriminate|]. intros (_ & _ & _ & _ & H). exfalso. eapply H; eauto. }
  apply mem_In in E1. apply mem_In in E2. apply mem_In in E4.
  split; [intros _|auto]. repeat split; auto.
  - intros u Hu. apply in_preds in Hu. revert Hu. apply nonempty_false; auto.
  - intros u Hu. apply in_succs in Hu. revert Hu. apply nonempty_false; auto.
Qed.

Definition big_arc : eraw := mkER (Some (Scalar big_cost)) None.

Definition added_by (l : list node) (u v : node) : bool :=
  (node_eqb u Source && mem v l && is_cust v) || (node_eqb v Sink && mem u l && is_cust u).

Lemma mem_succs {N E} (g : graph N E) u v : mem v (succs g u) = has_arc g u v.
Proof.
  unfold has_arc. destruct (mem_arc (u, v) (arc_list g)) eqn:Em.
  - apply mem_In, in_succs. apply mem_arc_In; auto.
  - apply mem_false. rewrite in_succs. apply mem_arc_false; auto.
Qed.

Lemma mem_preds {N E} (g : graph N E) u v : mem u (preds g v) = has_arc g u v.
Proof.
  unfold has_arc. destruct (mem_arc (u, v) (arc_list g)) eqn:Em.
  - apply mem_In, in_preds. apply mem_arc_In; auto.
  - apply mem_false. rewrite in_preds. apply mem_arc_false; auto.
Qed.

Lemma has_arc_data {N E} (g : graph N E) u v : has_arc g u v = true <-> exists e, arc_data g u v = Some e.
Proof. rewrite has_arc_In, arc_data_In. tauto. Qed.

Lemma has_arc_data_none {N E} (g : graph N E) u v : has_arc g u v = false <-> arc_data g u v = None.
Proof.
  rewrite <- not_true_iff_false, has_arc_data. destruct (arc_data g u v) as [e|]; split; intro H; auto.
  - exfalso. apply H. eauto.
  - discriminate.
  - intros (e & He). discriminate.
Qed.

(** generic description of "add the arc if missing" *)
Lemma add_if_missing (g : rgraph) x y (d : eraw) u v :
  arc_data (if has_arc g x y then g else add_new_arc x y d g) u v =
  match arc_data g u v with
  | Some e => Some e
  | None => if arc_eqb (x, y) (u, v) then Some d else None
  end.
Proof.
  destruct (has_arc g x y) eqn:E.
  - destruct (arc_data g u v) as [e|] eqn:Ed; auto.
    destruct (arc_eqb (x, y) (u, v)) eqn:Ea; auto.
    apply arc_eqb_eq in Ea. inversion Ea; subst.
    apply has_arc_data in E. destruct E as (e & E). congruence.
  - rewrite arc_data_add. auto.
Qed.

Lemma wf_add_if_missing (g : rgraph) x y (d : eraw) :
  wf g -> In x (nodes g) -> In y (nodes g) ->
  wf (if has_arc g x y then g else add_new_arc x y d g).
Proof.
  intros W Hx Hy. destruct (has_arc g x y) eqn:E; auto.
  apply wf_add_new_arc; auto. apply has_arc_false; auto.
Qed.

Lemma complete_node_eq g v :
  complete_node g v =
  if is_depot v then g else
  let g1 := if has_arc g Source v then g else add_new_arc Source v big_arc g in
  if has_arc g1 v Sink then g1 else add_new_arc v Sink big_arc g1.
Proof. unfold complete_node. destruct (is_depot v); auto. rewrite mem_succs. rewrite mem_preds. auto. Qed.

Lemma gnodes_add_if (g : rgraph) x y (d : eraw) :
  gnodes (if has_arc g x y then g else add_new_arc x y d g) = gnodes g.
Proof. destruct (has_arc g x y); auto. Qed.

Lemma complete_node_spec g v :
  wf g -> In Source (nodes g) -> In Sink (nodes g) -> In v (nodes g) ->
  gnodes (complete_node g v) = gnodes g /\ wf (complete_node g v) /\
  forall u w, arc_data (complete_node g v) u w =
    match arc_data g u w with
    | Some e => Some e
    | None => if added_by [v] u w then Some big_arc else None
    end.
Proof.
  intros W Hs Ht Hv. rewrite complete_node_eq.
  destruct (is_depot v) eqn:Ed.
  - split; [auto|split; [auto|]]. intros u w. destruct (arc_data g u w); auto.
    unfold added_by, mem. simpl. rewrite !orb_false_r.
    destruct (node_eqb w v) eqn:E1; [apply node_eqb_eq in E1; subst|];
    destruct (node_eqb u v) eqn:E2; try (apply node_eqb_eq in E2; subst);
    unfold is_cust; rewrite ?Ed; simpl; rewrite ?andb_false_r; auto.
  - set (g1 := if has_arc g Source v then g else add_new_arc Source v big_arc g).
    assert (N1 : gnodes g1 = gnodes g) by apply gnodes_add_if.
    assert (W1 : wf g1) by (apply wf_add_if_missing; auto).
    simpl. split; [|split].
    + rewrite gnodes_add_if. auto.
    + apply wf_add_if_missing; [exact W1| |]; unfold nodes; rewrite gnodes_add_if; auto.
    + intros u w. rewrite add_if_missing. unfold g1. rewrite add_if_missing.
      destruct (arc_data g u w); auto.
      unfold added_by, arc_eqb, mem. simpl. rewrite !orb_false_r.
      destruct v as [| |z]; try discriminate.
      destruct u as [| |a], w as [| |b]; simpl; rewrite ?orb_false_r, ?andb_false_r; auto.
      * rewrite (Z.eqb_sym b z). destruct (z =? b)%Z; auto.
      * rewrite (Z.eqb_sym a z). destruct (z =? a)%Z; auto.
Qed.

Lemma added_by_cons v l u w : added_by (v :: l) u w = added_by [v] u w || added_by l u w.
Proof.
  unfold added_by, mem. simpl. rewrite !orb_false_r.
  destruct (node_eqb u Source), (node_eqb w Sink), (is_cust u), (is_cust w),
    (node_eqb w v), (node_eqb u v), (existsb (node_eqb w) l), (existsb (node_eqb u) l); auto.
Qed.

Lemma complete_fold l g :
  wf g -> In Source (nodes g) -> In Sink (nodes g) -> incl l (nodes g) ->
  let g' := fold_left complete_node l g in
  gnodes g' = gnodes g /\ wf g' /\
  forall u w, arc_data g' u w =
    match arc_data g u w with
    | Some e => Some e
    | None => if added_by l u w then Some big_arc else None
    end.
Proof.
  revert g. induction l as [|v l IH]; intros g W Hs Ht Hi; simpl.
  - split; [auto|split; [auto|]]. intros u w. destruct (arc_data g u w); auto.
    unfold added_by. simpl. rewrite !andb_false_r. auto.
  - assert (Hv : In v (nodes g)) by (apply Hi; simpl; auto).
    destruct (complete_node_spec g v W Hs Ht Hv) as (N1 & W1 & D1).
    assert (En : nodes (complete_node g v) = nodes g) by (unfold nodes; rewrite N1; auto).
    destruct (IH (complete_node g v)) as (N2 & W2 & D2); auto.
    + rewrite En; auto.
    + rewrite En; auto.
    + rewrite En. intros x Hx. apply Hi. simpl; auto.
    + split; [congruence|split; [auto|]]. intros u w. rewrite D2, D1, (added_by_cons v l).
      destruct (arc_data g u w); auto. destruct (added_by [v] u w); auto.
Qed.

Lemma mem_depot_arcs g u v :
  mem_arc (u, v) (depot_arcs g) = added_by (nodes g) u v.
Proof.
  destruct (added_by (nodes g) u v) eqn:E.
  - apply mem_arc_In. unfold depot_arcs. apply in_flat_map.
    unfold added_by in E. apply orb_true_iff in E. destruct E as [E|E];
      apply andb_true_iff in E; destruct E as (E & Ec); apply andb_true_iff in E;
      destruct E as (E & Em); apply node_eqb_eq in E; apply mem_In in Em; subst.
    + exists v. split; [|simpl; auto]. apply filter_In; auto.
    + exists u. split; [|simpl; auto]. apply filter_In; auto.
  - apply mem_arc_false. intro H. unfold depot_arcs in H. apply in_flat_map in H.
    destruct H as (x & Hx & H). apply filter_In in Hx. destruct Hx as (Hx & Hc).
    apply mem_In in Hx. unfold added_by in E. apply orb_false_iff in E. destruct E as (E1 & E2).
    destruct H as [H|[H|[]]]; inversion H; subst.
    + rewrite node_eqb_refl, Hx, Hc in E1. discriminate.
    + rewrite node_eqb_refl, Hx, Hc in E2. discriminate.
Qed.

Definition completed (g : rgraph) : rgraph := fold_left complete_node (nodes g) g.

Lemma completed_spec g :
  wf g -> In Source (nodes g) -> In Sink (nodes g) ->
  completion g (completed g) /\ wf (completed g).
Proof.
  intros W Hs Ht.
  destruct (complete_fold (nodes g) g W Hs Ht (incl_refl _)) as (N1 & W1 & D1).
  split; [|exact W1]. split; [exact N1|].
  intros u v. unfold completed. rewrite D1. destruct (arc_data g u v); auto.
  rewrite mem_depot_arcs. reflexivity.
Qed.

Lemma completion_arcs g g' :
  completion g g' -> forall a, In a (arc_list g') <-> In a (arc_list g ++ depot_arcs g).
Proof.
  intros (_ & H) (u & v). rewrite in_app_iff, <- (arc_data_In g'), <- (arc_data_In g).
  specialize (H u v). destruct (arc_data g u v) as [e|].
  - split; intro; [left; eauto|rewrite H; eauto].
  - destruct (mem_arc (u, v) (depot_arcs g)) eqn:E; rewrite H.
    + apply mem_arc_In in E. split; intro; eauto.
    + apply mem_arc_false in E. split; intro K; [destruct K; discriminate|].
      destruct K as [(e & K)|K]; [discriminate|contradiction].
Qed.

Lemma walk_iff A B u v : (forall a : arc, In a A <-> In a B) ->
  ((exists p, walk A u v p) <-> exists p, walk B u v p).
Proof.
  intro H. split; intros (p & Hp); exists p; eapply walk_sub; try exact Hp; intros a Ha; apply H; auto.
Qed.

Lemma cost_loop_ok g u :
  wf g ->
  (iterM (fun a => let* e := get_arc g (fst a) (snd a) in
      raise_if (match r_cost e with None => true | Some _ => false end) KeyError) (edges g) = Ok u
   <-> costed g).
Proof.
  intro W. rewrite iterM_ok. split.
  - intros H x y e He. assert (Hin : In (x, y) (arc_list g)) by (apply arc_data_In; eauto).
    apply (in_edges g x y W) in Hin. specialize (H _ Hin). simpl in H. unfold get_arc in H.
    rewrite He in H. simpl in H. destruct (r_cost e); [discriminate|]. discriminate.
  - intros H [x y] Hin. apply (in_edges g x y W) in Hin. destruct (get_arc_ok g x y Hin) as (e & He & Hd).
    simpl. rewrite He. simpl. specialize (H _ _ _ Hd). destruct (r_cost e); auto. congruence.
Qed.

Lemma completion_costed g g' : completion g g' -> (costed g' <-> costed g).
Proof.
  intros (_ & H). unfold costed. split; intros C u v e He.
  - apply (C u v). rewrite H, He. auto.
  - rewrite H in He. destruct (arc_data g u v) as [e'|] eqn:E.
    + inversion He; subst. eapply C; eauto.
    + destruct (mem_arc (u, v) (depot_arcs g)); inversion He. simpl. discriminate.
Qed.

Lemma completed_nodes g : wf g -> In Source (nodes g) -> In Sink (nodes g) ->
  nodes (completed g) = nodes g.
Proof. intros W Hs Ht. destruct (completed_spec g W Hs Ht) as ((H & _) & _). unfold nodes. rewrite H. auto. Qed.

Lemma check_vrp_inv g g' :
  wf g -> check_vrp g = Ok g' ->
  accepted_graph g /\ g' = completed g.
Proof.
  intros W H. unfold check_vrp in H.
  apply bind_ok in H. destruct H as ([] & H1 & H).
  apply bind_ok in H. destruct H as ([] & H2 & H).
  apply check_depot_ok in H1. destruct H1 as (Hs & _ & Ht & Hin & Hout).
  fold (completed g) in H.
  apply bind_ok in H. destruct H as ([] & H3 & H). apply raise_if_ok in H3.
  apply bind_ok in H. destruct H as ([] & H4 & H).
  destruct (completed_spec g W Hs Ht) as (Hc & Wc).
  apply (cost_loop_ok (completed g) tt Wc) in H4.
  inversion H; subst. split; auto.
  constructor; auto.
  - apply negb_false_iff in H3. apply (has_path_iff _ _ _ Wc) in H3.
    + apply (walk_iff _ _ _ _ (completion_arcs _ _ Hc)). auto.
    + rewrite completed_nodes; auto.
  - apply (completion_costed _ _ Hc). auto.
Qed.

Lemma check_vrp_complete g : wf g -> accepted_graph g -> check_vrp g = Ok (completed g).
Proof.
  intros W [Hs Ht Hin Hout Hconn Hcost]. unfold check_vrp.
  rewrite (proj2 (check_depot_ok g Source)) by auto. simpl.
  rewrite (proj2 (check_depot_ok g Sink)) by auto. simpl.
  destruct (completed_spec g W Hs Ht) as (Hc & Wc).
  fold (completed g).
  assert (Hsc : In Source (nodes (completed g))) by (rewrite completed_nodes; auto).
  rewrite (proj2 (has_path_iff (completed g) Source Sink Wc Hsc)); simpl.
  - rewrite (proj2 (cost_loop_ok (completed g) tt Wc)); simpl; auto.
    apply (completion_costed _ _ Hc). exact Hcost.
  - apply (walk_iff _ _ _ _ (completion_arcs _ _ Hc)). auto.
Qed.

Lemma check_vrp_accepts g : wf g -> ((exists g', check_vrp g = Ok g') <-> accepted_graph g).
Proof.
  intro W. split.
  - intros (g' & H). apply check_vrp_inv in H; tauto.
  - intro H. exists (completed g). apply check_vrp_complete; auto.
Qed.

Lemma check_vrp_effect g g' : wf g -> check_vrp g = Ok g' -> completion g g' /\ wf g'.
Proof.
  intros W H. apply check_vrp_inv in H; auto. destruct H as ([Hs Ht _ _ _ _] & ->).
  apply completed_spec; auto.
Qed.

(** Which exception a rejected graph raises. *)
Lemma check_vrp_error g e :
  wf g -> check_vrp g = Err e ->
  (~ In Source (nodes g) /\ e = KeyError) \/
  (In Source (nodes g) /\
   (~ In Sink (nodes g) \/ (exists u, In (u, Source) (arc_list g)) \/
    (exists v, In (Sink, v) (arc_list g)) \/
    ~ (exists p, walk (arc_list g ++ depot_arcs g) Source Sink p)) /\ e = NetworkXError) \/
  ((exists u v d, arc_data g u v = Some d /\ r_cost d = None) /\ e = KeyError).
Proof.
  intros W H. unfold check_vrp in H.
  destruct (check_depot g Source) as [[]|e1] eqn:E1.
  - simpl in H. apply check_depot_ok in E1. destruct E1 as (Hs & _ & Ht & Hin & Hout).
    rewrite (proj2 (check_depot_ok g Sink)) in H by auto. simpl in H.
    fold (completed g) in H.
    destruct (completed_spec g W Hs Ht) as (Hc & Wc).
    destruct (has_path (completed g) Source Sink) eqn:Ep; simpl in H.
    + right. right.
      match type of H with bind ?X _ = _ => destruct X as [u|e2] eqn:E2 end; [discriminate|].
      simpl in H. inversion H; subst. apply iterM_err in E2. destruct E2 as ([x y] & Hin2 & E2).
      simpl in E2. apply (in_edges _ x y Wc) in Hin2.
      destruct (get_arc_ok _ _ _ Hin2) as (d & Hd & Hdd). rewrite Hd in E2. simpl in E2.
      destruct (r_cost d) eqn:Er; [discriminate|]. inversion E2; subst. split; auto.
      destruct Hc as (_ & Hc). rewrite Hc in Hdd. destruct (arc_data g x y) as [d'|] eqn:Eg.
      * inversion Hdd; subst. exists x, y, d. auto.
      * destruct (mem_arc (x, y) (depot_arcs g)); inversion Hdd; subst. discriminate.
    + right. left. inversion H; subst. split; auto. split; auto. right. right. right.
      intro C. apply (walk_iff _ _ _ _ (completion_arcs _ _ Hc)) in C.
      apply (has_path_iff _ _ _ Wc) in C; [congruence|]. rewrite completed_nodes; auto.
  - simpl in H. inversion H; subst. unfold check_depot in E1.
    destruct (mem Source (nodes g)) eqn:Es; simpl in E1.
    2:{ apply mem_false in Es. inversion E1; auto. }
    apply mem_In in Es. right. left.
    destruct (nonempty (preds g Source)) eqn:En; simpl in E1.
    { inversion E1; subst. repeat split; auto. right. left.
      apply nonempty_true in En. destruct En as (u & Hu). apply in_preds in Hu. eauto. }
    destruct (mem Sink (nodes g)) eqn:Et; simpl in E1.
    2:{ apply mem_false in Et. inversion E1; subst. repeat split; auto. }
    destruct (nonempty (succs g Sink)) eqn:Eo; simpl in E1; [|discriminate].
    inversion E1; subst. repeat split; auto. right. right. left.
    apply nonempty_true in Eo. destruct Eo as (u & Hu). apply in_succs in Hu. eauto.
Qed.

(* ------------------------------------------------------------------ *)
(** * check_arguments *)

Lemma bad_pos_int_spec v : bad_pos_int v = false <-> pos_int v.
Proof.
  destruct v as [|[z|q]|l]; simpl; split; intro H; try discriminate;
    try (destruct H as (z' & E & _); discriminate).
  - apply Z.leb_gt in H. exists z; auto.
  - destruct H as (z' & E & H). inversion E; subst. apply Z.leb_gt; auto.
Qed.

Lemma bad_nonneg_int_spec v : py_truthy v = true -> (bad_nonneg_int v = false <-> pos_int v).
Proof.
  destruct v as [|[z|q]|l]; simpl; intro T; split; intro H; try discriminate;
    try (destruct H as (z' & E & _); discriminate).
  - apply Z.ltb_ge in H. exists z. split; auto.
    unfold num_zero in T. simpl in T. apply negb_true_iff in T.
    assert (z <> 0)%Z; [|lia]. intros ->. discriminate.
  - destruct H as (z' & E & H). inversion E; subst. apply Z.ltb_ge; lia.
Qed.

Lemma falsy_iff v : falsy v <-> py_truthy v = false.
Proof.
  destruct v as [|n|l]; cbn.
  - split; auto.
  - unfold num_zero. rewrite negb_false_iff. symmetry. apply Qeq_bool_iff.
  - destruct l; cbn; split; intro H; auto; discriminate.
Qed.
Lemma falsy_intro v : py_truthy v = false -> falsy v.
Proof. apply falsy_iff. Qed.
Local Hint Resolve falsy_intro : core.
Lemma truthy_or_falsy v : py_truthy v = true \/ falsy v.
Proof. rewrite falsy_iff. destruct (py_truthy v); auto. Qed.

Lemma not_falsy v : py_truthy v = true -> ~ falsy v.
Proof. rewrite falsy_iff. congruence. Qed.

Lemma stops_check_ok v u :
  raise_if (py_truthy v && bad_pos_int v) TypeError = Ok u <-> falsy v \/ pos_int v.
Proof.
  rewrite raise_if_ok, andb_false_iff, bad_pos_int_spec, falsy_iff. tauto.
Qed.

Lemma duration_check_ok v u :
  raise_if (py_truthy v && bad_nonneg_int v) TypeError = Ok u <-> falsy v \/ pos_int v.
Proof.
  rewrite raise_if_ok, andb_false_iff. destruct (truthy_or_falsy v) as [T|F].
  - rewrite (bad_nonneg_int_spec v T), falsy_iff. tauto.
  - pose proof (proj1 (falsy_iff v) F). tauto.
Qed.

Definition capacity_check (v : pyval) : res unit :=
  if py_truthy v then
    let* l := py_items v in
    iterM (fun n => raise_if (bad_pos_int (PNum n)) TypeError) l
  else Ok tt.

Lemma capacity_check_ok v u : capacity_check v = Ok u <-> falsy v \/ pos_int_list v.
Proof.
  destruct u. unfold capacity_check. destruct (py_truthy v) eqn:T.
  - split.
    + intro H. right. apply bind_ok in H. destruct H as (l & Hl & H).
      destruct v as [|n|l']; simpl in Hl; try discriminate. inversion Hl; subst.
      exists l. split; auto. intros n Hn. rewrite iterM_ok in H. specialize (H n Hn).
      apply raise_if_ok in H. apply (bad_pos_int_spec (PNum n)) in H.
      destruct H as (z & E & Hz). inversion E; subst. eauto.
    + intros [F|(l & -> & H)]; [apply falsy_iff in F; congruence|]. simpl. apply iterM_ok.
      intros n Hn. apply raise_if_ok. apply (bad_pos_int_spec (PNum n)).
      destruct (H n Hn) as (z & -> & Hz). exists z; auto.
  - split; intro; auto.
Qed.

Lemma capacity_check_err v e : capacity_check v = Err e -> e = TypeError.
Proof.
  unfold capacity_check. destruct (py_truthy v); [|discriminate].
  destruct v as [|n|l]; simpl; intro H; try (inversion H; auto; fail).
  apply iterM_err in H. destruct H as (n & _ & H). apply raise_if_err in H. tauto.
Qed.

Lemma strategy_check_ok s :
  existsb (String.eqb s) strategies = true <->
  In s ["Exact"; "BestEdges1"; "BestEdges2"; "BestPaths"; "Hyper"]%string.
Proof.
  rewrite existsb_exists. unfold strategies. split.
  - intros (x & Hx & E). apply String.eqb_eq in E. subst; auto.
  - intro H. exists s. split; auto. apply String.eqb_refl.
Qed.

Lemma same_len_ok a b u : check_same_len a b = Ok u <-> same_dimension a b.
Proof.
  destruct u. unfold check_same_len, same_dimension. rewrite !falsy_iff.
  destruct (py_truthy a) eqn:Ta; simpl; [|split; auto].
  destruct (py_truthy b) eqn:Tb; simpl; [|split; auto].
  destruct a as [|na|la]; simpl; try (split; [discriminate|intros [H|[H|(x & y & H & _)]]; discriminate]).
  destruct b as [|nb|lb]; simpl; try (split; [discriminate|intros [H|[H|(x & y & _ & H & _)]]; discriminate]).
  destruct (Nat.eqb_spec (List.length la) (List.length lb)) as [E|E]; simpl.
  - split; auto. intros _. right. right. exists la, lb; auto.
  - split; [discriminate|]. intros [H|[H|(x & y & H1 & H2 & H3)]]; try discriminate.
    inversion H1; inversion H2; subst. contradiction.
Qed.

Lemma same_len_err a b e : check_same_len a b = Err e ->
  (e = TypeError /\ ((exists n, a = PNum n /\ ~ falsy a) \/ (exists n, b = PNum n /\ ~ falsy b))) \/
  (e = ValueError /\ exists la lb, a = PList la /\ b = PList lb /\ la <> [] /\ lb <> [] /\
     List.length la <> List.length lb).
Proof.
  unfold check_same_len.
  destruct (py_truthy a) eqn:Ta; simpl; [|discriminate].
  destruct (py_truthy b) eqn:Tb; simpl; [|discriminate].
  pose proof (not_falsy a Ta) as Fa. pose proof (not_falsy b Tb) as Fb.
  destruct a as [|na|la]; simpl; intro H; [discriminate| |].
  - inversion H; subst. left. split; auto. left; eauto.
  - destruct b as [|nb|lb]; simpl in H; [discriminate| |].
    + inversion H; subst. left. split; auto. right; eauto.
    + destruct (Nat.eqb_spec (List.length la) (List.length lb)) as [E|E]; simpl in H; [discriminate|].
      inversion H; subst. right. split; auto. exists la, lb. simpl in Ta, Tb.
      repeat split; auto; intros ->; discriminate.
Qed.

Lemma define_types_ok a o : define_vehicle_types a = Ok o ->
  match o with
  | Some K => fleet_size a K
  | None => falsy (a_load_capacity a) /\ falsy (a_fixed_cost a) /\ falsy (a_num_vehicles a)
  end.
Proof.
  unfold define_vehicle_types.
  destruct (py_truthy (a_load_capacity a)) eqn:T1.
  { intro H. apply bind_ok in H. destruct H as (n & Hn & H). inversion H; subst.
    destruct (a_load_capacity a) as [|x|l] eqn:El; simpl in Hn; try discriminate. inversion Hn; subst.
    apply fs_capacity; auto. intros ->. discriminate. }
  destruct (py_truthy (a_fixed_cost a)) eqn:T2.
  { intro H. apply bind_ok in H. destruct H as (n & Hn & H). inversion H; subst.
    destruct (a_fixed_cost a) as [|x|l] eqn:El; simpl in Hn; try discriminate. inversion Hn; subst.
    apply fs_fixed; auto. intros ->. discriminate. }
  destruct (py_truthy (a_num_vehicles a)) eqn:T3.
  { intro H. apply bind_ok in H. destruct H as (n & Hn & H). inversion H; subst.
    destruct (a_num_vehicles a) as [|x|l] eqn:El; simpl in Hn; try discriminate. inversion Hn; subst.
    apply fs_vehicles; auto. intros ->. discriminate. }
  intro H. inversion H; subst. rewrite !falsy_iff. auto.
Qed.

Lemma define_types_err a e : define_vehicle_types a = Err e ->
  e = TypeError /\ exists v n, In v [a_load_capacity a; a_fixed_cost a; a_num_vehicles a] /\ v = PNum n /\ ~ falsy v.
Proof.
  unfold define_vehicle_types.
  destruct (py_truthy (a_load_capacity a)) eqn:T1.
  { pose proof (not_falsy _ T1).
    destruct (a_load_capacity a) as [|x|l] eqn:El; simpl; intro H1; inversion H1; try discriminate.
    split; auto. exists (PNum x), x. simpl; auto. }
  destruct (py_truthy (a_fixed_cost a)) eqn:T2.
  { pose proof (not_falsy _ T2).
    destruct (a_fixed_cost a) as [|x|l] eqn:El; simpl; intro H1; inversion H1; try discriminate.
    split; auto. exists (PNum x), x. simpl; auto. }
  destruct (py_truthy (a_num_vehicles a)) eqn:T3; [|discriminate].
  pose proof (not_falsy _ T3).
  destruct (a_num_vehicles a) as [|x|l] eqn:El; simpl; intro H1; inversion H1; try discriminate.
  split; auto. exists (PNum x), x. simpl; auto.
Qed.

Lemma fleet_size_define a K : fleet_size a K -> define_vehicle_types a = Ok (Some K).
Proof.
  unfold define_vehicle_types.
  intros [l H1 H2|l F1 H1 H2|l F1 F2 H1 H2]; try apply falsy_iff in F1; try apply falsy_iff in F2; rewrite ?F1, ?F2, H1; simpl; destruct l; simpl; congruence.
Qed.

Lemma fleet_size_unique a K K' : fleet_size a K -> fleet_size a K' -> K = K'.
Proof. intros H1 H2. apply fleet_size_define in H1. apply fleet_size_define in H2. congruence. Qed.

Definition cost_vectors (K : nat) (g : rgraph) : Prop :=
  forall u v e, arc_data g u v = Some e -> exists l, r_cost e = Some (Vec l) /\ List.length l = K.

Definition cost_loop (types : option nat) (g : rgraph) : res unit :=
  iterM (fun x => let* e := get_arc g (fst x) (snd x) in check_cost_vector types e) (edges g).

Lemma cost_vector_loop_ok types g u : wf g ->
  (cost_loop types g = Ok u <->
   match types with Some K => cost_vectors K g | None => forall a, ~ In a (arc_list g) end).
Proof.
  intro W. unfold cost_loop. rewrite iterM_ok. split.
  - intro H.
    assert (G : forall u v e, arc_data g u v = Some e -> check_cost_vector types e = Ok tt).
    { intros x y e He. assert (Hin : In (x, y) (arc_list g)) by (apply arc_data_In; eauto).
      apply (in_edges g x y W) in Hin. specialize (H _ Hin). simpl in H.
      unfold get_arc in H. rewrite He in H. exact H. }
    destruct types as [K|].
    + intros x y e He. specialize (G _ _ _ He). unfold check_cost_vector in G.
      destruct (r_cost e) as [[q|l]|]; try discriminate. exists l. split; auto.
      apply raise_if_ok, negb_false_iff, Nat.eqb_eq in G. auto.
    + intros [x y] Hin. apply arc_data_In in Hin. destruct Hin as (e & He).
      specialize (G _ _ _ He). unfold check_cost_vector in G.
      destruct (r_cost e) as [[q|l]|]; discriminate.
  - intros H [x y] Hin. apply (in_edges g x y W) in Hin.
    destruct (get_arc_ok g x y Hin) as (e & He & Hd). simpl. rewrite He. simpl.
    destruct types as [K|].
    + destruct (H _ _ _ Hd) as (l & Hl & Hk). unfold check_cost_vector. rewrite Hl.
      apply raise_if_ok. rewrite Hk, Nat.eqb_refl. auto.
    + exfalso. eapply H; eauto.
Qed.

Lemma cost_vector_loop_err types g e : wf g -> costed g -> cost_loop types g = Err e ->
  (e = TypeError /\ exists u v d q, arc_data g u v = Some d /\ r_cost d = Some (Scalar q)) \/
  (e = ValueError /\ exists u v d l, arc_data g u v = Some d /\ r_cost d = Some (Vec l) /\
     types <> Some (List.length l)).
Proof.
  intros W C H. unfold cost_loop in H. apply iterM_err in H. destruct H as ([x y] & Hin & H).
  apply (in_edges g x y W) in Hin. destruct (get_arc_ok g x y Hin) as (d & Hd & Hdd).
  simpl in H. rewrite Hd in H. simpl in H. unfold check_cost_vector in H.
  destruct (r_cost d) as [[q|l]|] eqn:Er.
  - inversion H; subst. left. split; auto. exists x, y, d, q; auto.
  - apply raise_if_err in H. destruct H as (Ht & ->). right. split; auto.
    exists x, y, d, l. repeat split; auto. intros ->. rewrite Nat.eqb_refl in Ht. discriminate.
  - exfalso. eapply C; eauto.
Qed.

Lemma check_arguments_unfold a types g :
  check_arguments a types g =
  (let* _ := raise_if (py_truthy (a_num_stops a) && bad_pos_int (a_num_stops a)) TypeError in
   let* _ := capacity_check (a_load_capacity a) in
   let* _ := raise_if (py_truthy (a_duration a) && bad_nonneg_int (a_duration a)) TypeError in
   let* _ := raise_if (negb (existsb (String.eqb (a_strategy a)) strategies)) ValueError in
   if a_mixed_fleet a then
    let* _ := check_same_len (a_load_capacity a) (a_num_vehicles a) in
    let* _ := check_same_len (a_load_capacity a) (a_fixed_cost a) in
    let* _ := check_same_len (a_num_vehicles a) (a_fixed_cost a) in
    cost_loop types g
   else Ok tt).
Proof. reflexivity. Qed.

Lemma format_val_falsy v : falsy (format_val v) <-> falsy v.
Proof.
  rewrite !falsy_iff. unfold format_val. destruct (py_truthy v) eqn:T; [|rewrite T; tauto].
  destruct v as [|n|l]; simpl in *; try rewrite T; split; congruence.
Qed.

Lemma format_val_capacity v :
  pos_int_list (format_val v) <-> (pos_int_list v \/ pos_int v).
Proof.
  unfold format_val. destruct (py_truthy v) eqn:T.
  - destruct v as [|n|l]; simpl.
    + split; [intros (l & E & _); discriminate|intros [(l & E & _)|(z & E & _)]; discriminate].
    + split.
      * intros (l & E & H). inversion E; subst. right.
        destruct (H n (or_introl eq_refl)) as (z & -> & Hz). exists z; auto.
      * intros [(l & E & _)|(z & E & Hz)]; [discriminate|]. inversion E; subst.
        exists [PInt z]. split; auto. intros n [<-|[]]. eauto.
    + split; auto. intros [H|(z & E & _)]; [auto|discriminate].
  - split; auto. intros [H|(z & -> & Hz)]; auto. simpl in T. unfold num_zero in T. simpl in T.
    apply negb_false_iff, Qeq_bool_iff in T. unfold Qeq in T. simpl in T. lia.
Qed.

Lemma prepare_args_unfold a g :
  prepare_args a g =
  if a_mixed_fleet a then
    let* types := define_vehicle_types a in
    let* _ := check_arguments a types g in Ok (a, types, g)
  else
    let* _ := check_arguments (fst (format a g)) (Some 1%nat) (snd (format a g)) in
    Ok (fst (format a g), Some 1%nat, snd (format a g)).
Proof. unfold prepare_args. destruct (a_mixed_fleet a); reflexivity. Qed.

Lemma format_mixed a g : a_mixed_fleet (fst (format a g)) = a_mixed_fleet a.
Proof. reflexivity. Qed.

Local Opaque strategies.
Lemma prepare_args_accepts a g :
  wf g -> costed g -> arc_list g <> [] ->
  ((exists r, prepare_args a g = Ok r) <-> accepted_args a g).
Proof.
  intros W C Hne. rewrite prepare_args_unfold. destruct (a_mixed_fleet a) eqn:M.
  - split.
    + intros (r & H). apply bind_ok in H. destruct H as (types & Ht & H).
      apply bind_ok in H. destruct H as ([] & Hc & _).
      rewrite check_arguments_unfold in Hc.
      apply bind_ok in Hc. destruct Hc as ([] & H1 & Hc). apply stops_check_ok in H1.
      apply bind_ok in Hc. destruct Hc as ([] & H2 & Hc). apply capacity_check_ok in H2.
      apply bind_ok in Hc. destruct Hc as ([] & H3 & Hc). apply duration_check_ok in H3.
      apply bind_ok in Hc. destruct Hc as ([] & H4 & Hc).
      apply raise_if_ok, negb_false_iff, strategy_check_ok in H4.
      rewrite M in Hc.
      apply bind_ok in Hc. destruct Hc as ([] & H5 & Hc). apply same_len_ok in H5.
      apply bind_ok in Hc. destruct Hc as ([] & H6 & Hc). apply same_len_ok in H6.
      apply bind_ok in Hc. destruct Hc as ([] & H7 & Hc). apply same_len_ok in H7.
      apply (cost_vector_loop_ok types g tt W) in Hc.
      constructor; auto; [tauto|]. intros _. repeat split; auto.
      destruct types as [K|].
      * exists K. split; auto. apply (define_types_ok a (Some K)); auto.
      * exfalso. destruct (arc_list g) as [|x l]; [congruence|]. apply (Hc x). simpl; auto.
    + intros [H1 H2 H3 H4 H5]. destruct (H5 M) as (D1 & D2 & D3 & K & HK & HV).
      rewrite (fleet_size_define a K HK). simpl.
      rewrite check_arguments_unfold.
      rewrite (proj2 (stops_check_ok _ tt)) by auto. simpl.
      rewrite (proj2 (capacity_check_ok _ tt)) by (destruct H2 as [H2|[H2|(H2 & _)]]; auto; congruence).
      simpl.
      rewrite (proj2 (duration_check_ok _ tt)) by auto. simpl.
      rewrite (proj2 (strategy_check_ok _)) by auto. simpl. rewrite M.
      rewrite (proj2 (same_len_ok _ _ tt)) by auto. simpl.
      rewrite (proj2 (same_len_ok _ _ tt)) by auto. simpl.
      rewrite (proj2 (same_len_ok _ _ tt)) by auto. simpl.
      rewrite (proj2 (cost_vector_loop_ok (Some K) g tt W)) by auto. simpl. eauto.
  - split.
    + intros (r & H). apply bind_ok in H. destruct H as ([] & Hc & _).
      rewrite check_arguments_unfold in Hc. simpl in Hc.
      apply bind_ok in Hc. destruct Hc as ([] & H1 & Hc). apply stops_check_ok in H1.
      apply bind_ok in Hc. destruct Hc as ([] & H2 & Hc). apply capacity_check_ok in H2.
      apply bind_ok in Hc. destruct Hc as ([] & H3 & Hc). apply duration_check_ok in H3.
      apply bind_ok in Hc. destruct Hc as ([] & H4 & Hc).
      apply raise_if_ok, negb_false_iff, strategy_check_ok in H4.
      constructor; auto; [|congruence].
      rewrite format_val_falsy, format_val_capacity in H2. tauto.
    + intros [H1 H2 H3 H4 H5]. rewrite check_arguments_unfold. simpl.
      rewrite (proj2 (stops_check_ok _ tt)) by auto. simpl.
      rewrite (proj2 (capacity_check_ok _ tt)) by (rewrite format_val_falsy, format_val_capacity; tauto).
      simpl. rewrite (proj2 (duration_check_ok _ tt)) by auto. simpl.
      rewrite (proj2 (strategy_check_ok _)) by auto. simpl. rewrite M. simpl. eauto.
Qed.

Ltac bind_err H e := match type of H with
  | bind ?X _ = Err _ => let E := fresh "E" in destruct X as [[]|e] eqn:E;
                         [simpl in H | simpl in H; inversion H; subst; clear H]
  end.

Lemma prepare_args_error a g e :
  wf g -> costed g -> prepare_args a g = Err e ->
  (e = TypeError /\ (bad_number_type a \/ scalar_in_mixed_fleet a g)) \/
  (e = ValueError /\ (unknown_strategy a \/ dimension_mismatch a g)).
Proof.
  intros W C. rewrite prepare_args_unfold. destruct (a_mixed_fleet a) eqn:M; intro H.
  - destruct (define_vehicle_types a) as [types|e0] eqn:Ed; simpl in H.
    2:{ inversion H; subst. apply define_types_err in Ed. destruct Ed as (-> & v & n & Hv).
        left. split; auto. right. split; auto. left. exists v, n. auto. }
    match type of H with bind ?X _ = Err _ => destruct X as [[]|e1] eqn:Hc end; simpl in H; [discriminate|].
    inversion H; subst. clear H. rewrite check_arguments_unfold in Hc.
    bind_err Hc e1.
    2:{ left. pose proof E as E'. apply raise_if_err in E'. destruct E' as (_ & ->). split; auto. left. left.
        intro C1. apply (stops_check_ok _ tt) in C1. congruence. }
    bind_err Hc e1.
    2:{ left. pose proof (capacity_check_err _ _ E0). subst. split; auto. left. right. left.
        intro C1. assert (F : falsy (a_load_capacity a) \/ pos_int_list (a_load_capacity a)).
        { destruct C1 as [C1|[C1|(C1 & _)]]; auto; congruence. }
        apply (capacity_check_ok _ tt) in F. congruence. }
    bind_err Hc e1.
    2:{ left. pose proof E1 as E'. apply raise_if_err in E'. destruct E' as (_ & ->). split; auto.
        left. right. right. intro C1. apply (duration_check_ok _ tt) in C1. congruence. }
    bind_err Hc e1.
    2:{ right. apply raise_if_err in E2. destruct E2 as (E2 & ->). split; auto. left.
        intro C1. apply strategy_check_ok in C1. rewrite C1 in E2. discriminate. }
    rewrite M in Hc.
    assert (Hdim : forall x y, In x [a_load_capacity a; a_num_vehicles a] ->
        In y [a_num_vehicles a; a_fixed_cost a] -> check_same_len x y = Err e ->
        (e = TypeError /\ (bad_number_type a \/ scalar_in_mixed_fleet a g)) \/
        (e = ValueError /\ (unknown_strategy a \/ dimension_mismatch a g))).
    { intros x y Hx Hy Hs. apply same_len_err in Hs. destruct Hs as [(-> & Hs)|(-> & lx & ly & -> & -> & Hs)].
      - left. split; auto. right. split; auto. left.
        simpl in Hx, Hy. destruct Hs as [(n & -> & Hn)|(n & -> & Hn)].
        + exists (PNum n), n. split; auto. simpl. tauto.
        + exists (PNum n), n. split; auto. simpl. tauto.
      - right. split; auto. right. split; auto. left. exists (PList lx), (PList ly), lx, ly. auto. }
    bind_err Hc e1; [|apply (Hdim (a_load_capacity a) (a_num_vehicles a)); simpl; auto].
    bind_err Hc e1; [|apply (Hdim (a_load_capacity a) (a_fixed_cost a)); simpl; auto].
    bind_err Hc e1; [|apply (Hdim (a_num_vehicles a) (a_fixed_cost a)); simpl; auto].
    apply (cost_vector_loop_err types g e W C) in Hc.
    destruct Hc as [(-> & u & v & d & q & Hd & Hq)|(-> & u & v & d & l & Hd & Hl & Ht)].
    + left. split; auto. right. split; auto. right. exists u, v, d, q; auto.
    + right. split; auto. right. split; auto. right. exists u, v, d, l. repeat split; auto.
      intro F. apply fleet_size_define in F. congruence.
  - match type of H with bind ?X _ = Err _ => destruct X as [[]|e1] eqn:Hc end; simpl in H; [discriminate|].
    inversion H; subst. clear H. rewrite check_arguments_unfold in Hc. simpl in Hc.
    bind_err Hc e1.
    2:{ left. pose proof E as E'. apply raise_if_err in E'. destruct E' as (_ & ->). split; auto. left. left.
        intro C1. apply (stops_check_ok _ tt) in C1. congruence. }
    bind_err Hc e1.
    2:{ left. pose proof (capacity_check_err _ _ E0). subst. split; auto. left. right. left.
        intro C1.
        assert (F : falsy (format_val (a_load_capacity a)) \/ pos_int_list (format_val (a_load_capacity a))).
        { rewrite format_val_falsy, format_val_capacity. tauto. }
        apply (capacity_check_ok _ tt) in F. congruence. }
    bind_err Hc e1.
    2:{ left. pose proof E1 as E'. apply raise_if_err in E'. destruct E' as (_ & ->). split; auto.
        left. right. right. intro C1. apply (duration_check_ok _ tt) in C1. congruence. }
    bind_err Hc e1.
    2:{ right. apply raise_if_err in E2. destruct E2 as (E2 & ->). split; auto. left.
        intro C1. apply strategy_check_ok in C1. rewrite C1 in E2. discriminate. }
    rewrite M in Hc. discriminate.
Qed.

(** On success a scalar cost became a one-element list, and nothing else changed. *)
Lemma prepare_args_effect a g r :
  wf g -> prepare_args a g = Ok r ->
  gnodes (snd r) = gnodes g /\ arc_list (snd r) = arc_list g /\
  (a_mixed_fleet a = true -> snd r = g) /\
  (a_mixed_fleet a = false -> forall u v,
     arc_data (snd r) u v =
     option_map (fun e => match r_cost e with Some (Scalar q) => mkER (Some (Vec [q])) (r_time e) | _ => e end)
                (arc_data g u v)).
Proof.
  intros W H. rewrite prepare_args_unfold in H. destruct (a_mixed_fleet a) eqn:M.
  - apply bind_ok in H. destruct H as (types & _ & H). apply bind_ok in H. destruct H as (u & _ & H).
    inversion H; subst. simpl. repeat split; auto. discriminate.
  - apply bind_ok in H. destruct H as (u & _ & H). inversion H; subst. simpl.
    split; [reflexivity|]. split; [apply arc_list_map_arcs|]. split; [discriminate|].
    intros _ x y. rewrite arc_data_map_arcs. reflexivity.
Qed.
