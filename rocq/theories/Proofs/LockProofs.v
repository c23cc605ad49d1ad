(** Proofs about preassigned routes. *)
From Verif.Base Require Import Prelude Graph.
From Verif.Spec Require Import Routes Network Inputs Feasible Prep.
From Verif.Model Require Import Args Checks Preprocess.
From Verif.Proofs Require Import RouteLemmas FeasProofs Deciders PreLemmas.

Lemma complete_dec r : {complete_route r} + {~ complete_route r}.
Proof.
  destruct r as [|x p].
  - right. intros (q & H). discriminate.
  - destruct (node_eq_dec x Source) as [->|Hx].
    + destruct (node_eq_dec (last (Source :: p) Source) Sink) as [L|L].
      * left. destruct p as [|y p] using rev_ind; [discriminate|]. exists p.
        change (Source :: p ++ [y]) with ((Source :: p) ++ [y]) in L. rewrite last_last in L. subst. auto.
      * right. intros (q & H). apply L. rewrite H. change (Source :: q ++ [Sink]) with ((Source :: q) ++ [Sink]).
        apply last_last.
    + right. intros (q & H). inversion H. congruence.
Qed.

Lemma locked_arc_cons r rs a : locked_arc (r :: rs) a <-> (~ complete_route r /\ In a (arcs r)) \/ locked_arc rs a.
Proof.
  split.
  - intros (x & [<-|Hx] & Hc & Ha); auto. right. exists x. auto.
  - intros [(Hc & Ha)|(x & Hx & Hc & Ha)]; [exists r|exists x]; simpl; auto.
Qed.

Lemma locked_arc_dec rs a : {locked_arc rs a} + {~ locked_arc rs a}.
Proof.
  induction rs as [|r rs IH].
  - right. intros (x & [] & _).
  - destruct IH as [H|H]; [left; apply locked_arc_cons; auto|].
    destruct (complete_dec r) as [C|C].
    + right. rewrite locked_arc_cons. intros [(C' & _)|H']; auto.
    + destruct (mem_arc a (arcs r)) eqn:E.
      * left. apply locked_arc_cons. left. split; auto. apply mem_arc_In; auto.
      * right. rewrite locked_arc_cons. apply mem_arc_false in E. tauto.
Qed.

Lemma locked_away_cons r rs v :
  locked_away (r :: rs) v <-> (exists p, r = Source :: p ++ [Sink] /\ In v p) \/ locked_away rs v.
Proof.
  split.
  - intros (p & [E|Hp] & Hv); [left; exists p; auto|right; exists p; auto].
  - intros [(p & E & Hv)|(p & Hp & Hv)]; exists p; simpl; auto.
Qed.

Lemma locked_away_partial r rs v : ~ complete_route r -> (locked_away (r :: rs) v <-> locked_away rs v).
Proof. intro C. rewrite locked_away_cons. split; auto. intros [(p & E & _)|H]; auto. exfalso. apply C. exists p; auto. Qed.

Lemma locked_away_complete p rs v :
  locked_away ((Source :: p ++ [Sink]) :: rs) v <-> In v p \/ locked_away rs v.
Proof.
  rewrite locked_away_cons. split.
  - intros [(q & E & Hv)|H]; auto. inversion E as [E']. apply app_inj_tail in E'. destruct E'; subst; auto.
  - intros [H|H]; auto. left. exists p; auto.
Qed.

Lemma lock_loop K routes : forall g g', wf g -> foldM (lock_route K) routes g = Ok g' ->
  wf g' /\
  (forall v, In v (nodes g') <-> In v (nodes g) /\ ~ locked_away routes v) /\
  (forall v, In v (nodes g') -> node_data g' v = node_data g v) /\
  (forall u v, In (u, v) (arc_list g') <-> In (u, v) (arc_list g) /\ In u (nodes g') /\ In v (nodes g')) /\
  (forall u v, In (u, v) (arc_list g') -> time_of g' u v = time_of g u v) /\
  (forall u v, In (u, v) (arc_list g') ->
      option_map (fun e => List.length (ecost e)) (arc_data g' u v) =
      option_map (fun e => List.length (ecost e)) (arc_data g u v)) /\
  (forall k u v, In (u, v) (arc_list g') -> (k < K)%nat -> locked_arc routes (u, v) -> cost_of g' k u v = 0) /\
  (forall k u v, In (u, v) (arc_list g') -> ~ (k < K)%nat \/ ~ locked_arc routes (u, v) ->
      cost_of g' k u v = cost_of g k u v).
Proof.
  induction routes as [|r rs IH]; intros g g' W H; cbn [foldM] in H.
  - inversion H; subst. split; auto. split.
    { intro v. split; [|tauto]. intro Hv. split; auto. intros (p & [] & _). }
    split; auto. split.
    { intros u v. split; [|tauto]. intro Hv. split; auto. apply wf_ends; auto. }
    split; auto. split; auto. split; auto. intros k u v _ _ (x & [] & _).
  - apply bind_ok in H. destruct H as (g1 & H1 & H2).
    destruct (complete_dec r) as [C|C].
    + destruct C as (p & ->). rewrite lock_complete in H1. inversion H1; subst g1; clear H1.
      apply IH in H2; [|apply wf_remove_nodes; auto].
      destruct H2 as (B0 & B1 & B2 & B3 & B4 & B5 & B6 & B7).
      assert (Ha : forall u v, In (u, v) (arc_list g') -> In (u, v) (arc_list g) /\ ~ In u p /\ ~ In v p).
      { intros u v Huv. apply B3 in Huv. destruct Huv as (Huv & _). apply in_arcs_remove_nodes in Huv. tauto. }
      assert (Hd : forall u v, In (u, v) (arc_list g') -> arc_data (remove_nodes p g) u v = arc_data g u v).
      { intros u v Huv. apply Ha in Huv. destruct Huv as (_ & Hu & Hv). rewrite arc_data_remove_nodes.
        apply mem_false in Hu. apply mem_false in Hv. rewrite Hu, Hv. auto. }
      split; auto. split.
      { intro v. rewrite B1, in_nodes_remove_nodes, locked_away_complete. tauto. }
      split.
      { intros v Hv. rewrite B2 by auto. rewrite node_data_remove_nodes. apply B1 in Hv.
        destruct Hv as (Hv & _). apply in_nodes_remove_nodes in Hv. destruct Hv as (_ & Hv).
        apply mem_false in Hv. rewrite Hv. auto. }
      split.
      { intros u v. split.
        - intro Huv. split; [apply Ha; auto|]. apply B3 in Huv. tauto.
        - intros (Huv & Hu & Hv). apply B3. split; auto. apply in_arcs_remove_nodes.
          apply B1 in Hu. apply B1 in Hv. destruct Hu as (Hu & _). destruct Hv as (Hv & _).
          apply in_nodes_remove_nodes in Hu. apply in_nodes_remove_nodes in Hv. tauto. }
      split.
      { intros u v Huv. rewrite B4 by auto. unfold time_of. rewrite Hd; auto. }
      split.
      { intros u v Huv. rewrite B5 by auto. rewrite Hd; auto. }
      assert (Hl : forall u v, locked_arc ((Source :: p ++ [Sink]) :: rs) (u, v) <-> locked_arc rs (u, v)).
      { intros u v. rewrite locked_arc_cons. split; auto. intros [(Hc & _)|Hx]; auto. exfalso. apply Hc. exists p. auto. }
      split.
      { intros k u v Huv Hk Hlk. apply B6; auto. apply Hl; auto. }
      { intros k u v Huv Hk. rewrite Hl in Hk. rewrite B7 by auto. unfold cost_of. rewrite Hd; auto. }
    + apply lock_partial in H1; auto. destruct H1 as (A1 & A2 & A3 & A4 & A5 & A6 & A7).
      apply IH in H2; auto. destruct H2 as (B0 & B1 & B2 & B3 & B4 & B5 & B6 & B7).
      assert (En : nodes g1 = nodes g) by (unfold nodes; rewrite A1; auto).
      split; auto. split.
      { intro v. rewrite B1, locked_away_partial by auto. rewrite En. tauto. }
      split.
      { intros v Hv. rewrite B2 by auto. unfold node_data. rewrite A1. auto. }
      split; [intros u v; rewrite B3, A2; tauto|].
      split; [intros u v Huv; rewrite B4, A5 by auto; auto|].
      split; [intros u v Huv; rewrite B5, A6 by auto; auto|].
      split.
      * intros k u v Huv Hk Hlk. apply locked_arc_cons in Hlk.
        destruct (locked_arc_dec rs (u, v)) as [Hr|Hr]; [apply B6; auto|].
        destruct Hlk as [(_ & Hin)|Hlk]; [|contradiction].
        rewrite B7 by auto. rewrite A7. apply mem_arc_In in Hin. rewrite Hin.
        apply Nat.ltb_lt in Hk. rewrite Hk. auto.
      * intros k u v Huv Hk. rewrite B7.
        -- rewrite A7. destruct (mem_arc (u, v) (arcs r)) eqn:E; auto. destruct (Nat.ltb k K) eqn:E2; auto.
           exfalso. apply Nat.ltb_lt in E2. destruct Hk as [Hk|Hk]; [lia|]. apply Hk. apply locked_arc_cons. left.
           split; auto. apply mem_arc_In; auto.
        -- auto.
        -- destruct Hk as [Hk|Hk]; auto. right. intro X. apply Hk. apply locked_arc_cons. auto.
Qed.

Lemma two_nodes (g : vgraph) : wf g -> In Source (nodes g) -> In Sink (nodes g) ->
  (List.length (nodes g) = 2%nat <-> custs g = []).
Proof.
  intros W HS HT.
  assert (P : Permutation (nodes g) (Source :: Sink :: custs g)).
  { apply NoDup_Permutation; [apply W| |].
    - constructor; [|constructor; [|apply custs_NoDup; auto]].
      + intros [H|H]; [discriminate|]. apply in_custs in H. tauto.
      + intro H. apply in_custs in H. tauto.
    - intro v. simpl. rewrite in_custs. split.
      + intro H. destruct (node_eq_dec v Source); auto. destruct (node_eq_dec v Sink); auto.
      + intros [<-|[<-|(H & _)]]; auto. }
  rewrite (Permutation_length P). simpl. destruct (custs g); simpl; split; intro H; auto; try lia; discriminate.
Qed.

Lemma lock_more K routes g g' more : lock K routes g = Ok (g', more) ->
  foldM (lock_route K) routes g = Ok g' /\ more = negb (Nat.eqb (List.length (nodes g')) 2).
Proof. unfold lock. intro H. apply bind_ok in H. destruct H as (x & H1 & H2). inversion H2; subst. auto. Qed.

(* ------------------------------------------------------------------ *)
Lemma zero_arcs_total K : forall l g, wf g -> (forall a, In a l -> In a (arc_list g)) ->
  (forall u v e, arc_data g u v = Some e -> (K <= List.length (ecost e))%nat) ->
  exists g', foldM (zero_arc_cost K) l g = Ok g'.
Proof.
  induction l as [|[x y] l IH]; intros g W Hin Hl; cbn [foldM]; [eauto|].
  destruct (get_arc_ok g x y (Hin _ (or_introl eq_refl))) as (e & Ee & De).
  assert (Z : exists g1, zero_arc_cost K g (x, y) = Ok g1).
  { unfold zero_arc_cost. cbn [fst snd]. rewrite Ee. cbn [bind].
    destruct (zero_cost_total K e (Hl x y e De)) as (e' & ->). cbn [bind]. eauto. }
  destruct Z as (g1 & Hz). rewrite Hz. cbn [bind]. apply zero_arc_cost_ok in Hz; auto.
  destruct Hz as (A1 & A2 & A3 & A4 & A5 & A6 & A7). apply IH; auto.
  - intros a Ha. rewrite A2. apply Hin. right; auto.
  - intros u v e0 H0. specialize (A6 u v). rewrite H0 in A6. simpl in A6.
    destruct (arc_data g u v) as [e1|] eqn:E1; simpl in A6; inversion A6. rewrite H1. eapply Hl; eauto.
Qed.

Lemma lock_total K routes : forall g, wf g ->
  (forall u v e, arc_data g u v = Some e -> (K <= List.length (ecost e))%nat) ->
  (forall r, In r routes -> r <> []) ->
  (forall r, In r routes -> ~ complete_route r -> along (arc_list g) r) ->
  (forall u v, locked_arc routes (u, v) -> ~ locked_away routes u /\ ~ locked_away routes v) ->
  exists g', foldM (lock_route K) routes g = Ok g'.
Proof.
  induction routes as [|r rs IH]; intros g W Hl Hne Ha Hd; cbn [foldM]; [eauto|].
  destruct (complete_dec r) as [C|C].
  - destruct C as (p & ->). rewrite lock_complete. cbn [bind]. apply IH.
    + apply wf_remove_nodes; auto.
    + intros u v e H. rewrite arc_data_remove_nodes in H. destruct (mem u p || mem v p)%bool; [discriminate|]. eauto.
    + intros; apply Hne; right; auto.
    + intros r Hr Hc u v Huv. apply in_arcs_remove_nodes. split; [apply (Ha r); simpl; auto|].
      assert (L : locked_arc ((Source :: p ++ [Sink]) :: rs) (u, v)).
      { apply locked_arc_cons. right. exists r. auto. }
      apply Hd in L. rewrite !locked_away_complete in L. tauto.
    + intros u v L. assert (L' : locked_arc ((Source :: p ++ [Sink]) :: rs) (u, v)).
      { apply locked_arc_cons. auto. }
      apply Hd in L'. rewrite !locked_away_complete in L'. tauto.
  - assert (Z : exists g1, lock_route K g r = Ok g1).
    { unfold lock_route. destruct (is_complete_total r) as (b & Hb); [apply Hne; left; auto|].
      rewrite Hb. cbn [bind]. apply is_complete_spec in Hb. destruct b; [exfalso; apply C, Hb; auto|].
      apply zero_arcs_total; auto. intros [u v] Huv. apply (Ha r); simpl; auto. }
    destruct Z as (g1 & Hg1). rewrite Hg1. cbn [bind]. apply lock_partial in Hg1; auto.
    destruct Hg1 as (A1 & A2 & A3 & A4 & A5 & A6 & A7). apply IH; auto.
    + intros u v e0 H0. specialize (A6 u v). rewrite H0 in A6. simpl in A6.
      destruct (arc_data g u v) as [e1|] eqn:E1; simpl in A6; inversion A6. rewrite H1. eapply Hl; eauto.
    + intros; apply Hne; right; auto.
    + intros x Hx Hc. rewrite A2. apply Ha; simpl; auto.
    + intros u v L. assert (L' : locked_arc (r :: rs) (u, v)) by (apply locked_arc_cons; auto).
      apply Hd in L'. rewrite !locked_away_partial in L' by auto. auto.
Qed.

(* ------------------------------------------------------------------ *)
(** A partial preassignment is only an incentive. *)

Definition net13 : vgraph :=
  let n := mkN 0 0 0 0 0 1 None false in
  let a u v c := ((u, v), mkE [c] 0 0) in
  mkGraph [(Source, n); (Cust 1, n); (Cust 2, n); (Sink, n)]
          [a Source (Cust 1) 10; a Source (Cust 2) 1; a (Cust 1) (Cust 2) 5; a (Cust 2) (Cust 1) 1;
           a (Cust 1) Sink 1; a (Cust 2) Sink 10; a Source Sink 0].
Definition net13' : vgraph :=
  let n := mkN 0 0 0 0 0 1 None false in
  let a u v c := ((u, v), mkE [c] 0 0) in
  mkGraph [(Source, n); (Cust 1, n); (Cust 2, n); (Sink, n)]
          [a Source (Cust 1) 10; a Source (Cust 2) 1; a (Cust 1) (Cust 2) 0; a (Cust 2) (Cust 1) 1;
           a (Cust 1) Sink 1; a (Cust 2) Sink 10; a Source Sink 0].

Lemma Qsum_in_ge {A} (f : A -> Q) l x : (forall a, In a l -> 0 <= f a) -> In x l -> f x <= Qsum (map f l).
Proof.
  induction l as [|a l IH]; intros P H; [destruct H|]. simpl map. rewrite Qsum_cons.
  assert (0 <= Qsum (map f l)).
  { clear IH H. assert (P' : forall a, In a l -> 0 <= f a) by (intros; apply P; right; auto). clear P.
    induction l as [|b l IH]; simpl map; [apply Qle_refl|]. rewrite Qsum_cons.
    pose proof (P' b (or_introl eq_refl)). assert (0 <= Qsum (map f l)) by (apply IH; intros; apply P'; right; auto). lra. }
  destruct H as [->|H]; [lra|]. pose proof (P a (or_introl eq_refl)).
  assert (f x <= Qsum (map f l)) by (apply IH; auto; intros; apply P; right; auto). lra.
Qed.

Lemma net13_cost_nonneg u v : 0 <= cost_of net13' 0 u v.
Proof.
  unfold cost_of. destruct (arc_data net13' u v) as [e|] eqn:E; [|apply Qle_refl].
  apply assoc_arc_In in E. simpl in E.
  repeat (destruct E as [E|E]; [inversion E; subst; vm_compute; discriminate|]). destruct E.
Qed.

Lemma net13_route r : route_shape r -> along (arc_list net13') r -> In (Cust 1, Cust 2) (arcs r) ->
  r = [Source; Cust 1; Cust 2; Sink].
Proof.
  intros (cs & -> & ND & Hc) Ha Hin.
  assert (E : forall v, In v cs -> v = Cust 1 \/ v = Cust 2).
  { intros v Hv. destruct (Hc v Hv) as (H1 & H2).
    assert (In v (nodes net13')).
    { assert (W : wf net13') by (apply Deciders.wfb_ok; vm_compute; reflexivity).
      apply in_split in Hv. destruct Hv as (l1 & l2 & ->).
      assert (exists u, In (u, v) (arcs (Source :: (l1 ++ v :: l2) ++ [Sink]))).
      { destruct l1 as [|x l1] using rev_ind; [exists Source; simpl; auto|]. exists x. apply arcs_in.
        exists (Source :: l1), (l2 ++ [Sink]). rewrite <- !app_assoc. simpl. auto. }
      destruct H as (u & Hu). apply Ha in Hu. apply (wf_ends net13' W) in Hu. tauto. }
    simpl in H. intuition congruence. }
  destruct cs as [|a cs]; [simpl in Hin; intuition discriminate|].
  destruct cs as [|b cs]; [simpl in Hin; intuition discriminate|].
  inversion ND as [|? ? N1 N2]; subst. inversion N2 as [|? ? N3 N4]; subst.
  destruct cs as [|c cs].
  - destruct (E a (or_introl eq_refl)) as [->| ->]; destruct (E b (or_intror (or_introl eq_refl))) as [->| ->];
      simpl in *; try tauto; try (intuition discriminate).
  - exfalso. destruct (E a (or_introl eq_refl)) as [->| ->];
      destruct (E b (or_intror (or_introl eq_refl))) as [->| ->];
      destruct (E c (or_intror (or_intror (or_introl eq_refl)))) as [->| ->]; simpl in *; intuition.
Qed.

Lemma partial_lock_not_kept : exists K (g g' : vgraph) routes more a rs,
  network K g /\ round_trips g /\ check_preassignments routes g = Ok tt /\ lock K routes g = Ok (g', more) /\
  locked_arc routes a /\ plan g' rs /\
  forall rs', plan g' rs' -> (exists r, In r rs' /\ In a (arcs r)) -> plan_cost g' 0 rs < plan_cost g' 0 rs'.
Proof.
  exists 1%nat, net13, net13', [[Cust 1; Cust 2]], true, (Cust 1, Cust 2), [[Source; Cust 2; Cust 1; Sink]].
  split; [apply Deciders.networkb_ok; vm_compute; reflexivity|].
  split; [apply Deciders.round_tripsb_ok; vm_compute; reflexivity|].
  split; [vm_compute; reflexivity|]. split; [vm_compute; reflexivity|]. split.
  { exists [Cust 1; Cust 2]. split; [simpl; auto|]. split; [intros (p & H); discriminate|simpl; auto]. }
  split.
  { split.
    - intros v Hv. simpl in Hv. destruct Hv as [<-|[<-|[]]]; reflexivity.
    - intros r [<-|[]]. split; [apply Deciders.route_shapeb_ok; reflexivity|apply Deciders.alongb_iff; reflexivity]. }
  intros rs' (_ & Hp) (r & Hr & Ha). destruct (Hp r Hr) as (Hs & Hal).
  assert (r = [Source; Cust 1; Cust 2; Sink]) by (apply net13_route; auto). subst r.
  assert (L : path_sum (cost_of net13' 0) [Source; Cust 1; Cust 2; Sink] <= plan_cost net13' 0 rs').
  { unfold plan_cost. apply (Qsum_in_ge (path_sum (cost_of net13' 0))); auto.
    intros x _. apply path_sum_nonneg. intros; apply net13_cost_nonneg. }
  eapply Qlt_le_trans; [|exact L]. vm_compute. reflexivity.
Qed.

(** What a partial preassignment does guarantee: a route costs exactly as much less as the locked
    arcs it uses cost. *)
Lemma lock_saving K routes g g' more k r (saving : node -> node -> Q) : wf g ->
  lock K routes g = Ok (g', more) -> (k < K)%nat ->
  (forall u v, locked_arc routes (u, v) -> saving u v == cost_of g k u v) ->
  (forall u v, ~ locked_arc routes (u, v) -> saving u v == 0) ->
  along (arc_list g') r ->
  path_sum (cost_of g' k) r == path_sum (cost_of g k) r - path_sum saving r.
Proof.
  intros W H Hk S1 S2. apply lock_more in H. destruct H as (H & _).
  destruct (lock_loop _ _ _ _ W H) as (B0 & B1 & B2 & B3 & B4 & B5 & B6 & B7).
  induction r as [|u r IH]; intro Ha; [unfold path_sum; simpl; lra|].
  destruct r as [|v r]; [rewrite !path_sum_one; lra|]. apply along_cons2 in Ha. destruct Ha as (Ha1 & Ha2).
  rewrite !path_sum_cons2, (IH Ha2). destruct (locked_arc_dec routes (u, v)) as [L|L].
  - rewrite (B6 k u v Ha1 Hk L), (S1 u v L). lra.
  - rewrite (B7 k u v Ha1 (or_intror L)), (S2 u v L). lra.
Qed.

Lemma lock_nothing_left K routes (g g' : vgraph) more : wf g -> lock K routes g = Ok (g', more) ->
  In Source (nodes g') -> In Sink (nodes g') -> (more = false <-> custs g' = []).
Proof.
  intros W H HS HT. apply lock_more in H. destruct H as (H & ->).
  destruct (lock_loop _ _ _ _ W H) as (W' & _). rewrite <- (two_nodes g' W' HS HT).
  rewrite negb_false_iff. apply Nat.eqb_eq.
Qed.
