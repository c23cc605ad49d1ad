(** Proofs about reduced costs and pricing graphs. *)
From Coq Require Qround.
From Verif.Base Require Import Prelude Graph.
From Verif.Spec Require Import Routes Network Inputs Feasible Prep Pricing.
From Verif.Model Require Import Args Reach Checks Preprocess ClarkeWright Greedy Initial Pricing.
From Verif.Proofs Require Import RouteLemmas ReachLemmas ChecksProofs FeasProofs PreLemmas.

Lemma fold_duals u (l : list (node * Q)) w :
  NoDup (map fst l) ->
  fold_left (fun w p => if node_eqb u (fst p) then w - snd p else w) l w
  == w - match assoc_node u l with Some q => q | None => 0 end.
Proof.
  revert w. induction l as [|[x q] l IH]; intros w Hn; simpl; [lra|].
  inversion Hn as [|y t Hy Ht]; subst. rewrite (IH _ Ht).
  destruct (node_eqb u x) eqn:E.
  - apply node_eqb_eq in E. subst. rewrite node_eqb_refl.
    assert (HN : assoc_node x l = None) by (apply assoc_node_None; auto). rewrite HN. lra.
  - assert (E' : node_eqb x u = false) by (apply node_eqb_neq; apply node_eqb_neq in E; congruence).
    rewrite E'. lra.
Qed.

(** the factor of the cost *)
Definition scale_of (D : dual_dict) (route : option cname) : res Q :=
  match route with
  | None => Ok 1
  | Some n => let* m := of_opt KeyError (assoc_name n (d_span D)) in Ok (- m)
  end.

Lemma reduced_weight_ok D k route a e K s :
  (k < K)%nat -> (K <= List.length (ecost e))%nat -> duals_ok K D -> scale_of D route = Ok s ->
  exists w, reduced_weight D k route a e = Ok w /\ w == s * nth k (ecost e) 0 - dual_of D (fst a).
Proof.
  intros Hk He [D1 D2 D3] Hs. unfold reduced_weight.
  destruct (nth_error (ecost e) k) as [c|] eqn:Ec; [|apply nth_error_None in Ec; lia].
  assert (Ec' : nth k (ecost e) 0 = c) by (apply nth_error_nth; auto).
  rewrite Ec'. cbn [bind of_opt]. unfold scale_of in Hs. destruct route as [n|].
  - apply bind_ok in Hs. destruct Hs as (m & Hm & Hs). rewrite Hm. cbn [bind].
    inversion Hs; subst. eexists. split; [reflexivity|].
    rewrite fold_duals by auto. unfold dual_of. ring.
  - inversion Hs; subst. cbn [bind]. eexists. split; [reflexivity|].
    rewrite fold_duals by auto. unfold dual_of. ring.
Qed.

Lemma add_reduced_cost_ok K g D k route s :
  network K g -> (k < K)%nat -> duals_ok K D -> scale_of D route = Ok s ->
  exists g1, add_reduced_cost D k route g = Ok g1 /\ same_but_weights g g1 /\
    forall u v, In (u, v) (arc_list g) ->
      weight_of g1 u v == s * cost_of g k u v - dual_of D u
                          - (if node_eqb u Source then fleet_dual D k else 0).
Proof.
  intros N Hk HD Hs. unfold add_reduced_cost.
  destruct (map_arcsM_total (fun a e => let* w := reduced_weight D k route a e in Ok (set_weight e w)) g) as (g1 & H1).
  { apply N. }
  { intros u v e He. destruct (reduced_weight_ok D k route (u, v) e K s) as (w & Hw & _); auto.
    - eapply net_costs; eauto.
    - rewrite Hw. simpl. eauto. }
  rewrite H1. cbn [bind].
  apply map_arcsM_ok in H1; [|apply N]. destruct H1 as (Hn1 & Ha1 & Hd1).
  assert (W1 : wf g1). { apply (wf_same g); auto; [unfold nodes; rewrite Hn1; auto|apply N]. }
  assert (A1 : forall u v, In (u, v) (arc_list g) ->
     exists e e1, arc_data g u v = Some e /\ arc_data g1 u v = Some e1 /\ ecost e1 = ecost e /\
       etime e1 = etime e /\ eweight e1 == s * cost_of g k u v - dual_of D u).
  { intros u v Huv. apply arc_data_In in Huv. destruct Huv as (e & He).
    specialize (Hd1 u v). rewrite He in Hd1. destruct Hd1 as (e1 & He1 & Hd1).
    destruct (reduced_weight_ok D k route (u, v) e K s) as (w & Hw & Hw'); auto.
    { eapply net_costs; eauto. }
    rewrite Hw in He1. simpl in He1. inversion He1; subst. exists e, (set_weight e w).
    repeat split; auto. simpl. unfold cost_of. rewrite He. auto. }
  destruct (d_fleet D) as [l|] eqn:El.
  - assert (Hl := do_fleet _ _ HD _ El).
    assert (Hsrc : mem Source (nodes g1) = true).
    { apply mem_In. unfold nodes. rewrite Hn1. apply N. }
    rewrite Hsrc. cbn [negb raise_if bind].
    destruct (nth_error l k) as [m|] eqn:Em; [|apply nth_error_None in Em; lia].
    destruct (map_arcsM_total (fun a e => if node_eqb (fst a) Source
        then let* m := of_opt KeyError (Some m) in Ok (set_weight e (eweight e - m)) else Ok e) g1 W1) as (g2 & H2).
    { intros u v e He. simpl. destruct (node_eqb u Source); simpl; eauto. }
    exists g2. split; [exact H2|].
    apply map_arcsM_ok in H2; auto. destruct H2 as (Hn2 & Ha2 & Hd2).
    assert (Efd : fleet_dual D k = m).
    { unfold fleet_dual. rewrite El. apply nth_error_nth; auto. }
    split; [split; [congruence|split; [congruence|]]|].
    + intros u v e2 He2. assert (Huv : In (u, v) (arc_list g)).
      { rewrite <- Ha1, <- Ha2. apply arc_data_In. eauto. }
      destruct (A1 u v Huv) as (e & e1 & He & He1 & Hc & Ht & Hw).
      specialize (Hd2 u v). rewrite He1 in Hd2. destruct Hd2 as (e2' & Hf & Hd2).
      rewrite He2 in Hd2. inversion Hd2; subst e2'.
      exists e. split; auto. simpl in Hf. destruct (node_eqb u Source); inversion Hf; subst; simpl; auto.
    + intros u v Huv. destruct (A1 u v Huv) as (e & e1 & He & He1 & Hc & Ht & Hw).
      specialize (Hd2 u v). rewrite He1 in Hd2. destruct Hd2 as (e2 & Hf & Hd2).
      unfold weight_of. rewrite Hd2. simpl in Hf. rewrite Efd.
      destruct (node_eqb u Source); inversion Hf; subst; simpl; rewrite Hw; lra.
  - exists g1. split; auto. split; [split; [auto|split; [auto|]]|].
    + intros u v e1 He1. assert (Huv : In (u, v) (arc_list g)).
      { rewrite <- Ha1. apply arc_data_In. eauto. }
      destruct (A1 u v Huv) as (e & e1' & He & He1' & Hc & Ht & Hw).
      rewrite He1 in He1'. inversion He1'; subst. eauto.
    + intros u v Huv. destruct (A1 u v Huv) as (e & e1 & He & He1 & Hc & Ht & Hw).
      unfold weight_of, fleet_dual. rewrite He1, El, Hw. destruct (node_eqb u Source); lra.
Qed.

(** sum over the tails of the arcs of a path *)
Lemma path_sum_tails (f : node -> Q) p x : path_sum (fun u _ => f u) (p ++ [x]) == node_sum f p.
Proof.
  induction p as [|u p IH]; [simpl; reflexivity|].
  destruct p as [|v p].
  - simpl. unfold path_sum, node_sum. simpl. lra.
  - change ((u :: v :: p) ++ [x]) with (u :: v :: (p ++ [x])).
    rewrite path_sum_cons2. change (v :: p ++ [x]) with ((v :: p) ++ [x]). rewrite IH.
    rewrite (node_sum_cons f u (v :: p)). lra.
Qed.

Lemma path_sum_heads (f : node -> Q) x p : path_sum (fun _ v => f v) (x :: p) == node_sum f p.
Proof.
  revert x. induction p as [|v p IH]; intro x; [simpl; reflexivity|].
  rewrite path_sum_cons2, IH, node_sum_cons. lra.
Qed.

Lemma path_sum_plus w1 w2 p :
  path_sum (fun u v => w1 u v + w2 u v) p == path_sum w1 p + path_sum w2 p.
Proof. unfold path_sum. apply (Qsum_map_plus (fun a => w1 (fst a) (snd a)) (fun a => w2 (fst a) (snd a))). Qed.

Lemma path_sum_minus w1 w2 p :
  path_sum (fun u v => w1 u v - w2 u v) p == path_sum w1 p - path_sum w2 p.
Proof. unfold path_sum. apply (Qsum_map_minus (fun a => w1 (fst a) (snd a)) (fun a => w2 (fst a) (snd a))). Qed.

Lemma path_sum_scale s w p : path_sum (fun u v => s * w u v) p == s * path_sum w p.
Proof. unfold path_sum. apply (Qsum_map_scale s (fun a => w (fst a) (snd a))). Qed.

Theorem reduced_cost_route K g D k route s :
  network K g -> (k < K)%nat -> duals_ok K D -> scale_of D route = Ok s ->
  exists g1, add_reduced_cost D k route g = Ok g1 /\ same_but_weights g g1 /\
    forall cs, (forall v, In v cs -> v <> Source /\ v <> Sink) ->
      along (arc_list g) (Source :: cs ++ [Sink]) ->
      path_sum (weight_of g1) (Source :: cs ++ [Sink]) == reduced_cost g D s k cs.
Proof.
  intros N Hk HD Hs. destruct (add_reduced_cost_ok K g D k route s N Hk HD Hs) as (g1 & H1 & H2 & H3).
  exists g1. split; auto. split; auto. intros cs Hcs Hal.
  assert (HS : dual_of D Source == 0).
  { unfold dual_of. destruct (assoc_node Source (d_nodes D)) as [q|] eqn:E; [|lra].
    apply assoc_node_In in E. apply (do_custs _ _ HD) in E. destruct E. congruence. }
  rewrite (path_sum_ext (weight_of g1)
     (fun u v => s * cost_of g k u v - (dual_of D u + (if node_eqb u Source then fleet_dual D k else 0)))).
  2:{ intros u v Huv. rewrite (H3 u v (Hal u v Huv)). lra. }
  rewrite (path_sum_minus (fun u v => s * cost_of g k u v)
     (fun u _ => dual_of D u + (if node_eqb u Source then fleet_dual D k else 0))).
  rewrite path_sum_scale.
  change (Source :: cs ++ [Sink]) with ((Source :: cs) ++ [Sink]).
  rewrite (path_sum_tails (fun u => dual_of D u + (if node_eqb u Source then fleet_dual D k else 0))).
  rewrite node_sum_cons. cbn [node_eqb]. rewrite HS.
  rewrite (node_sum_ext _ (dual_of D) cs).
  2:{ intros v Hv. destruct (Hcs v Hv) as (Hv1 & _). apply node_eqb_neq in Hv1. rewrite Hv1. lra. }
  unfold reduced_cost. change ((Source :: cs) ++ [Sink]) with (Source :: cs ++ [Sink]). lra.
Qed.

(* ------------------------------------------------------------------ *)
(** ** The graphs *)

Lemma part_remove l g : wf g -> part_of (remove_arcs l g) g.
Proof.
  intro W. constructor.
  - apply wf_remove_arcs; auto.
  - intros v d. rewrite node_data_remove_arcs. auto.
  - intros u v e. rewrite arc_data_remove_arcs. destruct (mem_arc (u, v) l); [discriminate|auto].
Qed.

Lemma part_refl g : wf g -> part_of g g.
Proof. intro W. constructor; auto. Qed.

Lemma connected_iff h : wf h -> connected h = true <->
  In Source (nodes h) /\ In Sink (nodes h) /\ exists p, walk (arc_list h) Source Sink p.
Proof.
  intro W. unfold connected. rewrite !andb_true_iff, !mem_In.
  split.
  - intros ((H1 & H2) & H3). apply has_path_iff in H3; auto.
  - intros (H1 & H2 & H3). apply has_path_iff in H3; auto.
Qed.

Lemma arc_cost_ok K g k a : network K g -> (k < K)%nat -> In a (arc_list g) ->
  arc_cost g k a = Ok (cost_of g k (fst a) (snd a)).
Proof.
  intros N Hk Ha. destruct a as [u v]. unfold arc_cost, cost_of. simpl.
  destruct (get_arc_ok g u v Ha) as (e & He & He'). rewrite He, He'. cbn [bind].
  assert (Hl := net_costs _ _ N u v e He').
  destruct (nth_error (ecost e) k) as [c|] eqn:Ec; [|apply nth_error_None in Ec; lia].
  simpl. f_equal. symmetry. apply nth_error_nth; auto.
Qed.

Lemma foldM_filter {A} (f : A -> res bool) (b : A -> bool) l acc :
  (forall a, In a l -> f a = Ok (b a)) ->
  foldM (fun acc a => let* c := f a in Ok (if c then acc ++ [a] else acc)) l acc = Ok (acc ++ filter b l).
Proof.
  revert acc. induction l as [|a l IH]; intros acc H; simpl; [rewrite app_nil_r; auto|].
  rewrite (H a (or_introl eq_refl)). cbn [bind]. rewrite IH by (intros; apply H; simpl; auto).
  destruct (b a); [rewrite <- app_assoc; auto|auto].
Qed.

Theorem best_edges_1 K g D k alpha h b :
  network K g -> (k < K)%nat -> remove_edges_1 D k alpha g = Ok (h, b) ->
  part_of h g /\ nodes h = nodes g /\
  (exists L, largest L (map snd (d_nodes D) ++ map snd (d_span D)) /\
     forall u v, In (u, v) (arc_list h) <-> In (u, v) (arc_list g) /\ cost_of g k u v <= alpha * L) /\
  (b = true <-> exists p, walk (arc_list h) Source Sink p).
Proof.
  intros N Hk H. unfold remove_edges_1 in H. apply bind_ok in H. destruct H as (L & HL & H).
  apply pymax_ok in HL.
  assert (E : foldM (fun acc a => let* c := arc_cost g k a in
               Ok (if Qltb (alpha * L) c then acc ++ [a] else acc)) (edges g) [] =
     Ok ([] ++ filter (fun a => Qltb (alpha * L) (cost_of g k (fst a) (snd a))) (edges g))).
  { rewrite <- (foldM_filter (fun a => let* c := arc_cost g k a in Ok (Qltb (alpha * L) c))).
    - clear. generalize (edges g). intro l.
      assert (G : forall acc, foldM (fun acc a => let* c := arc_cost g k a in Ok (if Qltb (alpha * L) c then acc ++ [a] else acc)) l acc
        = foldM (fun acc a => let* c := (let* c0 := arc_cost g k a in Ok (Qltb (alpha * L) c0)) in Ok (if c then acc ++ [a] else acc)) l acc).
      { induction l as [|a l IH]; intro acc; simpl; auto.
        destruct (arc_cost g k a); simpl; auto. }
      apply G.
    - intros [u v] Ha. apply in_edges in Ha; [|apply N]. rewrite (arc_cost_ok K) by auto. reflexivity. }
  match type of H with bind ?x _ = _ => replace x with (Ok ([] ++ filter (fun a => Qltb (alpha * L) (cost_of g k (fst a) (snd a))) (edges g))) in H by (symmetry; exact E) end.
  cbn [bind app] in H. inversion H; subst; clear H E.
  set (out := filter (fun a => Qltb (alpha * L) (cost_of g k (fst a) (snd a))) (edges g)).
  assert (W : wf g) by apply N.
  split; [apply part_remove; auto|]. split; [apply nodes_remove_arcs|]. split.
  - exists L. split; [exact HL|]. intros u v. rewrite in_remove_arcs. unfold out.
    rewrite filter_In, in_edges by auto. simpl. split.
    + intros (H1 & H2). split; auto. destruct (Qlt_le_dec (alpha * L) (cost_of g k u v)); auto.
      exfalso. apply H2. split; auto. apply Qltb_lt; auto.
    + intros (H1 & H2). split; auto. intros (_ & H3). apply Qltb_lt in H3. lra.
  - rewrite connected_iff by (apply wf_remove_arcs; auto). rewrite nodes_remove_arcs.
    split; [tauto|]. intro Hp. split; [apply N|]. split; [apply N|auto].
Qed.

Lemma firstn_In {A} n (l : list A) x : In x (firstn n l) -> In x l.
Proof. intro H. rewrite <- (firstn_skipn n l). apply in_or_app; auto. Qed.

Theorem best_edges_2 K g ratio h b :
  network K g -> 0 <= ratio -> ratio <= 1 -> remove_edges_2 ratio g = (h, b) ->
  part_of h g /\ nodes h = nodes g /\
  (exists inner kept,
     (NoDup inner /\ forall a, In a inner <-> In a (arc_list g) /\ inner_arc a) /\
     lowest (fun a => weight_of g (fst a) (snd a))
            (Z.to_nat (Qround.Qfloor (ratio * inject_Z (Z.of_nat (List.length inner))))) inner kept /\
     forall a, In a (arc_list h) <-> In a (arc_list g) /\ (inner_arc a -> In a kept)) /\
  (b = true <-> exists p, walk (arc_list h) Source Sink p).
Proof.
  intros N Hr0 Hr1 H. unfold remove_edges_2 in H.
  set (inn := filter (fun a => negb (node_eqb (fst a) Source) && negb (node_eqb (snd a) Sink)) (edges g)) in *.
  set (key := fun a => weight_of g (fst a) (snd a)) in *.
  set (srt := sorted_asc key inn) in *.
  set (n := Z.to_nat (qtrunc (ratio * inject_Z (Z.of_nat (List.length srt))))) in *.
  inversion H as [[Hh Hb]]. clear H.
  assert (W : wf g) by apply N.
  assert (Hperm : Permutation inn srt) by apply sorted_asc_perm.
  assert (Hin : forall a, In a inn <-> In a (arc_list g) /\ inner_arc a).
  { intros [u v]. unfold inn. rewrite filter_In, in_edges by auto. simpl.
    rewrite andb_true_iff, !negb_true_iff, !node_eqb_neq. unfold inner_arc. simpl. tauto. }
  assert (Hnd : NoDup inn) by (apply NoDup_filter, edges_NoDup; auto).
  assert (Hnds : NoDup srt) by (apply (Permutation_NoDup Hperm); auto).
  assert (Hlen : List.length srt = List.length inn) by (symmetry; apply Permutation_length; auto).
  assert (Hn : n = Z.to_nat (Qround.Qfloor (ratio * inject_Z (Z.of_nat (List.length inn))))).
  { unfold n. rewrite Hlen. f_equal. unfold qtrunc, Qround.Qfloor.
    assert (Hq : 0 <= ratio * inject_Z (Z.of_nat (List.length inn))).
    { apply Qmult_le_0_compat; auto. change 0 with (inject_Z 0). rewrite <- Zle_Qle. lia. }
    destruct (ratio * inject_Z (Z.of_nat (List.length inn))) as [x d] eqn:Eq.
    unfold Qle in Hq. simpl in Hq. simpl. apply Z.quot_div_nonneg; lia. }
  assert (Hnle : (n <= List.length srt)%nat).
  { unfold n. rewrite Hlen.
    set (m := List.length inn).
    assert (Hm : 0 <= inject_Z (Z.of_nat m)).
    { change 0 with (inject_Z 0). rewrite <- Zle_Qle. lia. }
    assert (Hq : 0 <= ratio * inject_Z (Z.of_nat m)) by (apply Qmult_le_0_compat; auto).
    destruct (qtrunc_nonneg _ Hq) as (Q1 & Q2).
    assert (Hle : ratio * inject_Z (Z.of_nat m) <= inject_Z (Z.of_nat m)).
    { setoid_replace (inject_Z (Z.of_nat m)) with (1 * inject_Z (Z.of_nat m)) at 2 by ring.
      apply Qmult_le_compat_r; auto. }
    assert (Hz : inject_Z (qtrunc (ratio * inject_Z (Z.of_nat m))) <= inject_Z (Z.of_nat m)) by lra.
    rewrite <- Zle_Qle in Hz. lia. }
  assert (Hsplit : srt = firstn n srt ++ skipn n srt) by (symmetry; apply firstn_skipn).
  assert (Hdis : NoDup (firstn n srt) /\ NoDup (skipn n srt) /\
                 forall x, In x (firstn n srt) -> In x (skipn n srt) -> False).
  { apply NoDup_app_inv. rewrite firstn_skipn. auto. }
  destruct Hdis as (Hd1 & Hd2 & Hd3).
  split; [apply part_remove; auto|]. split; [apply nodes_remove_arcs|]. split.
  - exists inn, (firstn n srt). split; [split; auto|]. split.
    + split; [auto|]. split; [rewrite firstn_length; transitivity n; [lia|exact Hn]|]. split.
      * intros a Ha. apply (Permutation_in _ (Permutation_sym Hperm)). eapply firstn_In; eauto.
      * intros a c Ha Hc Hnc. apply (ascending_app key (firstn n srt) (skipn n srt)); auto.
        -- rewrite firstn_skipn. apply sorted_asc_ascending.
        -- apply (Permutation_in _ Hperm) in Hc. rewrite Hsplit in Hc. apply in_app_or in Hc.
           destruct Hc; [contradiction|auto].
    + intros [u v]. rewrite in_remove_arcs. split.
      * intros (H1 & H2). split; auto. intro Hi.
        assert (Hc : In (u, v) srt) by (apply (Permutation_in _ Hperm), Hin; auto).
        rewrite Hsplit in Hc. apply in_app_or in Hc. destruct Hc; [auto|contradiction].
      * intros (H1 & H2). split; auto. intro Hs.
        assert (Hi : inner_arc (u, v)).
        { apply Hin. apply (Permutation_in _ (Permutation_sym Hperm)).
          rewrite Hsplit. apply in_or_app; auto. }
        apply (Hd3 (u, v)); auto.
  - rewrite connected_iff by (apply wf_remove_arcs; auto). rewrite nodes_remove_arcs.
    split; [tauto|]. intro Hp. split; [apply N|]. split; [apply N|auto].
Qed.

Lemma pos_weight_clipped mx mn w : pos_weight mx mn w == clipped mx mn w.
Proof.
  unfold pos_weight, clipped.
  set (q := (- mx - mn + (2 # 1) * w) / (mx - mn)).
  assert (E : ((2 # 1) * w - mx - mn) / (mx - mn) == q).
  { unfold q, Qdiv. ring. }
  rewrite E. unfold pymax2. destruct (Qltb 0 q) eqn:Eq.
  - apply Qltb_lt in Eq. symmetry. apply Q.max_r. lra.
  - apply Qltb_ge in Eq. symmetry. apply Q.max_l. lra.
Qed.

Lemma k_shortest_ext A w w' n ps : (forall a, w a == w' a) -> k_shortest A w n ps -> k_shortest A w' n ps.
Proof.
  intros He [H1 H2 H3 H4]. constructor; auto.
  intros q Hq Hn. destruct (H4 q Hq Hn) as (L & B). split; auto. intros p Hp.
  rewrite <- !(Qsum_map_ext w w') by auto. auto.
Qed.

Theorem best_paths g ksp beta h :
  wf g -> (forall w, k_shortest (arc_list g) w beta (ksp w beta)) ->
  remove_edges_3 ksp beta g = Ok h ->
  part_of h g /\
  exists mx mn ps,
    largest mx (map (fun a => weight_of g (fst a) (snd a)) (edges g)) /\
    smallest mn (map (fun a => weight_of g (fst a) (snd a)) (edges g)) /\
    k_shortest (arc_list g) (fun a => clipped mx mn (weight_of g (fst a) (snd a))) beta ps /\
    (forall a, In a (arc_list h) <-> exists p, In p ps /\ In a (arcs p)) /\
    (forall v, In v (nodes h) <-> exists p, In p ps /\ In v p) /\ ps <> [].
Proof.
  intros W Hksp H. unfold remove_edges_3 in H.
  apply bind_ok in H. destruct H as (mx & Hmx & H).
  apply bind_ok in H. destruct H as (mn & Hmn & H).
  apply bind_ok in H. destruct H as (t1 & _ & H).
  apply bind_ok in H. destruct H as (t2 & Hc & H).
  apply bind_ok in H. destruct H as (t3 & Hne & H).
  inversion H; subst; clear H.
  apply pymax_ok in Hmx. apply pymin_ok in Hmn.
  set (w := fun a : arc => pos_weight mx mn (weight_of g (fst a) (snd a))) in *.
  set (ps := ksp w beta) in *.
  assert (K := Hksp w). fold ps in K.
  assert (Hps : forall p, In p ps -> walk (arc_list g) Source Sink p) by (intros p Hp; apply K; auto).
  assert (Hkeep : forall a, In a (flat_map arcs ps) <-> exists p, In p ps /\ In a (arcs p)).
  { intro a. rewrite in_flat_map. tauto. }
  assert (Hsub : forall a, In a (flat_map arcs ps) -> In a (arc_list g)).
  { intros [u v] Ha. apply Hkeep in Ha. destruct Ha as (p & Hp & Ha).
    apply (walk_along _ _ _ _ (Hps p Hp)). auto. }
  set (keep := flat_map arcs ps) in *.
  assert (Hends : forall v, In v (map fst keep ++ map snd keep) <-> exists p, In p ps /\ In v p).
  { intro v. rewrite in_app_iff. split.
    - intros [Hv|Hv]; apply in_map_iff in Hv; destruct Hv as ([a b] & <- & Hab);
        apply Hkeep in Hab; destruct Hab as (p & Hp & Hab); exists p; split; auto;
        apply arcs_in_nodes in Hab; tauto.
    - intros (p & Hp & Hv). assert (Hw := Hps p Hp).
      assert (Hv' : exists a, In a (arcs p) /\ (fst a = v \/ snd a = v)).
      { clear - Hw Hv.
        assert (Hl : (2 <= List.length p)%nat).
        { inversion Hw as [|u x z q Hux Hq]; subst. destruct (walk_nonempty _ _ _ _ Hq) as (r & ->). simpl. lia. }
        apply in_split in Hv. destruct Hv as (p1 & p2 & ->).
        destruct p2 as [|y p2].
        - destruct (exists_last (l := p1)) as (p0 & z & ->).
          { intro C. subst. simpl in Hl. lia. }
          exists (z, v). split; [|simpl; auto]. apply arcs_in. exists p0, []. rewrite <- app_assoc. reflexivity.
        - exists (v, y). split; [|simpl; auto]. apply arcs_in. exists p1, p2. reflexivity. }
      destruct Hv' as ([a b] & Hab & [E|E]); simpl in E; subst.
      + left. apply in_map_iff. exists (v, b). split; auto. apply Hkeep. eauto.
      + right. apply in_map_iff. exists (a, v). split; auto. apply Hkeep. eauto. }
  assert (Hnodes : nodes (edge_subgraph keep g) = filter (fun v => mem v (map fst keep ++ map snd keep)) (nodes g)).
  { unfold nodes, edge_subgraph. simpl. apply (filter_fst_map (fun v => mem v (map fst keep ++ map snd keep))). }
  assert (Harcs : arc_list (edge_subgraph keep g) = filter (fun a => mem_arc a keep) (arc_list g)).
  { unfold arc_list, edge_subgraph. simpl. apply (filter_fst_map (fun a => mem_arc a keep)). }
  split.
  - constructor.
    + destruct W as [W1 W2 W3]. constructor.
      * rewrite Hnodes. apply NoDup_filter; auto.
      * rewrite Harcs. apply NoDup_filter; auto.
      * intros u v Huv. rewrite Harcs in Huv. apply filter_In in Huv. destruct Huv as (Huv & Hm).
        apply mem_arc_In in Hm. rewrite Hnodes, !filter_In, !mem_In, !in_app_iff.
        destruct (W3 u v Huv) as (Hu & Hv).
        split; split; auto; [left|right]; apply in_map_iff; exists (u, v); auto.
    + intros v d. unfold node_data, edge_subgraph. simpl.
      rewrite (assoc_node_filter (fun v => mem v (map fst keep ++ map snd keep))).
      destruct (mem v _); [auto|discriminate].
    + intros u v e. unfold arc_data, edge_subgraph. simpl.
      rewrite (assoc_arc_filter (fun a => mem_arc a keep)).
      destruct (mem_arc (u, v) keep); [auto|discriminate].
  - exists mx, mn, ps. split; [exact Hmx|]. split; [exact Hmn|]. split.
    { apply (k_shortest_ext _ w); auto. intro a. apply pos_weight_clipped. }
    split; [|split].
    + intro a. rewrite Harcs, filter_In, mem_arc_In, Hkeep. split; [tauto|].
      intros Ha. split; auto. apply Hsub, Hkeep; auto.
    + intro v. rewrite Hnodes, filter_In, mem_In, Hends. split; [tauto|].
      intros (p & Hp & Hv). split; [|eauto].
      apply (walk_nodes_in g Source Sink p); auto.
      apply raise_if_ok in Hc. apply negb_false_iff in Hc. apply connected_iff in Hc; auto. tauto.
    + apply raise_if_ok in Hne. apply negb_false_iff in Hne. intro C. rewrite C in Hne. discriminate.
Qed.

Lemma best_paths_total g ksp beta mx mn :
  wf g -> (forall w, k_shortest (arc_list g) w beta (ksp w beta)) -> (0 < beta)%nat ->
  In Source (nodes g) -> In Sink (nodes g) ->
  (exists p, walk (arc_list g) Source Sink p) ->
  largest mx (map (fun a => weight_of g (fst a) (snd a)) (edges g)) ->
  smallest mn (map (fun a => weight_of g (fst a) (snd a)) (edges g)) ->
  (exists h, remove_edges_3 ksp beta g = Ok h) /\ mn < mx \/
  remove_edges_3 ksp beta g = Err ZeroDivisionError /\ mx == mn.
Proof.
  intros W Hksp Hb Hs Ht Hp Hmx Hmn. unfold remove_edges_3.
  set (ws := map (fun a => weight_of g (fst a) (snd a)) (edges g)) in *.
  destruct (pymax ws) as [mx'|e] eqn:E1.
  2:{ destruct ws; [destruct Hmx as [[] _]|discriminate]. }
  destruct (pymin ws) as [mn'|e] eqn:E2.
  2:{ destruct ws; [destruct Hmx as [[] _]|discriminate]. }
  apply pymax_ok in E1. apply pymin_ok in E2. cbn [bind].
  destruct Hmx as (X1 & X2). destruct Hmn as (N1 & N2). destruct E1 as (P1 & P2). destruct E2 as (R1 & R2).
  assert (Em : mx == mx') by (apply Qle_antisym; auto).
  assert (En : mn == mn') by (apply Qle_antisym; auto).
  assert (Hle : mn <= mx) by auto.
  destruct (Qeq_bool (mx' - mn') 0) eqn:Eq; cbn [raise_if bind].
  - right. split; auto. apply Qeq_bool_iff in Eq. lra.
  - left. apply Qeq_bool_neq in Eq. split; [|lra].
    assert (C : connected g = true) by (apply connected_iff; auto). rewrite C. cbn [negb raise_if bind].
    set (w := fun a : arc => pos_weight mx' mn' (weight_of g (fst a) (snd a))).
    assert (K := Hksp w). destruct (ksp w beta) as [|p ps] eqn:Ek; cbn [nonempty negb raise_if bind]; [|eauto].
    exfalso. destruct Hp as (p & Hp). destruct (walk_shorten _ _ _ _ Hp) as (q & Hq & Hnd & _).
    destruct (ks_best _ _ _ _ K q) as (Hl & _); [split; auto|intros []|]. simpl in Hl. lia.
Qed.
