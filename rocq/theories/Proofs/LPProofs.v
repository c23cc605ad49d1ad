(** Every solution of the pricing MIP is a route with the required properties. *)
From Verif.Base Require Import Prelude Graph.
From Verif.Spec Require Import Routes Network LinProg Pricing MIP.
From Verif.Model Require Import Args Reach Checks Preprocess ClarkeWright Greedy Initial Pricing LPPricing.
From Verif.Proofs Require Import RouteLemmas ReachLemmas PreLemmas PricingProofs FlowProofs InitialProofs.

Lemma formulate_inv h k caps o ns dur neg p :
  formulate h k caps o ns dur neg = Ok p ->
  In Source (nodes h) /\ In Sink (nodes h) /\
  exists loads reqs sdc,
    match caps with Some (_ :: _) => load_rows h k caps | _ => Ok [] end = Ok loads /\
    (if o_pickup_delivery o
     then let* r := request_rows h in let* M := capacity_at caps k in
          Ok (r ++ pickup_rows h M, pickup_vars h M)
     else Ok ([], [])) = Ok reqs /\
    (if o_distribution_collection o
     then let* c := capacity_at caps k in Ok (sdc_rows h c, sdc_vars h c)
     else Ok ([], [])) = Ok sdc /\
    p = mkProgram (reduced_cost_terms h)
          (flow_rows h
           ++ [mkRow (sum_x (out_arcs h Source)) EQ 1; mkRow (sum_x (in_arcs h Sink)) EQ 1;
               mkRow (sum_x (edges h)) GE 2]
           ++ (if o_time_windows o then time_rows h else [])
           ++ (match ns with Some n => if (n =? 0)%Z then [] else stop_rows h n | None => [] end)
           ++ loads
           ++ (match dur with Some D => if (D =? 0)%Z then [] else duration_rows h D | None => [] end)
           ++ (if neg || o_pickup_delivery o then rank_rows h else [])
           ++ fst reqs ++ fst sdc)
          (map (fun a => (X a, mkBounds (Some 0) (Some 1) true)) (edges h)
           ++ (if o_time_windows o then time_vars h else [])
           ++ (if neg || o_pickup_delivery o then rank_vars h else [])
           ++ snd reqs ++ snd sdc).
Proof.
  intro H. unfold formulate in H.
  apply bind_ok in H. destruct H as (depot & Hd & H).
  apply bind_ok in H. destruct H as (loads & Hl & H).
  apply bind_ok in H. destruct H as (reqs & Hr & H).
  apply bind_ok in H. destruct H as (sdc & Hs & H).
  unfold depot_rows in Hd. apply bind_ok in Hd. destruct Hd as (t1 & H1 & Hd).
  apply bind_ok in Hd. destruct Hd as (t2 & H2 & Hd).
  apply raise_if_ok in H1. apply raise_if_ok in H2.
  apply negb_false_iff, mem_In in H1. apply negb_false_iff, mem_In in H2.
  split; auto. split; auto. exists loads, reqs, sdc. split; auto. split; auto. split; auto.
  inversion Hd; subst. inversion H; subst. reflexivity.
Qed.

(** the arcs of a solution *)
Definition chosen (h : vgraph) (x : pvar -> Q) : list arc :=
  filter (fun a => Qltb (1 # 2) (x (X a))) (edges h).

(** the rows of a pickup *)
Lemma request_rows_In h rr v d : request_rows h = Ok rr -> pair_of h v d ->
  In (mkRow (sum_x (out_arcs h v) ++ minus (sum_x (out_arcs h d))) EQ 0) rr /\
  In (mkRow [(1, Rank v); (- (1), Rank d)] LE 0) rr.
Proof.
  intros Hrr (n & Hn & Hq). unfold request_rows in Hrr. apply assoc_node_In in Hn.
  match type of Hrr with foldM ?f _ _ = _ => set (step := f) in * end.
  assert (Hmono : forall l acc rr, foldM step l acc = Ok rr -> forall r, In r acc -> In r rr).
  { clear. intros l acc rr H.
    refine (foldM_inv _ (fun s => forall r, In r acc -> In r s) l _ acc rr (fun r Hr => Hr) H).
    intros s a s' _ Hs Hf r Hr. unfold step in Hf. destruct (request (snd a)).
    - apply bind_ok in Hf. destruct Hf as (t & _ & Hf). inversion Hf; subst. apply in_or_app. auto.
    - inversion Hf; subst. auto. }
  assert (G : forall l acc rr, foldM step l acc = Ok rr -> In (v, n) l ->
    In (mkRow (sum_x (out_arcs h v) ++ minus (sum_x (out_arcs h d))) EQ 0) rr /\
    In (mkRow [(1, Rank v); (- (1), Rank d)] LE 0) rr).
  { clear - Hq Hmono. induction l as [|[w m] l IH]; intros acc rr H Hn; [destruct Hn|].
    cbn [foldM] in H. apply bind_ok in H. destruct H as (acc1 & H1 & H).
    destruct Hn as [Hn|Hn].
    - inversion Hn; subst. unfold step in H1. cbn [snd fst] in H1. rewrite Hq in H1.
      apply bind_ok in H1. destruct H1 as (t & _ & H1). inversion H1; subst.
      split; apply (Hmono _ _ _ H); apply in_or_app; right; simpl; auto.
    - eapply IH; eauto. }
  eapply G; eauto.
Qed.

(** a sum with a single nonzero term *)
Lemma sum_single (f : arc -> Q) l a : NoDup l -> In a l -> (forall b, In b l -> b <> a -> f b == 0) ->
  Qsum (map f l) == f a.
Proof.
  induction l as [|b l IH]; intros Hnd Ha Hz; [destruct Ha|].
  cbn [map]. rewrite Qsum_cons. inversion Hnd as [|? ? Hb Hl]; subst.
  destruct Ha as [->|Ha].
  - rewrite (Qsum_map_ext f (fun _ => 0)).
    + rewrite Qsum_map_zero by (intros; reflexivity). lra.
    + intros c Hc. apply Hz; [simpl; auto|]. intro C. subst. auto.
  - rewrite IH; auto.
    + rewrite (Hz b); [lra|simpl; auto|]. intro C. subst. auto.
    + intros c Hc. apply Hz. simpl; auto.
Qed.

Lemma arcs_unique_pred p : NoDup p -> forall u u' v, In (u, v) (arcs p) -> In (u', v) (arcs p) -> u = u'.
Proof.
  intros Hd u u' v H1 H2. apply arcs_in in H1. apply arcs_in in H2.
  destruct H1 as (p1 & p2 & ->). destruct H2 as (q1 & q2 & E).
  assert (E2 : (p1 ++ [u]) ++ v :: p2 = (q1 ++ [u']) ++ v :: q2) by (rewrite <- !app_assoc; exact E).
  assert (Hd2 : NoDup ((p1 ++ [u]) ++ v :: p2)) by (rewrite <- app_assoc; exact Hd).
  assert (G : forall a b, a ++ v :: p2 = b ++ v :: q2 -> NoDup (a ++ v :: p2) -> a = b).
  { clear. induction a as [|x a IH]; intros [|y b] E Hd; simpl in E; auto.
    - inversion E as [[E1 E2]]; subst. inversion Hd as [|? ? Hn _]; subst. exfalso. apply Hn.
      apply in_or_app. simpl; auto.
    - inversion E as [[E1 E2]]; subst. inversion Hd as [|? ? Hn _]; subst. exfalso. apply Hn.
      apply in_or_app. simpl; auto.
    - inversion E as [[E1 E2]]; subst. f_equal. apply IH; auto. inversion Hd; auto. }
  apply G in E2; auto. apply app_inj_tail in E2. tauto.
Qed.

Lemma trip_nodes h K cs : network K h -> elementary_route h cs -> forall v, In v (trip cs) -> In v (nodes h).
Proof.
  intros N R v Hv. assert (Hal := er_along _ _ R). unfold trip in *.
  destruct Hv as [<-|Hv]; [apply N|]. apply in_app_or in Hv.
  destruct Hv as [Hv|[<-|[]]]; [|apply N].
  apply in_split in Hv. destruct Hv as (c1 & c2 & ->).
  destruct (c2 ++ [Sink]) as [|w c3] eqn:E; [destruct c2; discriminate|].
  assert (Ha : In (v, w) (arc_list h)).
  { apply Hal. apply arcs_in. exists (Source :: c1), c3. rewrite <- app_assoc. simpl. rewrite E. reflexivity. }
  apply (wf_ends _ (net_wf _ _ N) v w); auto.
Qed.

Section Sound.
  Variables (h : vgraph) (K k : nat) (caps : option (list Z)) (o : options) (ns dur : option Z) (neg : bool).
  Variable p : program pvar.
  Variable x : pvar -> Q.
  Hypothesis N : network K h.
  Hypothesis F : formulate h k caps o ns dur neg = Ok p.
  Hypothesis S : feasible x p.

  Let sel := fun a : arc => Qltb (1 # 2) (x (X a)).

  Lemma x01 a : In a (arc_list h) -> x (X a) == (if sel a then 1 else 0).
  Proof.
    intro Ha. destruct (formulate_inv _ _ _ _ _ _ _ _ F) as (_ & _ & loads & reqs & sdc & _ & _ & _ & Hp).
    assert (Hv : In (X a, mkBounds (Some 0) (Some 1) true) (p_vars p)).
    { rewrite Hp. cbn [p_vars]. apply in_or_app. left. apply in_map_iff. exists a. split; auto.
      destruct a as [u v]. apply in_edges; auto. apply N. }
    apply (feas_vars x p S) in Hv. destruct Hv as (H1 & H2 & H3). cbn in *.
    specialize (H1 0 eq_refl). specialize (H2 1 eq_refl). destruct (H3 eq_refl) as (z & Hz).
    unfold sel. rewrite Hz in *.
    change 0 with (inject_Z 0) in H1. change 1 with (inject_Z 1) in H2.
    rewrite <- Zle_Qle in H1, H2.
    assert (Hc : z = 0%Z \/ z = 1%Z) by lia.
    destruct (Qltb (1 # 2) (x (X a))) eqn:E.
    - apply Qltb_lt in E. rewrite Hz in E. destruct Hc as [-> | ->]; [exfalso; revert E; vm_compute; discriminate|].
      rewrite Hz; reflexivity.
    - apply Qltb_ge in E. rewrite Hz in E. destruct Hc as [-> | ->]; [rewrite Hz; reflexivity|].
      exfalso. apply E. reflexivity.
  Qed.

  (** a sum over the variables is a sum over the chosen arcs *)
  Lemma sum_sel (f : arc -> Q) l : (forall a, In a l -> In a (arc_list h)) ->
    Qsum (map (fun a => f a * x (X a)) l) == Qsum (map f (filter sel l)).
  Proof.
    induction l as [|a l IH]; intro H; [simpl; lra|].
    cbn [map filter]. rewrite Qsum_cons. rewrite (x01 a) by (apply H; simpl; auto).
    rewrite IH by (intros; apply H; simpl; auto).
    destruct (sel a); cbn [map]; rewrite ?Qsum_cons; lra.
  Qed.

  Lemma Qsum_const {B} (l : list B) : Qsum (map (fun _ => 1) l) == inject_Z (Z.of_nat (List.length l)).
  Proof.
    induction l as [|a l IH]; [reflexivity|]. cbn [map]. rewrite Qsum_cons, IH.
    cbn [List.length]. rewrite Nat2Z.inj_succ. unfold Z.succ. rewrite inject_Z_plus. change (inject_Z 1) with 1. lra.
  Qed.

  Lemma value_sum_x l : value x (sum_x l) = Qsum (map (fun a => 1 * x (X a)) l).
  Proof. unfold value, sum_x. rewrite map_map. reflexivity. Qed.

  Lemma count_x l : (forall a, In a l -> In a (arc_list h)) ->
    value x (sum_x l) == inject_Z (Z.of_nat (List.length (filter sel l))).
  Proof.
    intro H. rewrite value_sum_x.
    rewrite (sum_sel (fun _ => 1)) by auto. apply Qsum_const.
  Qed.

  Lemma value_app e1 e2 : value x (e1 ++ e2) == value x e1 + value x e2.
  Proof. unfold value. rewrite map_app. apply Qsum_app. Qed.

  Lemma value_minus e : value x (minus e) == - value x e.
  Proof.
    unfold value, minus. rewrite map_map. induction e as [|[c v] e IH]; [simpl; lra|].
    cbn [map]. rewrite !Qsum_cons, IH. simpl fst. simpl snd. lra.
  Qed.

  Lemma in_arcs_In v a : In a (in_arcs h v) <-> In a (arc_list h) /\ snd a = v.
  Proof.
    unfold in_arcs. rewrite in_map_iff. destruct a as [i j]. simpl. split.
    - intros (w & E & Hw). inversion E; subst. apply in_preds in Hw. auto.
    - intros (H1 & ->). exists i. split; auto. apply in_preds. auto.
  Qed.
  Lemma out_arcs_In v a : In a (out_arcs h v) <-> In a (arc_list h) /\ fst a = v.
  Proof.
    unfold out_arcs. rewrite in_map_iff. destruct a as [i j]. simpl. split.
    - intros (w & E & Hw). inversion E; subst. apply in_succs in Hw. auto.
    - intros (H1 & ->). exists j. split; auto. apply in_succs. auto.
  Qed.
  Lemma in_arcs_NoDup v : NoDup (in_arcs h v).
  Proof.
    unfold in_arcs. apply NoDup_map_inj; [intros a b _ _ E; inversion E; auto|].
    apply preds_NoDup. apply N.
  Qed.
  Lemma out_arcs_NoDup v : NoDup (out_arcs h v).
  Proof.
    unfold out_arcs. apply NoDup_map_inj; [intros a b _ _ E; inversion E; auto|].
    apply succs_NoDup. apply N.
  Qed.

  Lemma chosen_NoDup : NoDup (chosen h x).
  Proof. apply NoDup_filter, edges_NoDup, N. Qed.
  Lemma chosen_In a : In a (chosen h x) <-> In a (arc_list h) /\ sel a = true.
  Proof. unfold chosen. rewrite filter_In. destruct a as [u v]. rewrite in_edges by apply N. tauto. Qed.

  Lemma in_count v : Z.of_nat (List.length (filter sel (in_arcs h v))) = indeg (chosen h x) v.
  Proof.
    unfold indeg. f_equal. apply Permutation_length. apply NoDup_Permutation.
    - apply NoDup_filter, in_arcs_NoDup.
    - apply NoDup_filter, chosen_NoDup.
    - intro a. rewrite !filter_In, in_arcs_In, chosen_In, node_eqb_eq. tauto.
  Qed.
  Lemma out_count v : Z.of_nat (List.length (filter sel (out_arcs h v))) = outdeg (chosen h x) v.
  Proof.
    unfold outdeg. f_equal. apply Permutation_length. apply NoDup_Permutation.
    - apply NoDup_filter, out_arcs_NoDup.
    - apply NoDup_filter, chosen_NoDup.
    - intro a. rewrite !filter_In, out_arcs_In, chosen_In, node_eqb_eq. tauto.
  Qed.

  Lemma value_in v : value x (sum_x (in_arcs h v)) == inject_Z (indeg (chosen h x) v).
  Proof. rewrite <- in_count. apply count_x. intros a Ha. apply in_arcs_In in Ha. tauto. Qed.
  Lemma value_out v : value x (sum_x (out_arcs h v)) == inject_Z (outdeg (chosen h x) v).
  Proof. rewrite <- out_count. apply count_x. intros a Ha. apply out_arcs_In in Ha. tauto. Qed.

  Lemma row_ok r : In r (p_rows p) -> holds x r.
  Proof. apply S. Qed.

  Lemma value_edges : value x (sum_x (edges h)) == inject_Z (Z.of_nat (List.length (chosen h x))).
  Proof. apply count_x. intros [u v] Ha. apply in_edges in Ha; auto. apply N. Qed.

  (** the chosen arcs carry one unit from Source to Sink *)
  Lemma chosen_flow : flow (chosen h x) Source Sink.
  Proof.
    destruct (formulate_inv _ _ _ _ _ _ _ _ F) as (_ & _ & loads & reqs & sdc & _ & _ & _ & Hp).
    assert (HR : forall r, In r (flow_rows h ++
        [mkRow (sum_x (out_arcs h Source)) EQ 1; mkRow (sum_x (in_arcs h Sink)) EQ 1]) -> holds x r).
    { intros r Hr. apply row_ok. rewrite Hp. cbn [p_rows]. rewrite !in_app_iff in *. cbn [In] in *. tauto. }
    intro v. destruct v as [| |id].
    - assert (H1 : holds x (mkRow (sum_x (out_arcs h Source)) EQ 1)) by (apply HR; apply in_or_app; simpl; auto).
      unfold holds in H1. cbn [r_sense r_lhs r_rhs] in H1. rewrite value_out in H1.
      assert (E : outdeg (chosen h x) Source = 1%Z).
      { apply (inject_Z_injective _ 1). exact H1. }
      assert (E2 : indeg (chosen h x) Source = 0%Z).
      { destruct (Z.eq_dec (indeg (chosen h x) Source) 0) as [|Hne]; auto. exfalso.
        destruct (indeg_pos (chosen h x) Source) as (u & Hu); [pose proof (indeg_nonneg (chosen h x) Source); lia|].
        apply chosen_In in Hu. apply (net_no_in _ _ N u). tauto. }
      rewrite E, E2. reflexivity.
    - assert (H1 : holds x (mkRow (sum_x (in_arcs h Sink)) EQ 1)) by (apply HR; apply in_or_app; simpl; auto).
      unfold holds in H1. cbn [r_sense r_lhs r_rhs] in H1. rewrite value_in in H1.
      assert (E : indeg (chosen h x) Sink = 1%Z).
      { apply (inject_Z_injective _ 1). exact H1. }
      assert (E2 : outdeg (chosen h x) Sink = 0%Z).
      { destruct (Z.eq_dec (outdeg (chosen h x) Sink) 0) as [|Hne]; auto. exfalso.
        destruct (outdeg_pos (chosen h x) Sink) as (u & Hu); [pose proof (outdeg_nonneg (chosen h x) Sink); lia|].
        apply chosen_In in Hu. apply (net_no_out _ _ N u). tauto. }
      rewrite E, E2. reflexivity.
    - simpl one. destruct (in_dec node_eq_dec (Cust id) (nodes h)) as [Hin|Hn].
      + assert (Hc : In (Cust id) (custs h)) by (apply in_custs; split; auto; split; discriminate).
        assert (H1 : holds x (mkRow (sum_x (in_arcs h (Cust id)) ++ minus (sum_x (out_arcs h (Cust id)))) EQ 0)).
        { apply HR. apply in_or_app. left. unfold flow_rows. apply in_map_iff. eauto. }
        unfold holds in H1. cbn [r_sense r_lhs r_rhs] in H1.
        rewrite value_app, value_minus, value_in, value_out in H1.
        assert (E : indeg (chosen h x) (Cust id) = outdeg (chosen h x) (Cust id)).
        { apply inject_Z_injective. lra. }
        lia.
      + assert (E1 : indeg (chosen h x) (Cust id) = 0%Z).
        { destruct (Z.eq_dec (indeg (chosen h x) (Cust id)) 0) as [|Hne]; auto. exfalso.
          destruct (indeg_pos (chosen h x) (Cust id)) as (u & Hu); [pose proof (indeg_nonneg (chosen h x) (Cust id)); lia|].
          apply chosen_In in Hu. apply Hn. apply (wf_ends _ (net_wf _ _ N) u). tauto. }
        assert (E2 : outdeg (chosen h x) (Cust id) = 0%Z).
        { destruct (Z.eq_dec (outdeg (chosen h x) (Cust id)) 0) as [|Hne]; auto. exfalso.
          destruct (outdeg_pos (chosen h x) (Cust id)) as (u & Hu); [pose proof (outdeg_nonneg (chosen h x) (Cust id)); lia|].
          apply chosen_In in Hu. apply Hn. apply (wf_ends _ (net_wf _ _ N) _ u). tauto. }
        rewrite E1, E2. reflexivity.
  Qed.

  (** ranks increase along chosen arcs *)
  Lemma rank_step u v : neg || o_pickup_delivery o = true -> In (u, v) (chosen h x) ->
    x (Rank u) + 1 <= x (Rank v).
  Proof.
    intros Hn Hc. apply chosen_In in Hc. destruct Hc as (Ha & Hs).
    destruct (formulate_inv _ _ _ _ _ _ _ _ F) as (_ & _ & loads & reqs & sdc & _ & _ & _ & Hp).
    assert (H1 : holds x (mkRow [(1, Rank u); (- (1), Rank v); (size h, X (u, v))] LE (size h - 1))).
    { apply row_ok. rewrite Hp. cbn [p_rows]. rewrite Hn, !in_app_iff. do 6 right. left.
      unfold rank_rows. apply in_or_app. left. apply in_map_iff. exists (u, v). split; auto.
      apply in_edges; auto. apply N. }
    unfold holds, value in H1. cbn in H1. rewrite (x01 (u, v) Ha), Hs in H1. lra.
  Qed.

  Lemma at_least_two : (2 <= List.length (chosen h x))%nat.
  Proof.
    destruct (formulate_inv _ _ _ _ _ _ _ _ F) as (_ & _ & loads & reqs & sdc & _ & _ & _ & Hp).
    assert (H1 : holds x (mkRow (sum_x (edges h)) GE 2)).
    { apply row_ok. rewrite Hp. cbn [p_rows]. rewrite !in_app_iff. right. left. simpl. auto. }
    unfold holds in H1. cbn [r_sense r_lhs r_rhs] in H1. rewrite value_edges in H1.
    change (2 # 1) with (inject_Z 2) in H1. rewrite <- Zle_Qle in H1. lia.
  Qed.

  (** a simple walk from Source to Sink is a route *)
  Lemma simple_walk_route q : walk (arc_list h) Source Sink q -> NoDup q ->
    exists cs, q = trip cs /\ NoDup cs /\ forall v, In v cs -> v <> Source /\ v <> Sink.
  Proof.
    intros Hw Hnd. destruct (walk_nonempty _ _ _ _ Hw) as (r & ->).
    assert (Hl := walk_last _ _ _ _ Hw).
    destruct r as [|y r]; [discriminate|].
    destruct (exists_last (l := y :: r)) as (cs & z & E); [discriminate|]. rewrite E in *.
    change (Source :: cs ++ [z]) with ((Source :: cs) ++ [z]) in Hl. rewrite last_app_single in Hl. subst z.
    exists cs. split; [reflexivity|].
    inversion Hnd as [|a l H1 H2]; subst. apply NoDup_app_inv in H2. destruct H2 as (H2 & H3 & H4).
    split; auto. intros v Hv. split; intro C; subst.
    - apply H1. apply in_or_app; auto.
    - apply (H4 Sink); simpl; auto.
  Qed.

  Theorem elementary_solution : neg || o_pickup_delivery o = true ->
    exists cs, elementary_route h cs /\ Permutation (chosen h x) (arcs (trip cs)).
  Proof.
    intro Hn.
    destruct (ranked_flow_path (fun v => x (Rank v)) (chosen h x) Source Sink) as (q & Hq & Hnd & HP).
    - intros u v. apply rank_step; auto.
    - apply chosen_flow.
    - discriminate.
    - assert (Hq' : walk (arc_list h) Source Sink q).
      { apply (walk_sub (chosen h x)); auto. intros a Ha. apply chosen_In in Ha. tauto. }
      destruct (simple_walk_route q Hq' Hnd) as (cs & -> & Hcs & Hcu).
      exists cs. split; [|exact HP]. constructor; auto.
      + intro C. subst. apply Permutation_length in HP. pose proof at_least_two as H2.
        assert (E : List.length (chosen h x) = 1%nat) by exact HP. rewrite E in H2. lia.
      + apply (walk_along _ _ _ _ Hq').
  Qed.

  Theorem general_solution :
    exists q B, walk (arc_list h) Source Sink q /\ NoDup q /\ Permutation (chosen h x) (arcs q ++ B) /\ balanced B.
  Proof.
    destruct (flow_decompose (chosen h x) Source Sink chosen_flow) as (q & B & H1 & H2 & H3 & H4); [discriminate|].
    exists q, B. split; auto. apply (walk_sub (chosen h x)); auto. intros a Ha. apply chosen_In in Ha. tauto.
  Qed.

  Section Route.
    Variable cs : list node.
    Hypothesis R : elementary_route h cs.
    Hypothesis P : Permutation (chosen h x) (arcs (trip cs)).

    Lemma path_value (f : arc -> Q) : value x (map (fun a => (f a, X a)) (edges h)) == Qsum (map f (arcs (trip cs))).
    Proof.
      unfold value. rewrite map_map. cbn [fst snd].
      rewrite (sum_sel f) by (intros [u v] Ha; apply in_edges in Ha; [auto|apply N]).
      change (filter sel (edges h)) with (chosen h x). apply Qsum_perm, Permutation_map. exact P.
    Qed.

    Lemma route_arcs_length : List.length (arcs (trip cs)) = Datatypes.S (List.length cs).
    Proof. unfold trip. rewrite arcs_length, app_length. simpl. lia. Qed.

    Lemma route_in u v : In (u, v) (arcs (trip cs)) -> In (u, v) (arc_list h) /\ x (X (u, v)) == 1.
    Proof.
      intro H. assert (Hc : In (u, v) (chosen h x)) by (apply (Permutation_in _ (Permutation_sym P)); auto).
      apply chosen_In in Hc. destruct Hc as (H1 & H2). split; auto. rewrite x01, H2; auto. reflexivity.
    Qed.

    Lemma route_out u v : In (u, v) (arc_list h) -> ~ In (u, v) (arcs (trip cs)) -> x (X (u, v)) == 0.
    Proof.
      intros Ha H. rewrite x01 by auto. destruct (sel (u, v)) eqn:E; [|reflexivity].
      exfalso. apply H. apply (Permutation_in _ P). apply chosen_In. auto.
    Qed.

    Theorem solution_stops : within_stops ns cs.
    Proof.
      intros n En Hn.
      destruct (formulate_inv _ _ _ _ _ _ _ _ F) as (_ & _ & loads & reqs & sdc & _ & _ & _ & Hp).
      assert (H1 : holds x (mkRow (sum_x (edges h)) LE (inject_Z (n + 1)))).
      { apply row_ok. rewrite Hp. cbn [p_rows]. rewrite !in_app_iff. do 3 right. left.
        apply Z.eqb_neq in Hn. rewrite En, Hn. unfold stop_rows. simpl. auto. }
      unfold holds in H1. cbn [r_sense r_lhs r_rhs] in H1. rewrite value_edges in H1.
      rewrite <- Zle_Qle in H1. 
      assert (E : List.length (chosen h x) = List.length (arcs (trip cs))) by exact (Permutation_length P).
      assert (E2 := route_arcs_length). rewrite E in H1. lia.
    Qed.

    Theorem solution_load : within_load h caps k cs.
    Proof.
      intros l c El Hc.
      destruct (formulate_inv _ _ _ _ _ _ _ _ F) as (_ & _ & loads & reqs & sdc & Hl & _ & _ & Hp).
      rewrite El in Hl. destruct l as [|c0 l]; [destruct k; discriminate|].
      unfold load_rows in Hl. cbn [capacity_at] in Hl. rewrite Hc in Hl. cbn [of_opt bind] in Hl.
      inversion Hl; subst loads.
      assert (H1 : holds x (mkRow (map (fun a => (demand_of h (snd a), X a)) (edges h)) LE (inject_Z c))).
      { apply row_ok. rewrite Hp. cbn [p_rows]. rewrite !in_app_iff. do 4 right. left. simpl. auto. }
      unfold holds in H1. cbn [r_sense r_lhs r_rhs] in H1.
      rewrite (path_value (fun a => demand_of h (snd a))) in H1.
      assert (E := path_sum_heads (demand_of h) Source (cs ++ [Sink])).
      unfold path_sum in E. unfold trip in H1. rewrite <- E. exact H1.
    Qed.

    Theorem solution_duration : within_duration h dur cs.
    Proof.
      intros D ED HD.
      destruct (formulate_inv _ _ _ _ _ _ _ _ F) as (_ & _ & loads & reqs & sdc & _ & _ & _ & Hp).
      assert (H1 : holds x (mkRow (map (fun a => (time_of h (fst a) (snd a) + service_of h (fst a), X a)) (edges h)) LE (inject_Z D))).
      { apply row_ok. rewrite Hp. cbn [p_rows]. rewrite !in_app_iff. do 5 right. left.
        apply Z.eqb_neq in HD. rewrite ED, HD. unfold duration_rows. simpl. auto. }
      unfold holds in H1. cbn [r_sense r_lhs r_rhs] in H1.
      rewrite (path_value (fun a => time_of h (fst a) (snd a) + service_of h (fst a))) in H1.
      change (Qsum (map (fun a : arc => time_of h (fst a) (snd a) + service_of h (fst a)) (arcs (trip cs))))
        with (path_sum (fun u v => time_of h u v + service_of h u) (trip cs)) in H1.
      rewrite (path_sum_plus (time_of h) (fun u _ => service_of h u)) in H1.
      unfold trip in *. change (Source :: cs ++ [Sink]) with ((Source :: cs) ++ [Sink]) in H1 at 2.
      rewrite (path_sum_tails (service_of h)) in H1. exact H1.
    Qed.

    Lemma route_nodes v : In v (trip cs) -> In v (nodes h).
    Proof. exact (trip_nodes h K cs N R v). Qed.

    Theorem solution_windows : o_time_windows o = true -> within_windows h cs.
    Proof.
      intro Htw. exists (map (fun v => x (Time v)) (trip cs)).
      destruct (formulate_inv _ _ _ _ _ _ _ _ F) as (_ & _ & loads & reqs & sdc & _ & _ & _ & Hp).
      assert (Hrow : forall r, In r (time_rows h) -> holds x r).
      { intros r Hr. apply row_ok. rewrite Hp. cbn [p_rows]. rewrite Htw, !in_app_iff. tauto. }
      assert (Hb : forall v, In v (nodes h) -> lower_of h v <= x (Time v) /\ x (Time v) <= upper_of h v).
      { intros v Hv.
        assert (H1 : holds x (mkRow [(1, Time v)] LE (upper_of h v))).
        { apply Hrow. unfold time_rows. apply in_or_app. right. apply in_flat_map. exists v. simpl. auto. }
        assert (H2 : holds x (mkRow [(1, Time v)] GE (lower_of h v))).
        { apply Hrow. unfold time_rows. apply in_or_app. right. apply in_flat_map. exists v. simpl. auto. }
        unfold holds, value in H1, H2. cbn in H1, H2. split; lra. }
      assert (Ha : forall u v, In (u, v) (arcs (trip cs)) ->
                   x (Time u) + service_of h u + time_of h u v <= x (Time v)).
      { intros u v Huv. destruct (route_in u v Huv) as (Hin & Hx).
        assert (H1 : holds x (mkRow [(1, Time u); (- (1), Time v); (upper_of h Sink, X (u, v))] LE
                 (upper_of h Sink - service_of h u - time_of h u v))).
        { apply Hrow. unfold time_rows. apply in_or_app. left. apply in_map_iff. exists (u, v). split; auto.
          apply in_edges; auto. apply N. }
        unfold holds, value in H1. cbn in H1. rewrite Hx in H1. lra. }
      assert (Hn : forall v, In v (trip cs) -> In v (nodes h)) by apply route_nodes.
      clear - Hb Ha Hn. induction (trip cs) as [|u r IH]; simpl; auto.
      destruct r as [|v r].
      - simpl. apply Hb. apply Hn. simpl; auto.
      - cbn [map]. split; [apply Hb, Hn; simpl; auto|]. split; [apply Hb, Hn; simpl; auto|].
        split; [apply Ha; simpl; auto|]. apply IH.
        + intros a b Hab. apply Ha. rewrite arcs_cons2. simpl; auto.
        + intros w Hw. apply Hn. simpl; auto.
    Qed.

    (** degrees on the route *)
    Lemma outdeg_route v : v <> Sink -> outdeg (arcs (trip cs)) v = one (mem v (trip cs)).
    Proof.
      intro Hv. unfold outdeg. destruct (mem v (trip cs)) eqn:E.
      - apply mem_In in E.
        assert (Hnd : NoDup (trip cs)).
        { unfold trip. constructor.
          - rewrite in_app_iff. intros [H|[H|[]]]; [apply (er_custs _ _ R) in H; tauto|discriminate].
          - apply NoDup_app_intro; [apply R|repeat constructor; simpl; tauto|].
            intros y H1 [<-|[]]. apply (er_custs _ _ R) in H1. tauto. }
        apply in_split in E. destruct E as (r1 & r2 & E).
        destruct r2 as [|w r2].
        { exfalso. apply Hv. assert (L : last (trip cs) Source = v) by (rewrite E; apply last_app_single).
          unfold trip in L. change (Source :: cs ++ [Sink]) with ((Source :: cs) ++ [Sink]) in L.
          rewrite last_app_single in L. auto. }
        assert (Hin : In (v, w) (arcs (trip cs))) by (apply arcs_in; eauto).
        assert (HP : Permutation (filter (fun a : arc => node_eqb (fst a) v) (arcs (trip cs))) [(v, w)]).
        { apply NoDup_Permutation.
          - apply NoDup_filter, arcs_NoDup; auto.
          - repeat constructor; simpl; tauto.
          - intros [a b]. rewrite filter_In. simpl. rewrite node_eqb_eq. split.
            + intros (H1 & ->). left. f_equal. apply (arcs_unique_succ _ Hnd v w b); auto.
            + intros [H|[]]. inversion H; subst. auto. }
        apply Permutation_length in HP. unfold one. change 1%Z with (Z.of_nat 1). f_equal. exact HP.
      - apply mem_false in E. unfold one.
        assert (HF : filter (fun a : arc => node_eqb (fst a) v) (arcs (trip cs)) = []).
        { destruct (filter _ _) as [|[a b] l] eqn:EF; auto. exfalso.
          assert (Hin : In (a, b) (filter (fun a : arc => node_eqb (fst a) v) (arcs (trip cs)))) by (rewrite EF; simpl; auto).
          apply filter_In in Hin. cbn [fst] in Hin. rewrite node_eqb_eq in Hin. destruct Hin as (Hin & ->).
          apply arcs_in_nodes in Hin. tauto. }
        change 0%Z with (Z.of_nat (@List.length arc [])). f_equal. f_equal. exact HF.
    Qed.

    Theorem solution_pairs l c : o_pickup_delivery o = true -> caps = Some l -> nth_error l k = Some c ->
      (forall v d, pair_of h v d -> v <> d /\ v <> Source /\ v <> Sink /\ d <> Source /\ d <> Sink) ->
      pairs_ok h (inject_Z c) cs.
    Proof.
      intros Hpd Hcaps Hc Hpair.
      destruct (formulate_inv _ _ _ _ _ _ _ _ F) as (_ & _ & loads & reqs & sdc & _ & Hr & _ & Hp).
      rewrite Hpd in Hr. apply bind_ok in Hr. destruct Hr as (rr & Hrr & Hr).
      rewrite Hcaps in Hr. cbn [capacity_at] in Hr. rewrite Hc in Hr. cbn [of_opt bind] in Hr.
      inversion Hr; subst reqs; clear Hr.
      assert (Hrow : forall r, In r (rr ++ pickup_rows h (inject_Z c)) -> holds x r).
      { intros r Hr. apply row_ok. rewrite Hp. cbn [p_rows fst]. rewrite !in_app_iff in *. tauto. }
      assert (Hvar : forall v, In v (nodes h) -> 0 <= x (Load v) /\ x (Load v) <= inject_Z c).
      { intros v Hv.
        assert (H1 : In (Load v, mkBounds (Some 0) (Some (inject_Z c)) false) (p_vars p)).
        { rewrite Hp. cbn [p_vars snd]. rewrite !in_app_iff. do 3 right. left. unfold pickup_vars.
          apply in_map_iff. eauto. }
        apply (feas_vars x p S) in H1. destruct H1 as (H1 & H2 & _). cbn in *. auto. }
      (* rows of a pair *)
      assert (HPR : forall v d, pair_of h v d ->
          In (mkRow (sum_x (out_arcs h v) ++ minus (sum_x (out_arcs h d))) EQ 0) rr /\
          In (mkRow [(1, Rank v); (- (1), Rank d)] LE 0) rr).
      { intros v d Hvd. apply (request_rows_In h rr v d Hrr Hvd). }
      assert (Hnd : NoDup (trip cs)).
      { unfold trip. constructor.
        - rewrite in_app_iff. intros [H|[H|[]]]; [apply (er_custs _ _ R) in H; tauto|discriminate].
        - apply NoDup_app_intro; [apply R|repeat constructor; simpl; tauto|].
          intros y H1 [<-|[]]. apply (er_custs _ _ R) in H1. tauto. }
      assert (Hoc : forall v, v <> Sink -> value x (sum_x (out_arcs h v)) == inject_Z (one (mem v (trip cs)))).
      { intros v Hv. rewrite value_out, (outdeg_perm _ _ v P), outdeg_route by auto. reflexivity. }
      assert (Htog : forall v d, pair_of h v d -> (In v cs <-> In d cs)).
      { intros v d Hvd. destruct (Hpair v d Hvd) as (V1 & V2 & V3 & V4 & V5).
        destruct (HPR v d Hvd) as (H1 & _).
        assert (H2 : holds x (mkRow (sum_x (out_arcs h v) ++ minus (sum_x (out_arcs h d))) EQ 0)) by (apply Hrow, in_or_app; auto).
        unfold holds in H2. cbn [r_sense r_lhs r_rhs] in H2.
        rewrite value_app, value_minus, !Hoc in H2 by auto.
        assert (E : one (mem v (trip cs)) = one (mem d (trip cs))) by (apply inject_Z_injective; lra).
        assert (M : forall w, w <> Source -> w <> Sink -> (In w cs <-> mem w (trip cs) = true)).
        { intros w W1 W2. rewrite mem_In. unfold trip. cbn [In]. rewrite in_app_iff. cbn [In].
          intuition congruence. }
        rewrite (M v V2 V3), (M d V4 V5).
        destruct (mem v (trip cs)), (mem d (trip cs)); simpl in E; try tauto; try discriminate. }
      assert (Hrank : forall r1 u r2 v r3, trip cs = r1 ++ u :: r2 ++ v :: r3 -> x (Rank u) < x (Rank v)).
      { intros r1 u r2 v r3 E.
        assert (G : forall r2 r1 u, trip cs = r1 ++ u :: r2 ++ v :: r3 -> x (Rank u) < x (Rank v)).
        { clear E. intro q. induction q as [|w q IH]; intros s1 s E.
          - assert (Hs : In (s, v) (chosen h x)).
            { apply (Permutation_in _ (Permutation_sym P)). apply arcs_in. exists s1, r3. exact E. }
            apply rank_step in Hs; [lra|]. rewrite Hpd. apply orb_true_r.
          - assert (Hs : In (s, w) (chosen h x)).
            { apply (Permutation_in _ (Permutation_sym P)). apply arcs_in. exists s1, (q ++ v :: r3). exact E. }
            apply rank_step in Hs; [|rewrite Hpd; apply orb_true_r].
            assert (x (Rank w) < x (Rank v)).
            { apply (IH (s1 ++ [s]) w). rewrite <- app_assoc. exact E. }
            lra. }
        apply (G r2 r1 u); auto. }
      constructor; auto.
      - intros v d Hvd Hv. destruct (Hpair v d Hvd) as (V1 & V2 & V3 & V4 & V5).
        assert (Hd : In d cs) by (apply (Htog v d Hvd); auto).
        destruct (HPR v d Hvd) as (_ & H1).
        assert (H2 : holds x (mkRow [(1, Rank v); (- (1), Rank d)] LE 0)) by (apply Hrow, in_or_app; auto).
        unfold holds, value in H2. cbn in H2.
        apply in_split in Hv. destruct Hv as (c1 & c2 & Ecs).
        rewrite Ecs in Hd. apply in_app_or in Hd. destruct Hd as [Hd|[Hd|Hd]]; [|congruence|].
        + exfalso. apply in_split in Hd. destruct Hd as (d1 & d2 & ->).
          assert (Hlt : x (Rank d) < x (Rank v)).
          { apply (Hrank (Source :: d1) d d2 v (c2 ++ [Sink])). rewrite Ecs. unfold trip. simpl.
            repeat (rewrite <- !app_assoc; simpl). reflexivity. }
          lra.
        + apply in_split in Hd. destruct Hd as (d1 & d2 & ->). exists c1, d1, d2. auto.
      - (* loads *)
        assert (Hstep : forall u v, In (u, v) (arcs (trip cs)) -> x (Load v) == x (Load u) + demand_of h v).
        { intros u v Huv. destruct (route_in u v Huv) as (Hin & Hx).
          assert (HI : In (u, v) (edges h)) by (apply in_edges; auto; apply N).
          assert (H1 : holds x (mkRow [(1, Load u); (- (1), Load v); (inject_Z c, X (u, v))] LE (inject_Z c - demand_of h v))).
          { apply Hrow. apply in_or_app. right. unfold pickup_rows. apply in_or_app. left.
            apply in_flat_map. exists (u, v). simpl. auto. }
          assert (H2 : holds x (mkRow [(1, Load u); (- (1), Load v); (- inject_Z c, X (u, v))] GE (- inject_Z c - demand_of h v))).
          { apply Hrow. apply in_or_app. right. unfold pickup_rows. apply in_or_app. left.
            apply in_flat_map. exists (u, v). simpl. auto. }
          unfold holds, value in H1, H2. cbn in H1, H2. rewrite Hx in H1, H2. lra. }
        assert (H0 : x (Load Source) == 0).
        { assert (H1 : holds x (mkRow [(1, Load Source)] EQ 0)).
          { apply Hrow. apply in_or_app. right. unfold pickup_rows. apply in_or_app. right. simpl. auto. }
          unfold holds, value in H1. cbn in H1. lra. }
        assert (Hn : forall v, In v (trip cs) -> In v (nodes h)) by apply route_nodes.
        unfold loads_within, trip in *. clear - Hvar Hstep H0 Hn.
        assert (G : forall r u acc, acc == x (Load u) ->
           (forall a b, In (a, b) (arcs (u :: r)) -> x (Load b) == x (Load a) + demand_of h b) ->
           (forall v, In v r -> In v (nodes h)) ->
           forall q, In q (running_loads (demand_of h) acc r) -> 0 <= q /\ q <= inject_Z c).
        { induction r as [|v r IH]; intros u acc Ea Hs Hv q Hq; [destruct Hq|].
          cbn [running_loads] in Hq.
          assert (Ev : acc + demand_of h v == x (Load v)).
          { rewrite (Hs u v) by (rewrite arcs_cons2; simpl; auto). lra. }
          destruct Hq as [Hq|Hq].
          - rewrite <- Hq, Ev. apply Hvar. apply Hv. simpl; auto.
          - apply (IH v (acc + demand_of h v)); auto.
            + intros a b Hab. apply Hs. rewrite arcs_cons2. simpl; auto.
            + intros w Hw. apply Hv. simpl; auto. }
        intros q Hq. apply (G (cs ++ [Sink]) Source 0); auto; [rewrite H0; reflexivity|].
        intros v Hv. apply Hn. simpl; auto.
      - (* empty at the end *)
        assert (Hstep : forall u v, In (u, v) (arcs (trip cs)) -> x (Load v) == x (Load u) + demand_of h v).
        { intros u v Huv. destruct (route_in u v Huv) as (Hin & Hx).
          assert (HI : In (u, v) (edges h)) by (apply in_edges; auto; apply N).
          assert (H1 : holds x (mkRow [(1, Load u); (- (1), Load v); (inject_Z c, X (u, v))] LE (inject_Z c - demand_of h v))).
          { apply Hrow. apply in_or_app. right. unfold pickup_rows. apply in_or_app. left.
            apply in_flat_map. exists (u, v). simpl. auto. }
          assert (H2 : holds x (mkRow [(1, Load u); (- (1), Load v); (- inject_Z c, X (u, v))] GE (- inject_Z c - demand_of h v))).
          { apply Hrow. apply in_or_app. right. unfold pickup_rows. apply in_or_app. left.
            apply in_flat_map. exists (u, v). simpl. auto. }
          unfold holds, value in H1, H2. cbn in H1, H2. rewrite Hx in H1, H2. lra. }
        assert (H0 : x (Load Source) == 0).
        { assert (H1 : holds x (mkRow [(1, Load Source)] EQ 0)).
          { apply Hrow. apply in_or_app. right. unfold pickup_rows. apply in_or_app. right. simpl. auto. }
          unfold holds, value in H1. cbn in H1. lra. }
        assert (HK : x (Load Sink) == 0).
        { assert (H1 : holds x (mkRow [(1, Load Sink)] EQ 0)).
          { apply Hrow. apply in_or_app. right. unfold pickup_rows. apply in_or_app. right. simpl. auto. }
          unfold holds, value in H1. cbn in H1. lra. }
        assert (G : forall r u, (forall a b, In (a, b) (arcs (u :: r)) -> x (Load b) == x (Load a) + demand_of h b) ->
           x (Load (last (u :: r) u)) == x (Load u) + node_sum (demand_of h) r).
        { clear. induction r as [|v r IH]; intros u Hs; [unfold node_sum; simpl; lra|].
          rewrite node_sum_cons. 
          assert (E : last (u :: v :: r) u = last (v :: r) v).
          { change (last (v :: r) u = last (v :: r) v). apply last_indep. }
          rewrite E, IH by (intros a b Hab; apply Hs; rewrite arcs_cons2; simpl; auto).
          rewrite (Hs u v) by (rewrite arcs_cons2; simpl; auto). lra. }
        specialize (G (cs ++ [Sink]) Source Hstep).
        change (Source :: cs ++ [Sink]) with ((Source :: cs) ++ [Sink]) in G. rewrite last_app_single in G. lra.
    Qed.

    Lemma trip_NoDup : NoDup (trip cs).
    Proof.
      unfold trip. constructor.
      - rewrite in_app_iff. intros [H|[H|[]]]; [apply (er_custs _ _ R) in H; tauto|discriminate].
      - apply NoDup_app_intro; [apply R|repeat constructor; simpl; tauto|].
        intros y H1 [<-|[]]. apply (er_custs _ _ R) in H1. tauto.
    Qed.

    Theorem solution_both l c : o_distribution_collection o = true -> caps = Some l -> nth_error l k = Some c ->
      both_fit h (inject_Z c) cs.
    Proof.
      intros Hdc Hcaps Hc.
      destruct (formulate_inv _ _ _ _ _ _ _ _ F) as (_ & _ & loads & reqs & sdc & _ & _ & Hs & Hp).
      rewrite Hdc, Hcaps in Hs. cbn [capacity_at] in Hs. rewrite Hc in Hs. cbn [of_opt bind] in Hs.
      inversion Hs; subst sdc; clear Hs.
      assert (Hrow : forall r, In r (sdc_rows h (inject_Z c)) -> holds x r).
      { intros r Hr. apply row_ok. rewrite Hp. cbn [p_rows fst]. rewrite !in_app_iff. tauto. }
      assert (Hvar : forall a, In a (arc_list h) -> 0 <= x (Unload a) /\ 0 <= x (Collected a)).
      { intros [u v] Ha. assert (He : In (u, v) (edges h)) by (apply in_edges; auto; apply N).
        assert (H1 : In (Unload (u, v), mkBounds (Some 0) (Some (inject_Z c)) false) (p_vars p)).
        { rewrite Hp. cbn [p_vars snd]. rewrite !in_app_iff. do 4 right. unfold sdc_vars. apply in_or_app. left.
          apply in_map_iff. eauto. }
        assert (H2 : In (Collected (u, v), mkBounds (Some 0) (Some (inject_Z c)) false) (p_vars p)).
        { rewrite Hp. cbn [p_vars snd]. rewrite !in_app_iff. do 4 right. unfold sdc_vars. apply in_or_app. right.
          apply in_map_iff. eauto. }
        apply (feas_vars x p S) in H1. apply (feas_vars x p S) in H2.
        destruct H1 as (H1 & _). destruct H2 as (H2 & _). cbn in *. auto. }
      assert (Hcap : forall a, In a (arc_list h) -> x (Collected a) + x (Unload a) <= inject_Z c * x (X a)).
      { intros [u v] Ha. assert (He : In (u, v) (edges h)) by (apply in_edges; auto; apply N).
        assert (H1 : holds x (mkRow [(1, Collected (u, v)); (1, Unload (u, v)); (- inject_Z c, X (u, v))] LE 0)).
        { apply Hrow. unfold sdc_rows. rewrite !in_app_iff. do 2 right. apply in_map_iff. eauto. }
        unfold holds, value in H1. cbn in H1. lra. }
      assert (Hoff : forall a, In a (arc_list h) -> ~ In a (arcs (trip cs)) ->
                x (Collected a) == 0 /\ x (Unload a) == 0).
      { intros [u v] Ha Hn. specialize (Hvar _ Ha). specialize (Hcap _ Ha).
        rewrite (route_out u v Ha Hn) in Hcap. split; lra. }
      assert (Hnd := trip_NoDup).
      (* what enters and leaves a customer on the route *)
      assert (Hin : forall (f : arc -> Q) u v, In (u, v) (arcs (trip cs)) ->
                (forall a, In a (arc_list h) -> ~ In a (arcs (trip cs)) -> f a == 0) ->
                Qsum (map f (in_arcs h v)) == f (u, v)).
      { intros f u v Huv Hf. apply sum_single.
        - apply in_arcs_NoDup.
        - apply in_arcs_In. split; auto. apply (route_in u v Huv).
        - intros [a b] Hb Hne. apply in_arcs_In in Hb. destruct Hb as (Hb & Eb). simpl in Eb. subst b.
          apply Hf; auto. intro C. apply Hne. f_equal. apply (arcs_unique_pred _ Hnd a u v); auto. }
      assert (Hout : forall (f : arc -> Q) v w, In (v, w) (arcs (trip cs)) ->
                (forall a, In a (arc_list h) -> ~ In a (arcs (trip cs)) -> f a == 0) ->
                Qsum (map f (out_arcs h v)) == f (v, w)).
      { intros f v w Hvw Hf. apply sum_single.
        - apply out_arcs_NoDup.
        - apply out_arcs_In. split; auto. apply (route_in v w Hvw).
        - intros [a b] Hb Hne. apply out_arcs_In in Hb. destruct Hb as (Hb & Eb). simpl in Eb. subst a.
          apply Hf; auto. intro C. apply Hne. f_equal. apply (arcs_unique_succ _ Hnd v b w); auto. }
      assert (Vin : forall (f : arc -> pvar) u v, In (u, v) (arcs (trip cs)) ->
                (forall a, In a (arc_list h) -> ~ In a (arcs (trip cs)) -> x (f a) == 0) ->
                value x (map (fun a => (1, f a)) (in_arcs h v)) == x (f (u, v))).
      { intros f u v Huv Hf. unfold value. rewrite map_map. cbn [fst snd].
        rewrite (Hin (fun a => 1 * x (f a)) u v Huv); [lra|]. intros a H1 H2. rewrite (Hf a H1 H2). lra. }
      assert (Vout : forall (f : arc -> pvar) v w, In (v, w) (arcs (trip cs)) ->
                (forall a, In a (arc_list h) -> ~ In a (arcs (trip cs)) -> x (f a) == 0) ->
                value x (map (fun a => (1, f a)) (out_arcs h v)) == x (f (v, w))).
      { intros f v w Hvw Hf. unfold value. rewrite map_map. cbn [fst snd].
        rewrite (Hout (fun a => 1 * x (f a)) v w Hvw); [lra|]. intros a H1 H2. rewrite (Hf a H1 H2). lra. }
      assert (Vx : forall q u v, In (u, v) (arcs (trip cs)) -> value x (map (fun a => (q, X a)) (in_arcs h v)) == q).
      { intros q u v Huv. unfold value. rewrite map_map. cbn [fst snd].
        rewrite (Hin (fun a => q * x (X a)) u v Huv).
        - destruct (route_in u v Huv) as (_ & E). rewrite E. lra.
        - intros [a b] H1 H2. rewrite (route_out a b H1 H2). lra. }
      assert (Hflow : forall u v w, In (u, v) (arcs (trip cs)) -> In (v, w) (arcs (trip cs)) ->
                x (Unload (u, v)) == demand_of h v + x (Unload (v, w)) /\
                x (Collected (v, w)) == collect_of h v + x (Collected (u, v))).
      { intros u v w Huv Hvw.
        assert (Hcv : In v (custs h)).
        { apply in_custs. split; [|split].
          - apply route_nodes. apply arcs_in_nodes in Huv. tauto.
          - intro C. subst v. apply (net_no_in _ _ N u). apply (route_in _ _ Huv).
          - intro C. subst v. apply (net_no_out _ _ N w). apply (route_in _ _ Hvw). }
        split.
        - assert (H1 : holds x (mkRow (map (fun a => (demand_of h v, X a)) (in_arcs h v)
                       ++ minus (map (fun a => (1, Unload a)) (in_arcs h v)) ++ map (fun a => (1, Unload a)) (out_arcs h v)) EQ 0)).
          { apply Hrow. unfold sdc_rows. rewrite !in_app_iff. left. apply in_map_iff. eauto. }
          unfold holds in H1. cbn [r_sense r_lhs r_rhs] in H1.
          rewrite !value_app, value_minus, (Vx _ u v Huv), (Vin Unload u v Huv), (Vout Unload v w Hvw) in H1;
            [lra| |]; intros a A1 A2; apply (Hoff a A1 A2).
        - assert (H1 : holds x (mkRow (map (fun a => (collect_of h v, X a)) (in_arcs h v)
                       ++ minus (map (fun a => (1, Collected a)) (out_arcs h v)) ++ map (fun a => (1, Collected a)) (in_arcs h v)) EQ 0)).
          { apply Hrow. unfold sdc_rows. rewrite !in_app_iff. right. left. apply in_map_iff. eauto. }
          unfold holds in H1. cbn [r_sense r_lhs r_rhs] in H1.
          rewrite !value_app, value_minus, (Vx _ u v Huv), (Vin Collected u v Huv), (Vout Collected v w Hvw) in H1;
            [lra| |]; intros a A1 A2; apply (Hoff a A1 A2). }
      assert (HU : forall c2 r u v r2, trip cs = r ++ u :: v :: r2 -> v :: r2 = c2 ++ [Sink] ->
                node_sum (demand_of h) c2 <= x (Unload (u, v))).
      { induction c2 as [|y c2 IH]; intros r u v r2 E1 E2.
        - rewrite node_sum_nil. apply Hvar. apply route_in. apply arcs_in. eauto.
        - cbn [app] in E2. injection E2 as Ey E2. subst y.
          destruct r2 as [|w r3]; [destruct c2; discriminate|].
          assert (H1 : In (u, v) (arcs (trip cs))) by (apply arcs_in; eauto).
          assert (H2 : trip cs = (r ++ [u]) ++ v :: w :: r3) by (rewrite <- app_assoc; exact E1).
          assert (H3 : In (v, w) (arcs (trip cs))) by (apply arcs_in; eauto).
          specialize (IH _ _ _ _ H2 E2). destruct (Hflow u v w H1 H3) as (H4 & _).
          rewrite node_sum_cons. lra. }
      assert (HC : forall c1 v r2, trip cs = (Source :: c1) ++ v :: r2 ->
                node_sum (collect_of h) c1 <= x (Collected (last (Source :: c1) Source, v))).
      { induction c1 as [|u c1 IH] using rev_ind; intros v r2 E1.
        - rewrite node_sum_nil. apply Hvar. apply route_in. apply arcs_in. exists [], r2. exact E1.
        - change (Source :: c1 ++ [u]) with ((Source :: c1) ++ [u]) in *. rewrite last_app_single.
          rewrite <- app_assoc in E1. cbn [app] in E1.
          change (Source :: c1 ++ u :: v :: r2) with ((Source :: c1) ++ u :: v :: r2) in E1.
          assert (H1 : In (u, v) (arcs (trip cs))) by (apply arcs_in; eauto).
          specialize (IH u (v :: r2) E1).
          assert (H2 : In (last (Source :: c1) Source, u) (arcs (trip cs))).
          { apply arcs_in. exists (removelast (Source :: c1)), (v :: r2). rewrite E1.
            rewrite (app_removelast_last (l := Source :: c1) Source) at 1 by discriminate.
            rewrite <- app_assoc. reflexivity. }
          destruct (Hflow _ u v H2 H1) as (_ & H4).
          rewrite node_sum_app, node_sum_cons, node_sum_nil. lra. }
      intros c1 c2 Ecs.
      destruct (c2 ++ [Sink]) as [|v r2] eqn:E2; [destruct c2; discriminate|].
      assert (ET : trip cs = (Source :: c1) ++ v :: r2).
      { unfold trip. rewrite Ecs. cbn [app]. rewrite <- app_assoc, E2. reflexivity. }
      specialize (HC c1 v r2 ET).
      assert (ET2 : trip cs = removelast (Source :: c1) ++ last (Source :: c1) Source :: v :: r2).
      { rewrite ET. rewrite (app_removelast_last (l := Source :: c1) Source) at 1 by discriminate.
        rewrite <- app_assoc. reflexivity. }
      specialize (HU c2 _ _ v r2 ET2 (eq_sym E2)).
      assert (Hla : In (last (Source :: c1) Source, v) (arcs (trip cs))) by (apply arcs_in; eauto).
      destruct (route_in _ _ Hla) as (L1 & L2). specialize (Hcap _ L1). rewrite L2 in Hcap. lra.
    Qed.
  End Route.
End Sound.
