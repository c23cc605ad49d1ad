(** Preprocessing with complete preassigned routes is preprocessing of what is left. *)
From Verif.Base Require Import Prelude Graph.
From Verif.Spec Require Import Routes Network Inputs Feasible Prep LinProg Plans Variants Locked.
From Verif.Model Require Import Args Reach Checks Preprocess ClarkeWright Greedy Initial Pricing
  GreedyPricing LPPricing Cspy Master Dive Hyper ColGen Post Schedule Solve.
From Verif.Proofs Require Import RouteLemmas ReachLemmas ChecksProofs FeasProofs PreLemmas LockProofs PresolveProofs SolveProofs.

(* ------------------------------------------------------------------ *)
(** ** Filtered lists *)

Lemma bind_step {A B} (m : res A) (k : A -> res B) x y : m = Ok x -> k x = y -> bind m k = y.
Proof. intros -> <-. reflexivity. Qed.

Lemma mapM_filter {K V W} (f : K * V -> res (K * W)) (P : K -> bool) l l' :
  (forall x y, f x = Ok y -> fst y = fst x) ->
  mapM f l = Ok l' -> mapM f (filter (fun x => P (fst x)) l) = Ok (filter (fun x => P (fst x)) l').
Proof.
  intro Hf. revert l'. induction l as [|x l IH]; intros l' H; cbn in H.
  - injection H as <-. reflexivity.
  - apply bind_ok in H. destruct H as (y & Hy & H). apply bind_ok in H. destruct H as (l2 & H2 & H). injection H as <-.
    cbn [filter]. rewrite (Hf x y Hy). destruct (P (fst x)); [|exact (IH _ H2)]. cbn. rewrite Hy, (IH _ H2). reflexivity.
Qed.

Lemma filter_map {A B} (f : A -> B) (P : B -> bool) (l : list A) : filter P (map f l) = map f (filter (fun x => P (f x)) l).
Proof. induction l as [|x l IH]; [reflexivity|]. cbn. destruct (P (f x)); cbn; rewrite IH; reflexivity. Qed.

Definition far (L : list node) (a : arc) : bool := negb (mem (fst a) L) && negb (mem (snd a) L).

Lemma others_remove L g : others L g = remove_nodes L g.
Proof. reflexivity. Qed.

Lemma remove_nodes_app {N E} (l1 l2 : list node) (g : graph N E) : remove_nodes l2 (remove_nodes l1 g) = remove_nodes (l1 ++ l2) g.
Proof.
  assert (M : forall u l1 l2, mem u (l1 ++ l2) = mem u l1 || mem u l2) by (intros; unfold mem; apply existsb_app).
  unfold remove_nodes. cbn [gnodes gedges]. f_equal.
  - induction (gnodes g) as [|x l IH]; [reflexivity|]. cbn [filter]. rewrite M. destruct (mem (fst x) l1) eqn:E1; cbn [negb orb]; [exact IH|].
    cbn [filter]. destruct (mem (fst x) l2); cbn [negb]; rewrite IH; reflexivity.
  - induction (gedges g) as [|((u & w) & e) l IH]; [reflexivity|]. cbn [filter fst snd]. rewrite !M, !negb_orb.
    destruct (mem u l1) eqn:E1, (mem w l1) eqn:E2; cbn [negb andb]; rewrite ?andb_false_r; try exact IH.
    cbn [filter fst snd]. destruct (negb (mem u l2) && negb (mem w l2)); rewrite IH; reflexivity.
Qed.

Lemma remove_none {N E} (g : graph N E) : remove_nodes [] g = g.
Proof.
  destruct g as [ns es]. unfold remove_nodes. cbn. f_equal; [induction ns as [|x l IH]|induction es as [|x l IH]]; cbn; try rewrite IH; reflexivity.
Qed.

(** updates commute with the removal of nodes *)
Lemma map_nodes_remove {N E} (f : node -> N -> N) L (g : graph N E) : map_nodes f (remove_nodes L g) = remove_nodes L (map_nodes f g).
Proof. unfold map_nodes, remove_nodes. cbn. f_equal. rewrite filter_map. reflexivity. Qed.
Lemma map_arcs_remove {N E} (f : arc -> E -> E) L (g : graph N E) : map_arcs f (remove_nodes L g) = remove_nodes L (map_arcs f g).
Proof. unfold map_arcs, remove_nodes. cbn. f_equal. rewrite filter_map. reflexivity. Qed.
Lemma map_arcsM_remove {N E E'} (f : arc -> E -> res E') L (g : graph N E) g' :
  map_arcsM f g = Ok g' -> map_arcsM f (remove_nodes L g) = Ok (remove_nodes L g').
Proof.
  unfold map_arcsM. intro H. apply bind_ok in H. destruct H as (l & Hl & H). injection H as <-. cbn [remove_nodes gnodes gedges].
  pose proof (mapM_filter (fun p : arc * E => let* e := f (fst p) (snd p) in Ok (fst p, e)) (fun a => negb (mem (fst a) L) && negb (mem (snd a) L)) (gedges g) l) as M.
  eapply bind_step; [apply M; [|exact Hl]|reflexivity]. intros x y Hy. apply bind_ok in Hy. destruct Hy as (e & _ & Hy). injection Hy as <-.
  reflexivity.
Qed.
Lemma map_arcsM_ext {N E E'} (f f' : arc -> E -> res E') (g : graph N E) :
  (forall a e, In (a, e) (gedges g) -> f a e = f' a e) -> map_arcsM f g = map_arcsM f' g.
Proof.
  intro Hf. unfold map_arcsM. f_equal. revert Hf. induction (gedges g) as [|(a & e) l IH]; intro Hf; [reflexivity|]. cbn.
  rewrite (Hf a e) by (left; reflexivity). destruct (f' a e); [|reflexivity]. cbn. rewrite IH by (intros; apply Hf; right; assumption). reflexivity.
Qed.

Lemma closing_edges T g : gedges (closing T g) = gedges g.
Proof. destruct T; reflexivity. Qed.
Lemma closing_nodes T g : nodes (closing T g) = nodes g.
Proof. destruct T; [|reflexivity]. unfold nodes, closing. cbn. rewrite map_map. reflexivity. Qed.
Lemma closing_arcs T g : arc_list (closing T g) = arc_list g.
Proof. unfold arc_list. rewrite closing_edges. reflexivity. Qed.
Lemma closing_edges' T g : edges (closing T g) = edges g.
Proof. unfold edges, succs. rewrite closing_nodes, closing_arcs. reflexivity. Qed.
Lemma closing_arc T g u w : arc_data (closing T g) u w = arc_data g u w.
Proof. unfold arc_data. rewrite closing_edges. reflexivity. Qed.

Lemma map_arcs_closing f T g : map_arcs f (closing T g) = closing T (map_arcs f g).
Proof. destruct T; reflexivity. Qed.
Lemma map_arcsM_closing (f : arc -> eraw -> res eraw) T g g' :
  map_arcsM f g = Ok g' -> map_arcsM f (closing T g) = Ok (closing T g').
Proof.
  unfold map_arcsM. intro H. apply bind_ok in H. destruct H as (l & Hl & H). injection H as <-. rewrite closing_edges, Hl. cbn [bind].
  destruct T; reflexivity.
Qed.

(* ------------------------------------------------------------------ *)
(** ** The stages *)

Lemma check_arguments_part a ty g g' : (forall x, In x (edges g') -> In x (edges g) /\ arc_data g' (fst x) (snd x) = arc_data g (fst x) (snd x)) ->
  check_arguments a ty g = Ok tt -> check_arguments a ty g' = Ok tt.
Proof.
  intros Hs H. unfold check_arguments in *. do 4 (apply bind_ok in H; destruct H as ([] & ?Hx & H)). rewrite Hx, Hx0, Hx1, Hx2. cbn [bind].
  destruct (a_mixed_fleet a); [|reflexivity]. do 3 (apply bind_ok in H; destruct H as ([] & ?Hx & H)). rewrite Hx3, Hx4, Hx5. cbn [bind].
  rewrite iterM_ok in *. intros x Hi. destruct (Hs x Hi) as (H1 & H2). specialize (H x H1). unfold get_arc in *. rewrite H2. exact H.
Qed.

Section Stages.
  Variable L : list node.
  Hypothesis LS : ~ In Source L.
  Hypothesis LT : ~ In Sink L.

  Lemma part_edges {N E} (g : graph N E) : wf g -> forall x, In x (edges (remove_nodes L g)) ->
    In x (edges g) /\ arc_data (remove_nodes L g) (fst x) (snd x) = arc_data g (fst x) (snd x).
  Proof.
    intros W (u & w) Hx. apply in_edges in Hx; [|apply wf_remove_nodes; exact W]. pose proof Hx as Hx'. apply in_arcs_remove_nodes in Hx. cbn [fst snd].
    split; [apply in_edges; tauto|]. rewrite arc_data_remove_nodes. destruct Hx as (_ & H1 & H2). apply mem_false in H1, H2. rewrite H1, H2. reflexivity.
  Qed.

  Lemma others_args T a g a' ty g1 : wf g -> prepare_args a g = Ok (a', ty, g1) ->
    prepare_args a (closing T (others L g)) = Ok (a', ty, closing T (others L g1)) /\ wf g1.
  Proof.
    intros W. rewrite !prepare_args_unfold. destruct (a_mixed_fleet a).
    - intro H. apply bind_ok in H. destruct H as (t & -> & H). apply bind_ok in H. destruct H as ([] & Ck & H). injection H as <- <- <-. cbn [bind].
      rewrite (check_arguments_part a t g); [split; [reflexivity|exact W]| |exact Ck].
      intros x Hx. rewrite closing_edges' in Hx. rewrite closing_arc. apply part_edges; assumption.
    - intro H. apply bind_ok in H. destruct H as ([] & Ck & H). injection H as <- <- <-. cbn [format fst snd].
      assert (W1 : wf (map_arcs (fun _ e => format_cost e) g)) by (apply wf_map_arcs; exact W).
      rewrite map_arcs_closing. change (others L g) with (remove_nodes L g). rewrite map_arcs_remove.
      rewrite (check_arguments_part _ _ (map_arcs (fun _ e => format_cost e) g)); [split; [reflexivity|exact W1]| |exact Ck].
      intros x Hx. rewrite closing_edges' in Hx. rewrite closing_arc. apply part_edges; assumption.
  Qed.

  Lemma others_fixed T c g g1 : fixed_stage c g = Ok g1 -> fixed_stage c (closing T (others L g)) = Ok (closing T (others L g1)).
  Proof.
    unfold fixed_stage. destruct (nonempty (cf_fixed_cost c)); [|congruence]. unfold add_fixed_costs. intro H.
    apply (map_arcsM_remove _ L) in H. apply (map_arcsM_closing _ T) in H. etransitivity; [|exact H]. apply map_arcsM_ext. intros (u & w) e Hin.
    rewrite closing_edges in Hin. cbn in Hin. apply filter_In in Hin. destruct Hin as (Hin & Hf). cbn [fst snd] in Hf. apply andb_true_iff in Hf. destruct Hf as (F1 & F2).
    assert (Eq : forall A B : bool, (A = true <-> B = true) -> A = B) by (intros [] []; intuition congruence).
    erewrite (Eq (mem_arc _ _) (mem_arc _ _)); [reflexivity|]. rewrite !mem_arc_In. unfold succs. rewrite closing_arcs.
    split; intro Hm; apply in_map_iff in Hm; destruct Hm as (x & Hx & Hm); apply in_map_iff in Hm; destruct Hm as ((y1 & y2) & Hy & Hm); cbn in Hy; subst y2;
      injection Hx as <- <-; apply in_map_iff; exists x; (split; [reflexivity|]); apply in_map_iff; exists (Source, x); (split; [reflexivity|]); apply filter_In; cbn.
    - split; [|reflexivity]. unfold arc_list. apply in_map_iff. exists (Source, x, e). auto.
    - split; [|reflexivity]. change (arc_list (others L g)) with (arc_list (remove_nodes L g)). apply in_arcs_remove_nodes.
      split; [unfold arc_list; apply in_map_iff; exists (Source, x, e); auto|]. apply negb_true_iff, mem_false in F1, F2. auto.
  Qed.

  Definition sink_at (t : Q) (d : graph ndata eraw) : graph ndata eraw := map_nodes (fun v x => if node_eqb v Sink then set_upper t x else x) d.

  Lemma zero_others g : set_zero_attributes (others L g) = remove_nodes L (set_zero_attributes g).
  Proof. unfold set_zero_attributes, others, remove_nodes. cbn. f_equal. rewrite filter_map. reflexivity. Qed.
  Lemma zero_closing t g : set_zero_attributes (closing (Some t) g) = sink_at t (set_zero_attributes g).
  Proof.
    unfold set_zero_attributes, closing, sink_at, map_nodes. cbn. f_equal. rewrite !map_map. apply map_ext. intros (u & r). cbn.
    destruct (node_eqb u Sink); reflexivity.
  Qed.
  Lemma has_arc_others {N E} (g : graph N E) : has_arc (remove_nodes L g) Source Sink = has_arc g Source Sink.
  Proof.
    unfold has_arc. destruct (mem_arc (Source, Sink) (arc_list g)) eqn:Em.
    - apply mem_arc_In. apply mem_arc_In in Em. apply in_arcs_remove_nodes. auto.
    - apply mem_arc_false. apply mem_arc_false in Em. rewrite in_arcs_remove_nodes. tauto.
  Qed.
  Lemma source_sink_others K g : add_source_sink K (remove_nodes L g) = remove_nodes L (add_source_sink K g).
  Proof.
    unfold add_source_sink. rewrite has_arc_others. destruct (has_arc g Source Sink); [reflexivity|]. unfold add_new_arc, remove_nodes. cbn. f_equal.
    rewrite filter_app. cbn [filter fst snd]. apply mem_false in LS, LT. rewrite LS, LT. reflexivity.
  Qed.
  Lemma source_sink_at K t g : add_source_sink K (sink_at t g) = sink_at t (add_source_sink K g).
  Proof. unfold add_source_sink. change (has_arc (sink_at t g) Source Sink) with (has_arc g Source Sink). destruct (has_arc g Source Sink); reflexivity. Qed.
  Lemma time_at t g g' : set_time_to_zero g = Ok g' -> set_time_to_zero (sink_at t g) = Ok (map_nodes (fun v x => if node_eqb v Sink then set_upper t x else x) g').
  Proof. unfold set_time_to_zero, map_arcsM. intro H. apply bind_ok in H. destruct H as (l & Hl & H). injection H as <-. cbn [sink_at map_nodes gedges]. rewrite Hl. reflexivity. Qed.

  Lemma others_zeroed K g gz : set_time_to_zero (add_source_sink K (set_zero_attributes g)) = Ok gz ->
    set_time_to_zero (add_source_sink K (set_zero_attributes (others L g))) = Ok (remove_nodes L gz) /\
    forall t, set_time_to_zero (add_source_sink K (set_zero_attributes (closing (Some t) (others L g)))) =
      Ok (map_nodes (fun v x => if node_eqb v Sink then set_upper t x else x) (remove_nodes L gz)).
  Proof.
    intro H. assert (H1 : set_time_to_zero (add_source_sink K (set_zero_attributes (others L g))) = Ok (remove_nodes L gz)).
    { rewrite zero_others, source_sink_others. apply map_arcsM_remove. exact H. }
    split; [exact H1|]. intro t. rewrite zero_closing, source_sink_at. apply time_at. exact H1.
  Qed.

  Lemma get_node_others {N E} (g : graph N E) u : ~ In u L -> get_node (remove_nodes L g) u = get_node g u.
  Proof. intro Hu. unfold get_node. rewrite node_data_remove_nodes. apply mem_false in Hu. rewrite Hu. reflexivity. Qed.

  (** with no times at all, the closing time computed for Sink is 0 *)
  Lemma untimed_zero K g gz : wf g -> In Source (nodes g) -> In Sink (nodes g) -> untimed g -> with_defaults K g = Ok gz ->
    forall h l m, (forall u, In u (preds h Sink) -> In (u, Sink) (arc_list gz) /\ node_data h u = node_data gz u /\ arc_data h u Sink = arc_data gz u Sink) ->
    mapM (fun u => let* d := get_node h u in let* e := get_arc h u Sink in Ok (upper d + service d + etime e)) (preds h Sink) = Ok l ->
    pymax l = Ok m -> m = 0.
  Proof.
    intros W HS HT (U1 & U2) D h l m Hp Hl Hm. destruct (with_defaults_ok K g gz W HS HT D) as (N1 & W1 & D1 & A1 & L1).
    apply pymax_ok in Hm. destruct Hm as (Hm & _). apply mapM_ok in Hl. revert m Hm.
    assert (Q : forall u x, In u (preds h Sink) -> (let* d := get_node h u in let* e := get_arc h u Sink in Ok (upper d + service d + etime e)) = Ok x -> x = 0).
    { intros u x Hu Hx. destruct (Hp u Hu) as (_ & E1 & E2). apply bind_ok in Hx. destruct Hx as (d & Hd & Hx). apply bind_ok in Hx. destruct Hx as (e & He & Hx). injection Hx as <-.
      unfold get_node, get_arc, of_opt in *. rewrite E1, D1 in Hd. rewrite E2 in He. destruct (node_data g u) as [r|] eqn:Er; [|discriminate]. cbn in Hd. injection Hd as <-.
      destruct (U1 u r Er) as (V1 & V2). cbn [upper service zero_node]. rewrite V1, V2. cbn [default].
      assert (Et : etime e = 0).
      { specialize (A1 u Sink). destruct (arc_data g u Sink) as [e0|] eqn:E0.
        - destruct A1 as (e' & Ee & _ & G). rewrite Ee in He. injection He as <-. rewrite (U2 _ _ _ E0) in G. exact G.
        - rewrite A1 in He. destruct (arc_eqb _ _); [|discriminate]. injection He as <-. reflexivity. }
      rewrite Et. reflexivity. }
    clear - Hl Q. induction Hl as [|u x us l Hx Hl IH]; intros m Hm; [destruct Hm|]. destruct Hm as [<-|Hm].
    - apply (Q u x); [left; reflexivity|exact Hx].
    - apply IH; [|exact Hm]. intros v y Hv. apply Q. right. exact Hv.
  Qed.

  Lemma others_dummy K g h : wf g -> In Source (nodes g) -> In Sink (nodes g) -> clocked g ->
    update_dummy_attributes K g = Ok h ->
    exists T, update_dummy_attributes K (closing T (others L g)) = Ok (remove_nodes L h) /\ (~ user_upper g 0 Sink == 0 -> T = None).
  Proof.
    intros W HS HT Ck H. rewrite update_dummy_unfold in H. apply bind_ok in H. destruct H as (gz & Hz & H).
    pose proof Hz as Hz0. destruct (others_zeroed K g gz Hz) as (Z1 & Z2). destruct (with_defaults_ok K g gz W HS HT Hz) as (N1 & W1 & D1 & A1 & L1).
    assert (P0 : forall T, update_dummy_attributes K (closing T (others L g)) = (let* g1 := set_time_to_zero (add_source_sink K (set_zero_attributes (closing T (others L g)))) in readjust_sink g1)) by reflexivity.
    pose proof H as Hr. apply readjust_sink_ok in Hr; [|exact W1]. destruct Hr as (N2 & E2 & W2 & D2 & s & s' & Hs & Hs' & U1 & U2).
    assert (Es : user_upper g 0 Sink == upper s).
    { rewrite D1 in Hs. unfold user_upper. destruct (node_data g Sink) as [r|]; [|discriminate]. cbn in Hs. injection Hs as <-. cbn [zero_node upper node_eqb andb].
      destruct (r_upper r) as [x|]; cbn [or_zero default]; [|reflexivity]. destruct (Qeq_bool x 0) eqn:Ex; [apply Qeq_bool_iff in Ex; lra|reflexivity]. }
    unfold readjust_sink in H. assert (Gs : get_node gz Sink = Ok s) by (unfold get_node; rewrite Hs; reflexivity). rewrite Gs in H. cbn [bind] in H.
    destruct (Qeq_bool (upper s) 0) eqn:Eu.
    - apply Qeq_bool_iff in Eu. apply bind_ok in H. destruct H as (l & Hl & H). apply bind_ok in H. destruct H as (m & Hm & H). injection H as <-.
      assert (Em : upper s' = m).
      { rewrite node_data_map_nodes, Hs, node_eqb_refl in Hs'. injection Hs' as <-. reflexivity. }
      destruct (U2 Eu) as (_ & U3 & _). rewrite Em in U3.
      destruct (Qeq_bool m 0) eqn:Em0.
      + (* no times at all *)
        apply Qeq_bool_iff in Em0. assert (Un : untimed g).
        { destruct Ck as [(u & Hu & Ha & Hp)|[Hn|Un]]; [exfalso| |exact Un].
          - assert (Hu' : In (u, Sink) (arc_list gz)) by (apply L1; left; exact Ha). specialize (U3 u Hu'). apply in_custs in Hu. destruct Hu as (Hu & Hcu).
            assert (X : upper_of gz u + service_of gz u + time_of gz u Sink == user_upper g 0 u + user_service g u + user_time g u Sink).
            { unfold upper_of, service_of, time_of, nd. rewrite D1. specialize (A1 u Sink). unfold user_upper, user_service, user_time.
              apply arc_data_In in Ha. destruct Ha as (e & He). rewrite He in A1 |- *. destruct A1 as (e' & -> & _ & G).
              apply node_data_In in Hu. destruct Hu as (r & ->). cbn [option_map upper service zero_node].
              assert (Eq1 : node_eqb u Sink = false) by (apply node_eqb_neq; intros ->; apply (proj2 Hcu); reflexivity). rewrite Eq1. cbn [andb].
              assert (Eq2 : etime e' = or_zero (r_time e)) by (destruct (r_time e); exact G). rewrite Eq2. destruct (r_upper r), (r_service r); reflexivity. }
            lra.
          - exfalso. apply Hn. rewrite Es. exact Eu. }
        assert (M0 : m = 0).
        { apply (untimed_zero K g gz W HS HT Un Hz0 gz l m); [|exact Hl|exact Hm]. intros u Hu. apply in_preds in Hu. auto. }
        exists None. split; [|intro Hn; reflexivity]. rewrite P0. cbn [closing]. rewrite Z1. cbn [bind]. unfold readjust_sink.
        rewrite (get_node_others gz Sink LT), Gs. cbn [bind]. apply Qeq_bool_iff in Eu. rewrite Eu.
        assert (Wr : wf (remove_nodes L gz)) by (apply wf_remove_nodes; exact W1).
        destruct (readjust_sink_total (remove_nodes L gz) Wr) as (h2 & Hh2). { apply in_arcs_remove_nodes. split; [apply L1; right; reflexivity|auto]. }
        unfold readjust_sink in Hh2. rewrite (get_node_others gz Sink LT), Gs in Hh2. cbn [bind] in Hh2. rewrite Eu in Hh2.
        apply bind_ok in Hh2. destruct Hh2 as (l2 & Hl2 & Hh2). apply bind_ok in Hh2. destruct Hh2 as (m2 & Hm2 & _).
        rewrite Hl2. cbn [bind]. rewrite Hm2. cbn [bind].
        assert (M2 : m2 = 0).
        { apply (untimed_zero K g gz W HS HT Un Hz0 (remove_nodes L gz) l2 m2); [|exact Hl2|exact Hm2]. intros u Hu. apply in_preds, in_arcs_remove_nodes in Hu.
          destruct Hu as (Hu & Hu1 & Hu2). rewrite node_data_remove_nodes, arc_data_remove_nodes. apply mem_false in Hu1, Hu2. rewrite Hu1, Hu2. auto. }
        rewrite M2, M0, map_nodes_remove. reflexivity.
      + exists (Some m). split; [|intro Hn; exfalso; apply Hn; rewrite Es; exact Eu].
        rewrite P0, Z2. cbn [bind]. rewrite map_nodes_remove. unfold readjust_sink. rewrite (get_node_others _ Sink LT). unfold get_node. rewrite Hs'. cbn [of_opt bind]. rewrite Em, Em0. reflexivity.
    - injection H as <-. exists None. split; [|reflexivity]. rewrite P0. cbn [closing]. rewrite Z1. cbn [bind]. unfold readjust_sink.
      rewrite (get_node_others gz Sink LT), Gs. cbn [bind]. rewrite Eu. reflexivity.
  Qed.
End Stages.
