(** networkx [DiGraph]: nodes and arcs with attributes, in insertion order. *)
From Verif.Base Require Import Prelude.

(** Node names. "Source" and "Sink" are the two depot names the code tests for; every other
    hashable object is a customer. The code looks at no other aspect of a name, except that
    subproblem_greedy.py tests its truth value: [Cust 0] is the falsy name. *)
Inductive node := Source | Sink | Cust (id : Z).

Definition node_eqb (a b : node) : bool :=
  match a, b with
  | Source, Source => true
  | Sink, Sink => true
  | Cust x, Cust y => (x =? y)%Z
  | _, _ => false
  end.

Lemma node_eqb_eq a b : node_eqb a b = true <-> a = b.
Proof.
  destruct a, b; simpl; split; intro H; try discriminate; auto.
  - apply Z.eqb_eq in H. congruence.
  - inversion H. apply Z.eqb_refl.
Qed.

Lemma node_eqb_refl a : node_eqb a a = true.
Proof. apply node_eqb_eq; auto. Qed.

Lemma node_eqb_neq a b : node_eqb a b = false <-> a <> b.
Proof. rewrite <- not_true_iff_false, node_eqb_eq. tauto. Qed.

Definition node_eq_dec (a b : node) : {a = b} + {a <> b}.
Proof. decide equality. apply Z.eq_dec. Defined.

Definition arc := (node * node)%type.

Definition arc_eqb (a b : arc) : bool := node_eqb (fst a) (fst b) && node_eqb (snd a) (snd b).

Lemma arc_eqb_eq a b : arc_eqb a b = true <-> a = b.
Proof.
  destruct a as [a1 a2], b as [b1 b2]. unfold arc_eqb. simpl.
  rewrite andb_true_iff, !node_eqb_eq. split; [intros [-> ->]; auto|intro H; inversion H; auto].
Qed.

Lemma arc_eqb_refl a : arc_eqb a a = true.
Proof. apply arc_eqb_eq; auto. Qed.

Lemma arc_eqb_neq a b : arc_eqb a b = false <-> a <> b.
Proof. rewrite <- not_true_iff_false, arc_eqb_eq. tauto. Qed.

Definition arc_eq_dec (a b : arc) : {a = b} + {a <> b}.
Proof. decide equality; apply node_eq_dec. Defined.

(** [v in l] *)
Lemma arc_eqb_sym a b : arc_eqb a b = arc_eqb b a.
Proof.
  destruct (arc_eqb a b) eqn:E.
  - apply arc_eqb_eq in E. subst. symmetry. apply arc_eqb_eq. auto.
  - destruct (arc_eqb b a) eqn:F; auto. apply arc_eqb_eq in F. subst.
    rewrite (proj2 (arc_eqb_eq _ _) eq_refl) in E. discriminate.
Qed.

Definition mem (v : node) (l : list node) : bool := existsb (node_eqb v) l.
Definition mem_arc (a : arc) (l : list arc) : bool := existsb (arc_eqb a) l.

Lemma mem_In v l : mem v l = true <-> In v l.
Proof.
  unfold mem. rewrite existsb_exists. split.
  - intros (x & Hx & He). apply node_eqb_eq in He. subst; auto.
  - intro H. exists v. split; auto. apply node_eqb_refl.
Qed.

Lemma mem_false v l : mem v l = false <-> ~ In v l.
Proof. rewrite <- not_true_iff_false, mem_In. tauto. Qed.

Lemma mem_arc_In v l : mem_arc v l = true <-> In v l.
Proof.
  unfold mem_arc. rewrite existsb_exists. split.
  - intros (x & Hx & He). apply arc_eqb_eq in He. subst; auto.
  - intro H. exists v. split; auto. apply arc_eqb_refl.
Qed.

Lemma mem_arc_false v l : mem_arc v l = false <-> ~ In v l.
Proof. rewrite <- not_true_iff_false, mem_arc_In. tauto. Qed.

(** [v in ["Source", "Sink"]] *)
Definition is_depot (v : node) : bool := match v with Source | Sink => true | _ => false end.
Definition is_cust (v : node) : bool := negb (is_depot v).

Lemma is_depot_false v : is_depot v = false <-> v <> Source /\ v <> Sink.
Proof. destruct v; simpl; split; intro H; try discriminate; try tauto; split; discriminate. Qed.

Lemma is_cust_true v : is_cust v = true <-> v <> Source /\ v <> Sink.
Proof. destruct v; simpl; split; intro H; try discriminate; try tauto; split; discriminate. Qed.

(* ------------------------------------------------------------------ *)
Record graph (N E : Type) := mkGraph {
  gnodes : list (node * N);     (* G.nodes(data=True) *)
  gedges : list (arc * E)       (* arcs with data, in the order they were first added *)
}.
Arguments mkGraph {N E} _ _.
Arguments gnodes {N E} _.
Arguments gedges {N E} _.

Section Graph.
  Context {N E : Type}.
  Implicit Types g : graph N E.

  (** [G.nodes()] *)
  Definition nodes g : list node := map fst (gnodes g).
  (** all arcs, insertion order *)
  Definition arc_list g : list arc := map fst (gedges g).
  (** [(u, v) in G.edges()] *)
  Definition has_arc g (u v : node) : bool := mem_arc (u, v) (arc_list g).
  (** [G.successors(u)] as a list (for a node of the graph) *)
  Definition succs g (u : node) : list node :=
    map snd (filter (fun a => node_eqb (fst a) u) (arc_list g)).
  (** [G.predecessors(v)] as a list (for a node of the graph) *)
  Definition preds g (v : node) : list node :=
    map fst (filter (fun a => node_eqb (snd a) v) (arc_list g)).
  (** [G.edges()]: by tail in node order, then by insertion *)
  Definition edges g : list arc :=
    flat_map (fun u => map (fun v => (u, v)) (succs g u)) (nodes g).
  (** customers in node order: [[v for v in G.nodes() if v not in ["Source","Sink"]]] *)
  Definition custs g : list node := filter is_cust (nodes g).

  Fixpoint assoc_node {V} (v : node) (l : list (node * V)) : option V :=
    match l with
    | [] => None
    | (w, d) :: t => if node_eqb w v then Some d else assoc_node v t
    end.
  Fixpoint assoc_arc {V} (a : arc) (l : list (arc * V)) : option V :=
    match l with
    | [] => None
    | (b, d) :: t => if arc_eqb b a then Some d else assoc_arc a t
    end.

  (** [G.nodes[v]], KeyError if missing *)
  Definition node_data g (v : node) : option N := assoc_node v (gnodes g).
  (** [G.edges[u, v]], KeyError if missing *)
  Definition arc_data g (u v : node) : option E := assoc_arc (u, v) (gedges g).

  Definition get_node g v : res N := of_opt KeyError (node_data g v).
  Definition get_arc g u v : res E := of_opt KeyError (arc_data g u v).

  (** update of the attributes of all nodes / arcs *)
  Definition map_nodes (f : node -> N -> N) g : graph N E :=
    mkGraph (map (fun p => (fst p, f (fst p) (snd p))) (gnodes g)) (gedges g).
  Definition map_arcs (f : arc -> E -> E) g : graph N E :=
    mkGraph (gnodes g) (map (fun p => (fst p, f (fst p) (snd p))) (gedges g)).

  (** [G.remove_edges_from(l)] (arcs not present are ignored) *)
  Definition remove_arcs (l : list arc) g : graph N E :=
    mkGraph (gnodes g) (filter (fun p => negb (mem_arc (fst p) l)) (gedges g)).
  (** [G.remove_nodes_from(l)] (nodes not present are ignored), with all their arcs *)
  Definition remove_nodes (l : list node) g : graph N E :=
    mkGraph (filter (fun p => negb (mem (fst p) l)) (gnodes g))
            (filter (fun p => negb (mem (fst (fst p)) l) && negb (mem (snd (fst p)) l)) (gedges g)).
  (** [G.add_edge(u, v, ...)] for an arc that is not in the graph, between existing nodes *)
  Definition add_new_arc (u v : node) (d : E) g : graph N E :=
    mkGraph (gnodes g) (gedges g ++ [((u, v), d)]).

  (** Invariant of every networkx DiGraph. *)
  Record wf g : Prop := {
    wf_nodes : NoDup (nodes g);
    wf_arcs : NoDup (arc_list g);
    wf_ends : forall u v, In (u, v) (arc_list g) -> In u (nodes g) /\ In v (nodes g)
  }.

  (* ---------------------------------------------------------------- *)
  Lemma assoc_node_In {V} v (d : V) l : assoc_node v l = Some d -> In (v, d) l.
  Proof.
    induction l as [|[w e] l IH]; simpl; intro H; [discriminate|].
    destruct (node_eqb w v) eqn:Eq.
    - apply node_eqb_eq in Eq. inversion H; subst; auto.
    - auto.
  Qed.

  Lemma assoc_node_None {V} v (l : list (node * V)) : assoc_node v l = None <-> ~ In v (map fst l).
  Proof.
    induction l as [|[w e] l IH]; simpl; [tauto|].
    destruct (node_eqb w v) eqn:Eq.
    - apply node_eqb_eq in Eq. subst. split; [discriminate|intro H; exfalso; apply H; auto].
    - apply node_eqb_neq in Eq. rewrite IH. tauto.
  Qed.

  Lemma assoc_node_NoDup {V} v (d : V) l : NoDup (map fst l) -> In (v, d) l -> assoc_node v l = Some d.
  Proof.
    induction l as [|[w e] l IH]; simpl; intros Hn H; [destruct H|].
    inversion Hn as [|x y Hx Hy]; subst.
    destruct H as [H|H].
    - inversion H; subst. rewrite node_eqb_refl; auto.
    - destruct (node_eqb w v) eqn:Eq; [|auto].
      apply node_eqb_eq in Eq. subst. exfalso. apply Hx.
      apply in_map_iff. exists (v, d); auto.
  Qed.

  Lemma assoc_arc_In {V} v (d : V) l : assoc_arc v l = Some d -> In (v, d) l.
  Proof.
    induction l as [|[w e] l IH]; simpl; intro H; [discriminate|].
    destruct (arc_eqb w v) eqn:Eq.
    - apply arc_eqb_eq in Eq. inversion H; subst; auto.
    - auto.
  Qed.

  Lemma assoc_arc_None {V} v (l : list (arc * V)) : assoc_arc v l = None <-> ~ In v (map fst l).
  Proof.
    induction l as [|[w e] l IH]; simpl; [tauto|].
    destruct (arc_eqb w v) eqn:Eq.
    - apply arc_eqb_eq in Eq. subst. split; [discriminate|intro H; exfalso; apply H; auto].
    - apply arc_eqb_neq in Eq. rewrite IH. tauto.
  Qed.

  Lemma assoc_arc_NoDup {V} v (d : V) l : NoDup (map fst l) -> In (v, d) l -> assoc_arc v l = Some d.
  Proof.
    induction l as [|[w e] l IH]; simpl; intros Hn H; [destruct H|].
    inversion Hn as [|x y Hx Hy]; subst.
    destruct H as [H|H].
    - inversion H; subst. rewrite arc_eqb_refl; auto.
    - destruct (arc_eqb w v) eqn:Eq; [|auto].
      apply arc_eqb_eq in Eq. subst. exfalso. apply Hx.
      apply in_map_iff. exists (v, d); auto.
  Qed.

  Lemma assoc_node_app {V} v (l1 l2 : list (node * V)) :
    assoc_node v (l1 ++ l2) =
    match assoc_node v l1 with Some d => Some d | None => assoc_node v l2 end.
  Proof.
    induction l1 as [|[w e] l1 IH]; simpl; auto. destruct (node_eqb w v); auto.
  Qed.

  Lemma assoc_arc_app {V} v (l1 l2 : list (arc * V)) :
    assoc_arc v (l1 ++ l2) =
    match assoc_arc v l1 with Some d => Some d | None => assoc_arc v l2 end.
  Proof.
    induction l1 as [|[w e] l1 IH]; simpl; auto. destruct (arc_eqb w v); auto.
  Qed.

  Lemma assoc_node_map {V} (f : node -> V -> V) v l :
    assoc_node v (map (fun p => (fst p, f (fst p) (snd p))) l) = option_map (f v) (assoc_node v l).
  Proof.
    induction l as [|[w e] l IH]; simpl; auto.
    destruct (node_eqb w v) eqn:Eq; auto. apply node_eqb_eq in Eq. subst; auto.
  Qed.

  Lemma assoc_arc_map {V} (f : arc -> V -> V) v l :
    assoc_arc v (map (fun p => (fst p, f (fst p) (snd p))) l) = option_map (f v) (assoc_arc v l).
  Proof.
    induction l as [|[w e] l IH]; simpl; auto.
    destruct (arc_eqb w v) eqn:Eq; auto. apply arc_eqb_eq in Eq. subst; auto.
  Qed.

  Lemma assoc_node_filter {V} (f : node -> bool) v (l : list (node * V)) :
    assoc_node v (filter (fun p => f (fst p)) l) = if f v then assoc_node v l else None.
  Proof.
    induction l as [|[w e] l IH]; simpl; [destruct (f v); auto|].
    destruct (f w) eqn:Ew; simpl; destruct (node_eqb w v) eqn:Eq; auto.
    - apply node_eqb_eq in Eq. subst. rewrite Ew. auto.
    - apply node_eqb_eq in Eq. subst. rewrite Ew in *. auto.
  Qed.

  Lemma assoc_arc_filter {V} (f : arc -> bool) v (l : list (arc * V)) :
    assoc_arc v (filter (fun p => f (fst p)) l) = if f v then assoc_arc v l else None.
  Proof.
    induction l as [|[w e] l IH]; simpl; [destruct (f v); auto|].
    destruct (f w) eqn:Ew; simpl; destruct (arc_eqb w v) eqn:Eq; auto.
    - apply arc_eqb_eq in Eq. subst. rewrite Ew. auto.
    - apply arc_eqb_eq in Eq. subst. rewrite Ew in *. auto.
  Qed.

  (* ---------------------------------------------------------------- *)
  Lemma node_data_In g v : (exists d, node_data g v = Some d) <-> In v (nodes g).
  Proof.
    unfold node_data, nodes. destruct (assoc_node v (gnodes g)) as [d|] eqn:Ea.
    - split; [intros _|intros _; eauto]. apply assoc_node_In in Ea.
      apply in_map_iff. exists (v, d); auto.
    - apply assoc_node_None in Ea. split; [intros (d & H); discriminate|tauto].
  Qed.

  Lemma arc_data_In g u v : (exists d, arc_data g u v = Some d) <-> In (u, v) (arc_list g).
  Proof.
    unfold arc_data, arc_list. destruct (assoc_arc (u, v) (gedges g)) as [d|] eqn:Ea.
    - split; [intros _|intros _; eauto]. apply assoc_arc_In in Ea.
      apply in_map_iff. exists ((u, v), d); auto.
    - apply assoc_arc_None in Ea. split; [intros (d & H); discriminate|tauto].
  Qed.

  Lemma get_node_ok g v : In v (nodes g) -> exists d, get_node g v = Ok d /\ node_data g v = Some d.
  Proof.
    intro H. apply node_data_In in H. destruct H as (d & Hd).
    exists d. unfold get_node. rewrite Hd. auto.
  Qed.

  Lemma get_arc_ok g u v : In (u, v) (arc_list g) -> exists d, get_arc g u v = Ok d /\ arc_data g u v = Some d.
  Proof.
    intro H. apply arc_data_In in H. destruct H as (d & Hd).
    exists d. unfold get_arc. rewrite Hd. auto.
  Qed.

  Lemma has_arc_In g u v : has_arc g u v = true <-> In (u, v) (arc_list g).
  Proof. apply mem_arc_In. Qed.

  Lemma has_arc_false g u v : has_arc g u v = false <-> ~ In (u, v) (arc_list g).
  Proof. apply mem_arc_false. Qed.

  Lemma in_succs g u v : In v (succs g u) <-> In (u, v) (arc_list g).
  Proof.
    unfold succs. rewrite in_map_iff. split.
    - intros ([x y] & Hy & H). simpl in Hy. subst. apply filter_In in H. simpl in H.
      destruct H as (H & Heq). apply node_eqb_eq in Heq. subst; auto.
    - intro H. exists (u, v). split; auto. apply filter_In. simpl. rewrite node_eqb_refl; auto.
  Qed.

  Lemma in_preds g u v : In u (preds g v) <-> In (u, v) (arc_list g).
  Proof.
    unfold preds. rewrite in_map_iff. split.
    - intros ([x y] & Hy & H). simpl in Hy. subst. apply filter_In in H. simpl in H.
      destruct H as (H & Heq). apply node_eqb_eq in Heq. subst; auto.
    - intro H. exists (u, v). split; auto. apply filter_In. simpl. rewrite node_eqb_refl; auto.
  Qed.

  Lemma in_edges g u v : wf g -> (In (u, v) (edges g) <-> In (u, v) (arc_list g)).
  Proof.
    intro W. unfold edges. rewrite in_flat_map. split.
    - intros (x & _ & H). apply in_map_iff in H. destruct H as (y & Hy & H).
      inversion Hy; subst. apply in_succs; auto.
    - intro H. exists u. split; [apply (wf_ends g W) in H; tauto|].
      apply in_map_iff. exists v. split; auto. apply in_succs; auto.
  Qed.

  Lemma NoDup_map_filter_snd (l : list arc) u :
    NoDup l -> NoDup (map snd (filter (fun a => node_eqb (fst a) u) l)).
  Proof.
    intro H. apply NoDup_map_inj; [|apply NoDup_filter; auto].
    intros [x1 y1] [x2 y2] H1 H2 Heq. simpl in Heq.
    apply filter_In in H1. apply filter_In in H2. simpl in *.
    destruct H1 as (_ & H1), H2 as (_ & H2).
    apply node_eqb_eq in H1. apply node_eqb_eq in H2. congruence.
  Qed.

  Lemma NoDup_map_filter_fst (l : list arc) u :
    NoDup l -> NoDup (map fst (filter (fun a => node_eqb (snd a) u) l)).
  Proof.
    intro H. apply NoDup_map_inj; [|apply NoDup_filter; auto].
    intros [x1 y1] [x2 y2] H1 H2 Heq. simpl in Heq.
    apply filter_In in H1. apply filter_In in H2. simpl in *.
    destruct H1 as (_ & H1), H2 as (_ & H2).
    apply node_eqb_eq in H1. apply node_eqb_eq in H2. congruence.
  Qed.

  Lemma succs_NoDup g u : wf g -> NoDup (succs g u).
  Proof. intro W. apply NoDup_map_filter_snd, W. Qed.

  Lemma preds_NoDup g u : wf g -> NoDup (preds g u).
  Proof. intro W. apply NoDup_map_filter_fst, W. Qed.

  Lemma edges_NoDup g : wf g -> NoDup (edges g).
  Proof.
    intro W. unfold edges. pose proof (wf_nodes g W) as Hn.
    induction (nodes g) as [|u l IH]; simpl; [constructor|].
    inversion Hn as [|x y Hu Hl]; subst.
    apply NoDup_app_intro; auto.
    - apply NoDup_map_inj; [intros x y _ _ H; inversion H; auto|]. apply succs_NoDup; auto.
    - intros [x y] H1 H2. apply in_map_iff in H1. destruct H1 as (z & Hz & _). inversion Hz; subst.
      apply in_flat_map in H2. destruct H2 as (w & Hw & H2).
      apply in_map_iff in H2. destruct H2 as (z' & Hz' & _). inversion Hz'; subst. auto.
  Qed.

  Lemma edges_perm g : wf g -> Permutation (edges g) (arc_list g).
  Proof.
    intro W. apply NoDup_Permutation; [apply edges_NoDup; auto|apply W|].
    intros [u v]. apply in_edges; auto.
  Qed.

  Lemma in_custs g v : In v (custs g) <-> In v (nodes g) /\ v <> Source /\ v <> Sink.
  Proof. unfold custs. rewrite filter_In, is_cust_true. tauto. Qed.

  Lemma custs_NoDup g : wf g -> NoDup (custs g).
  Proof. intro W. apply NoDup_filter, W. Qed.

  (* ---------------------------------------------------------------- *)
  Lemma nodes_map_nodes f g : nodes (map_nodes f g) = nodes g.
  Proof. unfold nodes, map_nodes. simpl. rewrite map_map. apply map_ext. auto. Qed.
  Lemma arc_list_map_nodes f g : arc_list (map_nodes f g) = arc_list g.
  Proof. reflexivity. Qed.
  Lemma nodes_map_arcs f g : nodes (map_arcs f g) = nodes g.
  Proof. reflexivity. Qed.
  Lemma arc_list_map_arcs f g : arc_list (map_arcs f g) = arc_list g.
  Proof. unfold arc_list, map_arcs. simpl. rewrite map_map. apply map_ext. auto. Qed.
  Lemma node_data_map_nodes f g v : node_data (map_nodes f g) v = option_map (f v) (node_data g v).
  Proof. apply assoc_node_map. Qed.
  Lemma arc_data_map_nodes f g u v : arc_data (map_nodes f g) u v = arc_data g u v.
  Proof. reflexivity. Qed.
  Lemma arc_data_map_arcs f g u v : arc_data (map_arcs f g) u v = option_map (f (u, v)) (arc_data g u v).
  Proof. apply (assoc_arc_map f (u, v)). Qed.
  Lemma node_data_map_arcs f g v : node_data (map_arcs f g) v = node_data g v.
  Proof. reflexivity. Qed.

  Lemma wf_map_nodes f g : wf g -> wf (map_nodes f g).
  Proof. intros [H1 H2 H3]. constructor; rewrite ?nodes_map_nodes; auto. Qed.
  Lemma wf_map_arcs f g : wf g -> wf (map_arcs f g).
  Proof. intros [H1 H2 H3]. constructor; rewrite ?arc_list_map_arcs; auto. Qed.

  Lemma edges_map_nodes f g : edges (map_nodes f g) = edges g.
  Proof. unfold edges, succs. rewrite nodes_map_nodes. reflexivity. Qed.
  Lemma succs_map_nodes f g u : succs (map_nodes f g) u = succs g u.
  Proof. reflexivity. Qed.
  Lemma succs_map_arcs f g u : succs (map_arcs f g) u = succs g u.
  Proof. unfold succs. rewrite arc_list_map_arcs. reflexivity. Qed.
  Lemma preds_map_arcs f g u : preds (map_arcs f g) u = preds g u.
  Proof. unfold preds. rewrite arc_list_map_arcs. reflexivity. Qed.
  Lemma edges_map_arcs f g : edges (map_arcs f g) = edges g.
  Proof.
    unfold edges. rewrite nodes_map_arcs. apply flat_map_ext.
    intro u. rewrite succs_map_arcs. reflexivity.
  Qed.

  Lemma filter_fst_map {V W} (f : V -> bool) (l : list (V * W)) :
    map fst (filter (fun p => f (fst p)) l) = filter f (map fst l).
  Proof. induction l as [|[a b] l IH]; simpl; auto. destruct (f a); simpl; rewrite IH; auto. Qed.

  Lemma nodes_remove_arcs l g : nodes (remove_arcs l g) = nodes g.
  Proof. reflexivity. Qed.
  Lemma arc_list_remove_arcs l g :
    arc_list (remove_arcs l g) = filter (fun a => negb (mem_arc a l)) (arc_list g).
  Proof.
    unfold arc_list, remove_arcs. simpl.
    apply (filter_fst_map (fun a => negb (mem_arc a l))).
  Qed.
  Lemma in_remove_arcs l g u v :
    In (u, v) (arc_list (remove_arcs l g)) <-> In (u, v) (arc_list g) /\ ~ In (u, v) l.
  Proof.
    rewrite arc_list_remove_arcs, filter_In, negb_true_iff, mem_arc_false. tauto.
  Qed.
  Lemma arc_data_remove_arcs l g u v :
    arc_data (remove_arcs l g) u v = if mem_arc (u, v) l then None else arc_data g u v.
  Proof.
    unfold arc_data, remove_arcs. simpl.
    rewrite (assoc_arc_filter (fun a => negb (mem_arc a l))).
    destruct (mem_arc (u, v) l); reflexivity.
  Qed.
  Lemma node_data_remove_arcs l g v : node_data (remove_arcs l g) v = node_data g v.
  Proof. reflexivity. Qed.
  Lemma wf_remove_arcs l g : wf g -> wf (remove_arcs l g).
  Proof.
    intros [H1 H2 H3]. constructor; auto.
    - rewrite arc_list_remove_arcs. apply NoDup_filter; auto.
    - intros u v H. apply in_remove_arcs in H. apply H3. tauto.
  Qed.

  Lemma nodes_remove_nodes l g : nodes (remove_nodes l g) = filter (fun v => negb (mem v l)) (nodes g).
  Proof. apply (filter_fst_map (fun v => negb (mem v l))). Qed.
  Lemma in_nodes_remove_nodes l g v : In v (nodes (remove_nodes l g)) <-> In v (nodes g) /\ ~ In v l.
  Proof. rewrite nodes_remove_nodes, filter_In, negb_true_iff, mem_false. tauto. Qed.
  Lemma arc_list_remove_nodes l g :
    arc_list (remove_nodes l g) =
    filter (fun a => negb (mem (fst a) l) && negb (mem (snd a) l)) (arc_list g).
  Proof. apply (filter_fst_map (fun a => negb (mem (fst a) l) && negb (mem (snd a) l))). Qed.
  Lemma in_arcs_remove_nodes l g u v :
    In (u, v) (arc_list (remove_nodes l g)) <-> In (u, v) (arc_list g) /\ ~ In u l /\ ~ In v l.
  Proof.
    rewrite arc_list_remove_nodes, filter_In, andb_true_iff, !negb_true_iff, !mem_false. simpl. tauto.
  Qed.
  Lemma node_data_remove_nodes l g v :
    node_data (remove_nodes l g) v = if mem v l then None else node_data g v.
  Proof.
    unfold node_data, remove_nodes. simpl. rewrite (assoc_node_filter (fun x => negb (mem x l))).
    destruct (mem v l); auto.
  Qed.
  Lemma arc_data_remove_nodes l g u v :
    arc_data (remove_nodes l g) u v = if mem u l || mem v l then None else arc_data g u v.
  Proof.
    unfold arc_data, remove_nodes. simpl.
    rewrite (assoc_arc_filter (fun a => negb (mem (fst a) l) && negb (mem (snd a) l))). simpl.
    destruct (mem u l), (mem v l); auto.
  Qed.
  Lemma wf_remove_nodes l g : wf g -> wf (remove_nodes l g).
  Proof.
    intros [H1 H2 H3]. constructor.
    - rewrite nodes_remove_nodes. apply NoDup_filter; auto.
    - rewrite arc_list_remove_nodes. apply NoDup_filter; auto.
    - intros u v H. apply in_arcs_remove_nodes in H. rewrite !in_nodes_remove_nodes.
      destruct H as (H & Hu & Hv). apply H3 in H. tauto.
  Qed.

  Lemma arc_list_add u v d g : arc_list (add_new_arc u v d g) = arc_list g ++ [(u, v)].
  Proof. unfold arc_list, add_new_arc. simpl. rewrite map_app. reflexivity. Qed.
  Lemma in_add_arc u v d g x y :
    In (x, y) (arc_list (add_new_arc u v d g)) <-> In (x, y) (arc_list g) \/ (x, y) = (u, v).
  Proof. rewrite arc_list_add, in_app_iff. simpl. intuition. Qed.
  Lemma arc_data_add u v d g x y :
    arc_data (add_new_arc u v d g) x y =
    match arc_data g x y with
    | Some e => Some e
    | None => if arc_eqb (u, v) (x, y) then Some d else None
    end.
  Proof. unfold arc_data, add_new_arc. simpl. rewrite assoc_arc_app. reflexivity. Qed.
  Lemma wf_add_new_arc u v d g :
    wf g -> In u (nodes g) -> In v (nodes g) -> ~ In (u, v) (arc_list g) -> wf (add_new_arc u v d g).
  Proof.
    intros [H1 H2 H3] Hu Hv Hn. constructor; auto.
    - rewrite arc_list_add. apply NoDup_app_intro; auto.
      + constructor; auto. constructor.
      + intros x Hx [<-|[]]. auto.
    - intros x y H. apply in_add_arc in H. destruct H as [H|H]; [apply H3; auto|].
      inversion H; subst; auto.
  Qed.
End Graph.
