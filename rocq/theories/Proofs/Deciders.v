(** Boolean tests for the predicates of the specification, used to show that concrete networks
    meet the hypotheses of the theorems. *)
From Verif.Base Require Import Prelude Graph.
From Verif.Spec Require Import Routes Network Inputs Feasible.
From Verif.Model Require Import Args.
From Verif.Proofs Require Import RouteLemmas.

Fixpoint nodupb (l : list node) : bool :=
  match l with [] => true | v :: t => negb (mem v t) && nodupb t end.
Fixpoint nodup_arcb (l : list arc) : bool :=
  match l with [] => true | v :: t => negb (mem_arc v t) && nodup_arcb t end.

Lemma nodupb_ok l : nodupb l = true -> NoDup l.
Proof.
  induction l as [|v t IH]; simpl; intro H; constructor; apply andb_true_iff in H; destruct H as (H1 & H2).
  - apply negb_true_iff in H1. intro C. apply mem_In in C. congruence.
  - auto.
Qed.
Lemma nodup_arcb_ok l : nodup_arcb l = true -> NoDup l.
Proof.
  induction l as [|v t IH]; simpl; intro H; constructor; apply andb_true_iff in H; destruct H as (H1 & H2).
  - apply negb_true_iff in H1. intro C. apply mem_arc_In in C. congruence.
  - auto.
Qed.

Definition wfb {N E} (g : graph N E) : bool :=
  nodupb (nodes g) && nodup_arcb (arc_list g) &&
  forallb (fun a => mem (fst a) (nodes g) && mem (snd a) (nodes g)) (arc_list g).

Lemma wfb_ok {N E} (g : graph N E) : wfb g = true -> wf g.
Proof.
  unfold wfb. rewrite !andb_true_iff. intros ((H1 & H2) & H3). constructor.
  - apply nodupb_ok; auto.
  - apply nodup_arcb_ok; auto.
  - intros u v Huv. rewrite forallb_forall in H3. specialize (H3 _ Huv). simpl in H3.
    apply andb_true_iff in H3. rewrite !mem_In in H3. auto.
Qed.

Definition networkb (K : nat) (g : vgraph) : bool :=
  wfb g && mem Source (nodes g) && mem Sink (nodes g) &&
  forallb (fun a => negb (node_eqb (snd a) Source) && negb (node_eqb (fst a) Sink)) (arc_list g) &&
  forallb (fun p => Nat.leb K (List.length (ecost (snd p)))) (gedges g).

Lemma networkb_ok K g : networkb K g = true -> network K g.
Proof.
  unfold networkb. rewrite !andb_true_iff. intros ((((H1 & H2) & H3) & H4) & H5).
  rewrite forallb_forall in H4, H5. constructor.
  - apply wfb_ok; auto.
  - apply mem_In; auto.
  - apply mem_In; auto.
  - intros u Hu. specialize (H4 _ Hu). simpl in H4. discriminate.
  - intros u Hu. specialize (H4 _ Hu). simpl in H4. rewrite andb_false_r in H4. discriminate.
  - intros u v e He. apply assoc_arc_In in He. specialize (H5 _ He). apply Nat.leb_le in H5. auto.
Qed.

Definition round_tripsb (g : vgraph) : bool :=
  forallb (fun v => mem_arc (Source, v) (arc_list g) && mem_arc (v, Sink) (arc_list g)) (custs g).

Lemma round_tripsb_ok g : round_tripsb g = true -> round_trips g.
Proof.
  unfold round_tripsb. rewrite forallb_forall. intros H v Hv. specialize (H v Hv).
  apply andb_true_iff in H. rewrite !mem_arc_In in H. auto.
Qed.

Definition nonneg_timesb (g : vgraph) : bool := forallb (fun p => Qle_bool 0 (etime (snd p))) (gedges g).
Lemma nonneg_timesb_ok g : nonneg_timesb g = true -> nonneg_times g.
Proof.
  unfold nonneg_timesb. rewrite forallb_forall. intros H u v. unfold time_of.
  destruct (arc_data g u v) as [e|] eqn:E; [|apply Qle_refl].
  apply assoc_arc_In in E. specialize (H _ E). apply Qle_bool_iff in H. auto.
Qed.

Definition nonneg_nodeb (f : ndata -> Q) (g : vgraph) : bool :=
  forallb (fun p => Qle_bool 0 (f (snd p))) (gnodes g).
Lemma nonneg_nodeb_ok (f : ndata -> Q) g : 0 <= f dflt_n -> nonneg_nodeb f g = true ->
  forall v, 0 <= f (nd g v).
Proof.
  unfold nonneg_nodeb. rewrite forallb_forall. intros H0 H v. unfold nd.
  destruct (node_data g v) as [e|] eqn:E; [|auto].
  apply assoc_node_In in E. specialize (H _ E). apply Qle_bool_iff in H. auto.
Qed.
Lemma nonneg_servicesb_ok g : nonneg_nodeb service g = true -> nonneg_services g.
Proof. intros H v. apply (nonneg_nodeb_ok service g); auto. apply Qle_refl. Qed.
Lemma nonneg_demandsb_ok g : nonneg_nodeb demand g = true -> nonneg_demands g.
Proof. intros H v. apply (nonneg_nodeb_ok demand g); auto. apply Qle_refl. Qed.

Definition costedb (g : rgraph) : bool :=
  forallb (fun p => match r_cost (snd p) with Some _ => true | None => false end) (gedges g).
Lemma costedb_ok g : costedb g = true -> costed g.
Proof.
  unfold costedb. rewrite forallb_forall. intros H u v e He. apply assoc_arc_In in He.
  specialize (H _ He). simpl in H. destruct (r_cost e); discriminate.
Qed.

Definition alongb (A : list arc) (p : list node) : bool := forallb (fun a => mem_arc a A) (arcs p).
Lemma alongb_iff A p : alongb A p = true <-> along A p.
Proof.
  unfold alongb, along. rewrite forallb_forall. split.
  - intros H u v Huv. apply mem_arc_In, H, Huv.
  - intros H [u v] Huv. apply mem_arc_In. auto.
Qed.

Definition route_shapeb (r : list node) : bool :=
  match r with
  | Source :: t =>
      match rev t with
      | Sink :: cs => nodupb cs && forallb is_cust cs
      | _ => false
      end
  | _ => false
  end.
Lemma route_shapeb_ok r : route_shapeb r = true -> route_shape r.
Proof.
  destruct r as [|[| |z] t]; simpl; try discriminate.
  destruct (rev t) as [|[| |z] cs] eqn:E; try discriminate. rewrite andb_true_iff, forallb_forall.
  intros (H1 & H2). exists (rev cs).
  assert (Et : t = rev cs ++ [Sink]).
  { rewrite <- (rev_involutive t), E. reflexivity. }
  subst. split; auto. split; [apply NoDup_rev, nodupb_ok; auto|].
  intros v Hv. apply is_cust_true, H2, in_rev, Hv.
Qed.

(** Shorthands for concrete networks. *)
Definition mk_node (dem ser low upp : Q) : ndata := mkN dem 0 ser low upp 1 None false.
Definition mk_arc (u v : node) (cost time : Q) : arc * edata := ((u, v), mkE [cost] time 0).
