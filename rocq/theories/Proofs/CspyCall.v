(** One call of the labelling subproblem. *)
From Verif.Base Require Import Prelude Graph.
From Verif.Spec Require Import Routes Network MIP Columns Timing Labelling.
From Verif.Model Require Import Args Reach Checks Preprocess ClarkeWright Greedy Initial Pricing Cspy.
From Verif.Proofs Require Import RouteLemmas PreLemmas PricingProofs LPProofs LPColumn CspyProofs PricingCor.

Lemma Ok_eq {A} (x y : A) : Ok x = Ok y -> x = y.
Proof. congruence. Qed.

(** a simple path as a graph *)
Lemma digraph_path_gen : forall q u ns es, In u ns -> NoDup (u :: q) -> (forall v, In v q -> ~ In v ns) ->
  (forall a, In a es -> In (snd a) ns) ->
  fold_left add_edge2 (arcs (u :: q)) (ns, es) = (ns ++ q, es ++ arcs (u :: q)).
Proof.
  induction q as [|w q IH]; intros u ns es Hu Nd Hq He.
  - cbn. rewrite !app_nil_r. reflexivity.
  - change (arcs (u :: w :: q)) with ((u, w) :: arcs (w :: q)). cbn [fold_left]. unfold add_edge2 at 2. cbn [fst snd].
    assert (Hw : ~ In w ns) by (apply Hq; left; reflexivity).
    assert (E1 : add_node1 u ns = ns) by (unfold add_node1; rewrite (proj2 (mem_In u ns) Hu); reflexivity). rewrite E1.
    assert (E2 : add_node1 w ns = ns ++ [w]).
    { unfold add_node1. destruct (mem w ns) eqn:Em; [apply mem_In in Em; contradiction|reflexivity]. } rewrite E2.
    assert (E3 : mem_arc (u, w) es = false).
    { destruct (mem_arc (u, w) es) eqn:Em; [|reflexivity]. apply mem_arc_In in Em. apply He in Em. contradiction. } rewrite E3.
    inversion Nd as [|x l N1 N2]; subst. rewrite IH.
    + rewrite <- !app_assoc. reflexivity.
    + apply in_or_app. right. left. reflexivity.
    + exact N2.
    + intros v Hv Hc. apply in_app_or in Hc. destruct Hc as [Hc|[<-|[]]]; [exact (Hq v (or_intror Hv) Hc)|]. inversion N2; contradiction.
    + intros a Ha. apply in_or_app. apply in_app_or in Ha. destruct Ha as [Ha|[<-|[]]]; [left; apply He; exact Ha|right; left; reflexivity].
Qed.
Lemma digraph_path p : NoDup p -> (2 <= List.length p)%nat -> digraph_of (arcs p) = (p, arcs p).
Proof.
  destruct p as [|u [|w q]]; cbn [List.length]; intros Nd L; try lia. unfold digraph_of.
  change (arcs (u :: w :: q)) with ((u, w) :: arcs (w :: q)). cbn [fold_left]. unfold add_edge2 at 2. cbn.
  inversion Nd as [|x l N1 N2]; subst.
  assert (E : node_eqb u w = false) by (apply node_eqb_neq; intros ->; apply N1; left; reflexivity).
  assert (E' : node_eqb w u = false) by (apply node_eqb_neq; intros ->; apply N1; left; reflexivity).
  unfold add_node1. cbn. rewrite ?E, ?E'. cbn.
  inversion N2 as [|x l M1 M2]; subst. pose proof (digraph_path_gen q w [u; w] [(u, w)]) as X. cbn [app] in X. apply X.
  - right. left. reflexivity.
  - exact N2.
  - intros v Hv [<-|[<-|[]]]; [apply N1; right; exact Hv|contradiction].
  - intros a [<-|[]]. right. left. reflexivity.
Qed.
Lemma arcs_tail : forall q u v w, In (v, w) (arcs (u :: q)) -> In v (u :: q) /\ In w q.
Proof.
  induction q as [|x q IH]; intros u v w H; [destruct H|]. destruct H as [E|H].
  - injection E as <- <-. split; left; reflexivity.
  - destruct (IH x v w H) as (A & B). split; right; assumption.
Qed.
Lemma filter_none {A} (f : A -> bool) l : (forall x, In x l -> f x = false) -> filter f l = [].
Proof. induction l as [|x l IH]; intro H; [reflexivity|]. cbn. rewrite H by (left; reflexivity). apply IH. intros; apply H; right; assumption. Qed.
Lemma listing_path : forall p, NoDup p ->
  flat_map (fun v => filter (fun a => node_eqb (fst a) v) (arcs p)) p = arcs p.
Proof.
  induction p as [|u q IH]; intro Nd; [reflexivity|]. destruct q as [|w q]; [reflexivity|].
  inversion Nd as [|x l N1 N2]; subst. change (arcs (u :: w :: q)) with ((u, w) :: arcs (w :: q)).
  cbn [flat_map]. cbn [filter fst]. rewrite node_eqb_refl.
  rewrite filter_none.
  2:{ intros (x, y) Hx. cbn. apply node_eqb_neq. intros ->. apply arcs_tail in Hx. apply N1. apply Hx. }
  cbn [app]. f_equal. transitivity (flat_map (fun v => filter (fun a => node_eqb (fst a) v) (arcs (w :: q))) (w :: q)); [|exact (IH N2)].
  assert (G : forall l, ~ In u l ->
    flat_map (fun v => if node_eqb u v then (u, w) :: filter (fun a => node_eqb (fst a) v) (arcs (w :: q)) else filter (fun a => node_eqb (fst a) v) (arcs (w :: q))) l =
    flat_map (fun v => filter (fun a => node_eqb (fst a) v) (arcs (w :: q))) l).
  { induction l as [|y l IHl]; intro Hn; [reflexivity|]. cbn [flat_map]. rewrite IHl by (intro Hl; apply Hn; right; exact Hl).
    assert (E : node_eqb u y = false) by (apply node_eqb_neq; intros ->; apply Hn; left; reflexivity). rewrite E. reflexivity. }
  exact (G (w :: q) N1).
Qed.

Lemma listing_edges c : listing c = column_edges c.
Proof. reflexivity. Qed.

Section Call.
  Variables (g h : vgraph) (K k : nat) (caps : option (list Z)) (o : options) (ns dur : option Z).
  Variable alg : label -> (label -> arc -> res label) -> bool -> option Q -> option (Q * list node).
  Variable keys : list node.
  Hypothesis HN : network K h.
  Hypothesis Hk : (k < K)%nat.
  Hypothesis Halg : sound_labelling h alg.
  Hypothesis Hg : wf g.

  Lemma new_route_found pool p c : walk (arc_list h) Source Sink p ->
    cspy_new_route h k keys pool p = Ok c -> found_column h k (List.length pool) p c.
  Proof.
    intros Hw Hc. unfold cspy_new_route in Hc.
    destruct (digraph_of (arcs p)) as [nl el] eqn:ED.
    assert (Hel : forall a, In a el <-> In a (arcs p)).
    { intro a. assert (E := digraph_snd (arcs p) a). rewrite ED in E. exact E. }
    assert (Hnd : NoDup el) by (assert (E := digraph_snd_NoDup (arcs p)); rewrite ED in E; exact E).
    apply bind_ok in Hc. destruct Hc as (q & Hq & Hc). apply Ok_eq in Hc. subst c.
    assert (Eq : q == Qsum (map (fun a => cost_of h k (fst a) (snd a)) el)).
    { assert (G : forall l q0 q1, (forall a, In a l -> In a (arc_list h)) ->
        foldM (fun q a => let* c := arc_cost h k a in
                 let* _ := raise_if (negb (node_eqb (fst a) Source) && negb (mem (fst a) keys)) KeyError in Ok (q + c)) l q0 = Ok q1 ->
        q1 == q0 + Qsum (map (fun a => cost_of h k (fst a) (snd a)) l)).
      { clear - HN Hk. induction l as [|a l IH]; intros q0 q1 Hl H; cbn [foldM] in H.
        - apply Ok_eq in H. subst. cbn. lra.
        - apply bind_ok in H. destruct H as (q2 & H1 & H2). apply bind_ok in H1. destruct H1 as (c & Hc & H1). apply bind_ok in H1. destruct H1 as (_ & _ & H1).
          apply Ok_eq in H1. subst q2. rewrite (IH _ _ (fun x Hx => Hl x (or_intror Hx)) H2). cbn [map]. rewrite Qsum_cons.
          assert (Ec : arc_cost h k a = Ok (cost_of h k (fst a) (snd a))).
          { apply (arc_cost_ok K h k a); auto. apply Hl. left. reflexivity. }
          rewrite Ec in Hc. apply Ok_eq in Hc. subst c. lra. }
      rewrite (G el 0 q); [lra| |exact Hq]. intros (u, v) Ha. apply (walk_along _ _ _ _ Hw), Hel. exact Ha. }
    constructor; cbn [c_path c_type c_arcs c_cost c_name c_tag]; auto.
    - intro Hp. rewrite (proj2 (no_repeat_NoDup p) Hp). split; [reflexivity|].
      destruct (simple_trip h p Hw Hp) as (cs & Ep & C1 & C2 & C3).
      split.
      + assert (L : (2 <= List.length p)%nat) by (rewrite Ep; unfold trip; cbn; rewrite app_length; cbn; lia).
        rewrite (digraph_path p Hp L) in ED. injection ED as <- <-. apply listing_path. exact Hp.
      + exists cs. split; [exact Ep|]. rewrite Ep in Hp, ED, Hel. split; [|split; [exact C3|]].
        * exists cs. split; [reflexivity|]. split; [exact C1|exact C2].
        * destruct (digraph_trip _ _ Hp (Permutation_refl _)) as (D1 & D2). rewrite ED in D1, D2. cbn [fst snd] in D1, D2.
          constructor; cbn [c_nodes c_arcs c_cost c_type]; auto.
          rewrite Eq, (Qsum_perm _ _ (Permutation_map _ D2)). reflexivity.
    - intro Hp. destruct (no_repeat p) eqn:E; [|reflexivity]. apply no_repeat_NoDup in E. contradiction.
  Qed.

  Lemma loop_after m pool e s r : cspy_loop g h k caps o dur alg keys m pool (e :: s) = Ok r ->
    exists thr, (if e then exists t, thr = Some t /\ pymin (map (fun a => weight_of g (fst a) (snd a)) (edges g)) = Ok t else thr = None) /\
      after h k pool (alg m (extension h o caps dur) e thr)
        (fun r' => cspy_loop g h k caps o dur alg keys m pool s = Ok r') r.
  Proof.
    cbn [cspy_loop]. intro H. apply bind_ok in H. destruct H as (thr & Ht & H). exists thr. split.
    { destruct e; [|apply Ok_eq in Ht; congruence]. apply bind_ok in Ht. destruct Ht as (t & Ht & E). apply Ok_eq in E. exists t. auto. }
    destruct (alg m (extension h o caps dur) e thr) as [[cost path]|] eqn:Ea.
    2:{ apply Ok_eq in H. right. right. split; [|congruence]. intros p (q & X & _). discriminate. }
    destruct (Halg _ _ _ _ _ _ Ea) as (Rf & _ & _).
    destruct (Qltb cost (- (1 # 1000))) eqn:Eq.
    - apply bind_ok in H. destruct H as (c & Hc & H). apply (new_route_found pool path c (rf_walk _ _ _ _ Rf)) in Hc.
      assert (Im : improving (Some (cost, path)) path) by (exists cost; split; [reflexivity|apply Qltb_lt; exact Eq]).
      destruct (existsb _ pool) eqn:Ex.
      + right. left. exists path, c. split; [exact Im|]. split; [exact Hc|]. split; [|exact H].
        apply existsb_exists in Ex. destruct Ex as (c' & H1 & H2). apply arcs_eqb_eq in H2. exists c'. split; [exact H1|symmetry; exact H2].
      + left. exists path, c. split; [exact Im|]. split; [exact Hc|]. split; [|apply Ok_eq in H; congruence].
        intros (c' & H1 & H2). assert (Z : existsb (fun r => arcs_eqb (column_edges c) (column_edges r)) pool = true); [|congruence].
        apply existsb_exists. exists c'. split; [exact H1|]. apply arcs_eqb_eq. symmetry. exact H2.
    - right. right. split; [|apply Ok_eq in H; congruence]. intros p (q & X & Y). injection X as -> ->. apply Qltb_lt in Y. congruence.
  Qed.

  Lemma pymin_least t : pymin (map (fun a => weight_of g (fst a) (snd a)) (edges g)) = Ok t -> least_weight g t.
  Proof.
    intro H. assert (X : In t (map (fun a => weight_of g (fst a) (snd a)) (edges g)) /\ forall w, In w (map (fun a => weight_of g (fst a) (snd a)) (edges g)) -> t <= w).
    { destruct (map (fun a => weight_of g (fst a) (snd a)) (edges g)) as [|x l]; [discriminate|]. cbn in H. apply Ok_eq in H. subst t. destruct (pymin_from_spec l x) as (A & B & D). split.
      - destruct D as [->|D]; [left; reflexivity|right; exact D].
      - intros w [<-|Hw]; auto. }
    destruct X as (X1 & X2). split.
    - apply in_map_iff in X1. destruct X1 as ((u, v) & <- & Ha). exists u, v. split; [apply in_edges in Ha; [exact Ha|exact Hg]|reflexivity].
    - intros u v Huv. apply X2. apply in_map_iff. exists (u, v). split; [reflexivity|apply in_edges; [exact Hg|exact Huv]].
  Qed.

  Theorem labelling_call run elementary pool r :
    cspy_solve g h k caps o ns dur alg keys run elementary pool = Ok r ->
    (run = false -> r = (pool, false)) /\
    (run = true -> exists m, limits h o k caps ns dur = Ok m /\
      let stop := fun r' => r' = (pool, false) in
      let last := fun r' => exists t, least_weight g t /\ after h k pool (alg m (extension h o caps dur) true (Some t)) stop r' in
      (elementary = true \/ o_distribution_collection o = true -> last r) /\
      (elementary = false -> o_distribution_collection o = false ->
       after h k pool (alg m (extension h o caps dur) false None) last r)).
  Proof.
    unfold cspy_solve. intro H. split; intros ->; cbn [negb] in H; [apply Ok_eq in H; congruence|].
    apply bind_ok in H. destruct H as (m & Hm & H). exists m. split; [exact Hm|].
    assert (Last : forall r', cspy_loop g h k caps o dur alg keys m pool [true] = Ok r' ->
      exists t, least_weight g t /\ after h k pool (alg m (extension h o caps dur) true (Some t)) (fun r'' => r'' = (pool, false)) r').
    { intros r' Hr. apply loop_after in Hr. destruct Hr as (thr & (t & -> & Ht) & Hr). exists t. split; [apply pymin_least; exact Ht|].
      destruct Hr as [Hr|[(p & c & A & B & D & F)|Hr]]; [left; exact Hr| |right; right; exact Hr].
      right. left. exists p, c. repeat (split; [assumption|]). cbn in F. apply Ok_eq in F. congruence. }
    cbv zeta. split.
    - intro He. apply Last. rewrite <- H. f_equal. unfold passes. destruct He as [-> | ->]; rewrite ?andb_false_r; reflexivity.
    - intros E1 E2. unfold passes in H. rewrite E1, E2 in H. cbn [negb andb] in H. apply loop_after in H. destruct H as (thr & -> & H).
      destruct H as [H|[(p & c & A & B & D & F)|H]]; [left; exact H| |right; right; exact H].
      right. left. exists p, c. repeat (split; [assumption|]). apply Last. exact F.
  Qed.

  (** the column added, if any *)
  Lemma cspy_added run elementary pool pool1 more :
    cspy_solve g h k caps o ns dur alg keys run elementary pool = Ok (pool1, more) ->
    pool1 = pool \/ exists m p c, limits h o k caps ns dur = Ok m /\ resource_feasible h m (extension h o caps dur) p /\
      found_column h k (List.length pool) p c /\ pool1 = pool ++ [c].
  Proof.
    intro H. destruct (labelling_call _ _ _ _ H) as (H1 & H2). destruct run; [|left; specialize (H1 eq_refl); congruence].
    destruct (H2 eq_refl) as (m & Hm & L1 & L2). cbv zeta in L1, L2.
    assert (Af : forall e thr next r, after h k pool (alg m (extension h o caps dur) e thr) next r ->
      fst r = pool \/ (exists p c, resource_feasible h m (extension h o caps dur) p /\ found_column h k (List.length pool) p c /\ fst r = pool ++ [c]) \/ next r).
    { intros e thr next r [(p & c & (q & A & _) & B & _ & ->)|[(p & c & _ & _ & _ & F)|(_ & ->)]]; cbn [fst]; auto.
      right. left. exists p, c. split; [apply (Halg _ _ _ _ _ _ A)|auto]. }
    assert (Fin : forall r, (exists t, least_weight g t /\ after h k pool (alg m (extension h o caps dur) true (Some t)) (fun r' => r' = (pool, false)) r) ->
      fst r = pool \/ exists p c, resource_feasible h m (extension h o caps dur) p /\ found_column h k (List.length pool) p c /\ fst r = pool ++ [c]).
    { intros r (t & _ & A). apply Af in A. destruct A as [A|[A|A]]; [left; exact A|right; exact A|left; rewrite A; reflexivity]. }
    assert (Z : fst (pool1, more) = pool \/ exists p c, resource_feasible h m (extension h o caps dur) p /\ found_column h k (List.length pool) p c /\ fst (pool1, more) = pool ++ [c]).
    { destruct elementary; [apply Fin, L1; left; reflexivity|]. destruct (o_distribution_collection o) eqn:Eo; [apply Fin, L1; right; reflexivity|].
      specialize (L2 eq_refl eq_refl). apply Af in L2. destruct L2 as [A|[A|A]]; [left; exact A|right; exact A|apply Fin; exact A]. }
    cbn [fst] in Z. destruct Z as [Z|(p & c & Z)]; [left; exact Z|right; exists m, p, c; intuition].
  Qed.
End Call.

(** without a path nothing is added *)
Lemma cspy_nothing g h k caps o ns dur alg keys run elementary pool pool1 more :
  (forall m ref e thr, alg m ref e thr = None) ->
  cspy_solve g h k caps o ns dur alg keys run elementary pool = Ok (pool1, more) -> pool1 = pool.
Proof.
  intros Ha H. unfold cspy_solve in H. destruct run; cbn [negb] in H; [|apply Ok_eq in H; congruence].
  apply bind_ok in H. destruct H as (m & _ & H). destruct (passes o elementary) as [|e s]; cbn [cspy_loop] in H; [apply Ok_eq in H; congruence|].
  apply bind_ok in H. destruct H as (thr & _ & H). rewrite Ha in H. apply Ok_eq in H. congruence.
Qed.
Lemma walk_ends_in (h : vgraph) u v p : wf h -> walk (arc_list h) u v p -> u <> v -> In u (nodes h) /\ In v (nodes h).
Proof.
  intros W Hw Huv.
  assert (G : forall A u v p, walk A u v p -> u <> v -> (exists w, In (u, w) A) /\ exists w, In (w, v) A).
  { clear. intros A u v p Hw. induction Hw as [u|u w v p Ha Hw IH]; intro Huv; [congruence|]. split; [exists w; exact Ha|].
    destruct (node_eq_dec w v) as [->|Hn]; [exists u; exact Ha|]. apply IH. exact Hn. }
  destruct (G _ _ _ _ Hw Huv) as ((x & Hx) & (y & Hy)). destruct (wf_ends _ W _ _ Hx). destruct (wf_ends _ W _ _ Hy). auto.
Qed.
