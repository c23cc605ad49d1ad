(** Consequences of the pricing proofs, checkers for concrete programs, and counterexamples. *)
From Coq Require Import Relations.
From Verif.Base Require Import Prelude Graph.
From Verif.Spec Require Import Routes Network LinProg Pricing MIP Columns Timing.
From Verif.Model Require Import Args Reach Checks Preprocess ClarkeWright Greedy Initial Pricing
  GreedyPricing LPPricing Cspy.
From Verif.Proofs Require Import RouteLemmas Deciders ReachLemmas CWProofs PricingProofs FlowProofs
  LPProofs LPColumn LPComplete LPCycles GreedyPricingProofs CspyProofs.

(** ** Earliest arrivals *)
Lemma arrivals_iff h q :
  tw_feasible (time_of h) (service_of h) (lower_of h) (upper_of h) (Source :: q) <->
  lower_of h Source <= upper_of h Source /\
  Forall2 (fun v a => lower_of h v <= a /\ a <= upper_of h v) q
    (arrivals (time_of h) (service_of h) (lower_of h) (lower_of h Source) Source q).
Proof.
  assert (HL : forall t u, Forall2 (fun v a => lower_of h v <= a) q
            (arrivals (time_of h) (service_of h) (lower_of h) t u q)).
  { induction q as [|v q IH]; intros t u; cbn [arrivals]; constructor; auto. apply Q.le_max_r. }
  split.
  - intros (T & HT). destruct T as [|t0 T]; [destruct q; destruct HT|].
    assert (H0 : lower_of h Source <= t0 /\ t0 <= upper_of h Source) by (destruct q, T; cbn in HT; tauto).
    split; [lra|].
    assert (HF := arrivals_first h (lower_of h) (upper_of h) T (lower_of h Source) Source q t0 HT (proj1 H0)).
    specialize (HL (lower_of h Source) Source).
    assert (HU : forall q u t0 T, timetable (time_of h) (service_of h) (lower_of h) (upper_of h) (u :: q) (t0 :: T) ->
              Forall2 (fun v t => t <= upper_of h v) q T).
    { clear. induction q as [|v q IH]; intros u t0 T H; destruct T as [|t1 T]; cbn [timetable] in H; try tauto; constructor.
      - destruct H as (_ & _ & _ & H). destruct q, T; cbn [timetable] in H; try tauto.
      - apply (IH v t1 T), H. }
    specialize (HU q Source t0 T HT).
    set (A := arrivals _ _ _ _ _ _) in *. clearbody A. clear HT.
    revert T HF HU. induction HL as [|v a q A Hva HL IH]; intros T HF HU; [constructor|].
    inversion HF; subst. inversion HU; subst. constructor; [split; auto; lra|]. eauto.
  - intros (H1 & H2). exists (lower_of h Source ::
      arrivals (time_of h) (service_of h) (lower_of h) (lower_of h Source) Source q).
    apply arrivals_timetable; auto; [lra|]. revert H2. generalize (arrivals (time_of h) (service_of h) (lower_of h) (lower_of h Source) Source q).
    clear. intros l H2. induction H2; [constructor|]. constructor; tauto.
Qed.

(** ** Solutions of the pricing MIP *)
Lemma chosen_iff h x cs : network 0 h \/ wf h -> Permutation (chosen h x) (arcs (trip cs)) ->
  forall u v, In (u, v) (arc_list h) -> (1 # 2 < x (X (u, v)) <-> In (u, v) (arcs (trip cs))).
Proof.
  intros HW HP u v Huv. assert (W : wf h) by (destruct HW as [H|H]; [apply H|auto]).
  split.
  - intro Hx. apply (Permutation_in _ HP). unfold chosen. apply filter_In. split; [apply in_edges; auto|].
    apply Qltb_lt. auto.
  - intro Ha. apply (Permutation_in _ (Permutation_sym HP)) in Ha. unfold chosen in Ha. apply filter_In in Ha.
    apply Qltb_lt, Ha.
Qed.

Lemma iff_chosen h x cs : wf h -> NoDup cs -> (forall v, In v cs -> v <> Source /\ v <> Sink) ->
  along (arc_list h) (trip cs) ->
  (forall u v, In (u, v) (arc_list h) -> (1 # 2 < x (X (u, v)) <-> In (u, v) (arcs (trip cs)))) ->
  Permutation (chosen h x) (arcs (trip cs)).
Proof.
  intros W Hnd Hcu HA H. apply NoDup_Permutation.
  - apply NoDup_filter, edges_NoDup, W.
  - apply arcs_NoDup. unfold trip. constructor.
    + intro C. apply in_app_or in C. destruct C as [C|[C|[]]]; [apply Hcu in C; tauto|discriminate].
    + apply NoDup_app_intro; auto; [repeat constructor; auto|].
      intros v Hv [<-|[]]. apply Hcu in Hv. tauto.
  - intros [u v]. unfold chosen. rewrite filter_In. split.
    + intros (He & Hs). apply H; [apply in_edges; auto|apply Qltb_lt, Hs].
    + intro Ha. assert (Hu := HA _ _ Ha). split; [apply in_edges; auto|]. apply Qltb_lt. apply H; auto.
Qed.

Section Solution.
  Variables (h : vgraph) (K k : nat) (caps : option (list Z)) (o : options) (ns dur : option Z) (neg : bool).
  Variable p : program pvar.
  Variable x : pvar -> Q.
  Hypothesis N : network K h.
  Hypothesis F : formulate h k caps o ns dur neg = Ok p.
  Hypothesis S : feasible x p.

  Theorem mip_route : neg || o_pickup_delivery o = true ->
    exists cs, elementary_route h cs /\
      forall u v, In (u, v) (arc_list h) -> (1 # 2 < x (X (u, v)) <-> In (u, v) (arcs (trip cs))).
  Proof.
    intro Hn. destruct (elementary_solution h K k caps o ns dur neg p x N F S Hn) as (cs & H1 & H2).
    exists cs. split; auto. apply chosen_iff; auto. right. apply N.
  Qed.

  Variable cs : list node.
  Hypothesis R : elementary_route h cs.
  Hypothesis A : forall u v, In (u, v) (arc_list h) -> (1 # 2 < x (X (u, v)) <-> In (u, v) (arcs (trip cs))).
  Let P : Permutation (chosen h x) (arcs (trip cs)) :=
    iff_chosen h x cs (net_wf _ _ N) (er_NoDup _ _ R) (er_custs _ _ R) (er_along _ _ R) A.

  Theorem mip_limits : within_stops ns cs /\ within_load h caps k cs /\ within_duration h dur cs.
  Proof.
    split; [eapply solution_stops; eauto|]. split; [eapply solution_load; eauto|eapply solution_duration; eauto].
  Qed.

  Theorem mip_windows : o_time_windows o = true ->
    lower_of h Source <= upper_of h Source /\
    Forall2 (fun v a => lower_of h v <= a /\ a <= upper_of h v) (cs ++ [Sink])
      (arrivals (time_of h) (service_of h) (lower_of h) (lower_of h Source) Source (cs ++ [Sink])).
  Proof.
    intro Htw. apply (arrivals_iff h (cs ++ [Sink])).
    exact (solution_windows h K k caps o ns dur neg p x N F S cs R P Htw).
  Qed.

  Theorem mip_pairs l c : o_pickup_delivery o = true -> caps = Some l -> nth_error l k = Some c ->
    pairs_proper h -> pairs_ok h (inject_Z c) cs.
  Proof. intros. eapply solution_pairs; eauto. Qed.

  Theorem mip_both l c : o_distribution_collection o = true -> caps = Some l -> nth_error l k = Some c ->
    both_fit h (inject_Z c) cs.
  Proof. intros. eapply solution_both; eauto. Qed.
End Solution.

Theorem mip_complete h K k caps o ns dur neg p cs :
  network K h -> formulate h k caps o ns dur neg = Ok p -> mip_data h o caps k ->
  drivable h o caps k ns dur cs ->
  exists x, feasible x p /\
    (forall u v, In (u, v) (arc_list h) -> (1 # 2 < x (X (u, v)) <-> In (u, v) (arcs (trip cs)))) /\
    value x (p_obj p) == path_sum (weight_of h) (trip cs).
Proof.
  intros N F MD D. destruct (lp_complete h K k caps o ns dur neg p cs N F MD D) as (x & H1 & H2 & H3).
  exists x. split; auto. split; auto. apply chosen_iff; auto. right. apply N.
Qed.

(** ** Checking concrete programs *)
Section Check.
  Context {V : Type}.
  Variable x : V -> Q.
  Definition holdsb (r : row V) : bool :=
    match r_sense r with
    | LE => Qle_bool (value x (r_lhs r)) (r_rhs r)
    | GE => Qle_bool (r_rhs r) (value x (r_lhs r))
    | EQ => Qeq_bool (value x (r_lhs r)) (r_rhs r)
    end.
  Definition in_boundsb (q : Q) (b : bounds) : bool :=
    match b_low b with Some l => Qle_bool l q | None => true end &&
    match b_up b with Some u => Qle_bool q u | None => true end &&
    (negb (b_int b) || Qeq_bool q (inject_Z (Qround.Qfloor q))).
  Definition feasibleb (p : program V) : bool :=
    forallb holdsb (p_rows p) && forallb (fun t => in_boundsb (x (fst t)) (snd t)) (p_vars p).

  Lemma feasibleb_ok p : feasibleb p = true -> feasible x p.
  Proof.
    unfold feasibleb. rewrite andb_true_iff, !forallb_forall. intros (H1 & H2). constructor.
    - intros r Hr. specialize (H1 r Hr). unfold holdsb in H1. unfold holds. destruct (r_sense r).
      + apply Qle_bool_iff. auto.
      + apply Qle_bool_iff. auto.
      + apply Qeq_bool_iff. auto.
    - intros v b Hv. specialize (H2 (v, b) Hv). cbn [fst snd] in H2. unfold in_boundsb in H2.
      rewrite !andb_true_iff in H2. destruct H2 as ((A & B) & C). repeat split.
      + intros l El. rewrite El in A. apply Qle_bool_iff. auto.
      + intros u Eu. rewrite Eu in B. apply Qle_bool_iff. auto.
      + intro Ei. rewrite Ei in C. exists (Qround.Qfloor (x v)). apply Qeq_bool_iff. auto.
  Qed.
End Check.

(** A potential bounds the weights of walks. *)
Lemma walk_potential (w : node -> node -> Q) (pi : node -> Q) A u v p : walk A u v p ->
  (forall a b, In (a, b) A -> pi b - pi a <= w a b) -> pi v - pi u <= path_sum w p.
Proof.
  intros H HA. induction H as [u|u t v p Hu H IH].
  - rewrite path_sum_one. lra.
  - inversion H; subst.
    + rewrite path_sum_cons2. specialize (HA _ _ Hu). lra.
    + rewrite path_sum_cons2. specialize (HA _ _ Hu). lra.
Qed.

Lemma potential_no_negative_cycle g pi :
  (forall a b, In (a, b) (arc_list g) -> pi b - pi a <= weight_of g a b) -> ~ negative_cycle g.
Proof.
  intros H (u & p & Hw & Hp). assert (E := walk_potential (weight_of g) pi _ u u p Hw H). lra.
Qed.

Lemma potential_bound h K k caps o ns dur neg p x pi keys : network K h -> (k < K)%nat ->
  (forall v, In v (custs h) -> In v keys) ->
  (forall a b, In (a, b) (arc_list h) -> pi b - pi a <= weight_of h a b) ->
  formulate h k caps o ns dur neg = Ok p -> feasible x p -> pi Sink - pi Source <= value x (p_obj p).
Proof.
  intros N Hk Hkeys Hpi F S.
  destruct (path_as_good h K k caps o ns dur neg p x keys [] N Hk Hkeys F S
              (potential_no_negative_cycle h pi Hpi)) as (c & cs & _ & _ & HA & _ & Hv).
  eapply Qle_trans; [|exact Hv].
  assert (Hw : walk (arc_list h) Source Sink (trip cs)).
  { apply trip_walk. exact HA. }
  apply (walk_potential (weight_of h) pi _ _ _ _ Hw Hpi).
Qed.

(** ** All simple paths of a concrete graph *)
Fixpoint paths_to (A : list arc) (fuel : nat) (seen : list node) (u : node) : list (list node) :=
  match fuel with
  | O => []
  | S f => (if node_eqb u Sink then [[u]] else []) ++
           flat_map (fun a => if node_eqb (fst a) u && negb (mem (snd a) (u :: seen))
                              then map (cons u) (paths_to A f (u :: seen) (snd a)) else []) A
  end.

Lemma paths_to_complete A : forall p fuel seen u, (List.length p <= fuel)%nat ->
  walk A u Sink p -> NoDup p -> (forall v, In v p -> ~ In v seen) -> In p (paths_to A fuel seen u).
Proof.
  induction p as [|a p IH]; intros fuel seen u Hf Hw Hnd Hs; [inversion Hw|].
  destruct fuel as [|f]; [cbn in Hf; lia|]. cbn [paths_to]. apply in_or_app.
  inversion Hw; subst.
  - left. rewrite (proj2 (node_eqb_eq Sink Sink) eq_refl). left. reflexivity.
  - right. apply in_flat_map. exists (a, v). split; auto. cbn [fst snd].
    rewrite (proj2 (node_eqb_eq a a) eq_refl). cbn [andb].
    assert (Hp : exists r, p = v :: r) by (inversion H4; subst; eauto). destruct Hp as (r & ->).
    assert (Hm : mem v (a :: seen) = false).
    { apply mem_false. intros [C|C].
      - subst. inversion Hnd; subst. apply H1. left. reflexivity.
      - apply (Hs v); auto. right. left. reflexivity. }
    rewrite Hm. cbn [negb]. apply in_map. apply IH; auto.
    + cbn in Hf |- *. lia.
    + inversion Hnd; auto.
    + intros w Hw' [C|C].
      * subst. inversion Hnd; subst. auto.
      * apply (Hs w); auto. right. auto.
Qed.

(** ** Forms used in the list of properties *)
Theorem reduced_cost_span K g D k n q :
  network K g -> (k < K)%nat -> duals_ok K D -> NoDup (map fst (d_span D)) -> In (n, q) (d_span D) ->
  exists h, add_reduced_cost D k (Some n) g = Ok h /\ same_but_weights g h /\
    forall cs, (forall v, In v cs -> v <> Source /\ v <> Sink) -> along (arc_list g) (trip cs) ->
      path_sum (weight_of h) (trip cs) == reduced_cost g D (- q) k cs.
Proof.
  intros H1 H2 H3 H0 H5. assert (H4 : assoc_name n (d_span D) = Some q).
  { clear - H0 H5. induction (d_span D) as [|[m x] l IH]; [destruct H5|]. cbn [map fst] in H0. inversion H0 as [|y ys N1 N2]; subst. cbn.
    destruct (cname_eqb m n) eqn:E.
    - assert (m = n) by (destruct m, n; cbn in E; try discriminate; try (apply Nat.eqb_eq in E; subst); reflexivity). subst m.
      destruct H5 as [H5|H5]; [congruence|]. exfalso. apply N1. apply (in_map fst) in H5. exact H5.
    - destruct H5 as [H5|H5]; [|apply IH; assumption]. injection H5 as <- <-. exfalso. destruct m; cbn in E; try rewrite Nat.eqb_refl in E; discriminate. }
  apply (reduced_cost_route K g D k (Some n) (- q)); auto.
  unfold scale_of. rewrite H4. reflexivity.
Qed.

Theorem pricing_graph_routes ksp p K D k g h b :
  network K g -> (k < K)%nat ->
  (forall alpha, p = PEdges2 alpha -> 0 <= alpha /\ alpha <= 1) ->
  (forall beta, p = PPaths beta -> forall w, k_shortest (arc_list g) w beta (ksp w beta)) ->
  pricing_graph ksp p D k g = Ok (h, b) ->
  part_of h g /\ forall r, along (arc_list h) r -> along (arc_list g) r /\
    path_sum (cost_of h k) r == path_sum (cost_of g k) r /\
    path_sum (weight_of h) r == path_sum (weight_of g) r.
Proof.
  intros N Hk H2 H3 H.
  assert (HP : part_of h g).
  { destruct p as [|alpha|ratio|beta]; cbn [pricing_graph] in H.
    - injection H as <- <-. constructor; auto. apply N.
    - apply (best_edges_1 K g D k alpha h b N Hk H).
    - assert (H' : remove_edges_2 ratio g = (h, b)) by congruence. destruct (H2 ratio eq_refl). apply (best_edges_2 K g ratio h b); auto.
    - apply bind_ok in H. destruct H as (h1 & H1 & H). injection H as <- <-.
      apply (best_paths g ksp beta h1); auto. apply N. }
  split; auto. intros r Hr.
  assert (Hd : forall u v, In (u, v) (arcs r) -> exists e, arc_data h u v = Some e /\ arc_data g u v = Some e).
  { intros u v Huv. apply Hr in Huv. apply arc_data_In in Huv. destruct Huv as (e & He).
    exists e. split; auto. apply (part_arcs _ _ HP). auto. }
  split.
  { intros u v Huv. destruct (Hd u v Huv) as (e & _ & He). apply arc_data_In. eauto. }
  split; apply path_sum_ext; intros u v Huv; destruct (Hd u v Huv) as (e & E1 & E2);
    unfold cost_of, weight_of; rewrite E1, E2; reflexivity.
Qed.

Section GreedyForms.
  Variable h : vgraph.
  Variable K : nat.
  Variable caps : option (list Z).
  Variable ns dur : option Z.
  Variable k : nat.
  Hypothesis HN : network K h.
  Hypothesis Hk : (k < K)%nat.
  Hypothesis Hcaps : forall l, caps = Some l -> l <> [] -> (k < List.length l)%nat.
  Hypothesis Hsrc : demand_of h Source == 0.
  Hypothesis Hsink : demand_of h Sink == 0.
  Variable keys : list node.
  Hypothesis Hkeys : forall v, In v (custs h) -> In v keys.

  Theorem greedy_columns : forall pool n rnd, exists new more,
    greedy_pricing h caps ns dur k keys pool n rnd = Ok (pool ++ new, more) /\ (more = true <-> new <> []) /\
    forall c, In c new -> exists cs, is_column h k cs c /\ route_shape (trip cs) /\ along (arc_list h) (trip cs) /\
      shortest_path (c_arcs c) Source Sink = Ok (trip cs) /\
      within_load h caps k cs /\
      (forall n, ns = Some n -> (0 < n)%Z -> (Z.of_nat (List.length cs) <= n)%Z) /\
      (cs = [] -> weight_of h Source Sink < 0).
  Proof.
    intros pool n rnd.
    destruct (greedy_pricing_ok h K caps ns dur k HN Hk Hcaps Hsrc Hsink keys Hkeys pool n rnd) as (l & more & H1 & H2 & H3).
    exists l, more. split; auto. split; auto. intros c Hc. apply In_nth_error in Hc. destruct Hc as (i & Hi).
    destruct (H3 i c Hi) as (cs & G). exists cs. destruct G; auto 10.
  Qed.

  Lemma greedy_new pool n rnd new more : greedy_pricing h caps ns dur k keys pool n rnd = Ok (pool ++ new, more) ->
    forall c, In c new -> exists m cs, greedy_column h caps ns dur k m c cs.
  Proof.
    intros H c Hc.
    destruct (greedy_pricing_ok h K caps ns dur k HN Hk Hcaps Hsrc Hsink keys Hkeys pool n rnd) as (l & more1 & H1 & H2 & H3).
    rewrite H in H1. injection H1 as H1 _. apply app_inv_head in H1. subst l.
    apply In_nth_error in Hc. destruct Hc as (i & Hi). eauto.
  Qed.

  Theorem greedy_times : forall pool n rnd new more,
    greedy_pricing h caps ns dur k keys pool n rnd = Ok (pool ++ new, more) ->
    forall c, In c new -> exists cs, is_column h k cs c /\
      forall D, dur = Some D -> D <> 0%Z ->
        (path_sum (time_of h) (trip cs) <= inject_Z D) \/
        (ns = Some (Z.of_nat (List.length cs)) /\ path_sum (time_of h) (Source :: cs) <= inject_Z D).
  Proof.
    intros pool n rnd new more H c Hc. destruct (greedy_new pool n rnd new more H c Hc) as (m & cs & G).
    exists cs. split; [apply G|]. intros D HD Hz. destruct (gc_rest _ _ _ _ _ _ _ _ G) as [(_ & B)|(A & _ & B)]; auto.
  Qed.

  Theorem greedy_weights : forall pool n rnd new more,
    greedy_pricing h caps ns dur k keys pool n rnd = Ok (pool ++ new, more) ->
    forall c, In c new -> exists cs, is_column h k cs c /\
      (path_sum (weight_of h) (trip cs) < 0 \/
       ns = Some (Z.of_nat (List.length cs)) /\ path_sum (weight_of h) (Source :: cs) < 0).
  Proof.
    intros pool n rnd new more H c Hc. destruct (greedy_new pool n rnd new more H c Hc) as (m & cs & G).
    exists cs. split; [apply G|]. destruct (gc_rest _ _ _ _ _ _ _ _ G) as [(A & _)|(A & B & _)]; auto.
  Qed.
End GreedyForms.

Theorem greedy_no_service (h : vgraph) K caps dur k :
  network K h -> (k < K)%nat -> (forall l, caps = Some l -> l <> [] -> (k < List.length l)%nat) ->
  demand_of h Source == 0 -> demand_of h Sink == 0 ->
  (forall v, In v (nodes h) -> service_of h v == 0) ->
  forall keys, (forall v, In v (custs h) -> In v keys) ->
  forall pool n rnd new more,
    greedy_pricing h caps None dur k keys pool n rnd = Ok (pool ++ new, more) ->
    forall c, In c new -> exists cs, is_column h k cs c /\ within_duration h dur cs.
Proof.
  intros HN Hk Hcaps Hs Ht Hser keys Hkeys pool n rnd new more H c Hc.
  destruct (greedy_new h K caps None dur k HN Hk Hcaps Hs Ht keys Hkeys pool n rnd new more H c Hc) as (m & cs & G).
  exists cs. split; [apply G|]. intros D HD Hz.
  destruct (gc_rest _ _ _ _ _ _ _ _ G) as [(_ & B)|(A & _)]; [|discriminate].
  specialize (B D HD Hz).
  assert (E : node_sum (service_of h) (Source :: cs) == 0).
  { assert (HA := gc_along _ _ _ _ _ _ _ _ G).
    assert (HI : forall v, In v (Source :: cs) -> In v (nodes h)).
    { intros v [<-|Hv]; [apply HN|].
      assert (Hin : exists u, In (u, v) (arcs (trip cs))).
      { clear - Hv. unfold trip. generalize Source. revert Hv. induction cs as [|a cs IH]; intros Hv s; [destruct Hv|].
        cbn [app arcs]. destruct Hv as [<-|Hv]; [exists s; left; reflexivity|].
        destruct (IH Hv a) as (u & Hu). exists u. right. exact Hu. }
      destruct Hin as (u & Hu). apply (wf_ends _ (net_wf _ _ HN) u v), HA, Hu. }
    revert HI. generalize (Source :: cs). induction l as [|v l IH]; intro HI; [reflexivity|].
    assert (E1 := Hser v (HI v (or_introl eq_refl))).
    assert (E2 : node_sum (service_of h) l == 0) by (apply IH; intros w Hw; apply HI; right; auto).
    unfold node_sum in *. cbn [map]. rewrite Qsum_cons. lra. }
  rewrite E. lra.
Qed.

Theorem labelling_duration h K o k caps ns dur m :
  network K h -> limits h o k caps ns dur = Ok m -> demand_of h Sink == 0 ->
  forall cs, custom_ref o = true -> resource_feasible h m (extension h o caps dur) (trip cs) ->
  within_duration h dur cs.
Proof. intros H1 H2 H3 cs H4 H5. apply (custom_sound h K o k caps ns dur m H1 H2 H3 cs H4 H5). Qed.

Theorem cspy_columns (g h : vgraph) K k caps o ns dur alg keys :
  network K h -> (k < K)%nat -> (forall v, In v (custs h) -> In v keys) -> sound_labelling h alg ->
  forall run elementary m pool, edges g <> [] -> limits h o k caps ns dur = Ok m ->
  exists r, cspy_solve g h k caps o ns dur alg keys run elementary pool = Ok r /\
    (r = (pool, false) \/
     exists p c, run = true /\ r = (pool ++ [c], true) /\
       (elementary = true \/ o_distribution_collection o = true -> NoDup p) /\
       resource_feasible h m (extension h o caps dur) p /\ path_sum (weight_of h) p < - (1 # 1000) /\
       c_path c = Some p /\ c_type c = k /\
       (NoDup (c_arcs c) /\ forall a, In a (c_arcs c) <-> In a (arcs p)) /\
       c_cost c == Qsum (map (fun a => cost_of h k (fst a) (snd a)) (c_arcs c)) /\
       (NoDup p -> c_name c = CElem (S (List.length pool)) /\
          exists cs, p = trip cs /\ route_shape (trip cs) /\ along (arc_list h) (trip cs) /\ is_column h k cs c) /\
       (~ NoDup p -> c_name c = CNonElem (S (List.length pool))) /\
       forall c', In c' pool -> column_edges c' <> column_edges c).
Proof.
  intros HN Hk Hkeys Halg run elementary m pool Hg Hl.
  destruct (cspy_solve_ok g h K k caps o ns dur alg keys HN Hk Hkeys Halg run elementary m pool Hg Hl)
    as (r & Hr & [->|(p & c & A1 & A2 & A3 & A4 & A5 & A6 & A7)]); [eauto|].
  exists r. split; auto. right. exists p, c. destruct A6 as [P1 P2 P3 P4 P5 P6].
  repeat (split; auto). 
  - destruct (P5 H) as (B1 & _); auto.
  - destruct (P5 H) as (_ & cs & B1 & B2 & B3 & B4 & B5). exists cs. split; auto. split; [exists cs; auto|auto].
Qed.
