(** The columns of a problem with time windows, pickups and deliveries, distribution and collection
    or several vehicle types, priced by the MIP or by labelling. *)
From Verif.Base Require Import Prelude Graph.
From Verif.Spec Require Import Routes Network Inputs Feasible Prep Heuristics LinProg Pricing MIP Columns Timing Labelling Pool Master Run Plans Results Variants.
From Verif.Model Require Import Args Reach Checks Preprocess ClarkeWright Greedy Initial Pricing
  GreedyPricing LPPricing Cspy Master Dive Hyper ColGen Post Schedule Solve.
From Verif.Proofs Require Import RouteLemmas ChecksProofs FeasProofs PreLemmas PruneProofs KnapProofs LockProofs
  PresolveProofs PresolveEnd InitialProofs HeurCor PricingProofs LPProofs LPColumn LPComplete LPTimes CspyProofs CspyCall PricingCor Readable PoolProofs PoolQuality SelectProofs MasterEnd ColGenProofs RunProofs ColGenCor ColGenEnd
  PostProofs PostCor PostEnd SolveProofs SolveHeur SolveUser ExactPool SolveExact InitExact PlanGen AnyProofs.

(* ------------------------------------------------------------------ *)
(** ** Small facts *)

Lemma foldM_ok_all {A B} (f : A -> B -> res A) (Q : B -> Prop) :
  (forall s x s', f s x = Ok s' -> Q x) -> forall l s s', foldM f l s = Ok s' -> forall x, In x l -> Q x.
Proof.
  intro Hf. induction l as [|y l IH]; intros s s' H x Hx; [destruct Hx|]. cbn in H. apply bind_ok in H. destruct H as (s1 & H1 & H2).
  destruct Hx as [->|Hx]; [exact (Hf _ _ _ H1)|exact (IH _ _ H2 x Hx)].
Qed.

Lemma initial_cost_along g r q : initial_cost g r = Ok q -> along (arc_list g) r.
Proof.
  intros H u w Huw. unfold initial_cost in H.
  refine (foldM_ok_all _ (fun e => In e (arc_list g)) _ _ _ _ H (u, w) Huw). clear. intros s (x & y) s' H. cbn [fst snd] in H. unfold scost, get_arc in H.
  destruct (arc_data g x y) as [e|] eqn:E; [|discriminate]. apply arc_data_In. eauto.
Qed.

Lemma convert_along g caps rs : forall id cs, convert_from g caps id rs = Ok cs -> forall r, In r rs -> along (arc_list g) r.
Proof.
  induction rs as [|r0 rs IH]; intros id cs H r Hr; [destruct Hr|]. cbn in H. apply bind_ok in H. destruct H as (c & H1 & H). apply bind_ok in H. destruct H as (cs' & H2 & _).
  destruct Hr as [->|Hr]; [|exact (IH _ _ H2 r Hr)]. unfold initial_column in H1. apply bind_ok in H1. destruct H1 as (q & H1 & _). exact (initial_cost_along _ _ _ H1).
Qed.

Lemma first_carrier_ext a q q' k : q == q' -> first_carrier a q k -> first_carrier a q' k.
Proof.
  intros E. unfold first_carrier. destruct (a_load_capacity a) as [|n|[|n l]]; auto. intros ((m & H1 & H2) & H3). split.
  - exists m. split; [exact H1|]. rewrite <- E. exact H2.
  - intros j m' Hj Hm. rewrite <- E. exact (H3 j m' Hj Hm).
Qed.

Lemma loads_prefix d cap l l' : loads_within d cap (l ++ l') -> loads_within d cap l.
Proof.
  unfold loads_within. assert (G : forall acc x, In x (running_loads d acc l) -> In x (running_loads d acc (l ++ l'))).
  { induction l as [|v l IH]; intros acc x Hx; [destruct Hx|]. cbn in *. destruct Hx as [->|Hx]; [left; reflexivity|right; apply IH; exact Hx]. }
  intros H x Hx. apply H, G. exact Hx.
Qed.

Lemma loads_ext d d' cap l : (forall v, In v l -> d v == d' v) -> loads_within d cap l -> loads_within d' cap l.
Proof.
  intros E H. unfold loads_within in *.
  assert (G : forall l acc acc', acc == acc' -> (forall v, In v l -> d v == d' v) -> forall x, In x (running_loads d' acc' l) -> exists y, In y (running_loads d acc l) /\ y == x).
  { clear. induction l as [|v l IH]; intros acc acc' Ea Ed x Hx; [destruct Hx|]. cbn in Hx. assert (Ev := Ed v (or_introl eq_refl)). destruct Hx as [<-|Hx].
    - exists (acc + d v). split; [left; reflexivity|]. rewrite Ea, Ev. reflexivity.
    - destruct (IH (acc + d v) (acc' + d' v)) with (x := x) as (y & Hy & Ey); [rewrite Ea, Ev; reflexivity|intros; apply Ed; right; assumption|exact Hx|].
      exists y. split; [right; exact Hy|exact Ey]. }
  intros x Hx. destruct (G l 0 0 (Qeq_refl _) E x Hx) as (y & Hy & Ey). destruct (H y Hy) as (Y1 & Y2). split; lra.
Qed.

(** If every pickup comes with its delivery and nothing is left over, every delivery comes with its
    pickup. *)
Lemma deliveries_paired g : proper_pairs g -> forall n l, (List.length l <= n)%nat -> NoDup l ->
  (forall u, In u l -> In u (custs g)) -> (forall v d, user_pair g v d -> In v l -> In d l) ->
  node_sum (user_demand g) l == 0 -> forall v d, user_pair g v d -> In d l -> In v l.
Proof.
  intros [P1 P2 P3 P4 P5]. induction n as [|n IH]; intros l Ln Nd Cu Cl Su v d Hp Hd.
  - destruct l; [destruct Hd|cbn in Ln; lia].
  - assert (Dec : (exists v1 d1, user_pair g v1 d1 /\ In v1 l) \/ (forall v1 d1, user_pair g v1 d1 -> ~ In v1 l)).
    { clear - l. induction l as [|x l IH]; [right; intros v1 d1 _ []|]. destruct IH as [(v1 & d1 & H1 & H2)|IH]; [left; exists v1, d1; split; [exact H1|right; exact H2]|].
      destruct (node_data g x) as [r|] eqn:Er; [destruct (r_request r) as [d1|] eqn:Eq|].
      - left. exists x, d1. split; [exists r; auto|left; reflexivity].
      - right. intros v1 d1 (r1 & R1 & R2) [->|Hv]; [congruence|]. apply (IH v1 d1); [exists r1; auto|exact Hv].
      - right. intros v1 d1 (r1 & R1 & R2) [->|Hv]; [congruence|]. apply (IH v1 d1); [exists r1; auto|exact Hv]. }
    destruct Dec as [(v1 & d1 & Hp1 & Hv1)|No].
    + assert (Hd1 := Cl v1 d1 Hp1 Hv1). assert (Nq : v1 <> d1) by (intros ->; exact (P2 _ _ _ Hp1 Hp1)).
      destruct (in_split _ _ Hv1) as (a1 & a2 & El). assert (Pm : Permutation l (v1 :: a1 ++ a2)) by (rewrite El; symmetry; apply Permutation_middle).
      assert (Hd2 : In d1 (a1 ++ a2)) by (apply (Permutation_in _ Pm) in Hd1; destruct Hd1 as [Z|Z]; [congruence|exact Z]).
      destruct (in_split _ _ Hd2) as (b1 & b2 & El2). assert (Pm2 : Permutation l (v1 :: d1 :: b1 ++ b2)).
      { rewrite Pm. constructor. rewrite El2. symmetry. apply Permutation_middle. }
      set (l' := b1 ++ b2) in *. assert (Nd2 : NoDup (v1 :: d1 :: l')) by (eapply Permutation_NoDup; [exact Pm2|exact Nd]).
      inversion Nd2 as [|? ? X1 X2]; subst. inversion X2 as [|? ? X3 X4]; subst.
      apply (Permutation_in _ Pm2) in Hd. apply (Permutation_in _ (Permutation_sym Pm2)). destruct Hd as [Z|[Z|Hd]].
      * subst d. exfalso. exact (P2 _ _ _ Hp Hp1).
      * subst d. left. exact (P3 _ _ _ Hp1 Hp).
      * right. right. apply (IH l') with (d := d); auto.
        -- apply Permutation_length in Pm2. cbn in Pm2. lia.
        -- intros u Hu. apply Cu. apply (Permutation_in _ (Permutation_sym Pm2)). right. right. exact Hu.
        -- intros v2 d2 Hp2 Hv2. assert (Hd3 : In d2 (v1 :: d1 :: l')).
           { apply (Permutation_in _ Pm2). apply (Cl v2); [exact Hp2|]. apply (Permutation_in _ (Permutation_sym Pm2)). right. right. exact Hv2. }
           destruct Hd3 as [Z|[Z|Hd3]]; [| |exact Hd3].
           ++ subst d2. exfalso. exact (P2 _ _ _ Hp2 Hp1).
           ++ subst d2. rewrite (P3 _ _ _ Hp2 Hp1) in Hv2. exfalso. apply X1. right. exact Hv2.
        -- rewrite (node_sum_perm _ _ _ Pm2) in Su. unfold node_sum in Su. cbn [map] in Su. rewrite !Qsum_cons in Su. destruct (P5 _ _ Hp1) as (_ & Eq). rewrite Eq in Su. unfold node_sum. lra.
    + exfalso. assert (Neg : forall u, In u l -> user_demand g u < 0).
      { intros u Hu. destruct (P4 u (Cu u Hu)) as (x & [Hx|Hx]); [exfalso; exact (No _ _ Hx Hu)|]. destruct (P5 _ _ Hx) as (Y1 & Y2). lra. }
      assert (Q : forall l, l <> [] -> (forall u, In u l -> user_demand g u < 0) -> node_sum (user_demand g) l < 0).
      { clear. unfold node_sum. induction l as [|x l IH]; intros Ne Hn; [congruence|]. cbn [map]. rewrite Qsum_cons. assert (X := Hn x (or_introl eq_refl)).
        destruct l as [|y l]; [cbn; lra|]. assert (Y : Qsum (map (user_demand g) (y :: l)) < 0) by (apply IH; [discriminate|intros; apply Hn; right; assumption]). lra. }
      assert (Z := Q l ltac:(intros ->; destruct Hd) Neg). lra.
Qed.

(* ------------------------------------------------------------------ *)
(** ** The columns *)
Section Pool.
  Variables (X : outside) (sa : solve_args) (v : vrp) (a : rargs) (K : nat) (p : prepared).
  Local Notation G := (v_graph v).
  Local Notation g3 := (pr_graph p).
  Local Notation o := (options_of v sa).
  Local Notation caps := (caps_arg (a_load_capacity a)).
  Local Notation dur := (int_arg (a_duration a)).
  Local Notation ini := (nonempty_or (sa_initial sa) (v_initial v)).
  Local Notation w := (v_windows v).
  Local Notation pd := (v_pickup v).
  Local Notation both := (v_both v).
  Local Notation UA := (v_args v).
  Hypothesis R : ready G.
  Hypothesis NE : a_mixed_fleet UA = false -> no_empty_costs G.
  Hypothesis H : prepare v sa = Ok (a, K, p).
  Hypothesis E5 : nonempty_or (sa_pre sa) (v_pre v) = [].
  Hypothesis Gr : sa_greedy sa = false \/ w || pd || both = true \/ (forall D, ~ time_limit UA D).
  Hypothesis DS : 0 <= user_demand G Source.
  Hypothesis DT : 0 <= user_demand G Sink.
  Hypothesis SS : 0 <= user_service G Source.
  Hypothesis ND : pd = false -> nonneg_user_demands G.
  Hypothesis NC : pd = false -> both = true -> forall u, 0 <= user_collect G u.
  Hypothesis PP : pd = true -> proper_pairs G.
  Hypothesis S2 : sa_cspy sa = false -> forall n tl q, sound_answer q (e_pricer (x_env X) n tl q).
  Hypothesis S3 : sa_cspy sa = false -> pd = false -> no_circles (x_env X) \/ (w = true /\ takes_time G).
  Hypothesis LA : sa_cspy sa = true -> forall n tl h, sound_labelling h (e_label (x_env X) n tl h).
  Hypothesis LW : sa_cspy sa = true -> w = true -> user_lower G Source <= user_upper G 0 Source /\
    (user_lower G Source <= 0 \/ user_service G Source <= 0).
  Hypothesis LD : sa_cspy sa = true -> w || pd || both = false -> forall D, time_limit UA D ->
    forall u, user_service G u == 0.
  (** no column is empty *)
  Variable busy : Prop.
  Hypothesis BZ : busy -> sa_cspy sa = false /\ (sa_greedy sa = false \/ w || pd || both = true).

  (** the routes the search starts from can be driven by the first vehicle type that can carry them,
      and serve every customer *)
  Definition starts (rs : list (list node)) : Prop :=
    (forall r, In r rs -> exists cs, r = trip cs /\ (busy -> cs <> []) /\ route_shape (trip cs) /\
       (cs <> [] -> forall k, first_carrier UA (node_sum (user_demand G) (stops r)) k ->
         (forall c, capacity_of UA k c -> node_sum (user_demand G) (stops r) <= inject_Z c) ->
         (forall n, stop_limit UA n -> (0 < n)%Z) -> (forall l n, a_load_capacity UA = PList l -> In n l -> 0 < num_val n) -> respects G UA w pd both k r)) /\
    (forall u, In u (custs G) -> In u (covered rs)).
  Hypothesis IS : forall rs pool, initialize o (a_mixed_fleet a) caps dur (pr_num_stops p) (x_perms X) ini g3 = Ok (rs, pool) -> starts rs.

  (** what every column is *)
  Definition ok (k : nat) (cs : list node) : Prop :=
    (busy -> cs <> []) /\ (cs <> [] -> respects G UA w pd both k (trip cs)) /\
    (a_mixed_fleet UA = true \/ (forall x y l, a_load_capacity UA <> PList (x :: y :: l)) -> (k < K)%nat).

  (** one vehicle type *)
  Definition one_type : Prop := a_mixed_fleet UA = false /\ forall x y l, a_load_capacity UA <> PList (x :: y :: l).

  Lemma stops_trip cs : route_shape (trip cs) -> stops (trip cs) = cs.
  Proof.
    intro Sh. destruct (route_shape_stops _ Sh) as (cs' & Ec & Es). unfold trip in Ec. injection Ec as Ec. apply app_inv_tail in Ec. subst cs'. exact Es.
  Qed.

  Lemma cap_there k l : (k < K)%nat -> caps = Some l -> exists c, nth_error l k = Some c.
  Proof.
    intros Hk Hl. destruct (any_types v sa a K p R NE H) as (_ & K1 & _). destruct (any_caps v sa a K p R NE H) as (_ & _ & Cp & Ln). rewrite Hl in Cp. destruct Cp as (N0 & _ & _).
    assert (L : (k < List.length l)%nat).
    { destruct (a_mixed_fleet UA) eqn:M; [rewrite (Ln (or_introl eq_refl) l Hl); exact Hk|]. specialize (K1 eq_refl).
      destruct l; [congruence|cbn; lia]. }
    destruct (nth_error l k) as [c|] eqn:E; [eauto|]. apply nth_error_None in E. lia.
  Qed.

  (** a drivable route of a part of the re-weighted network *)
  Lemma drivable_respects h h' k cs : same_but_weights g3 h -> part_of h' h -> (k < K)%nat ->
    (pd = true -> exists l c, caps = Some l /\ nth_error l k = Some c) ->
    drivable h' o caps k (pr_num_stops p) dur cs -> route_shape (trip cs) /\ along (arc_list g3) (trip cs) /\ ok k cs.
  Proof.
    intros Sw P Hk Cap [[D1 D2 D3 D4] Q1 Q2 Q3 Q4 Q5 Q6]. cbn [o_time_windows o_pickup_delivery o_distribution_collection options_of] in *.
    destruct (any_prepared v sa a K p R NE H E5) as (Net & NG & CG & _ & _ & FD & FZ & FS & FW & FP & FA & FT).
    destruct (any_caps v sa a K p R NE H) as (C1 & _ & C3 & _). destruct (any_types v sa a K p R NE H) as (_ & _ & _ & _ & Da).
    assert (Sh : route_shape (trip cs)) by (exists cs; auto). assert (St := stops_trip cs Sh).
    destruct (same_figures _ _ Sw) as (_ & F2).
    assert (A2 : forall x y, In (x, y) (arcs (trip cs)) -> In (x, y) (arc_list g3) /\ time_of h' x y = time_of g3 x y).
    { intros x y Hxy. destruct (part_arc_figures h' h x y P (D4 x y Hxy)) as (B1 & B2 & _). destruct (F2 x y B1) as (B4 & B5 & _). rewrite B2, B5. auto. }
    assert (Nn : forall u, In u (trip cs) -> In u (nodes h')) by (intros u Hu; eapply along_nodes; [exact (part_wf _ _ P)|exact Sh|exact D4|exact Hu]).
    assert (DD : forall u x, node_data h' u = Some x -> node_data g3 u = Some x).
    { intros u x Hx. apply (part_nodes _ _ P) in Hx. destruct Sw as (E1 & _). unfold node_data in *. rewrite E1 in Hx. exact Hx. }
    assert (D5 : forall u, In u (trip cs) -> nd h' u = nd g3 u).
    { intros u Hu. apply Nn, node_data_In in Hu. destruct Hu as (x & Hx). unfold nd. rewrite Hx, (DD u x Hx). reflexivity. }
    assert (AL : along (arc_list g3) (trip cs)) by (intros x y Hxy; apply A2; exact Hxy).
    assert (NU : forall u, In u (trip cs) -> In u (nodes G)) by (intros u Hu; rewrite <- NG; eapply along_nodes; [exact (net_wf _ _ Net)|exact Sh|exact AL|exact Hu]).
    assert (IC : forall u, In u cs -> In u (trip cs)) by (intros u Hu; right; apply in_or_app; left; exact Hu).
    assert (CU : forall u, In u cs -> In u (custs G)) by (intros u Hu; apply in_custs; split; [apply NU, IC; exact Hu|apply D2; exact Hu]).
    assert (DE : forall u, In u cs -> demand_of h' u == user_demand G u).
    { intros u Hu. unfold demand_of. rewrite (D5 u (IC u Hu)). fold (demand_of g3 u). rewrite (FD u (CU u Hu)). reflexivity. }
    assert (CE : forall u, In u cs -> collect_of h' u == user_collect G u).
    { intros u Hu. unfold collect_of. rewrite (D5 u (IC u Hu)). fold (collect_of g3 u). destruct (FS u (NU u (IC u Hu))) as (_ & ->). reflexivity. }
    assert (SE : forall u, In u (trip cs) -> service_of h' u == user_service G u).
    { intros u Hu. unfold service_of. rewrite (D5 u Hu). fold (service_of g3 u). destruct (FS u (NU u Hu)) as (-> & _). reflexivity. }
    assert (TE : forall x y, In (x, y) (arcs (trip cs)) -> time_of h' x y = user_time G x y).
    { intros x y Hxy. destruct (A2 x y Hxy) as (B1 & ->). apply FT. exact B1. }
    assert (DSk : demand_of h' Sink == 0).
    { unfold demand_of. rewrite (D5 Sink); [|right; apply in_or_app; right; left; reflexivity]. fold (demand_of g3 Sink). apply FZ; [reflexivity|exact DT]. }
    assert (SumD : node_sum (demand_of h') (cs ++ [Sink]) == node_sum (user_demand G) cs).
    { unfold node_sum. rewrite map_app, Qsum_app. cbn [map]. rewrite Qsum_cons. change (Qsum []) with 0. rewrite DSk.
      assert (Em := node_sum_ext (demand_of h') (user_demand G) cs DE). unfold node_sum in Em. rewrite Em. lra. }
    assert (Load : forall l c, caps = Some l -> nth_error l k = Some c -> node_sum (user_demand G) cs <= inject_Z c).
    { intros l c Hl Hc. rewrite <- SumD. exact (Q2 l c Hl Hc). }
    split; [exact Sh|]. split; [exact AL|]. split; [intros _; exact D3|]. split; [intros _|intros _; exact Hk].
    assert (BF : forall l c, both = true -> caps = Some l -> nth_error l k = Some c -> forall c1 c2, cs = c1 ++ c2 ->
      node_sum (user_collect G) c1 + node_sum (user_demand G) c2 <= inject_Z c).
    { intros l c Hb Hl Hc c1 c2 Ec. assert (B := Q6 Hb l c Hl Hc c1 c2 Ec).
      rewrite (node_sum_ext (collect_of h') (user_collect G) c1) in B by (intros u Hu; apply CE; rewrite Ec; apply in_or_app; left; exact Hu).
      rewrite (node_sum_ext (demand_of h') (user_demand G) c2) in B by (intros u Hu; apply DE; rewrite Ec; apply in_or_app; right; exact Hu). exact B. }
    assert (PK : pd = true -> forall l c, caps = Some l -> nth_error l k = Some c ->
      (forall v0 d, user_pair G v0 d -> (In v0 cs <-> In d cs)) /\ (forall v0 d, user_pair G v0 d -> In v0 cs -> before v0 d cs) /\
      loads_within (user_demand G) (inject_Z c) cs /\ node_sum (user_demand G) cs == 0).
    { intros Hp l c Hl Hc. destruct (Q5 Hp l c Hl Hc) as [O1 O2 O3 O4].
      assert (PO : forall v0 d, user_pair G v0 d -> In v0 cs -> pair_of h' v0 d).
      { intros v0 d Hd Hv. apply FP in Hd. destruct Hd as (x & Hx & Hq). assert (Hn := Nn v0 (IC v0 Hv)). apply node_data_In in Hn. destruct Hn as (x' & Hx').
        assert (x' = x) by (apply DD in Hx'; congruence). subst x'. exists x. auto. }
      assert (Z : node_sum (user_demand G) cs == 0) by (rewrite <- SumD; exact O4).
      assert (Fw : forall v0 d, user_pair G v0 d -> In v0 cs -> In d cs) by (intros v0 d Hd Hv; apply (O1 v0 d (PO v0 d Hd Hv)); exact Hv).
      split; [|split; [|split; [|exact Z]]].
      - intros v0 d Hd. split; [apply Fw; exact Hd|]. apply (deliveries_paired G (PP Hp) (List.length cs) cs (le_n _) D1 CU Fw Z). exact Hd.
      - intros v0 d Hd Hv. exact (O2 v0 d (PO v0 d Hd Hv) Hv).
      - apply (loads_ext (demand_of h')); [exact DE|]. eapply loads_prefix. exact O3. }
    assert (OUT : pd = true -> forall v0 d, user_pair G v0 d -> (In v0 (trip cs) <-> In v0 cs) /\ (In d (trip cs) <-> In d cs)).
    { intros Hp v0 d Hd. destruct (pp_custs _ (PP Hp) v0 d Hd) as (I1 & I2). apply in_custs in I1, I2. unfold trip. cbn [In]. split; split; try (intro Hx; right; apply in_or_app; left; exact Hx).
      - intros [Hx|Hx]; [destruct I1 as (_ & I1 & _); congruence|]. apply in_app_or in Hx. destruct Hx as [Hx|[Hx|[]]]; [exact Hx|destruct I1 as (_ & _ & I1); congruence].
      - intros [Hx|Hx]; [destruct I2 as (_ & I2 & _); congruence|]. apply in_app_or in Hx. destruct Hx as [Hx|[Hx|[]]]; [exact Hx|destruct I2 as (_ & _ & I2); congruence]. }
    constructor; rewrite ?St.
    - intros c Hc. destruct (C1 k c Hc) as (l & Hl & Hn). exact (Load l c Hl Hn).
    - intros n Hn. apply (any_stops v sa a K p R NE H cs n E5 DS DT ND NC Hn D1 CU D3).
      + intros b Hb Hb0. exact (Q1 b Hb Hb0).
      + intros Hp m Hm. destruct caps as [l|] eqn:Hl; [|congruence]. destruct C3 as (_ & _ & (m' & Zm & Em)). assert (m' = m) by congruence. subst m'.
        destruct (cap_there k l Hk Hl) as (c & Hc). assert (Lm : inject_Z c <= inject_Z m) by (rewrite <- Zle_Qle; apply (proj2 (zmax_ok l m Zm)); apply nth_error_In in Hc; exact Hc).
        split; [assert (Q := Load l c eq_refl Hc); lra|]. intro Hb. assert (Q := BF l c Hb eq_refl Hc cs [] ltac:(rewrite app_nil_r; reflexivity)). change (node_sum (user_demand G) []) with 0 in Q. lra.
    - intros D (HD & HD0). rewrite St. assert (Q : dur = Some D) by (rewrite Da, HD; reflexivity). specialize (Q3 D Q HD0).
      rewrite (path_sum_ext (time_of h') (user_time G)) in Q3 by (intros x y Hxy; rewrite (TE x y Hxy); reflexivity).
      rewrite (node_sum_ext (service_of h') (user_service G)) in Q3.
      + unfold node_sum in Q3. cbn [map] in Q3. rewrite Qsum_cons in Q3. unfold node_sum. lra.
      + intros u Hu. apply SE. destruct Hu as [<-|Hu]; [left; reflexivity|apply IC; exact Hu].
    - intro Hw. destruct (Q4 Hw) as (T & HT). exists (upper_of (pr_copy p) Sink), T.
      assert (Ne : arc_list g3 <> []).
      { assert (Z : exists e, In e (arcs (trip cs))) by (destruct cs as [|u cs]; [congruence|]; exists (Source, u); left; reflexivity). destruct Z as ((x, y) & Z). apply AL in Z. intro Q. rewrite Q in Z. destruct Z. }
      assert (HT' : timetable (user_time G) (user_service G) (lower_of g3) (upper_of g3) (trip cs) T).
      { eapply timetable_ext; [| |exact HT].
        - intros x y Hxy. apply TE. exact Hxy.
        - intros u Hu. unfold service_of, lower_of, upper_of. rewrite (D5 u Hu). fold (service_of g3 u). destruct (FS u (NU u Hu)) as (-> & _). auto. }
      eapply timetable_mono; [exact HT'|]. intros u t Hut L1 L2. apply in_combine_l in Hut. destruct (FW Hw Ne u (NU u Hut)) as (W1 & W2). split; lra.
    - intros Hp v0 d Hd. destruct (Cap Hp) as (l & c & Hl & Hc). destruct (PK Hp l c Hl Hc) as (B1 & _). destruct (OUT Hp v0 d Hd) as (O1 & O2). rewrite O1, O2. apply B1. exact Hd.
    - intros Hp v0 d Hd Hv. destruct (Cap Hp) as (l & c & Hl & Hc). destruct (PK Hp l c Hl Hc) as (_ & B2 & _). destruct (OUT Hp v0 d Hd) as (O1 & _). apply O1 in Hv.
      destruct (B2 v0 d Hd Hv) as (p1 & p2 & p3 & Ep). exists (Source :: p1), p2, (p3 ++ [Sink]). unfold trip. rewrite Ep. cbn. rewrite <- !app_assoc. cbn. rewrite <- app_assoc. reflexivity.
    - intros Hp c Hc. destruct (C1 k c Hc) as (l & Hl & Hn). destruct (PK Hp l c Hl Hn) as (_ & _ & B3 & B4). auto.
    - intros Hb c Hc c1 c2 Ec. destruct (C1 k c Hc) as (l & Hl & Hn). exact (BF l c Hb Hl Hn c1 c2 Ec).
  Qed.

  Local Notation FIT := (fits p ok one_type).
  Local Notation USE := (usable p ok one_type).

  Lemma part_cost h h' k cs : same_but_weights g3 h -> part_of h' h -> along (arc_list h') (trip cs) ->
    path_sum (cost_of h' k) (trip cs) == path_sum (cost_of g3 k) (trip cs).
  Proof.
    intros Sw Pt Al. apply path_sum_ext. intros x y Hxy. destruct (part_arc_figures h' h x y Pt (Al x y Hxy)) as (B1 & _ & B2).
    destruct (same_figures _ _ Sw) as (_ & F2). destruct (F2 x y B1) as (_ & _ & B3). rewrite B2, B3. reflexivity.
  Qed.

  Lemma routes_converted rs pool : initialize o (a_mixed_fleet a) caps dur (pr_num_stops p) (x_perms X) ini g3 = Ok (rs, pool) -> convert_from g3 caps 1 rs = Ok pool.
  Proof.
    intro I. unfold initialize in I. apply bind_ok in I. destruct I as (rs' & I1 & I2). apply bind_ok in I2. destruct I2 as (cs & I2 & I3). injection I3 as <- <-. exact I2.
  Qed.

  Lemma route_shape_trip cs : route_shape (trip cs) -> NoDup cs /\ forall u, In u cs -> u <> Source /\ u <> Sink.
  Proof.
    intros (cs' & Ec & Nd & Cu). assert (cs' = cs) by (unfold trip in Ec; injection Ec as Ec; apply app_inv_tail in Ec; congruence). subst cs'. auto.
  Qed.

  (** the routes of the initial solution *)
  Lemma initial_usable rs pool : initialize o (a_mixed_fleet a) caps dur (pr_num_stops p) (x_perms X) ini g3 = Ok (rs, pool) ->
    forall c, In c pool -> USE c.
  Proof.
    intros I c Hc. destruct (IS rs pool I) as (St & _). pose proof (routes_converted rs pool I) as Cv.
    destruct (any_prepared v sa a K p R NE H E5) as (Net & NG & CG & _ & _ & FD & FZ & _).
    destruct (any_types v sa a K p R NE H) as (K1 & _). destruct (any_caps v sa a K p R NE H) as (C1 & C2 & C3 & C4).
    assert (Sh : forall r, In r rs -> exists cs, r = trip cs /\ (busy -> cs <> []) /\ route_shape (trip cs) /\ (2 <= List.length r)%nat /\ forall u, In u cs -> In u (custs G)).
    { intros r Hr. destruct (St r Hr) as (cs & Er & Ne & Sh & _). exists cs. split; [exact Er|]. split; [exact Ne|]. split; [exact Sh|].
      split; [rewrite Er; cbn; rewrite app_length; cbn; lia|]. intros u Hu. rewrite <- CG. destruct (route_shape_trip cs Sh) as (_ & Cu).
      apply in_custs. split; [|exact (Cu u Hu)]. assert (Ar := convert_along _ _ _ _ _ Cv r Hr). rewrite Er in Ar. eapply along_nodes; [exact (net_wf _ _ Net)|exact Sh|exact Ar|right; apply in_or_app; left; exact Hu]. }
    destruct (convert_from_ok g3 K Net K1 caps rs 1) as [(cs' & F1 & F2 & F3)|(F1 & _)].
    { intros r Hr. split; [exact (convert_along _ _ _ _ _ Cv r Hr)|]. destruct (Sh r Hr) as (cs & _ & _ & _ & L & _). exact L. }
    2:{ congruence. }
    assert (cs' = pool) by congruence. subst cs'.
    apply In_nth_error in Hc. destruct Hc as (i & Hi). assert (Li : (i < List.length rs)%nat) by (rewrite <- F2; apply nth_error_Some; congruence).
    destruct (nth_error rs i) as [r|] eqn:Er; [|apply nth_error_None in Er; lia]. destruct (F3 i r Er) as (c' & Hc' & Co). assert (c' = c) by congruence. subst c'.
    assert (Hr := nth_error_In _ _ Er). destruct (Sh r Hr) as (cs & Ecs & Ne & Shp & _ & Cu). left. exists cs. rewrite Ecs in *.
    destruct Co as (_ & _ & _ & _ & Nd & Pa & Cq & Ff). destruct (Nd (route_shape_NoDup _ Shp)) as (N1 & N2).
    assert (Al' := convert_along _ _ _ _ _ Cv (trip cs) Hr).
    assert (Su : node_sum (demand_of g3) (trip cs) == node_sum (user_demand G) (stops (trip cs))).
    { rewrite (stops_trip cs Shp). unfold trip, node_sum. cbn [map]. rewrite map_app, Qsum_cons, Qsum_app. cbn [map]. rewrite Qsum_cons. change (Qsum []) with 0.
      rewrite (FZ Source eq_refl DS), (FZ Sink eq_refl DT). assert (Em : node_sum (demand_of g3) cs == node_sum (user_demand G) cs) by (apply node_sum_ext; intros u Hu; rewrite (FD u (Cu u Hu)); reflexivity).
      unfold node_sum in Em. rewrite Em. lra. }
    assert (TK : a_mixed_fleet UA = true \/ (forall x y l, a_load_capacity UA <> PList (x :: y :: l)) -> (c_type c < K)%nat).
    { intro Hm. unfold first_fitting in Ff. destruct caps as [[|x l]|] eqn:El.
      * rewrite Ff. lia.
      * destruct Ff as ((y & Hy & _) & _). rewrite <- (C4 Hm _ eq_refl). apply nth_error_Some. congruence.
      * rewrite Ff. lia. }
    constructor; auto.
    - rewrite N1. apply Permutation_refl.
    - intro e. rewrite N2. tauto.
    - split; [exact Ne|]. split.
      + intro Ns. destruct (St (trip cs) Hr) as (cs1 & Ec1 & _ & _ & IR). apply IR; [unfold trip in Ec1; injection Ec1 as Ec1; apply app_inv_tail in Ec1; congruence| | |intros n; apply (any_stop_pos v sa a K p R NE H)|apply (any_cap_pos v sa a K p R NE H)].
        * apply (first_carrier_ext _ _ _ _ Su). apply C2. exact Ff.
        * intros z Hz. destruct (C1 _ z Hz) as (l & El & Hl). rewrite <- Su. unfold first_fitting in Ff. rewrite El in Ff.
          destruct l as [|x l]; [match type of Hl with nth_error [] ?k = _ => destruct k end; discriminate|]. destruct Ff as ((y & Hy & Le) & _). assert (y = z) by congruence. subst y. exact Le.
      + exact TK.
    - intros (Sm & Sc). destruct (any_types v sa a K p R NE H) as (_ & K2 & _). specialize (TK (or_intror Sc)). rewrite (K2 Sm) in TK. replace (c_type c) with 0%nat by lia. exact Cq.
  Qed.

  (** the columns found by labelling *)
  Lemma labelled_usable h h' k run alg keys elem p1 p2 more : sa_cspy sa = true -> same_but_weights g3 h -> part_of h' h ->
    (k < K)%nat -> sound_labelling h' alg -> (forall c, In c p1 -> USE c) ->
    cspy_solve h h' k caps o (pr_num_stops p) dur alg keys run elem p1 = Ok (p2, more) -> forall c, In c p2 -> USE c.
  Proof.
    intros EC Sw Pt Hk Sl Us Hs.
    destruct (any_prepared v sa a K p R NE H E5) as (Net & NG & CG & _ & _ & FD & FZ & FS & FW & FP & FA & FT).
    destruct (any_types v sa a K p R NE H) as (_ & _ & _ & _ & Da).
    assert (Nh := same_network K g3 h Net Sw).
    destruct (mem Source (nodes h') && mem Sink (nodes h')) eqn:Est.
    2:{ apply cspy_nothing in Hs; [rewrite Hs; exact Us|]. intros m ref e thr. destruct (alg m ref e thr) as [(q, x)|] eqn:El; [|reflexivity].
        exfalso. destruct (Sl _ _ _ _ _ _ El) as (Rf & _).
        destruct (walk_ends_in _ _ _ _ (part_wf _ _ Pt) (rf_walk _ _ _ _ Rf)) as (Y1 & Y2); [discriminate|].
        rewrite (proj2 (mem_In _ _) Y1), (proj2 (mem_In _ _) Y2) in Est. discriminate. }
    apply andb_true_iff in Est. destruct Est as (S' & T'). apply mem_In in S', T'.
    assert (Nh' := part_network K _ _ Nh Pt S' T').
    apply (cspy_added h h' K) in Hs; [|exact Nh'|exact Hk|exact Sl|exact (net_wf _ _ Nh)].
    destruct Hs as [->|(m & q & c & Hm & Rf & Fc & ->)]; [exact Us|].
    intros c' Hc'. apply in_app_or in Hc'. destruct Hc' as [Hc'|[<-|[]]]; [exact (Us _ Hc')|].
    destruct (no_repeat q) eqn:Eq.
    2:{ right. exists (S (List.length p1)). apply (fc_nonelem _ _ _ _ _ Fc). intro Y. pose proof (proj2 (CspyProofs.no_repeat_NoDup q) Y). congruence. }
    apply no_repeat_NoDup in Eq. destruct (fc_elem _ _ _ _ _ Fc Eq) as (_ & _ & cs & -> & Sh & Al & Ic). left. exists cs.
    destruct Ic as [I1 I2 I3 I4].
    assert (Arcs : forall e, In e (c_arcs c) <-> In e (arcs (trip cs))) by (intro e; split; apply Permutation_in; [exact I2|apply Permutation_sym; exact I2]).
    destruct (same_figures _ _ Sw) as (_ & F2).
    assert (A2 : forall x y, In (x, y) (arc_list h') -> In (x, y) (arc_list g3) /\ time_of h' x y = time_of g3 x y).
    { intros x y Hxy. destruct (part_arc_figures h' h x y Pt Hxy) as (B1 & B2 & _). destruct (F2 x y B1) as (B4 & B5 & _). rewrite B2, B5. auto. }
    assert (DD : forall u, In u (nodes h') -> nd h' u = nd g3 u /\ In u (nodes g3)).
    { intros u Hu. apply node_data_In in Hu. destruct Hu as (x & Hx). assert (Hg : node_data g3 u = Some x).
      { apply (part_nodes _ _ Pt) in Hx. destruct Sw as (E1 & _). unfold node_data in *. rewrite E1 in Hx. exact Hx. }
      split; [unfold nd; rewrite Hx, Hg; reflexivity|apply node_data_In; eauto]. }
    destruct Sh as (cs' & Ec & Nd & Cu). assert (cs' = cs) by (unfold trip in Ec; injection Ec as Ec; apply app_inv_tail in Ec; congruence). subst cs'.
    assert (Sh : route_shape (trip cs)) by (exists cs; auto).
    assert (Ne0 : cs = [] \/ cs <> []) by (destruct cs; [left; reflexivity|right; discriminate]). destruct Ne0 as [E0|Ne].
    { constructor; auto.
      - intros x y Hxy. apply A2. apply Al. exact Hxy.
      - right. exact (fc_path _ _ _ _ _ Fc).
      - rewrite I4. split; [intro Z; apply BZ in Z; destruct Z; congruence|]. split; [congruence|]. intros _. exact Hk.
      - intros _. rewrite I3, I4. apply (part_cost h h'); assumption. }
    assert (Nn : forall u, In u (trip cs) -> In u (nodes h')) by (intros u Hu; eapply along_nodes; [exact (part_wf _ _ Pt)|exact Sh|exact Al|exact Hu]).
    assert (CU : forall u, In u cs -> In u (custs G)).
    { intros u Hu. rewrite <- CG. apply in_custs. split; [apply DD, Nn; right; apply in_or_app; left; exact Hu|exact (Cu u Hu)]. }
    assert (Np : pd = false).
    { destruct pd eqn:Epd; [|reflexivity]. exfalso. unfold limits in Hm. cbn [o_pickup_delivery options_of] in Hm.
      repeat (apply bind_ok in Hm; let x := fresh in let y := fresh in destruct Hm as (x & y & Hm)).
      match goal with Z : raise_if _ IndexError = Ok _ |- _ => apply raise_if_ok in Z; cbn in Z; congruence end. }
    assert (ER : elementary_route h' cs) by (constructor; auto).
    assert (Dr : drivable h' o caps k (pr_num_stops p) dur cs).
    { assert (DSk : demand_of h' Sink == 0).
      { unfold demand_of. destruct (DD Sink T') as (-> & _). fold (demand_of g3 Sink). apply FZ; [reflexivity|exact DT]. }
      destruct (w || pd || both) eqn:Ecu.
      - assert (Cst : o_time_windows o = true \/ o_distribution_collection o = true \/ o_pickup_delivery o = true).
        { cbn. rewrite !orb_true_iff in Ecu. tauto. }
        destruct (read_custom h' K o k caps (pr_num_stops p) dur m Nh' Hm DSk cs Cst Rf) as (L1 & L2 & L3 & L4 & L5).
        constructor; auto.
        + intro Hw. apply L4; auto. cbn in Hw. destruct (LW EC Hw) as (W1 & W2).
          assert (Na : arc_list g3 <> []).
          { destruct cs as [|u l]; [congruence|]. destruct (A2 Source u (Al Source u (or_introl eq_refl))) as (Z & _). intro Z'. rewrite Z' in Z. destruct Z. }
          destruct (any_windows v sa a K p R NE H E5 Hw Na) as (X1 & X2 & X3).
          assert (SF : lower_of h' Source = lower_of g3 Source /\ upper_of h' Source = upper_of g3 Source /\ service_of h' Source = service_of g3 Source).
          { unfold lower_of, upper_of, service_of. destruct (DD Source S') as (-> & _). auto. }
          destruct SF as (SF1 & SF2 & SF3). unfold depot_ready. rewrite SF1, SF2, SF3. split.
          * rewrite X1, X2. unfold user_upper in W1 |- *. destruct (node_data G Source); [cbn [node_eqb andb] in *|]; exact W1.
          * intros x Hx Hs. rewrite X1. destruct W2 as [W2|W2]; [left; exact W2|right].
            destruct (FS Source) as (-> & _); [rewrite <- NG; apply (net_source _ _ Net)|].
            destruct (A2 _ _ Hx) as (Hx' & ->). rewrite (FT _ _ Hx').
            assert (Xn : In x (nodes h')) by (destruct (net_wf _ _ Nh') as [_ _ Z]; apply Z in Hx; tauto).
            assert (Xc : In x (custs G)).
            { rewrite <- CG. apply in_custs. split; [apply DD; exact Xn|]. split; [|exact Hs]. intros ->. exact (net_no_in _ _ Net _ Hx'). }
            assert (LX : lower_of h' x = lower_of g3 x) by (unfold lower_of; destruct (DD x Xn) as (-> & _); reflexivity).
            rewrite LX. pose proof (X3 x Xc). lra.
        + cbn. rewrite Np. discriminate.
      - rewrite !orb_false_iff in Ecu. destruct Ecu as ((C1 & C2) & C3).
        destruct (read_default h' K o k caps (pr_num_stops p) dur m Nh' Hm cs C1 C3 C2 Rf) as (L1 & L2 & L3).
        constructor; auto; try (cbn; congruence).
        intros D HD HD0. specialize (L3 D HD HD0).
        assert (TL : time_limit UA D).
        { rewrite Da in HD. split; [|exact HD0]. destruct (a_duration UA) as [|[z|q]|l]; cbn in HD; try discriminate; injection HD as <-; [reflexivity|congruence]. }
        rewrite (node_sum_ext _ (fun _ => 0)).
        + assert (Z : forall l : list node, node_sum (fun _ => 0) l == 0) by (clear; unfold node_sum; induction l as [|x l IH]; [reflexivity|cbn [map]; rewrite Qsum_cons, IH; lra]).
          rewrite Z. lra.
        + intros u Hu. assert (Hn : In u (nodes h')) by (apply Nn; destruct Hu as [<-|Hu]; [left; reflexivity|right; apply in_or_app; left; exact Hu]).
          destruct (DD u Hn) as (Ed & Hg). unfold service_of. rewrite Ed. fold (service_of g3 u). rewrite NG in Hg. destruct (FS u Hg) as (-> & _).
          apply (LD EC eq_refl D TL). }
    destruct (drivable_respects h h' k cs Sw Pt Hk ltac:(congruence) Dr) as (Q1 & Q2 & Q3).
    constructor; auto.
    - right. exact (fc_path _ _ _ _ _ Fc).
    - rewrite I4. exact Q3.
    - intros _. rewrite I3, I4. apply (part_cost h h'); assumption.
  Qed.

  (** the columns of the pricing problem *)
  Lemma priced_usable rs pool : initialize o (a_mixed_fleet a) caps dur (pr_num_stops p) (x_perms X) ini g3 = Ok (rs, pool) ->
    forall p1 p2, (forall c, In c p1 -> USE c) -> priced (x_env X) (cg_of X v sa a K p (covered rs)) g3 p1 p2 -> forall c, In c p2 -> USE c.
  Proof.
    intros I p1 p2 Us Pr. destruct (IS rs pool I) as (_ & Keys). set (C := cg_of X v sa a K p (covered rs)) in *.
    destruct (any_prepared v sa a K p R NE H E5) as (Net & NG & CG & _ & _ & FD & FZ & FS & _ & FP & FA & FT).
    destruct Pr as [D k route s n h hr more Hk Ha Hg Hs|D k h n more Hk Hga Ha Hs].
    - cbv zeta in Hs. pose proof (strip_same _ _ (eq_sym (add_strip _ _ _ _ _ Ha))) as Sw.
      assert (Nh := same_network K g3 h Net Sw). assert (Pt := pricing_graph_part _ _ _ _ _ _ (net_wf _ _ Nh) Hg).
      change (cg_types C) with K in Hk. change (cg_cspy C) with (sa_cspy sa) in Hs. pose proof labelled_usable as LU. destruct (sa_cspy sa) eqn:Ecs.
      { apply (LU h (fst hr) k (snd hr) (e_label (x_env X) (S (S n)) (cspy_limit (time_remaining C false (e_clock (x_env X) (S n)))) (fst hr)) (cg_keys C) (cg_elementary C) p1 p2 more); auto. }
      destruct (lp_solve_inv _ _ _ _ _ _ _ _ _ _ _ _ _ _ Hs) as [Q|(pr & _ & F & _)]; [injection Q as -> _; exact Us|].
      destruct (formulate_inv _ _ _ _ _ _ _ _ F) as (S' & T' & lds & rq & sd & _ & Rq & _).
      assert (Nh' := part_network K _ _ Nh Pt S' T').
      assert (Cap : pd = true -> exists l c, caps = Some l /\ nth_error l k = Some c).
      { intro Hp. cbn [C cg_of cg_options o_pickup_delivery options_of cg_caps] in Rq. change (o_pickup_delivery (cg_options C)) with pd in Rq. rewrite Hp in Rq.
        apply bind_ok in Rq. destruct Rq as (r0 & _ & Rq). apply bind_ok in Rq. destruct Rq as (M & Rq & _). unfold capacity_at in Rq.
        change (cg_caps C) with caps in Rq. destruct caps as [l|]; [|discriminate]. destruct (nth_error l k) as [x|] eqn:Ex; [|discriminate]. eauto. }
      assert (CUh : forall u, In u (custs (fst hr)) -> In u (custs G)).
      { intros u Hu. apply (part_custs _ _ _ Pt) in Hu. rewrite <- CG. unfold custs, nodes in *. destruct Sw as (E1 & _). rewrite E1 in Hu. exact Hu. }
      apply (lp_solve_gen _ K) in Hs; auto.
      + destruct Hs as [(_ & ->)|(_ & _ & cs & c & -> & _ & Pa & Ic & Dr & _)]; [exact Us|].
        intros c' Hc'. apply in_app_or in Hc'. destruct Hc' as [Hc'|[<-|[]]]; [exact (Us _ Hc')|]. left. exists cs.
        destruct (drivable_respects h (fst hr) k cs Sw Pt Hk Cap Dr) as (Q1 & Q2 & Q3). destruct Ic as [I1 I2 I3 I4].
        constructor; auto.
        * intro e. split; apply Permutation_in; [exact I2|apply Permutation_sym; exact I2].
        * rewrite I4. exact Q3.
        * intros _. rewrite I3, I4. destruct Dr as [[_ _ _ Al1] _ _ _ _ _ _]. apply (part_cost h (fst hr)); assumption.
      + intros pr' F' an HF Hv. destruct (e_negative (x_env X) (S (S n)) h || pd) eqn:En.
        * apply (elementary_solution (fst hr) K k caps o (pr_num_stops p) dur (e_negative (x_env X) (S (S n)) h) pr' (a_value an)); auto.
        * apply orb_false_iff in En. destruct En as (En & Ep). rewrite En in F'.
          destruct (S3 eq_refl Ep) as [S3'|(Ew & Tt)].
          2: { apply (timed_solution (fst hr) K k caps o (pr_num_stops p) dur false pr' (a_value an)); auto.
            intros u z Hu Hz Huz. destruct (part_arc_figures _ _ _ _ Pt Huz) as (B1 & -> & _).
            destruct (same_figures _ _ Sw) as (_ & F2). destruct (F2 u z B1) as (B4 & -> & _). rewrite (FT u z B4).
            assert (Es : service_of (fst hr) u = user_service G u).
            { pose proof (CUh u Hu) as Gu. apply in_custs in Gu, Hu. destruct Hu as (Hu & _). destruct (FS u (proj1 Gu)) as (<- & _).
              apply node_data_In in Hu. destruct Hu as (x & Hx). unfold service_of, nd. rewrite Hx. apply (part_nodes _ _ Pt) in Hx.
              destruct Sw as (E1 & _). unfold node_data in *. rewrite E1 in Hx. rewrite Hx. reflexivity. }
            rewrite Es. apply Tt; [exact (CUh u Hu)|exact (CUh z Hz)|]. destruct (FA u z B4) as [Q|Q]; [exact Q|].
            injection Q as -> ->. apply in_custs in Hu. tauto. }
          destruct (S3' (S (S n)) (time_remaining C false (e_clock (x_env X) (S n))) h (fst hr) k _ _ _ _ pr' Pt En F') as (cs & Rr & A).
          { exact HF. }
          { rewrite (formulate_obj _ _ _ _ _ _ _ _ F'). exact Hv. }
          exists cs. split; [exact Rr|]. apply iff_chosen; try apply Rr; [exact (net_wf _ _ Nh')|exact A].
      + intros Hp _ u d Hd. assert (Hu : user_pair G u d).
        { apply FP. destruct Hd as (x & Hx & Hq). exists x. split; [|exact Hq]. apply (part_nodes _ _ Pt) in Hx. destruct Sw as (E1 & _). unfold node_data in *. rewrite E1 in Hx. exact Hx. }
        destruct (pp_custs _ (PP Hp) u d Hu) as (I1 & I2). apply in_custs in I1, I2.
        split; [intros ->; exact (pp_roles _ (PP Hp) d d d Hu Hu)|]. tauto.
    - destruct Hga as (G1 & G2 & G3 & G4 & _). change (cg_greedy C) with (sa_greedy sa) in G1. change (o_time_windows (cg_options C)) with w in G2.
      change (o_distribution_collection (cg_options C)) with both in G4. change (o_pickup_delivery (cg_options C)) with pd in G3.
      assert (NT : forall D0, ~ time_limit UA D0) by (destruct Gr as [Q|[Q|Q]]; [congruence|rewrite G2, G3, G4 in Q; discriminate|exact Q]).
      pose proof (strip_same _ _ (eq_sym (add_strip _ _ _ _ _ Ha))) as Sw. change (cg_types C) with K in Hk.
      assert (Nh := same_network K g3 h Net Sw). destruct (same_figures _ _ Sw) as (F1 & _). destruct (any_types v sa a K p R NE H) as (_ & _ & _ & _ & Da).
      destruct (greedy_columns h K (cg_caps C) (cg_stops C) (cg_duration C) k Nh) with (keys := cg_keys C) (pool := p1) (n := 20%nat) (rnd := e_random (x_env X) n)
        as (new & more' & Hn & _ & Hc).
      + lia.
      + intros l El _. destruct (cap_there k l Hk El) as (c & Q). apply nth_error_Some. congruence.
      + destruct (F1 Source) as (-> & _). apply FZ; [reflexivity|exact DS].
      + destruct (F1 Sink) as (-> & _). apply FZ; [reflexivity|exact DT].
      + intros u Hu. apply Keys. rewrite <- CG. unfold custs, nodes in *. destruct Sw as (E1 & _). rewrite E1 in Hu. exact Hu.
      + rewrite Hs in Hn. injection Hn as -> _. intros c Hc'.
        destruct (greedy_path _ _ _ _ _ _ _ _ _ _ _ Hs c Hc') as [Hc0|Pa]; [exact (Us _ Hc0)|].
        apply in_app_or in Hc'. destruct Hc' as [Hc'|Hc']; [exact (Us _ Hc')|].
        destruct (Hc c Hc') as (cs & Ic & Sh & Al & _ & Lo & St & _). left. exists cs.
        assert (Pt : part_of h h) by (constructor; auto; apply (net_wf _ _ Nh)).
        assert (Ne0 : cs = [] \/ cs <> []) by (destruct cs; [left; reflexivity|right; discriminate]). destruct Ne0 as [E0|Ne].
        { destruct Ic as [I1 I2 I3 I4]. destruct (same_figures _ _ Sw) as (_ & F2). constructor; auto.
          - intros x y Hxy. apply F2. apply Al. exact Hxy.
          - intro e. split; apply Permutation_in; [exact I2|apply Permutation_sym; exact I2].
          - rewrite I4. split; [|split; [congruence|intros _; exact Hk]]. intro Z. exfalso. apply BZ in Z. rewrite G1, G2, G3, G4 in Z. destruct Z as (_ & [Z|Z]); discriminate.
          - intros _. rewrite I3, I4. apply (part_cost h h); assumption. }
        destruct (drivable_respects h h k cs Sw Pt Hk ltac:(congruence)) as (Q1 & Q2 & Q3).
        { destruct (route_shape_trip cs Sh) as (Nd & Cu). constructor; try (cbn; congruence).
          - constructor; auto.
          - intros b Hb Hb0. apply St; [exact Hb|]. pose proof (any_stops_nonneg v sa a K p R NE H b E5 DS DT ND NC Hb). lia.
          - exact Lo.
          - intros D' HD HD0. exfalso. apply (NT D'). rewrite Da in HD. split; [|exact HD0].
            destruct (a_duration UA) as [|[z|q]|l]; cbn in HD; try discriminate; injection HD as <-; [reflexivity|congruence]. }
        destruct Ic as [I1 I2 I3 I4]. constructor; auto.
        * intro e. split; apply Permutation_in; [exact I2|apply Permutation_sym; exact I2].
        * rewrite I4. exact Q3.
        * intros _. rewrite I3, I4. apply (part_cost h h); assumption.
  Qed.
End Pool.

(** The routes of a problem that does not start from the heuristics. *)
Section Start.
  Variables (X : outside) (sa : solve_args) (v : vrp) (a : rargs) (K : nat) (p : prepared).
  Local Notation G := (v_graph v).
  Local Notation g3 := (pr_graph p).
  Local Notation o := (options_of v sa).
  Local Notation caps := (caps_arg (a_load_capacity a)).
  Local Notation dur := (int_arg (a_duration a)).
  Local Notation ini := (nonempty_or (sa_initial sa) (v_initial v)).
  Local Notation w := (v_windows v).
  Local Notation pd := (v_pickup v).
  Local Notation both := (v_both v).
  Local Notation UA := (v_args v).
  Hypothesis R : ready G.
  Hypothesis NE : a_mixed_fleet UA = false -> no_empty_costs G.
  Hypothesis H : prepare v sa = Ok (a, K, p).
  Hypothesis E5 : nonempty_or (sa_pre sa) (v_pre v) = [].
  Hypothesis Odd : ini = [] -> w || pd || both || a_mixed_fleet UA || truthy (v_periodic v) = true.
  Hypothesis GV : forall r, In r ini -> route_shape r /\ stops r <> [].
  Hypothesis PP : pd = true -> proper_pairs G.
  Hypothesis IR : forall r k, first_route ini G pd r -> first_carrier UA (node_sum (user_demand G) (stops r)) k ->
    (forall c, capacity_of UA k c -> node_sum (user_demand G) (stops r) <= inject_Z c) ->
    (forall n, stop_limit UA n -> (0 < n)%Z) -> (forall l n, a_load_capacity UA = PList l -> In n l -> 0 < num_val n) -> respects G UA w pd both k r.

  Lemma routes_of rs pool : initialize o (a_mixed_fleet a) caps dur (pr_num_stops p) (x_perms X) ini g3 = Ok (rs, pool) ->
    (forall r, In r rs <-> first_route ini G pd r) /\ convert_from g3 caps 1 rs = Ok pool.
  Proof.
    intro I. destruct (any_prepared v sa a K p R NE H E5) as (Net & NG & CG & _ & _ & _ & _ & _ & _ & FP & _).
    destruct (any_types v sa a K p R NE H) as (_ & _ & Mx & _).
    unfold initialize in I. apply bind_ok in I. destruct I as (rs' & I1 & I2). apply bind_ok in I2. destruct I2 as (cs & I2 & I3).
    injection I3 as <- <-. split; [|exact I2]. unfold first_route. clear IR GV.
    destruct ini as [|r0 ri] eqn:EI; cbn [nonempty] in I1.
    2:{ apply bind_ok in I1. destruct I1 as (u & _ & I1). injection I1 as <-. intro r. tauto. }
    specialize (Odd eq_refl). unfold get_initial_solution in I1.
    assert (Pl : plain o (a_mixed_fleet a) = false).
    { unfold plain. cbn [o_time_windows o_pickup_delivery o_distribution_collection o_periodic options_of]. rewrite Mx. clear - Odd.
      destruct w, pd, both, (a_mixed_fleet UA), (truthy (v_periodic v)); cbn in *; try reflexivity; discriminate. }
    rewrite Pl in I1. cbn [o_pickup_delivery o_time_windows options_of] in I1. unfold alone. destruct pd.
    - apply pickup_routes_ok in I1. destruct I1 as (-> & _). intro r. rewrite in_flat_map. split.
      + intros ((u & x) & Hx & Hr). cbn [fst snd] in Hr. destruct (request x) as [d|] eqn:Eq; [|destruct Hr]. destruct Hr as [<-|[]]. exists u, d. split; [|reflexivity].
        apply FP. exists x. split; [|exact Eq]. apply gnodes_data; [exact (net_wf _ _ Net)|exact Hx].
      + intros (u & d & Hp & ->). apply FP in Hp. destruct Hp as (x & Hx & Hq). exists (u, x). split; [apply assoc_node_In; exact Hx|]. cbn [fst snd]. rewrite Hq. left. reflexivity.
    - injection I1 as <-. intro r. rewrite round_trips_map, in_map_iff, CG. split; intros (u & Q1 & Q2); exists u; auto.
  Qed.

  Lemma routes_shape rs pool : initialize o (a_mixed_fleet a) caps dur (pr_num_stops p) (x_perms X) ini g3 = Ok (rs, pool) ->
    forall r, In r rs -> exists cs, r = trip cs /\ cs <> [] /\ route_shape (trip cs) /\ (2 <= List.length r)%nat /\ forall u, In u cs -> In u (custs G).
  Proof.
    intro I. destruct (routes_of rs pool I) as (Al & Cv).
    destruct (any_prepared v sa a K p R NE H E5) as (Net & NG & CG & _ & _ & FD & FZ & _).
    intros r Hr. assert (Ar := convert_along _ _ _ _ _ Cv r Hr). apply Al in Hr. unfold first_route in Hr. assert (Hr' : alone G pd r \/ In r ini) by (destruct ini; [left|right]; exact Hr).
      clear Hr. destruct Hr' as [Hr|Hr].
      2:{ destruct (GV r Hr) as (Sh & Ne). destruct (route_shape_stops r Sh) as (cs & Er & Es). exists cs. rewrite Er, Es in *. fold (trip cs) in *. split; [reflexivity|]. split; [exact Ne|].
          split; [exact Sh|]. split; [cbn; rewrite app_length; cbn; lia|]. intros u Hu. rewrite <- CG. destruct Sh as (cs' & Ec & _ & Cu). assert (cs' = cs) by (unfold trip in Ec; injection Ec as Ec; apply app_inv_tail in Ec; congruence). subst cs'.
          apply in_custs. split; [|exact (Cu u Hu)]. eapply along_nodes; [exact (net_wf _ _ Net)|apply (GV _ Hr)|exact Ar|right; apply in_or_app; left; exact Hu]. }
      unfold alone in Hr. destruct pd eqn:Epd.
      - destruct Hr as (u & d & Hp & ->). destruct (pp_custs _ (PP eq_refl) u d Hp) as (I1 & I2). pose proof I1 as J1. pose proof I2 as J2. apply in_custs in I1, I2.
        exists [u; d]. split; [reflexivity|]. split; [discriminate|]. split; [|split; [cbn; lia|intros x [<-|[<-|[]]]; assumption]].
        exists [u; d]. split; [reflexivity|]. split.
        + constructor; [intros [Z|[]]; subst d; exact (pp_roles _ (PP eq_refl) u u u Hp Hp)|]. constructor; [intros []|constructor].
        + intros x [<-|[<-|[]]]; tauto.
      - destruct Hr as (u & I1 & ->). pose proof I1 as J1. apply in_custs in I1. exists [u]. split; [reflexivity|]. split; [discriminate|]. split; [|split; [cbn; lia|intros x [<-|[]]; exact J1]].
        exists [u]. split; [reflexivity|]. split; [constructor; [intros []|constructor]|]. intros x [<-|[]]. tauto.
  Qed.

  Lemma routes_few rs pool : initialize o (a_mixed_fleet a) caps dur (pr_num_stops p) (x_perms X) ini g3 = Ok (rs, pool) ->
    few_first ini G -> (List.length rs <= 74)%nat.
  Proof.
    intro I. destruct (any_prepared v sa a K p R NE H E5) as (Net & NG & CG & _).
    destruct (any_types v sa a K p R NE H) as (_ & _ & Mx & _).
    unfold initialize in I. apply bind_ok in I. destruct I as (rs' & I1 & I2). apply bind_ok in I2. destruct I2 as (cs & I2 & I3).
    injection I3 as <- <-. unfold few_first. clear IR GV.
    destruct ini as [|r0 ri] eqn:EI; cbn [nonempty] in I1.
    2:{ apply bind_ok in I1. destruct I1 as (u & _ & I1). injection I1 as <-. auto. }
    specialize (Odd eq_refl). unfold get_initial_solution in I1.
    assert (Pl : plain o (a_mixed_fleet a) = false).
    { unfold plain. cbn [o_time_windows o_pickup_delivery o_distribution_collection o_periodic options_of]. rewrite Mx. clear - Odd.
      destruct w, pd, both, (a_mixed_fleet UA), (truthy (v_periodic v)); cbn in *; try reflexivity; discriminate. }
    rewrite Pl in I1. cbn [o_pickup_delivery o_time_windows options_of] in I1. rewrite <- NG. unfold nodes. intro L. rewrite map_length in L. destruct pd.
    - apply pickup_routes_ok in I1. destruct I1 as (-> & _). eapply Nat.le_trans; [|exact L]. clear.
      induction (gnodes g3) as [|(u & x) l IH]; [cbn; lia|]. cbn [flat_map snd]. rewrite app_length. cbn [List.length]. destruct (request x); cbn [List.length]; lia.
    - injection I1 as <-. rewrite round_trips_map, map_length. unfold custs, nodes. eapply Nat.le_trans; [|exact L]. rewrite <- (map_length fst (gnodes g3)). clear. induction (map fst (gnodes g3)) as [|x l IH]; [cbn; lia|]. cbn [filter]. destruct (is_cust x); cbn [List.length]; lia.
  Qed.

  Lemma routes_start rs pool : initialize o (a_mixed_fleet a) caps dur (pr_num_stops p) (x_perms X) ini g3 = Ok (rs, pool) -> forall busy, starts v busy rs.
  Proof.
    intros I busy. destruct (routes_of rs pool I) as (Al & _). destruct (any_prepared v sa a K p R NE H E5) as (Net & NG & CG & _). split.
    - intros r Hr. destruct (routes_shape rs pool I r Hr) as (cs & Er & Ne & Sh & _). exists cs. split; [exact Er|]. split; [intros _; exact Ne|]. split; [exact Sh|].
      intros _ k. apply IR. apply Al. exact Hr.
    - intros u Hu. unfold covered. rewrite in_flat_map.
      assert (Hi : ini = [] \/ ini <> []) by (destruct ini; [left; reflexivity|right; discriminate]). destruct Hi as [Hi|Hi].
      2:{ destruct (any_types v sa a K p R NE H) as (K1 & _).
          destruct (initialize_given g3 K o (a_mixed_fleet a) caps dur (pr_num_stops p) (x_perms X) ini Net K1 Hi) as (Er & Ex). pose proof (Er _ _ I) as E0.
          destruct (proj1 Ex (ex_intro _ _ I)) as (Y1 & Y2 & _). rewrite <- CG in Hu. destruct (Y2 u Hu) as (r & Hr & Hur). exists r. rewrite E0. split; [exact Hr|].
          destruct (Y1 r Hr) as (q & ->). unfold inner. cbn [tl]. rewrite removelast_last. apply in_custs in Hu. destruct Hur as [Z|Hur]; [destruct Hu as (_ & Hu & _); congruence|].
          apply in_app_or in Hur. destruct Hur as [Hur|[Z|[]]]; [exact Hur|destruct Hu as (_ & _ & Hu); congruence]. }
      rewrite Hi in Al. unfold first_route in Al. destruct pd eqn:Epd.
      + destruct (pp_all _ (PP eq_refl) u Hu) as (x & [Hx|Hx]); pose proof (proj2 (Al _) (ex_intro _ _ (ex_intro _ _ (conj Hx eq_refl)))) as Hr; eexists; split; try exact Hr; cbn; auto.
      + pose proof (proj2 (Al _) (ex_intro _ _ (conj Hu eq_refl))) as Hr. eexists. split; [exact Hr|]. cbn. auto.
  Qed.
End Start.
