(** Preassigned complete routes at the level of the user. *)
From Verif.Base Require Import Prelude Graph.
From Verif.Spec Require Import Routes Network Inputs Feasible Prep LinProg Results Plans Variants Locked.
From Verif.Model Require Import Args Reach Checks Preprocess ClarkeWright Greedy Initial Pricing
  GreedyPricing LPPricing Cspy Master Dive Hyper ColGen Post Schedule Solve.
From Verif.Proofs Require Import RouteLemmas ReachLemmas ChecksProofs FeasProofs PreLemmas LockProofs PresolveProofs PostProofs SolveProofs SolveUser SolveHeur PostEnd AnyProofs LockedProofs LockedSolve.

(* ------------------------------------------------------------------ *)
(** ** The constructor on what is left *)
Section Create.
  Variable L : list node.
  Hypothesis LS : ~ In Source L.
  Hypothesis LT : ~ In Sink L.

  Lemma has_arc_part (g : rgraph) u w : ~ In u L -> ~ In w L -> has_arc (remove_nodes L g) u w = has_arc g u w.
  Proof.
    intros Hu Hw. unfold has_arc. destruct (mem_arc (u, w) (arc_list g)) eqn:Em.
    - apply mem_arc_In. apply mem_arc_In in Em. apply in_arcs_remove_nodes. auto.
    - apply mem_arc_false. apply mem_arc_false in Em. rewrite in_arcs_remove_nodes. tauto.
  Qed.
  Lemma add_part (g : rgraph) u w (e : eraw) : remove_nodes L (add_new_arc u w e g) = if mem u L || mem w L then remove_nodes L g else add_new_arc u w e (remove_nodes L g).
  Proof.
    unfold remove_nodes, add_new_arc. cbn [gnodes gedges]. rewrite filter_app. cbn [filter fst snd]. destruct (mem u L), (mem w L); cbn [negb andb orb]; rewrite ?app_nil_r; reflexivity.
  Qed.

  Lemma complete_part (g : rgraph) v : remove_nodes L (complete_node g v) = if mem v L then remove_nodes L g else complete_node (remove_nodes L g) v.
  Proof.
    assert (S0 := LS). assert (T0 := LT). apply mem_false in S0, T0. rewrite !complete_node_eq. destruct (is_depot v); [destruct (mem v L); reflexivity|]. cbv zeta. destruct (mem v L) eqn:Ev.
    - destruct (has_arc g Source v); [destruct (has_arc g v Sink); rewrite ?add_part, ?Ev; reflexivity|].
      destruct (has_arc _ v Sink); rewrite ?add_part, ?Ev, ?orb_true_r; cbn [orb]; rewrite ?add_part, ?Ev, ?orb_true_r; reflexivity.
    - assert (Hv : ~ In v L) by (apply mem_false; exact Ev). rewrite (has_arc_part g Source v LS Hv). cbv zeta.
      destruct (has_arc g Source v).
      + rewrite (has_arc_part g v Sink Hv LT). destruct (has_arc g v Sink); [reflexivity|]. rewrite add_part, Ev, T0. reflexivity.
      + assert (Ea : remove_nodes L (add_new_arc Source v big_arc g) = add_new_arc Source v big_arc (remove_nodes L g)) by (rewrite add_part, S0, Ev; reflexivity).
        rewrite <- Ea, (has_arc_part _ v Sink Hv LT). destruct (has_arc (add_new_arc Source v big_arc g) v Sink); [reflexivity|]. rewrite add_part, Ev, T0. reflexivity.
  Qed.

  Lemma completed_part_fold l : forall g : rgraph, remove_nodes L (fold_left complete_node l g) = fold_left complete_node (filter (fun v => negb (mem v L)) l) (remove_nodes L g).
  Proof.
    induction l as [|v l IH]; intro g; [reflexivity|]. cbn [fold_left filter]. rewrite IH, complete_part. destruct (mem v L); reflexivity.
  Qed.
  Lemma completed_part (g : rgraph) : completed (others L g) = others L (completed g).
  Proof. unfold completed. change (others L g) with (remove_nodes L g). rewrite nodes_remove_nodes, <- completed_part_fold. reflexivity. Qed.
End Create.

Lemma complete_closing T (g : rgraph) v : complete_node (closing T g) v = closing T (complete_node g v).
Proof.
  assert (HA : forall u w, has_arc (closing T g) u w = has_arc g u w) by (intros; unfold has_arc; rewrite closing_arcs; reflexivity).
  assert (Ad : forall u w e g0, add_new_arc u w e (closing T g0) = closing T (add_new_arc u w e g0)) by (intros; destruct T; reflexivity).
  assert (HA2 : forall g0 u w, has_arc (closing T g0) u w = has_arc g0 u w) by (intros; unfold has_arc; rewrite closing_arcs; reflexivity).
  rewrite !complete_node_eq. destruct (is_depot v); [reflexivity|]. rewrite HA. cbv zeta. destruct (has_arc g Source v); rewrite ?Ad, HA2; destruct (has_arc _ v Sink); rewrite ?Ad; reflexivity.
Qed.
Lemma completed_closing T (g : rgraph) : completed (closing T g) = closing T (completed g).
Proof.
  unfold completed. rewrite closing_nodes. generalize (nodes g). intro l. revert g. induction l as [|v l IH]; intro g; [reflexivity|].
  cbn [fold_left]. rewrite complete_closing. apply IH.
Qed.

Lemma wf_closing T g : wf g -> wf (closing T g).
Proof. intro W. apply (wf_same g); [apply closing_nodes|apply closing_arcs|exact W]. Qed.

Lemma part_accepted L T g : ~ In Source L -> ~ In Sink L -> wf g -> accepted_graph g -> (exists u, In u (custs g) /\ ~ In u L) ->
  accepted_graph (closing T (others L g)).
Proof.
  intros LS LT W [S Tk NI NO Co Cs] (u & Hu & Hl). change (others L g) with (remove_nodes L g). constructor; rewrite ?closing_nodes, ?closing_arcs.
  - apply in_nodes_remove_nodes. auto.
  - apply in_nodes_remove_nodes. auto.
  - intros x Hx. apply in_arcs_remove_nodes in Hx. apply (NI x). tauto.
  - intros x Hx. apply in_arcs_remove_nodes in Hx. apply (NO x). tauto.
  - exists [Source; u; Sink]. apply in_custs in Hu. assert (Hc : In u (custs (closing T (remove_nodes L g)))).
    { apply in_custs. rewrite closing_nodes. split; [apply in_nodes_remove_nodes; tauto|tauto]. }
    destruct (in_depot_arcs _ _ Hc) as (D1 & D2). repeat econstructor; apply in_or_app; right; assumption.
  - intros x y e He. rewrite closing_arc, arc_data_remove_nodes in He. destruct (mem x L || mem y L); [discriminate|]. exact (Cs x y e He).
Qed.

Lemma create_others L T g a w pd both drop all per span tabu v : ~ In Source L -> ~ In Sink L -> wf g -> (exists u, In u (custs g) /\ ~ In u L) ->
  create g a w pd both drop all per span tabu = Ok v ->
  create (closing T (others L g)) a w pd both drop all per span tabu = Ok (on_graph (closing T (others L (v_graph v))) v).
Proof.
  intros LS LT W Lf H. unfold create in *. apply bind_ok in H. destruct H as (g1 & H1 & H). injection H as <-.
  destruct (check_vrp_inv g g1 W H1) as (A & ->). assert (W1 : wf (closing T (others L g))) by (apply wf_closing, wf_remove_nodes; exact W).
  rewrite (check_vrp_complete _ W1 (part_accepted L T g LS LT W A Lf)). cbn [bind]. rewrite completed_closing, (completed_part L LS LT). reflexivity.
Qed.

(** the completed graph has the same times *)
Lemma clocked_completion g g' : wf g -> completion g g' -> clocked g -> clocked g'.
Proof.
  intros W C. pose proof C as (Cn & Ca). assert (ND : forall u, node_data g' u = node_data g u) by (intro u; unfold node_data; rewrite Cn; reflexivity).
  intros [(u & H1 & H2 & H3)|[H|(H1 & H2)]].
  - left. exists u. assert (Cu : custs g' = custs g) by (unfold custs, nodes; rewrite Cn; reflexivity). rewrite Cu, (completion_time g g' u Sink C), (completion_service g g' u C).
    unfold user_upper in *. rewrite ND. split; [exact H1|]. split; [apply (completion_arcs g g' C), in_or_app; left; exact H2|exact H3].
  - right. left. unfold user_upper in *. rewrite ND. exact H.
  - right. right. split; [intros u r Hr; rewrite ND in Hr; eauto|]. intros u w e He. rewrite Ca in He. destruct (arc_data g u w) as [e0|] eqn:E0; [injection He as <-; eauto|].
    destruct (mem_arc (u, w) (depot_arcs g)); [|discriminate]. injection He as <-. reflexivity.
Qed.

Lemma riders_custs pre : ~ In Source (riders pre) /\ ~ In Sink (riders pre).
Proof. split; intro H; unfold riders in H; apply in_flat_map in H; destruct H as (r & _ & H); unfold stops in H; apply filter_In in H; destruct H as (_ & H); discriminate. Qed.

(* ------------------------------------------------------------------ *)
(** ** What a locked route is said to cost *)
Section Value.
  Variables (v : vrp) (sa : solve_args) (a : rargs) (K : nat) (p : prepared).
  Hypothesis R : ready (v_graph v).
  Hypothesis NE : a_mixed_fleet (v_args v) = false -> no_empty_costs (v_graph v).
  Hypothesis Hp : prepare v sa = Ok (a, K, p).
  Hypothesis Mx : a_mixed_fleet (v_args v) = false.
  Local Notation G := (v_graph v).
  Local Notation h := (pr_copy p).
  Local Notation caps := (caps_arg (a_load_capacity a)).

  Lemma only_type : K = 1%nat.
  Proof. destruct (any_graph v sa a K p R NE Hp) as (g1 & _ & _ & _ & _ & _ & _ & _ & _ & _ & _ & _ & _ & _ & _ & _ & KO & _). exact (KO Mx). Qed.

  Lemma first_capacity c l : caps = Some (c :: l) -> capacity_of (v_args v) 0 c.
  Proof.
    intro E. destruct (any_caps v sa a K p R NE Hp) as (_ & _ & C3 & _). rewrite E in C3. destruct C3 as (_ & Pos & _).
    destruct (any_graph v sa a K p R NE Hp) as (g1 & _ & _ & _ & _ & _ & _ & _ & _ & _ & _ & _ & _ & _ & _ & _ & _ & (f & Ef & Lc & _) & Ck).
    rewrite Mx in Ef. unfold check_arguments in Ck. apply bind_ok in Ck. destruct Ck as (x1 & _ & Ck). apply bind_ok in Ck. destruct Ck as (x2 & C2 & _).
    apply capacity_check_ok in C2. rewrite Lc, Ef in *. unfold format_val, capacity_of in *. destruct (a_load_capacity (v_args v)) as [|n|ln].
    - discriminate.
    - destruct (py_truthy (PNum n)); [|discriminate]. injection E as <- <-. destruct C2 as [C2|(l' & C2 & C3)]; [discriminate|]. injection C2 as <-.
      destruct (C3 n (or_introl eq_refl)) as (z & -> & Hz). left. cbn. split; [reflexivity|]. split; [lia|reflexivity].
    - assert (E2 : Some (map int_of ln) = Some (c :: l)) by (destruct (py_truthy (PList ln)); exact E). destruct ln as [|n ln]; [discriminate|]. injection E2 as <- <-.
      right. exists (n :: ln). split; [reflexivity|]. assert (C2' : falsy (PList (n :: ln)) \/ pos_int_list (PList (n :: ln))) by (destruct (py_truthy (PList (n :: ln))); exact C2).
      destruct C2' as [C2'|(l' & C2' & C3)]; [discriminate|]. injection C2' as <-. destruct (C3 n (or_introl eq_refl)) as (z & -> & Hz). reflexivity.
  Qed.

  Variable r : list node.
  Hypothesis Sh : route_shape r.
  Hypothesis NS : stops r <> [].
  Hypothesis Al : along (arc_list G) r.
  Hypothesis Cheap : route_price G (v_args v) r < big_cost.
  Hypothesis D0 : 0 <= user_demand G Source /\ 0 <= user_demand G Sink.
  Hypothesis Cap : forall c, capacity_of (v_args v) 0 c -> node_sum (user_demand G) (stops r) <= inject_Z c.

  Lemma locked_known : knows K h r.
  Proof.
    destruct (any_network v sa a K p R NE Hp) as (Nh & Nn & Ah).
    assert (Al2 : along (arc_list h) r) by (intros u w Huw; apply Ah; left; apply Al; exact Huw).
    split; [intros u Hu; exact (along_nodes h r u (net_wf _ _ Nh) Sh Al2 Hu)|]. split; [exact Al2|]. intros u w e He. rewrite (net_costs _ _ Nh u w e He). lia.
  Qed.

  Lemma locked_price q : route_cost h 0 r = Ok q -> q == route_price G (v_args v) r.
  Proof.
    clear Cheap D0 Cap. intro Hq. rewrite (route_cost_ok h 0 r q Hq). destruct (route_shape_stops r Sh) as (cs & Er & Es). subst r. unfold route_price.
    apply (any_route_cost v sa a K p R NE Hp 0 cs); [rewrite only_type; lia|congruence|exact Sh|exact Al].
  Qed.

  Lemma locked_load q : route_load h r = Ok q -> q == node_sum (user_demand G) (stops r).
  Proof.
    intro Hq. rewrite (route_load_ok h r q Hq). destruct (any_figures v sa a K p R NE Hp) as (F1 & F2 & _). destruct (any_network v sa a K p R NE Hp) as (Nh & Nn & Ah).
    pose proof (locked_known) as (Kn & _). destruct (route_shape_stops r Sh) as (cs & Er & Es). rewrite Es. rewrite Er in *.
    unfold node_sum. cbn [map Qsum fold_right]. rewrite map_app. change (fold_right Qplus 0 (map (demand_of h) cs ++ map (demand_of h) [Sink])) with (Qsum (map (demand_of h) cs ++ map (demand_of h) [Sink])).
    rewrite Qsum_app. cbn [map]. unfold Qsum at 2. cbn [fold_right]. rewrite (F2 Source eq_refl (proj1 D0)), (F2 Sink eq_refl (proj2 D0)).
    assert (E : map (demand_of h) cs = map (user_demand G) cs).
    { apply map_ext_in. intros u Hu. apply F1. rewrite <- Es in Hu. unfold stops in Hu. apply filter_In in Hu. destruct Hu as (Hu & Hc).
      apply in_custs. rewrite <- Nn. split; [apply Kn; exact Hu|]. split; intros ->; discriminate. }
    rewrite E. change (0 + (Qsum (map (user_demand G) cs) + (0 + 0)) == Qsum (map (user_demand G) cs)). ring.
  Qed.

  Lemma locked_first : locked_type h caps K r = Ok (Some 0%nat).
  Proof.
    unfold locked_type. rewrite only_type. cbn [seq foldM]. destruct (route_cost_total K h r 0 locked_known) as (q & Hq); [rewrite only_type; lia|].
    destruct (route_load_total K h r locked_known) as (l & Hl). unfold type_step. rewrite Hq, Hl. cbn [bind fst snd].
    pose proof (locked_price q Hq) as P1. pose proof (locked_load l Hl) as P2.
    assert (Q1 : Qltb q big_cost = true) by (apply Qltb_lt; rewrite P1; exact Cheap). rewrite Q1.
    destruct caps as [[|c cl]|] eqn:Ec; [reflexivity| |reflexivity]. cbn [nth_error of_opt bind].
    assert (Q2 : Qle_bool l (inject_Z c) = true) by (apply Qle_bool_iff; rewrite P2; exact (Cap c (first_capacity c cl Ec))). rewrite Q2. reflexivity.
  Qed.
End Value.

(** all the locked routes get type 0, and their prices *)
Lemma locked_all h caps K : forall pre id rs ts, all_complete pre -> (forall r, In r pre -> locked_type h caps K r = Ok (Some 0%nat)) ->
  locked_lists h caps K id pre = Ok (rs, ts) -> ts = map (fun i => (i, 0%nat)) (seq id (List.length pre)).
Proof.
  induction pre as [|r pre IH]; intros id rs ts AC LT H; cbn in H.
  - injection H as <- <-. reflexivity.
  - destruct (AC r (or_introl eq_refl)) as (cs & Er). apply bind_ok in H. destruct H as (b & Hb & H).
    assert (b = true) by (apply (is_complete_spec r b Hb); eauto). subst b. rewrite (LT r (or_introl eq_refl)) in H. cbn [bind] in H.
    apply bind_ok in H. destruct H as ((rs2 & ts2) & H2 & H). injection H as <- <-. cbn [fst snd List.length seq map].
    rewrite (IH (S id) rs2 ts2 ltac:(intros x Hx; apply AC; right; exact Hx) ltac:(intros x Hx; apply LT; right; exact Hx) H2). reflexivity.
Qed.

Lemma mapM_app {A B} (f : A -> res B) l1 l2 x1 x2 : mapM f l1 = Ok x1 -> mapM f l2 = Ok x2 -> mapM f (l1 ++ l2) = Ok (x1 ++ x2).
Proof.
  revert x1. induction l1 as [|a l1 IH]; intros x1 H1 H2; cbn in *; [injection H1 as <-; exact H2|].
  apply bind_ok in H1. destruct H1 as (b & Hb & H1). apply bind_ok in H1. destruct H1 as (bs & Hbs & H1). injection H1 as <-. rewrite Hb. cbn [bind]. rewrite (IH bs Hbs H2). reflexivity.
Qed.
Lemma mapM_mono {A B} (f f' : A -> res B) l x : (forall a b, In a l -> f a = Ok b -> f' a = Ok b) -> mapM f l = Ok x -> mapM f' l = Ok x.
Proof.
  revert x. induction l as [|a l IH]; intros x M H; cbn in *; [exact H|]. apply bind_ok in H. destruct H as (b & Hb & H). apply bind_ok in H. destruct H as (bs & Hbs & H). injection H as <-.
  rewrite (M a b (or_introl eq_refl) Hb). cbn [bind]. rewrite (IH bs ltac:(intros; apply M; [right; assumption|assumption]) Hbs). reflexivity.
Qed.
Lemma route_cost_part L h k r q : route_cost (remove_nodes L h) k r = Ok q -> route_cost h k r = Ok q.
Proof.
  unfold route_cost. intro H. apply bind_ok in H. destruct H as (l & H & E). rewrite (mapM_mono (arc_cost (remove_nodes L h) k) (arc_cost h k) (arcs r) l); [exact E| |exact H].
  intros [u w] b _ Hb. unfold arc_cost, get_arc in *. rewrite arc_data_remove_nodes in Hb. cbn [fst snd] in *; destruct (mem u L || mem w L); [cbn in Hb; discriminate Hb|exact Hb].
Qed.

Lemma dget_zeros id n i : (id <= i < id + n)%nat -> dget Nat.eqb i (map (fun j => (j, 0%nat)) (seq id n)) = Some 0%nat.
Proof.
  revert id. induction n as [|n IH]; intros id H; [lia|]. cbn. destruct (id =? i)%nat eqn:E; [reflexivity|]. apply Nat.eqb_neq in E. apply IH. lia.
Qed.

Lemma types_prefix n (t ts : list (nat * nat)) i : (forall j k, In (j, k) ts -> (n < j)%nat) -> (i <= n)%nat -> dget Nat.eqb i (t ++ ts) = dget Nat.eqb i t.
Proof.
  intros Ht Hi. rewrite dget_app. destruct (dget Nat.eqb i t); [reflexivity|]. apply dget_none. intros x Hx. apply Ht in Hx. lia.
Qed.

(* ------------------------------------------------------------------ *)
(** ** What solve() leaves in the results *)
Lemma solve_span X fuel fuel2 sa v v' out : solve X fuel fuel2 sa v = Ok (v', out) ->
  sv_span (out_solved out) = v_span v /\
  (sa_heuristic sa = false -> map fst (sv_routes (out_solved out)) = seq 1 (List.length (sv_routes (out_solved out))) /\
     forall i k, In (i, k) (sv_types (out_solved out)) -> (i <= List.length (sv_routes (out_solved out)))%nat).
Proof.
  unfold solve. intro H. apply bind_ok in H. destruct H as (((a & K) & p) & Hp & H). destruct (sa_heuristic sa).
  - apply bind_ok in H. destruct H as (r & Hr & H). injection H as <- <-. split; [reflexivity|discriminate].
  - apply bind_ok in H. destruct H as (ic & _ & H). apply bind_ok in H. destruct H as (s & _ & H). apply bind_ok in H. destruct H as (e & _ & H).
    apply bind_ok in H. destruct H as ((((routes & types) & dr) & sch) & Hpp & H). injection H as <- <-. split; [reflexivity|]. intros _. cbn [out_solved sv_routes sv_types solved_of].
    unfold post_process in Hpp. apply bind_ok in Hpp. destruct Hpp as (dr' & _ & Hpp). apply bind_ok in Hpp. destruct Hpp as (nl & Hnl & Hpp). apply bind_ok in Hpp. destruct Hpp as (sc & _ & Hpp).
    injection Hpp as <- <- _ _. unfold node_lists in Hnl. apply bind_ok in Hnl. destruct Hnl as ((r1 & t1) & C1 & Hnl). apply bind_ok in Hnl. destruct Hnl as ((r2 & t2) & C2 & Hnl).
    injection Hnl as <-. cbn [fst snd]. destruct (column_lists_ok _ _ _ _ _ C1) as (A1 & A2 & A3). destruct (locked_lists_ok _ _ _ _ _ _ _ C2) as (ks & B1 & _ & _ & _ & B5).
    split; [rewrite map_app, A1, B1, app_length, seq_app; assert (El : List.length r1 = List.length (match snd e with Some t => snd (fst t) | None => v_chosen v end)) by (rewrite <- (map_length fst r1), A1, seq_length; reflexivity);
    rewrite El; reflexivity|].
    intros i k Hik. rewrite app_length, <- (map_length fst r1), A1, seq_length. apply in_app_or in Hik. destruct Hik as [Hik|Hik].
    + rewrite A3 in Hik. apply in_combine_l, in_seq in Hik. lia.
    + rewrite B5 in Hik. apply in_flat_map in Hik. destruct Hik as ((j & o) & J1 & J2). apply in_combine_l, in_seq in J1. cbn [fst snd] in J2. destruct o; [|destruct J2].
      destruct J2 as [J2|[]]. injection J2 as <- _. lia.
Qed.
Lemma heuristic_copy sa : sa_heuristic (without_pre sa) = sa_heuristic sa.
Proof. reflexivity. Qed.

(* ------------------------------------------------------------------ *)
(** ** The user's view *)
Definition left_price (g : rgraph) (a : rargs) (pre : list (list node)) : Q := Qsum (map (route_price g a) pre).

Section User.
  Variables (X : outside) (fuel fuel2 : nat) (sa : solve_args) (g : rgraph) (a : rargs) (w pd both : bool) (drop : option Q) (all : bool) (per : option Z) (span : bool)
    (tabu : list mvar) (v v' : vrp) (out : outcome).
  Local Notation pre := (sa_pre sa).
  Local Notation L := (riders (sa_pre sa)).
  Hypothesis W : wf g.
  Hypothesis NE : a_mixed_fleet a = false -> no_empty_costs g.
  Hypothesis AC : all_complete pre.
  Hypothesis Ck : clocked g.
  Hypothesis Left : exists u, In u (custs g) /\ ~ In u L.
  Hypothesis Dur : forall D, time_limit a D ->
    (forall u x, 0 <= user_time g u x) /\
    forall u, In u (custs g) -> ~ In u L -> user_time g Source u + user_time g u Sink <= inject_Z D.
  Hypothesis Req : pd = true -> exists u d, ~ In u L /\ user_pair g u d.
  Hypothesis Hc : create g a w pd both drop all per span tabu = Ok v.
  Hypothesis Hs : solve X fuel fuel2 sa v = Ok (v', out).

  Lemma locked_user : exists T v1 v2 out2,
    (~ user_upper g 0 Sink == 0 -> T = None) /\
    create (closing T (others L g)) a w pd both drop all per span tabu = Ok v1 /\
    solve X fuel fuel2 (without_pre sa) v1 = Ok (v2, out2) /\
    sv_routes (out_solved out) = sv_routes (out_solved out2) ++
      (if sa_heuristic sa then [] else combine (seq (S (List.length (sv_routes (out_solved out2)))) (List.length pre)) pre) /\
    (forall i, (i <= List.length (sv_routes (out_solved out2)))%nat ->
       dget Nat.eqb i (sv_types (out_solved out)) = dget Nat.eqb i (sv_types (out_solved out2))) /\
    sv_dropped (out_solved out) = sv_dropped (out_solved out2) /\
    out_value out = out_value out2 /\ (truthy per = false -> out_schedule out = out_schedule out2) /\
    (a_mixed_fleet a = false -> span = false -> sa_heuristic sa = false -> 0 <= user_demand g Source -> 0 <= user_demand g Sink ->
     (forall r, In r pre -> route_shape r /\ stops r <> [] /\ route_price g a r < big_cost /\
        forall c, capacity_of a 0 c -> node_sum (user_demand g) (stops r) <= inject_Z c) ->
     forall q2, best_value (out_solved out2) = Ok q2 ->
       exists q, best_value (out_solved out) = Ok q /\ q == q2 + left_price g a pre).
  Proof.
    pose proof Hc as Hc1. unfold create in Hc1. apply bind_ok in Hc1. destruct Hc1 as (g' & Hv & Ev). injection Ev as Ev.
    destruct (check_vrp_ready g g' W Hv) as (R & Co). pose proof Co as (Cn & Ca). destruct (check_vrp_inv g g' W Hv) as (Acc & _).
    assert (ND : forall u, node_data g' u = node_data g u) by (intro u; unfold node_data; rewrite Cn; reflexivity).
    assert (EG : v_graph v = g') by (rewrite <- Ev; reflexivity). assert (EM : a_mixed_fleet (v_args v) = a_mixed_fleet a) by (rewrite <- Ev; reflexivity).
    assert (ED : forall D, time_limit (v_args v) D -> time_limit a D) by (rewrite <- Ev; intros D HD; exact HD).
    assert (EPr : price_of (v_args v) 0 = price_of a 0) by (rewrite <- Ev; reflexivity).
    assert (EC : forall c, capacity_of (v_args v) 0 c -> capacity_of a 0 c) by (rewrite <- Ev; intros c HD; exact HD).
    assert (EP : v_pre v = []) by (rewrite <- Ev; reflexivity). assert (EPer : v_periodic v = per) by (rewrite <- Ev; reflexivity).
    assert (Epd : v_pickup v = pd) by (rewrite <- Ev; reflexivity). assert (Es : v_span v = span) by (rewrite <- Ev; reflexivity).
    assert (NE' : a_mixed_fleet (v_args v) = false -> no_empty_costs (v_graph v)) by (rewrite EM, EG; intro M; exact (completion_no_empty g g' Co (NE M))).
    assert (UU : user_upper g' 0 Sink = user_upper g 0 Sink) by (unfold user_upper; rewrite ND; reflexivity).
    assert (R' : ready (v_graph v)) by (rewrite EG; exact R).
    destruct (solve_locked X fuel fuel2 sa v v' out R' NE' EP) as (T & v2 & out2 & ts & Q1 & Q2 & Q3 & Q4 & Q5 & Q6 & Q7 & Q8 & Q9 & Q10 & Q11 & Q12 & (a1 & K & p & P1 & P2 & P3)).
    { exact AC. }
    { rewrite EG. exact (clocked_completion g g' W Co Ck). }
    { rewrite EG, (completion_custs g g' Co). exact Left. }
    { rewrite EG. intros D HD. destruct (Dur D (ED D HD)) as (D1 & D2). split; [intros u x; rewrite (completion_time g g' u x Co); apply D1|].
      intros u Hu Hl. rewrite (completion_custs g g' Co) in Hu. rewrite !(completion_time g g' _ _ Co). exact (D2 u Hu Hl). }
    { rewrite Epd, EG. intro E. destruct (Req E) as (u & d & U1 & U2). exists u, d. split; [exact U1|]. unfold user_pair in *. rewrite ?ND. exact U2. }
    { exact Hs. }
    destruct (riders_custs pre) as (LS & LT).
    pose proof (create_others L T g a w pd both drop all per span tabu v LS LT W Left Hc) as Hc2.
    exists T, (on_graph (closing T (others L (v_graph v))) v), v2, out2.
    split; [rewrite EG, UU in Q1; exact Q1|]. split; [exact Hc2|]. split; [exact Q2|]. split; [exact Q3|].
    split; [intros i Hi; rewrite Q4; exact (types_prefix _ _ _ i Q5 Hi)|]. split; [exact Q6|]. split; [exact Q7|]. split; [rewrite <- EPer; exact Q12|].
    intros Mx Sp Hh D1 D2 Hr q2 Hq2. destruct (P3 Hh) as (rb & Lk).
    rewrite <- EM in Mx.
    assert (Pr : forall r, route_price (v_graph v) (v_args v) r = route_price g a r).
    { intro r. unfold route_price. rewrite EPr. f_equal. unfold path_sum. f_equal. apply map_ext. intros x. rewrite EG. apply (completion_cost g g' 0 _ _ Co). }
    assert (UD : forall u, user_demand (v_graph v) u = user_demand g u) by (intro u; rewrite EG; apply (completion_demand g g' u Co)).
    assert (Dm : 0 <= user_demand (v_graph v) Source /\ 0 <= user_demand (v_graph v) Sink) by (rewrite !UD; auto).
    assert (Al : forall r, In r pre -> along (arc_list (v_graph v)) r).
    { intros r Hin. destruct (Q8 r Hin) as [Y|Y]; [exact Y|]. exfalso. destruct (Hr r Hin) as (_ & N0 & _). apply N0. rewrite Y. reflexivity. }
    assert (Ty : forall r, In r pre -> locked_type (pr_copy p) (caps_arg (a_load_capacity a1)) K r = Ok (Some 0%nat)).
    { intros r Hin. destruct (Hr r Hin) as (Sh & N0 & Ch & Cp). apply (locked_first v sa a1 K p R' NE' P1 Mx r Sh N0 (Al r Hin)).
      - rewrite Pr. exact Ch.
      - exact Dm.
      - intros c Hcap. specialize (Cp c (EC c Hcap)). unfold node_sum in *. rewrite (map_ext _ (user_demand g) UD). exact Cp. }
    pose proof (locked_all _ _ _ pre _ rb ts AC Ty Lk) as Et. set (n := List.length (sv_routes (out_solved out2))) in *.
    unfold best_value in Hq2. apply bind_ok in Hq2. destruct Hq2 as (c2 & Hc3 & Hq2).
    destruct (solve_span X fuel fuel2 sa v v' out Hs) as (Sp1 & _). rewrite Es, Sp in Sp1. assert (Sp2 : sv_span (out_solved out2) = false) by congruence.
    destruct (solve_span X fuel fuel2 _ _ v2 out2 Q2) as (_ & IdsT). destruct (IdsT Hh) as (Ids & IdT). fold n in Ids, IdT. clear IdsT.
    assert (IdR : forall i r, In (i, r) (sv_routes (out_solved out2)) -> (i <= n)%nat).
    { intros i r Hi. assert (Hm : In i (map fst (sv_routes (out_solved out2)))) by (apply in_map_iff; exists (i, r); auto). rewrite Ids in Hm. apply in_seq in Hm. lia. }
    assert (N2 : best_routes_cost (out_solved out2) = Ok c2) by exact Hc3. unfold best_routes_cost, per_route in Hc3.
    set (F := fun pr : nat * list node => let* x := (let* k := type_of (out_solved out) (fst pr) in route_cost (sv_copy (out_solved out)) k (snd pr)) in Ok (fst pr, x)).
    assert (M2 : mapM F (sv_routes (out_solved out2)) = Ok c2).
    { apply (mapM_mono (fun pr => let* x := (let* k := type_of (out_solved out2) (fst pr) in route_cost (sv_copy (out_solved out2)) k (snd pr)) in Ok (fst pr, x))); [|exact Hc3].
      intros [i r] b Hi Hb. cbn [fst snd] in Hb. unfold F. cbn [fst snd]. apply bind_ok in Hb. destruct Hb as (x & Hx & Hb). apply bind_ok in Hx. destruct Hx as (k & Hk & Hx).
      assert (Ek : type_of (out_solved out) i = Ok k) by (unfold type_of in *; rewrite Q4, (types_prefix _ _ _ i Q5 (IdR i r Hi)); exact Hk).
      rewrite Ek. cbn [bind]. rewrite <- Q9 in Hx. rewrite (route_cost_part _ _ _ _ _ Hx). exact Hb. }
    assert (M3 : forall rs id, (n < id)%nat -> (id + List.length rs <= S n + List.length pre)%nat -> incl rs pre ->
      exists c, mapM F (combine (seq id (List.length rs)) rs) = Ok c /\ Qsum (map snd c) == Qsum (map (route_price g a) rs)).
    { induction rs as [|r rs IH]; intros id I1 I2 Inc; [exists []; split; reflexivity|]. cbn [List.length] in *.
      destruct (IH (S id)) as (c & C1 & C2); [lia|lia|intros x Hx; apply Inc; right; exact Hx|]. cbn [seq combine mapM].
      assert (Hin : In r pre) by (apply Inc; left; reflexivity). destruct (Hr r Hin) as (Sh & N0 & Ch & Cp).
      assert (Tid : type_of (out_solved out) id = Ok 0%nat).
      { unfold type_of. rewrite Q4, dget_app. destruct (dget Nat.eqb id (sv_types (out_solved out2))) eqn:Ed.
        - exfalso. assert (Nn : dget Nat.eqb id (sv_types (out_solved out2)) = None) by (apply dget_none; intros k0 Hk0; apply IdT in Hk0; lia). congruence.
        - rewrite Et, dget_zeros; [reflexivity|lia]. }
      unfold F at 1. cbn [fst snd]. rewrite Tid. cbn [bind]. rewrite P2.
      destruct (route_cost_total K (pr_copy p) r 0 (locked_known v sa a1 K p R' NE' P1 r Sh (Al r Hin))) as (q & Hq); [rewrite (only_type v sa a1 K p R' NE' P1 Mx); lia|].
      rewrite Hq. cbn [bind]. rewrite C1. cbn [bind]. eexists. split; [reflexivity|]. cbn [map snd Qsum fold_right].
      fold (Qsum (map snd c)). fold (Qsum (map (route_price g a) rs)). rewrite C2, (locked_price v sa a1 K p R' NE' P1 Mx r Sh N0 (Al r Hin) q Hq), Pr. reflexivity. }
    destruct (M3 pre (S n)) as (c3 & C3 & C4); [lia|lia|apply incl_refl|].
    assert (BC : best_routes_cost (out_solved out) = Ok (c2 ++ c3)).
    { unfold best_routes_cost, per_route. rewrite Q3, Hh. exact (mapM_app F _ _ _ _ M2 C3). }
    unfold best_value. rewrite BC, Sp1, Q10, Q6. cbn [bind]. rewrite Sp2 in Hq2. cbn [bind] in Hq2.
    assert (Sm : pysum (map snd (c2 ++ c3)) == pysum (map snd c2) + left_price g a pre) by (rewrite !pysum_Qsum, map_app, Qsum_app, C4; reflexivity).
    destruct (sv_drop (out_solved out2)) as [dp|]; [destruct (truthyQ (Some dp))|]; injection Hq2 as <-; eexists; (split; [reflexivity|]); rewrite Sm; try ring; reflexivity.
  Qed.
End User.
