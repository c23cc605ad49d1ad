(** Preassigned complete routes with all customers on them. *)
From Verif.Base Require Import Prelude Graph.
From Verif.Spec Require Import Routes Network Inputs Feasible Prep LinProg Results Plans Variants Locked.
From Verif.Model Require Import Args Reach Checks Preprocess ClarkeWright Greedy Initial Pricing
  GreedyPricing LPPricing Cspy Master Dive Hyper ColGen Post Schedule Solve.
From Verif.Proofs Require Import RouteLemmas ReachLemmas ChecksProofs FeasProofs PreLemmas LockProofs PresolveProofs PresolveEnd PostProofs SolveProofs SolveUser SolveHeur PostEnd AnyProofs LockedProofs LockedSolve LockedUser.

Lemma two_nodes (l : list node) : NoDup l -> In Source l -> In Sink l -> (forall u, In u l -> u = Source \/ u = Sink) -> List.length l = 2%nat.
Proof.
  intros ND HS HT Al. apply Nat.le_antisymm.
  - change 2%nat with (List.length [Source; Sink]). apply NoDup_incl_length; [exact ND|]. intros u Hu. destruct (Al u Hu) as [-> | ->]; cbn; auto.
  - change 2%nat with (List.length [Source; Sink]). apply NoDup_incl_length.
    + constructor; [intros [Z|[]]; discriminate|]. constructor; [intros []|constructor].
    + intros u [<-|[<-|[]]]; assumption.
Qed.

Section All.
  Variables (X : outside) (fuel fuel2 : nat) (sa : solve_args) (v v' : vrp) (out : outcome).
  Local Notation G := (v_graph v).
  Local Notation pre := (sa_pre sa).
  Hypothesis R : ready G.
  Hypothesis NE : a_mixed_fleet (v_args v) = false -> no_empty_costs G.
  Hypothesis NP : pre <> [].
  Hypothesis AC : all_complete pre.
  Hypothesis All : forall u, In u (custs G) -> In u (riders pre).
  Hypothesis Hh : sa_heuristic sa = false.
  Hypothesis Dv : sa_dive sa = false.
  Hypothesis H : solve X fuel fuel2 sa v = Ok (v', out).

  Lemma all_locked : truthyQ (v_drop v) = false /\ out_value out = None /\ sv_dropped (out_solved out) = v_dropped v /\ v_chosen v' = v_chosen v /\
    sv_span (out_solved out) = v_span v /\ sv_drop (out_solved out) = v_drop v /\
    (forall r, In r pre -> along (arc_list G) r \/ r = [Source; Sink]) /\
    exists a K p ra ta tb, prepare v sa = Ok (a, K, p) /\ sv_copy (out_solved out) = pr_copy p /\
      column_lists (x_path X) 1 (v_chosen v) = Ok (ra, ta) /\
      locked_lists (pr_copy p) (caps_arg (a_load_capacity a)) K (S (List.length (v_chosen v))) pre = Ok (combine (seq (S (List.length (v_chosen v))) (List.length pre)) pre, tb) /\
      sv_routes (out_solved out) = ra ++ combine (seq (S (List.length (v_chosen v))) (List.length pre)) pre /\ sv_types (out_solved out) = ta ++ tb.
  Proof.
    unfold solve in H. apply bind_ok in H. destruct H as (((a & K) & p) & Hp & H1). clear H. rewrite Hh in H1.
    destruct (any_graph_args v sa a K p R NE Hp) as (g1 & N1 & A1 & D1 & W1 & S1 & T1 & NI1 & NO1 & C1 & RT1 & P & HK & _).
    destruct (any_network v sa a K p R NE Hp) as (Nh & Nn & Ah).
    assert (Ep : o_preassignments (options_of v sa) = pre) by (cbn; unfold nonempty_or; destruct pre; [congruence|reflexivity]).
    assert (Epre : nonempty_or pre (v_pre v) = pre) by (unfold nonempty_or; destruct pre; [congruence|reflexivity]).
    destruct (presolve_nodes (config_of a K) (options_of v sa) g1 p W1 S1 T1 NI1 NO1 C1 RT1 P) as (Wp & Np & _). rewrite Ep in Np.
    destruct (pre_solve_inv _ _ _ _ P) as (x1 & g2 & g3 & P1 & P2 & P3 & P4 & P5 & P6 & P7 & P8 & P9).
    pose proof P5 as P5'. unfold lock_stage in P5'. rewrite Ep in P5'. destruct (nonempty pre) eqn:En; [|destruct pre; [congruence|discriminate]].
    apply bind_ok in P5'. destruct P5' as ([] & Ck & Lk).
    assert (Al : forall r, In r pre -> along (arc_list (pr_copy p)) r) by (apply check_preassignments_ok; exact Ck).
    destruct Nh as [Wh Sh Th NIh NOh Ch].
    assert (LC : forall u, In u (riders pre) -> u <> Source /\ u <> Sink).
    { intros u Hu. unfold riders in Hu. apply in_flat_map in Hu. destruct Hu as (r & _ & Hu). unfold stops in Hu. apply filter_In in Hu. apply is_cust_true. tauto. }
    assert (On : forall u, In u (nodes G) -> u = Source \/ u = Sink \/ In u (riders pre)).
    { intros u Hu. destruct u as [| |z]; [auto|auto|]. right. right. apply All. apply in_custs. split; [exact Hu|]. split; discriminate. }
    (* nothing is left *)
    assert (More : pr_more_routes p = false).
    { pose proof (lock_riders K (arc_list (pr_copy p)) pre (pr_copy p) g2 _ NIh NOh AC Al Lk) as E2. apply lock_more in Lk. destruct Lk as (_ & ->). apply negb_false_iff, Nat.eqb_eq.
      rewrite E2. apply two_nodes.
      - exact (wf_nodes _ (wf_remove_nodes (riders pre) _ Wh)).
      - apply in_nodes_remove_nodes. split; [exact Sh|]. intro Z. apply LC in Z. tauto.
      - apply in_nodes_remove_nodes. split; [exact Th|]. intro Z. apply LC in Z. tauto.
      - intros u Hu. apply in_nodes_remove_nodes in Hu. destruct Hu as (Hu & Hl). rewrite Nn in Hu. destruct (On u Hu) as [E|[E|E]]; auto. contradiction. }
    assert (Away : forall u, locked_away pre u <-> In u (riders pre)).
    { intro u. split.
      - intros (cs & Hr & Hu). apply in_flat_map. exists (Source :: cs ++ [Sink]). split; [exact Hr|]. destruct (complete_stops (arc_list (pr_copy p)) cs NIh NOh (Al _ Hr)) as (-> & _). exact Hu.
      - intro Hu. apply in_flat_map in Hu. destruct Hu as (r & Hr & Hu). destruct (AC r Hr) as (cs & ->). exists cs. split; [exact Hr|].
        destruct (complete_stops (arc_list (pr_copy p)) cs NIh NOh (Al _ Hr)) as (E & _). rewrite E in Hu. exact Hu. }
    assert (Two : List.length (gnodes (pr_graph p)) = 2%nat).
    { rewrite <- (map_length fst). change (map fst (gnodes (pr_graph p))) with (nodes (pr_graph p)). apply two_nodes.
      - exact (wf_nodes _ Wp).
      - apply Np. split; [exact Sh|]. intro Z. apply Away, LC in Z. tauto.
      - apply Np. split; [exact Th|]. intro Z. apply Away, LC in Z. tauto.
      - intros u Hu. apply Np in Hu. destruct Hu as (Hu & Hl). rewrite Nn in Hu. destruct (On u Hu) as [E|[E|E]]; auto. apply Away in E. contradiction. }
    apply bind_ok in H1. destruct H1 as (ic & Hic & H1). apply bind_ok in H1. destruct H1 as (s & Hs & H1). apply bind_ok in H1. destruct H1 as (e & He & H1).
    apply bind_ok in H1. destruct H1 as ((((rs & ts) & dr) & sch) & Hpp & H1). injection H1 as <- <-.
    unfold start in Hs. apply bind_ok in Hs. destruct Hs as (m & _ & Hs). injection Hs as Hs.
    assert (Sm : s_more s = false) by (rewrite <- Hs; exact More). assert (Sg : s_graph s = pr_graph p) by (rewrite <- Hs; reflexivity).
    assert (Ee : e = (s, None)).
    { unfold solve_columns in He. rewrite Dv in He.
      assert (Ec : column_generation (x_env X) (cg_of X v sa a K p (covered (fst ic))) fuel s = Ok s) by (destruct fuel; cbn [column_generation]; rewrite Sm; reflexivity).
      rewrite Ec in He. cbn [bind conclude] in He. rewrite Sg, Two in He. cbn in He. injection He as <-. reflexivity. }
    subst e. cbn [fst snd] in *.
    unfold post_process in Hpp. apply bind_ok in Hpp. destruct Hpp as (dr0 & Hdr & Hpp). apply bind_ok in Hpp. destruct Hpp as (nl & Hnl & Hpp).
    apply bind_ok in Hpp. destruct Hpp as (sch0 & Hsch & Hpp). injection Hpp as <- <- <- <-.
    unfold node_lists in Hnl. apply bind_ok in Hnl. destruct Hnl as ((ra & ta) & Hca & Hnl). apply bind_ok in Hnl. destruct Hnl as ((rb & tb) & Hlb & Hnl). injection Hnl as <-.
    rewrite Epre in Hlb. destruct (locked_numbers _ _ _ _ _ _ _ AC Hlb) as (Erb & _).
    assert (Td : truthyQ (v_drop v) = false) by (destruct (truthyQ (v_drop v)); [discriminate|reflexivity]). rewrite Td in Hdr. injection Hdr as <-.
    cbn [out_solved solved_of sv_routes sv_types sv_dropped sv_copy sv_drop sv_span out_value v_chosen fst snd].
    split; [exact Td|]. do 5 (split; [reflexivity|]). split.
    { intros r Hr. destruct (AC r Hr) as (cs & ->). pose proof (Al _ Hr) as Ar. destruct cs as [|c cs]; [right; reflexivity|left].
      intros x y Hxy. pose proof (Ar x y Hxy) as Hin. apply Ah in Hin. destruct Hin as [Hin|Hin]; [exact Hin|]. exfalso. injection Hin as -> ->.
      destruct (complete_stops (arc_list (pr_copy p)) (c :: cs) NIh NOh Ar) as (_ & Ins).
      cbn [app] in Hxy. rewrite arcs_cons2 in Hxy. destruct Hxy as [Hxy|Hxy].
      - injection Hxy as Hxy. destruct (Ins c (or_introl eq_refl)). congruence.
      - apply arcs_in_nodes in Hxy. destruct Hxy as (Hq & _). change (c :: cs ++ [Sink]) with ((c :: cs) ++ [Sink]) in Hq. apply in_app_or in Hq. destruct Hq as [Hq|[Hq|[]]]; [|discriminate].
        destruct (Ins _ Hq). congruence. }
    exists a, K, p, ra, ta, tb. split; [exact Hp|]. split; [reflexivity|]. split; [exact Hca|]. subst rb. split; [exact Hlb|]. split; reflexivity.
  Qed.
End All.

Theorem everyone_locked X fuel fuel2 sa (g : rgraph) a w pd both drop all per span tabu v v' out :
  wf g -> (a_mixed_fleet a = false -> no_empty_costs g) ->
  sa_pre sa <> [] -> all_complete (sa_pre sa) -> (forall u, In u (custs g) -> In u (riders (sa_pre sa))) ->
  sa_heuristic sa = false -> sa_dive sa = false ->
  create g a w pd both drop all per span tabu = Ok v -> solve X fuel fuel2 sa v = Ok (v', out) ->
  let s := out_solved out in
  truthyQ drop = false /\
  sv_routes s = combine (seq 1 (List.length (sa_pre sa))) (sa_pre sa) /\ sv_dropped s = [] /\
  (a_mixed_fleet a = false -> span = false -> 0 <= user_demand g Source -> 0 <= user_demand g Sink ->
   (forall r, In r (sa_pre sa) -> route_shape r /\ stops r <> [] /\ route_price g a r < inject_Z 10000000000 /\
      forall c, capacity_of a 0 c -> node_sum (user_demand g) (stops r) <= inject_Z c) ->
   exists q, best_value s = Ok q /\ q == Qsum (map (route_price g a) (sa_pre sa))).
Proof.
  intros W NE NP AC All Hh Dv Hc Hs s.
  pose proof Hc as Hc1. unfold create in Hc1. apply bind_ok in Hc1. destruct Hc1 as (g' & Hv & Ev). injection Ev as Ev.
  destruct (check_vrp_ready g g' W Hv) as (R & Co). pose proof Co as (Cn & Ca).
  assert (EG : v_graph v = g') by (rewrite <- Ev; reflexivity). assert (EM : a_mixed_fleet (v_args v) = a_mixed_fleet a) by (rewrite <- Ev; reflexivity).
  assert (EPr : price_of (v_args v) 0 = price_of a 0) by (rewrite <- Ev; reflexivity).
  assert (EC : forall c, capacity_of (v_args v) 0 c -> capacity_of a 0 c) by (rewrite <- Ev; intros c HD; exact HD).
  assert (Es : v_span v = span) by (rewrite <- Ev; reflexivity). assert (Ed : v_drop v = drop) by (rewrite <- Ev; reflexivity).
  assert (Ech : v_chosen v = []) by (rewrite <- Ev; reflexivity). assert (Edr : v_dropped v = []) by (rewrite <- Ev; reflexivity).
  assert (NE' : a_mixed_fleet (v_args v) = false -> no_empty_costs (v_graph v)) by (rewrite EM, EG; intro M; exact (completion_no_empty g g' Co (NE M))).
  assert (R' : ready (v_graph v)) by (rewrite EG; exact R).
  assert (All' : forall u, In u (custs (v_graph v)) -> In u (riders (sa_pre sa))) by (intros u Hu; rewrite EG, (completion_custs g g' Co) in Hu; exact (All u Hu)).
  destruct (all_locked X fuel fuel2 sa v v' out R' NE' NP AC All' Hh Dv Hs) as (Q1 & Q2 & Q3 & _ & Q5 & Q6 & Q7 & (a1 & K & p & ra & ta & tb & P1 & P2 & P3 & P4 & P5 & P6)).
  rewrite Ech in P3, P4, P5. cbn [List.length] in P4, P5. cbn in P3. injection P3 as <- <-. cbn [app] in P5, P6. fold s in Q3, Q5, Q6, P2, P5, P6.
  split; [rewrite <- Ed; exact Q1|]. split; [exact P5|]. split; [rewrite Q3; exact Edr|].
  intros Mx Sp D1 D2 Hr. rewrite <- EM in Mx.
  assert (Pr : forall r, route_price (v_graph v) (v_args v) r = route_price g a r).
  { intro r. unfold route_price. rewrite EPr. f_equal. unfold path_sum. f_equal. apply map_ext. intros x. rewrite EG. apply (completion_cost g g' 0 _ _ Co). }
  assert (UD : forall u, user_demand (v_graph v) u = user_demand g u) by (intro u; rewrite EG; apply (completion_demand g g' u Co)).
  assert (Dm : 0 <= user_demand (v_graph v) Source /\ 0 <= user_demand (v_graph v) Sink) by (rewrite !UD; auto).
  assert (Al : forall r, In r (sa_pre sa) -> along (arc_list (v_graph v)) r).
  { intros r Hin. destruct (Q7 r Hin) as [Y|Y]; [exact Y|]. exfalso. destruct (Hr r Hin) as (_ & N0 & _). apply N0. rewrite Y. reflexivity. }
  assert (Ty : forall r, In r (sa_pre sa) -> locked_type (pr_copy p) (caps_arg (a_load_capacity a1)) K r = Ok (Some 0%nat)).
  { intros r Hin. destruct (Hr r Hin) as (Sh & N0 & Ch & Cp). apply (locked_first v sa a1 K p R' NE' P1 Mx r Sh N0 (Al r Hin)).
    - rewrite Pr. exact Ch.
    - exact Dm.
    - intros c Hcap. specialize (Cp c (EC c Hcap)). unfold node_sum in *. rewrite (map_ext _ (user_demand g) UD). exact Cp. }
  pose proof (locked_all _ _ _ (sa_pre sa) _ _ tb AC Ty P4) as Et.
  set (F := fun pr : nat * list node => let* x := (let* k := type_of s (fst pr) in route_cost (sv_copy s) k (snd pr)) in Ok (fst pr, x)).
  assert (M3 : forall rs id, (0 < id)%nat -> (id + List.length rs <= 1 + List.length (sa_pre sa))%nat -> incl rs (sa_pre sa) ->
    exists c, mapM F (combine (seq id (List.length rs)) rs) = Ok c /\ Qsum (map snd c) == Qsum (map (route_price g a) rs)).
  { induction rs as [|r rs IH]; intros id I1 I2 Inc; [exists []; split; reflexivity|]. cbn [List.length] in *.
    destruct (IH (S id)) as (c & C1 & C2); [lia|lia|intros x Hx; apply Inc; right; exact Hx|]. cbn [seq combine mapM].
    assert (Hin : In r (sa_pre sa)) by (apply Inc; left; reflexivity). destruct (Hr r Hin) as (Sh & N0 & Ch & Cp).
    assert (Tid : type_of s id = Ok 0%nat) by (unfold type_of; rewrite P6, Et, dget_zeros; [reflexivity|lia]).
    unfold F at 1. cbn [fst snd]. rewrite Tid. cbn [bind]. rewrite P2.
    destruct (route_cost_total K (pr_copy p) r 0 (locked_known v sa a1 K p R' NE' P1 r Sh (Al r Hin))) as (q & Hq); [rewrite (only_type v sa a1 K p R' NE' P1 Mx); lia|].
    rewrite Hq. cbn [bind]. rewrite C1. cbn [bind]. eexists. split; [reflexivity|]. cbn [map snd Qsum fold_right].
    fold (Qsum (map snd c)). fold (Qsum (map (route_price g a) rs)). rewrite C2, (locked_price v sa a1 K p R' NE' P1 Mx r Sh N0 (Al r Hin) q Hq), Pr. reflexivity. }
  destruct (M3 (sa_pre sa) 1%nat) as (c3 & C3 & C4); [lia|lia|apply incl_refl|].
  assert (BC : best_routes_cost s = Ok c3) by (unfold best_routes_cost, per_route; rewrite P5; exact C3).
  unfold best_value. rewrite BC, Q5, Es, Sp, Q6, Ed. cbn [bind]. rewrite Ed in Q1. eexists.
  destruct drop as [d|]; [rewrite Q1|]; (split; [reflexivity|]); rewrite pysum_Qsum; exact C4.
Qed.
