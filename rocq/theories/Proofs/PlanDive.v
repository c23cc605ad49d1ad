(** The plan that solve() returns after diving. *)
From Verif.Base Require Import Prelude Graph.
From Verif.Spec Require Import Routes Network Inputs Feasible Prep Heuristics LinProg Pricing MIP Columns Timing Labelling Pool Master Run Plans Results Variants.
From Verif.Model Require Import Args Reach Checks Preprocess ClarkeWright Greedy Initial Pricing
  GreedyPricing LPPricing Cspy Master Dive Hyper ColGen Post Schedule Solve.
From Verif.Proofs Require Import RouteLemmas ChecksProofs FeasProofs PreLemmas PruneProofs KnapProofs LockProofs
  PresolveProofs PresolveEnd InitialProofs HeurCor PricingProofs LPProofs LPColumn LPComplete PricingCor PoolProofs PoolQuality SelectProofs MasterEnd ColGenProofs RunProofs ColGenCor ColGenEnd
  PostProofs PostCor PostEnd SolveProofs SolveHeur SolveUser ExactPool SolveExact PlanGen DiveEnd.

(** Columns of routes without repetitions *)
Definition plain_name (c : column) : Prop := forall i, c_name c <> CNonElem i.

Lemma pathless c : labelled c -> c_path c = None -> plain_name c.
Proof. unfold labelled. intros L P i E. rewrite E in L. contradiction. Qed.

Lemma cspy_plain g h k caps o ns dur alg keys run pool pool1 more :
  (forall m ref thr q p, alg m ref true thr = Some (q, p) -> NoDup p) ->
  cspy_solve g h k caps o ns dur alg keys run true pool = Ok (pool1, more) ->
  (forall c, In c pool -> plain_name c) -> forall c, In c pool1 -> plain_name c.
Proof.
  intros A H P. unfold cspy_solve in H. destruct (negb run); [injection H as -> _; exact P|]. apply bind_ok in H. destruct H as (m & _ & H).
  unfold passes in H. rewrite andb_false_r in H. cbn [cspy_loop] in H. apply bind_ok in H. destruct H as (thr & _ & H).
  destruct (alg m _ true thr) as [(q & p)|] eqn:E; [|injection H as -> _; exact P]. apply A in E.
  destruct (Qltb _ _); [|injection H as -> _; exact P]. apply bind_ok in H. destruct H as (c0 & Hc & H).
  destruct (existsb _ _); [injection H as -> _; exact P|]. injection H as <- _. intros c Hin. apply in_app_or in Hin. destruct Hin as [Hin|[<-|[]]]; [exact (P c Hin)|].
  unfold cspy_new_route in Hc. destruct (digraph_of (arcs p)) as (ns0 & es). apply bind_ok in Hc. destruct Hc as (q0 & _ & Hc). injection Hc as <-.
  intros i Ei. cbn [c_name] in Ei. apply CspyProofs.no_repeat_NoDup in E. rewrite E in Ei. discriminate.
Qed.

Lemma priced_plain E C g p1 p2 : cg_elementary C = true ->
  (cg_cspy C = true -> forall n tl h, sound_labelling h (e_label E n tl h)) ->
  fine p2 -> priced E C g p1 p2 -> (forall c, In c p1 -> plain_name c) -> forall c, In c p2 -> plain_name c.
Proof.
  intros El Sl Fi Pr P. destruct Pr as [D k route p n h hr more _ _ _ H|D k h n more _ _ _ H].
  - cbv zeta in H. destruct (cg_cspy C).
    + rewrite El in H. eapply cspy_plain; [|exact H|exact P]. intros m ref thr q x Hx. apply (Sl eq_refl _ _ _ _ _ _ _ _ _ Hx). reflexivity.
    + destruct (lp_solve_inv _ _ _ _ _ _ _ _ _ _ _ _ _ _ H) as [Q|(pr & _ & _ & _ & r1 & Hr & Q)]; [injection Q as -> _; exact P|].
      injection Q as -> _. intros c Hc. unfold lp_new_route in Hr. apply bind_ok in Hr. destruct Hr as (q & _ & Hr).
      destruct (digraph_of _) as (ns0 & es). apply bind_ok in Hr. destruct Hr as (u & _ & Hr). injection Hr as <-.
      apply in_app_or in Hc. destruct Hc as [Hc|[<-|[]]]; [exact (P c Hc)|]. intros i Ei. discriminate.
  - intros c Hc. destruct (greedy_path _ _ _ _ _ _ _ _ _ _ _ H c Hc) as [Hc0|Pa]; [exact (P c Hc0)|].
    apply pathless; [apply (Fi c Hc)|exact Pa].
Qed.

Lemma grown_plain E C g p1 p2 : cg_elementary C = true ->
  (cg_cspy C = true -> forall n tl h, sound_labelling h (e_label E n tl h)) ->
  fine p1 -> grown E C g p1 p2 -> (forall c, In c p1 -> plain_name c) -> forall c, In c p2 -> plain_name c.
Proof.
  intros El Sl Fi Gr P. induction Gr as [|x y Gr IH Pr|x y Gr IH Sm]; [exact P| |].
  - apply (priced_plain E C g x y El Sl); [|exact Pr|exact IH]. eapply grown_fine; [|exact Fi]. eapply g_priced; eassumption.
  - intros c Hc i Ei. apply (in_map untag) in Hc. unfold same_columns in Sm. rewrite Sm in Hc. apply in_map_iff in Hc. destruct Hc as (c' & Eu & Hc').
    apply (IH c' Hc' i). destruct (untag_fields _ _ Eu) as (-> & _). exact Ei.
Qed.

Lemma initial_plain g caps : forall rs id cs, convert_from g caps id rs = Ok cs -> forall c, In c cs -> plain_name c.
Proof.
  induction rs as [|r rs IH]; intros id cs H; cbn [convert_from] in H; [injection H as <-; intros c []|].
  apply bind_ok in H. destruct H as (c0 & H0 & H). apply bind_ok in H. destruct H as (l & H1 & H). injection H as <-.
  intros c [<-|Hc]; [|exact (IH _ _ H1 c Hc)]. unfold initial_column in H0. apply bind_ok in H0. destruct H0 as (q & _ & H0). apply bind_ok in H0. destruct H0 as (k & _ & H0).
  destruct (digraph_of (arcs r)) as (ns & es). injection H0 as <-. intros i Ei. discriminate.
Qed.

Lemma total_some v sel c : In c sel -> (0 < times v c)%nat -> (1 <= total_times v sel)%nat.
Proof. induction sel as [|x sel IH]; intros H T; [destruct H|]. cbn [total_times]. destruct H as [->|H]; [lia|]. specialize (IH H T). lia. Qed.

Section Dive.
  Variables (X : outside) (fuel fuel2 : nat) (sa : solve_args) (v v' : vrp) (out : outcome) (a : rargs) (K : nat) (p : prepared).
  Local Notation g3 := (pr_graph p).
  Local Notation o := (options_of v sa).
  Local Notation caps := (caps_arg (a_load_capacity a)).
  Local Notation dur := (int_arg (a_duration a)).
  Local Notation ini := (nonempty_or (sa_initial sa) (v_initial v)).
  Variable ok : nat -> list node -> Prop.
  Variable simple : Prop.
  Hypothesis Net : network K g3.
  Hypothesis AUX : forall u d, node_data g3 u = Some d -> is_aux_depot d = false.
  Hypothesis MR : pr_more_routes p = true.
  Hypothesis E4 : truthy (v_periodic v) = false.
  Hypothesis E5 : nonempty_or (sa_pre sa) (v_pre v) = [].
  Hypothesis E6 : sa_heuristic sa = false.
  Hypothesis E9 : sa_dive sa = true.
  Hypothesis EI : v_iter v = 0%nat /\ v_noimp v = 0%nat /\ v_bounds v = [] /\ v_hyper v = None /\ v_chosen v = [].
  Hypothesis S1 : forall n q, sound_answer q (e_master (x_env X) n q).
  Hypothesis SD : forall n i q, sound_answer q (e_dive (x_env X) n i q).
  Hypothesis OR : forall n l w, In w (e_order (x_env X) n l) -> In w l.
  Hypothesis SL : sa_cspy sa = true -> forall n tl h, sound_labelling h (e_label (x_env X) n tl h).
  Hypothesis SP : finds_paths (x_path X).
  Hypothesis H : prepare v sa = Ok (a, K, p).
  Hypothesis IG : forall rs pool,
    initialize o (a_mixed_fleet a) caps dur (pr_num_stops p) (x_perms X) ini g3 = Ok (rs, pool) ->
    forall c, In c pool -> usable p ok simple c.
  Hypothesis PG : forall rs pool,
    initialize o (a_mixed_fleet a) caps dur (pr_num_stops p) (x_perms X) ini g3 = Ok (rs, pool) ->
    forall p1 p2, (forall c, In c p1 -> usable p ok simple c) ->
    priced (x_env X) (cg_of X v sa a K p (covered rs)) g3 p1 p2 -> forall c, In c p2 -> usable p ok simple c.

  Lemma dive_plan : solve X fuel fuel2 sa v = Ok (v', out) ->
    exists rs ks dr, List.length ks = List.length rs /\
      sv_routes (out_solved out) = combine (seq 1 (List.length rs)) rs /\
      (forall i k, nth_error ks i = Some k -> dget Nat.eqb (S i) (sv_types (out_solved out)) = Some k) /\
      Forall2 (fun k r => route_shape r /\ along (arc_list g3) r /\ ok k (stops r)) ks rs /\
      only_visits (custs g3) rs /\ NoDup dr /\ (forall u, In u dr -> In u (custs g3)) /\
      (truthyQ (v_drop v) = false -> dr = []) /\
      sv_dropped (out_solved out) = (if truthyQ (v_drop v) then dr else v_dropped v) /\
      ((exists n q x, feasible x q /\ a_status (e_master (x_env X) n q) <> Optimal) \/
       forall u, In u (custs g3) -> (1 <= visits u rs)%nat \/ In u dr) /\
      out_schedule out = None /\
      sv_copy (out_solved out) = pr_copy p /\ sv_span (out_solved out) = v_span v /\ sv_drop (out_solved out) = v_drop v.
  Proof.
    intro So. unfold solve in So. rewrite H in So. cbn [bind] in So. rewrite E6 in So.
    apply bind_ok in So. destruct So as (ic & HI & So). destruct ic as (rs0 & pool). cbn [fst snd] in So.
    apply bind_ok in So. destruct So as (s & Hs & So). apply bind_ok in So. destruct So as (e & He & So). rewrite E9 in He.
    apply bind_ok in So. destruct So as ((((routes & types) & dr) & sch) & Hp & So).
    assert (Eo : out_solved out = solved_of v a p (s_graph (fst e)) routes types dr /\ out_schedule out = sch) by (injection So as _ <-; split; reflexivity).
    clear So. destruct Eo as (Eo & Esc). unfold post_process in Hp. rewrite E4 in Hp.
    apply bind_ok in Hp. destruct Hp as (dr0 & Hdr & Hp).
    apply bind_ok in Hp. destruct Hp as ((rts & tys) & Hnl & Hp). cbn [bind fst snd] in Hp.
    assert (Ep : routes = rts /\ types = tys /\ dr = dr0 /\ sch = None) by (injection Hp as <- <- <- <-; auto). clear Hp. destruct Ep as (-> & -> & -> & ->).
    rewrite Eo. cbn [sv_routes sv_types sv_dropped solved_of sv_copy sv_span sv_drop]. rewrite E5 in Hnl.
    set (C := cg_of X v sa a K p (covered rs0)) in *.
    destruct EI as (EI1 & EI2 & EI3 & EI4 & EI5).
    assert (Fr : fresh C g3 s).
    { unfold start in Hs. apply bind_ok in Hs. destruct Hs as (m & Hm & Hs). injection Hs as <-.
      constructor; cbn [s_pool s_master s_graph s_fixed s_diving dv_depth dv_level s_dive s_iter s_noimp s_more s_bounds s_hyper]; auto.
      - exists (a_mixed_fleet a), (x_perms X), ini, rs0. exact HI.
      - rewrite EI4. reflexivity. }
    assert (Pl : s_pool s = pool) by (unfold start in Hs; apply bind_ok in Hs; destruct Hs as (m & Hm & Hs); injection Hs as <-; reflexivity).
    assert (CU : forall u, In u (custs g3) -> exists d, customer g3 u d).
    { intros u Hu. apply in_custs in Hu. destruct Hu as (Hu & U1 & U2). apply node_data_In in Hu. destruct Hu as (d & Hd). exists d.
      split; [apply assoc_node_In; exact Hd|]. split; [exact U1|]. split; [exact U2|]. exact (AUX u d Hd). }
    assert (Se : exists s' t sel dr1, e = (s', Some (t, sel, dr1))).
    { unfold solve_columns in He. apply bind_ok in He. destruct He as (s' & _ & He). apply bind_ok in He. destruct He as (r & Hr & He). injection He as <-.
      cbn [conclude] in Hr. apply bind_ok in Hr. destruct Hr as (((t & sel) & dr1) & _ & Hr). injection Hr as <-. eauto. }
    destruct Se as (s' & t & sel & dr1 & ->). cbn [fst snd] in *.
    destruct (dive_concluded (x_env X) C g3 (net_wf _ _ Net) S1 SD OR fuel fuel2 s s' t sel dr1 Fr He E4) as (Gr & NDs & Sub & D1 & D2 & D3 & Cov).
    assert (El : cg_elementary C = true) by (unfold C; cbn [cg_elementary cg_of]; rewrite E9; reflexivity).
    assert (Pn : forall c, In c pool -> plain_name c).
    { unfold initialize in HI. apply bind_ok in HI. destruct HI as (l & _ & HI). apply bind_ok in HI. destruct HI as (cs & HI & Q). injection Q as _ <-. exact (initial_plain _ _ _ _ _ HI). }
    assert (Gd : forall c, In c sel -> exists cs, fits p ok simple c cs).
    { intros c Hc. specialize (Sub c Hc). rewrite Pl in Gr.
      destruct (grown_usable X sa v a K p ok simple IG PG rs0 pool (s_pool s') HI Gr c Sub) as [Q|(i & Q)]; [exact Q|]. exfalso.
      refine (grown_plain (x_env X) C g3 pool (s_pool s') El _ _ Gr Pn c Sub i Q); [exact SL|]. rewrite <- Pl. exact (fresh_fine C g3 s Fr). }
    destruct (F2_choose (fun c cs => fits p ok simple c cs) sel Gd) as (css & F).
    assert (Frs : Forall2 (fun c r => route_shape r /\ forall e, In e (c_arcs c) <-> In e (arcs r)) sel (map trip css)).
    { clear - F. induction F as [|c cs l l' Q F IH]; [constructor|]. cbn [map]. constructor; [split; [exact (ft_shape _ _ _ _ _ Q)|exact (ft_arcs _ _ _ _ _ Q)]|exact IH]. }
    destruct (node_lists_spec _ _ _ _ _ _ _ _ _ SP Frs Hnl) as (locked & Ke & Er & Ty).
    assert (Elk : locked = []) by (inversion Ke; reflexivity). rewrite Elk, app_nil_r in Er.
    assert (Ln : List.length css = List.length sel) by (symmetry; exact (F2_length _ _ _ F)).
    exists (map trip css), (map c_type sel), dr1. split; [rewrite !map_length; congruence|]. split; [rewrite Er, !map_length; reflexivity|].
    assert (Vi : forall u, visits u (map trip css) = total_times u sel).
    { intro u. apply visits_total. clear - F. induction F as [|c cs l l' Q F IH]; [constructor|]. cbn [map]. constructor; [split; [exact (ft_path _ _ _ _ _ Q)|exact (ft_nodes _ _ _ _ _ Q)]|exact IH]. }
    split.
    { intros i k Hk. rewrite nth_error_map in Hk. destruct (nth_error sel i) as [c|] eqn:Hn; [|discriminate]. cbn in Hk. injection Hk as <-. exact (Ty i c Hn). }
    assert (ST : forall cs, route_shape (trip cs) -> stops (trip cs) = cs).
    { intros cs Sh. destruct (route_shape_stops _ Sh) as (cs' & Ec & Es). unfold trip in Ec. injection Ec as Ec. apply app_inv_tail in Ec. subst cs'. exact Es. }
    split.
    { clear - F ST. induction F as [|c cs l l' Q F IH]; [constructor|]. cbn [map]. constructor; [|exact IH]. destruct Q as [Q1 Q2 _ _ _ Q3 _].
      split; [exact Q1|]. split; [exact Q2|]. rewrite (ST cs Q1). exact Q3. }
    split.
    { intros r u Hr Hu U1 U2. apply in_map_iff in Hr. destruct Hr as (cs & <- & Hr). destruct (F2_in_r _ _ _ _ F Hr) as (c & Hc & Q). apply in_custs. split; [|auto].
      eapply along_nodes; [exact (net_wf _ _ Net)|exact (ft_shape _ _ _ _ _ Q)|exact (ft_along _ _ _ _ _ Q)|exact Hu]. }
    split; [exact D1|]. split; [exact D2|]. split; [exact D3|]. split; [destruct (truthyQ (v_drop v)); cbn in Hdr; congruence|].
    split; [destruct Cov as [Cov|Cov]; [left; exact Cov|right; intros u Hu]|auto].
    destruct (CU u Hu) as (d & Hd). destruct (Cov u d Hd) as [(c & Hc & Ht)|Hdr']; [left|right; exact Hdr']. rewrite Vi. exact (total_some u sel c Hc Ht).
  Qed.
End Dive.
