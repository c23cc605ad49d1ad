(** From a property kept by all columns to the plan solve() returns for a periodic problem. *)
From Verif.Base Require Import Prelude Graph.
From Verif.Spec Require Import Routes Network Inputs Feasible Prep Heuristics LinProg Pricing MIP Columns Timing Pool Master Run Plans Results.
From Verif.Model Require Import Args Reach Checks Preprocess ClarkeWright Greedy Initial Pricing
  GreedyPricing LPPricing Cspy Master Dive Hyper ColGen Post Schedule Solve.
From Verif.Proofs Require Import RouteLemmas ChecksProofs FeasProofs PreLemmas PruneProofs KnapProofs LockProofs
  PresolveProofs PresolveEnd InitialProofs HeurCor PoolProofs PoolQuality SelectProofs MasterEnd ColGenProofs RunProofs ColGenCor ColGenEnd
  PostProofs PostCor PostEnd SolveProofs SolveHeur SolveUser ExactPool SolveExact ScheduleProofs PlanGen PerBest.

Lemma total_sum u sel : list_sum (map (times u) sel) = total_times u sel.
Proof. induction sel as [|c l IH]; [reflexivity|]. cbn [map list_sum fold_right total_times]. rewrite <- IH. reflexivity. Qed.

(** A choice of first columns is one of the final columns. *)
Lemma week_grown E C g pool l sel art : grown E C g pool l -> NoDup (map c_name pool) -> week_choice g pool sel art ->
  exists sel', week_choice g l sel' art /\ week_cost g sel' art == week_cost g sel art.
Proof.
  intros Gr N1 [V1 V2 V3 V4].
  assert (Ex : exists sel', Forall2 (fun c c' => In c' l /\ untag c' = untag c) sel sel').
  { clear V2 V3 V4. induction sel as [|c s IH]; [exists []; constructor|]. destruct IH as (s' & IH); [intros; apply V1; right; assumption|].
    destruct (grown_in _ _ _ _ _ c Gr (V1 c (or_introl eq_refl))) as (c' & Hc' & Eu). exists (c' :: s'). constructor; auto. }
  destruct Ex as (sel' & F). exists sel'.
  assert (L : forall c', In c' sel' -> exists c, In c sel /\ In c' l /\ untag c' = untag c).
  { intros c' Hc'. destruct (F2_in_r _ _ _ _ F Hc') as (c & Hc & Q). exists c. tauto. }
  split; [constructor|].
  - intros c Hc. destruct (L c Hc) as (c' & _ & Q & _). exact Q.
  - assert (Nn : NoDup (map c_name sel)).
    { assert (Z : forall (q : list column), (forall c, In c q -> In c pool) -> NoDup q -> NoDup (map c_name q)).
      { clear - N1. induction q as [|x q IH]; intros Hp N; [constructor|]. inversion N as [|? ? M1 M2]; subst. cbn. constructor; [|apply IH; [intros; apply Hp; right; assumption|exact M2]].
        intro Q. apply in_map_iff in Q. destruct Q as (y & Ey & Hy). apply M1. rewrite <- (same_name pool y x N1); auto; apply Hp; [right; exact Hy|left; reflexivity]. }
      apply Z; assumption. }
    assert (En : map c_name sel' = map c_name sel).
    { clear - F. induction F as [|x y s s' (_ & Q) F IH]; [reflexivity|]. cbn. rewrite IH. f_equal. apply untag_cost. exact Q. }
    rewrite <- En in Nn. exact (NoDup_map_inv _ _ Nn).
  - intros c i Hc. destruct (L c Hc) as (c' & Hc' & _ & Eu). destruct (untag_cost _ _ Eu) as (_ & _ & ->). exact (V3 c' i Hc').
  - intros u d Hd. assert (Et : map (times u) sel' = map (times u) sel).
    { clear - F. induction F as [|x y s s' (_ & Q) F IH]; [reflexivity|]. cbn. rewrite IH. f_equal. apply untag_times. exact Q. }
    rewrite Et. exact (V4 u d Hd).
  - unfold week_cost. apply Qplus_comp; [|reflexivity]. clear - F. unfold Qsum_over. induction F as [|x y s s' (_ & Q) F IH]; [reflexivity|]. cbn [map]. rewrite !Qsum_cons, IH.
    destruct (untag_cost _ _ Q) as (-> & _). reflexivity.
Qed.

Section Gen.
  Variables (X : outside) (fuel fuel2 : nat) (sa : solve_args) (v v' : vrp) (out : outcome) (a : rargs) (K : nat) (p : prepared).
  Local Notation g3 := (pr_graph p).
  Local Notation o := (options_of v sa).
  Local Notation caps := (caps_arg (a_load_capacity a)).
  Local Notation dur := (int_arg (a_duration a)).
  Local Notation ini := (nonempty_or (sa_initial sa) (v_initial v)).
  Variable ok : nat -> list node -> Prop.
  Variable simple : Prop.
  Variable period : Z.
  Hypothesis Net : network K g3.
  Hypothesis AUX : forall u d, node_data g3 u = Some d -> is_aux_depot d = false.
  Hypothesis MR : pr_more_routes p = true.
  Hypothesis E4 : v_periodic v = Some period.
  Hypothesis E4' : period <> 0%Z.
  Hypothesis DROP : truthyQ (v_drop v) = false.
  Hypothesis E5 : nonempty_or (sa_pre sa) (v_pre v) = [].
  Hypothesis E6 : sa_heuristic sa = false.
  Hypothesis E9 : sa_dive sa = false.
  Hypothesis EI : v_iter v = 0%nat /\ v_noimp v = 0%nat /\ v_bounds v = [] /\ v_hyper v = None /\ v_chosen v = [].
  Hypothesis S1 : forall n q, sound_answer q (e_master (x_env X) n q).
  Hypothesis SP : finds_paths (x_path X).
  Hypothesis H : prepare v sa = Ok (a, K, p).
  Hypothesis IG : forall rs pool,
    initialize o (a_mixed_fleet a) caps dur (pr_num_stops p) (x_perms X) ini g3 = Ok (rs, pool) ->
    forall c, In c pool -> usable p ok simple c.
  Hypothesis PG : forall rs pool,
    initialize o (a_mixed_fleet a) caps dur (pr_num_stops p) (x_perms X) ini g3 = Ok (rs, pool) ->
    forall p1 p2, (forall c, In c p1 -> usable p ok simple c) ->
    priced (x_env X) (cg_of X v sa a K p (covered rs)) g3 p1 p2 -> forall c, In c p2 -> usable p ok simple c.

  (** The columns chosen at the end, the routes they stand for and the days of the routes. *)
  Lemma per_core : solve X fuel fuel2 sa v = Ok (v', out) ->
    exists sel css d, Forall2 (fits p ok simple) sel css /\
      sv_routes (out_solved out) = combine (seq 1 (List.length css)) (map trip css) /\
      (forall i c, nth_error sel i = Some c -> dget Nat.eqb (S i) (sv_types (out_solved out)) = Some (c_type c)) /\
      (forall u x, customer g3 u x -> (Z.of_nat (total_times u sel) <= freq x)%Z /\ ((freq x <= 1)%Z -> Z.of_nat (total_times u sel) = freq x)) /\
      sv_dropped (out_solved out) = v_dropped v /\ out_schedule out = Some d /\
      schedule_routes g3 period (sv_routes (out_solved out)) (sv_types (out_solved out)) (pr_num_vehicles_schedule p) (x_days X) = Ok d /\
      sv_copy (out_solved out) = pr_copy p /\ sv_span (out_solved out) = v_span v /\ sv_drop (out_solved out) = v_drop v /\
      (exists rs0 pool, initialize o (a_mixed_fleet a) caps dur (pr_num_stops p) (x_perms X) ini g3 = Ok (rs0, pool) /\
        (custs g3 <> [] -> (forall n q, right_answer q (e_master (x_env X) n q)) -> v_span v = false ->
         exists art, (forall u x, customer g3 u x -> Z.of_nat (total_times u sel + art u) = freq x /\ ((freq x <= 1)%Z -> art u = 0%nat)) /\
           forall sel1 art1, week_choice g3 pool sel1 art1 -> week_cost g3 sel art <= week_cost g3 sel1 art1)).
  Proof.
    intro So. unfold solve in So. rewrite H in So. cbn [bind] in So. rewrite E6 in So.
    apply bind_ok in So. destruct So as (ic & HI & So). destruct ic as (rs0 & pool). cbn [fst snd] in So.
    apply bind_ok in So. destruct So as (s & Hs & So). apply bind_ok in So. destruct So as (e & He & So). rewrite E9 in He.
    apply bind_ok in So. destruct So as ((((routes & types) & dr) & sch) & Hp & So).
    assert (Eo : out_solved out = solved_of v a p (s_graph (fst e)) routes types dr /\ out_schedule out = sch) by (injection So as _ <-; split; reflexivity).
    clear So. destruct Eo as (Eo & Esc). unfold post_process in Hp. rewrite E4, DROP in Hp.
    assert (Tp : truthy (Some period) = true) by (cbn; apply negb_true_iff, Z.eqb_neq; exact E4'). rewrite Tp in Hp. cbn [bind of_opt] in Hp.
    apply bind_ok in Hp. destruct Hp as ((rts & tys) & Hnl & Hp). cbn [fst snd] in Hp. apply bind_ok in Hp. destruct Hp as (sch' & Hd & Hp).
    apply bind_ok in Hd. destruct Hd as (d & Hd & Hd'). injection Hd' as <-.
    assert (Ep : routes = rts /\ types = tys /\ dr = v_dropped v /\ sch = Some d) by (injection Hp as <- <- <- <-; auto). clear Hp. destruct Ep as (-> & -> & -> & ->).
    rewrite Eo. cbn [sv_routes sv_types sv_dropped solved_of sv_copy sv_span sv_drop]. rewrite E5 in Hnl.
    set (C := cg_of X v sa a K p (covered rs0)) in *.
    destruct EI as (EI1 & EI2 & EI3 & EI4 & EI5).
    assert (Fr : fresh C g3 s).
    { unfold start in Hs. apply bind_ok in Hs. destruct Hs as (m & Hm & Hs). injection Hs as <-.
      constructor; cbn [s_pool s_master s_graph s_fixed s_diving dv_depth dv_level s_dive s_iter s_noimp s_more s_bounds s_hyper]; auto.
      - exists (a_mixed_fleet a), (x_perms X), ini, rs0. exact HI.
      - rewrite EI4. reflexivity. }
    assert (Pl : s_pool s = pool) by (unfold start in Hs; apply bind_ok in Hs; destruct Hs as (m & Hm & Hs); injection Hs as <-; reflexivity).
    assert (En : gnodes (s_graph (fst e)) = gnodes g3).
    { unfold solve_columns in He. apply bind_ok in He. destruct He as (s1 & H1 & He). apply bind_ok in He. destruct He as (r & _ & He). injection He as <-. cbn [fst].
      apply generation_is_run in H1. destruct H1 as (n & _ & Ru). destruct (run_ok (x_env X) C g3 n s s1 Ru (fresh_inv C g3 s Fr)) as (Iv & _).
      exact (strip_nodes _ _ (iv_graph _ _ _ Iv)). }
    assert (Sch : schedule_routes g3 period rts tys (pr_num_vehicles_schedule p) (x_days X) = Ok d).
    { unfold schedule_routes, formulate_schedule, visit_rows in *. rewrite <- En. exact Hd. }
    assert (Key : exists sel, (match snd e with Some t => snd (fst t) | None => v_chosen v end) = sel /\
      (forall c, In c sel -> exists cs, fits p ok simple c cs) /\
      (forall u x, customer g3 u x -> (Z.of_nat (total_times u sel) <= freq x)%Z /\ ((freq x <= 1)%Z -> Z.of_nat (total_times u sel) = freq x)) /\
      (custs g3 <> [] -> (forall n q, right_answer q (e_master (x_env X) n q)) -> v_span v = false ->
         exists art, (forall u x, customer g3 u x -> Z.of_nat (total_times u sel + art u) = freq x /\ ((freq x <= 1)%Z -> art u = 0%nat)) /\
           forall sel1 art1, week_choice g3 pool sel1 art1 -> week_cost g3 sel art <= week_cost g3 sel1 art1)).
    { destruct e as (s' & [((t & sel) & dropped)|]); cbn [snd fst] in *.
      - destruct (concluded_end _ _ _ _ _ _ _ _ _ _ Fr He) as (Hcg & Gr & Cc). exists sel. split; [reflexivity|].
        assert (Fi : fine (s_pool s')) by (eapply grown_fine; [exact Gr|apply (fresh_fine C g3 s Fr)]).
        assert (Nm : NoDup (map c_name (s_pool s'))).
        { apply names_NoDup. eapply grown_numbered; [exact Gr|]. exact (iv_numbered _ _ _ (fresh_inv C g3 s Fr)). }
        assert (SO : forall m, built g3 (cg_master C) (s_pool s') m -> sound_answer (program_of (integral m)) (e_master (x_env X) (S (s_tick s')) (program_of (integral m)))) by (intros m _; apply S1).
        assert (LB : forall c, In c (s_pool s') -> labelled c) by (intros c Hc; exact (proj1 (Fi c Hc))).
        assert (HO : forall c, In c (s_pool s') -> honest c) by (intros c Hc; exact (proj2 (Fi c Hc))).
        pose proof (selected_elementary g3 (cg_master C) (s_pool s') _ _ t sel dropped (net_wf _ _ Net) LB HO SO Cc) as SE.
        split.
        { rewrite Pl in Gr. intros c Hc. pose proof (conclusion_cols g3 (cg_master C) (s_pool s') _ _ t sel dropped (net_wf _ _ Net) LB SO Cc c Hc) as Hin.
          destruct (grown_usable X sa v a K p ok simple IG PG rs0 pool (s_pool s') HI Gr c Hin) as [Q|(i & Q)]; [exact Q|]. exfalso. exact (proj2 (SE c Hc) i Q). }
        assert (Mp : mo_periodic (cg_master C) = true) by (cbn; rewrite E4; exact Tp).
        assert (Md : forall q, ~ drops (cg_master C) q).
        { intros q (Q1 & Q2). change (mo_drop (cg_master C)) with (v_drop v) in Q1. rewrite Q1 in DROP. cbn in DROP. apply negb_false_iff, Qeq_bool_iff in DROP. contradiction. }
        destruct (periodic_visits g3 (cg_master C) (s_pool s') _ _ t sel dropped (net_wf _ _ Net) LB HO Nm SO Cc Mp Md) as (art & AV).
        split.
        2:{ intros _ RA Sp. assert (NmP : NoDup (map c_name pool)) by (rewrite <- Pl; apply names_NoDup; exact (iv_numbered _ _ _ (fresh_inv C g3 s Fr))).
            assert (AX : forall u x, In (u, x) (gnodes g3) -> is_aux_depot x = false) by (intros u x Hx; apply (AUX u); apply gnodes_data; [exact (net_wf _ _ Net)|exact Hx]).
            destruct (right_week g3 (cg_master C) (s_pool s') _ _ t sel dropped (net_wf _ _ Net) AX LB Nm (fun m _ => RA (S (s_tick s')) (program_of (integral m))) Cc Mp DROP Sp) as (art1 & [_ _ _ W4] & Le).
            exists art1. split; [intros u x Hx; rewrite <- (total_sum u sel); exact (W4 u x Hx)|]. intros sel1 art2 W1. rewrite Pl in Gr.
            destruct (week_grown _ _ _ _ _ _ _ Gr NmP W1) as (sel2 & W2 & <-). exact (Le sel2 art2 W2). }
        intros u x Hx. destruct (AV u x Hx) as (A1 & A2). rewrite <- (columns_with_sum u sel) in A1 by (intros c Hc; exact (proj1 (SE c Hc))).
        rewrite (total_sum u sel) in A1. split; [lia|]. intro Z. rewrite (A2 Z) in A1. lia.
      - assert (NoC : custs g3 = []).
        { unfold solve_columns in He. apply bind_ok in He. destruct He as (s1 & H1 & He). apply bind_ok in He. destruct He as (r & H2 & He).
          assert (Er : r = None) by congruence. assert (Es : s' = s1) by congruence. subst s'. rewrite Er in H2. unfold conclude in H2. destruct (2 <? _)%nat eqn:E2'.
          { apply bind_ok in H2. destruct H2 as (x & _ & H2). apply bind_ok in H2. destruct H2 as (y & _ & H2). discriminate. }
          apply Nat.ltb_ge in E2'.
          destruct (custs g3) as [|u l] eqn:Ecu; [reflexivity|]. exfalso. assert (Hu : In u (custs g3)) by (rewrite Ecu; left; reflexivity).
          assert (Len : (3 <= List.length (nodes g3))%nat).
          { apply in_custs in Hu. destruct Hu as (Hu & U1 & U2). change 3%nat with (List.length [Source; Sink; u]). apply NoDup_incl_length.
            - constructor; [intros [Z|[Z|[]]]; congruence|]. constructor; [intros [Z|[]]; congruence|]. constructor; [intros []|constructor].
            - intros x [<-|[<-|[<-|[]]]]; [apply (net_source _ _ Net)|apply (net_sink _ _ Net)|exact Hu]. }
          unfold nodes in Len. rewrite <- En, map_length in Len. lia. }
        exists []. split; [exact EI5|]. split; [intros c []|]. split; [|congruence]. intros u x (Hx & U1 & U2 & _). exfalso.
        assert (Hu : In u (custs g3)) by (apply in_custs; split; [apply (in_map fst) in Hx; exact Hx|auto]). rewrite NoC in Hu. destruct Hu. }
    destruct Key as (sel & Esel & Gd & On & Bst). rewrite Esel in Hnl.
    destruct (F2_choose (fun c cs => fits p ok simple c cs) sel Gd) as (css & F).
    assert (Frs : Forall2 (fun c r => route_shape r /\ forall e, In e (c_arcs c) <-> In e (arcs r)) sel (map trip css)).
    { clear - F. induction F as [|c cs l l' Q F IH]; [constructor|]. cbn [map]. constructor; [split; [exact (ft_shape _ _ _ _ _ Q)|exact (ft_arcs _ _ _ _ _ Q)]|exact IH]. }
    destruct (node_lists_spec _ _ _ _ _ _ _ _ _ SP Frs Hnl) as (locked & Ke & Er & Ty).
    assert (El : locked = []) by (inversion Ke; reflexivity). rewrite El, app_nil_r in Er.
    exists sel, css, d. split; [exact F|]. split; [rewrite Er, map_length; reflexivity|]. split; [exact Ty|].
    split; [exact On|]. split; [reflexivity|]. split; [exact Esc|]. split; [exact Sch|]. split; [reflexivity|]. split; [reflexivity|]. split; [reflexivity|]. exists rs0, pool. auto.
  Qed.

  Lemma per_plan : solve X fuel fuel2 sa v = Ok (v', out) ->
    exists rs ks d, List.length ks = List.length rs /\
      sv_routes (out_solved out) = combine (seq 1 (List.length rs)) rs /\
      (forall i k, nth_error ks i = Some k -> dget Nat.eqb (S i) (sv_types (out_solved out)) = Some k) /\
      Forall2 (fun k r => route_shape r /\ along (arc_list g3) r /\ ok k (stops r)) ks rs /\
      (forall u x, node_data g3 u = Some x -> In u (custs g3) -> (Z.of_nat (visits u rs) <= freq x)%Z /\ ((freq x <= 1)%Z -> Z.of_nat (visits u rs) = freq x)) /\
      only_visits (custs g3) rs /\
      sv_dropped (out_solved out) = v_dropped v /\ out_schedule out = Some d /\
      schedule_routes g3 period (sv_routes (out_solved out)) (sv_types (out_solved out)) (pr_num_vehicles_schedule p) (x_days X) = Ok d /\
      sv_copy (out_solved out) = pr_copy p /\ sv_span (out_solved out) = v_span v /\ sv_drop (out_solved out) = v_drop v /\
      (exists rs0 pool, initialize o (a_mixed_fleet a) caps dur (pr_num_stops p) (x_perms X) ini g3 = Ok (rs0, pool) /\
        (custs g3 <> [] -> (forall n q, right_answer q (e_master (x_env X) n q)) -> v_span v = false -> simple ->
         exists art, (forall u x, customer g3 u x -> Z.of_nat (visits u rs + art u) = freq x /\ ((freq x <= 1)%Z -> art u = 0%nat)) /\
           forall sel1 art1, week_choice g3 pool sel1 art1 ->
             Qsum (map (fun x => path_sum (cost_of g3 (fst x)) (snd x)) (combine ks rs)) + (10000000000 # 1) * Qsum_over (custs g3) (fun u => inject_Z (Z.of_nat (art u)))
             <= week_cost g3 sel1 art1)).
  Proof.
    intro So. destruct (per_core So) as (sel & css & d & F & Er & Ty & On & Dr & Esc & Sch & Cp1 & Cp2 & Cp3 & rs0 & pool & HI & Bst).
    assert (Ln : List.length css = List.length sel) by (symmetry; exact (F2_length _ _ _ F)).
    exists (map trip css), (map c_type sel), d. split; [rewrite !map_length; congruence|]. split; [rewrite map_length; exact Er|].
    assert (Vi : forall u, visits u (map trip css) = total_times u sel).
    { intro u. apply visits_total. clear - F. induction F as [|c cs l l' Q F IH]; [constructor|]. cbn [map]. constructor; [split; [exact (ft_path _ _ _ _ _ Q)|exact (ft_nodes _ _ _ _ _ Q)]|exact IH]. }
    split.
    { intros i k Hk. rewrite nth_error_map in Hk. destruct (nth_error sel i) as [c|] eqn:Hn; [|discriminate]. cbn in Hk. injection Hk as <-. exact (Ty i c Hn). }
    assert (ST : forall cs, route_shape (trip cs) -> stops (trip cs) = cs).
    { intros cs Sh. destruct (route_shape_stops _ Sh) as (cs' & Ec & Es). unfold trip in Ec. injection Ec as Ec. apply app_inv_tail in Ec. subst cs'. exact Es. }
    split.
    { clear - F ST. induction F as [|c cs l l' Q F IH]; [constructor|]. cbn [map]. constructor; [|exact IH]. destruct Q as [Q1 Q2 _ _ _ Q3 _].
      split; [exact Q1|]. split; [exact Q2|]. rewrite (ST cs Q1). exact Q3. }
    split.
    { intros u x Hx Hu. rewrite Vi. apply On. apply in_custs in Hu. split; [apply assoc_node_In; exact Hx|]. split; [tauto|]. split; [tauto|]. exact (AUX u x Hx). }
    split; [|split; [exact Dr|]; split; [exact Esc|]; split; [exact Sch|]; split; [exact Cp1|]; split; [exact Cp2|]; split; [exact Cp3|]; exists rs0, pool; split; [exact HI|]].
    2:{ intros Nc RA Sp Si. destruct (Bst Nc RA Sp) as (art & B1 & B2). exists art. split; [intros u x Hx; rewrite Vi; exact (B1 u x Hx)|].
        intros sel1 art1 W1. specialize (B2 sel1 art1 W1). unfold week_cost at 1 in B2.
        assert (Eq : Qsum (map (fun x => path_sum (cost_of g3 (fst x)) (snd x)) (combine (map c_type sel) (map trip css))) == Qsum_over sel c_cost); [|rewrite Eq; exact B2].
        clear - F Si. unfold Qsum_over. induction F as [|c cs l l' Q F IH]; [reflexivity|]. cbn [map combine fst snd]. rewrite !Qsum_cons, IH, (ft_cost _ _ _ _ _ Q Si). reflexivity. }
    intros r u Hr Hu U1 U2. apply in_map_iff in Hr. destruct Hr as (cs & <- & Hr). destruct (F2_in_r _ _ _ _ F Hr) as (c & Hc & Q). apply in_custs. split; [|auto].
    eapply along_nodes; [exact (net_wf _ _ Net)|exact (ft_shape _ _ _ _ _ Q)|exact (ft_along _ _ _ _ _ Q)|exact Hu].
  Qed.
End Gen.

(** Some of the routes the search starts from, as a choice of columns. *)
Lemma week_first g K caps rs0 pool rs1 rest art1 :
  network K g -> (1 <= K)%nat -> convert_from g caps 1 rs0 = Ok pool ->
  (forall r, In r rs0 -> route_shape r /\ along (arc_list g) r) -> Permutation rs0 (rs1 ++ rest) ->
  (forall u x, customer g u x -> Z.of_nat (visits u rs1 + art1 u) = freq x /\ ((freq x <= 1)%Z -> art1 u = 0%nat)) ->
  exists sel1, week_choice g pool sel1 art1 /\ Qsum_over sel1 c_cost == Qsum (map (path_sum (cost_of g 0)) rs1).
Proof.
  intros Net K1 Cv Sh Pm Vi.
  destruct (convert_from_ok g K Net K1 caps rs0 1) as [(cols & F1 & F2 & F3)|(F1 & _)]; [|  |congruence].
  { intros r Hr. destruct (Sh r Hr) as ((cs & -> & _) & Al). split; [exact Al|]. cbn. rewrite app_length. cbn. lia. }
  assert (cols = pool) by congruence. subst cols.
  assert (F : Forall2 (fun r c => exists i, column_of g caps i r c) rs0 pool).
  { clear - F2 F3. revert F2 F3. generalize 1%nat. revert pool. induction rs0 as [|r rs IH]; intros [|c pool] n F2 F3; try discriminate; constructor.
    - destruct (F3 0%nat r eq_refl) as (c' & Hc & Q). cbn in Hc. injection Hc as <-. eauto.
    - apply (IH pool (S n)); [cbn in F2; congruence|]. intros i x Hi. destruct (F3 (S i) x Hi) as (c' & Hc & Q). exists c'. split; [exact Hc|]. replace (S n + i)%nat with (n + S i)%nat by lia. exact Q. }
  assert (Np : NoDup pool).
  { assert (Nm : forall i c, nth_error pool i = Some c -> c_name c = CNat (1 + i)).
    { intros i c Hc. destruct (nth_error rs0 i) as [r|] eqn:Ei; [destruct (F3 i r Ei) as (c' & Hc' & Q & _); congruence|].
      exfalso. apply nth_error_None in Ei. assert (i < List.length pool)%nat by (apply nth_error_Some; congruence). lia. }
    apply NoDup_nth_error. intros i j Hi Hj. destruct (nth_error pool i) as [c|] eqn:Ei; [|apply nth_error_None in Ei; lia].
    pose proof (Nm i c Ei). pose proof (Nm j c (eq_sym Hj)). assert (E : CNat (1 + i) = CNat (1 + j)) by congruence. injection E as ->. reflexivity. }
  destruct (Permutation_Forall2 Pm F) as (pool' & Pp & F'). apply Forall2_app_inv_l in F'. destruct F' as (sel1 & sel2 & G1 & _ & ->).
  exists sel1.
  assert (In1 : forall c, In c sel1 -> In c pool) by (intros c Hc; apply (Permutation_in _ (Permutation_sym Pp)), in_or_app; left; exact Hc).
  assert (Sh1 : forall r, In r rs1 -> route_shape r) by (intros r Hr; apply Sh; apply (Permutation_in _ (Permutation_sym Pm)), in_or_app; left; exact Hr).
  split; [constructor|].
  - exact In1.
  - exact (NoDup_app_l _ _ (Permutation_NoDup Pp Np)).
  - intros c i Hc. destruct (F2_in_r _ _ _ _ G1 Hc) as (r & _ & j & Q & _). rewrite Q. discriminate.
  - intros u x Hx. rewrite total_sum, <- (visits_total u sel1 rs1); [exact (Vi u x Hx)|].
    clear - G1 Sh1. induction G1 as [|r c l l' (i & Q) G1 IH]; [constructor|]. constructor.
    + destruct Q as (_ & _ & _ & _ & Nd & Pa & _). split; [left; exact Pa|]. destruct (Nd (route_shape_NoDup _ (Sh1 r (or_introl eq_refl)))) as (-> & _). apply Permutation_refl.
    + apply IH. intros; apply Sh1; right; assumption.
  - clear - G1. unfold Qsum_over. induction G1 as [|r c l l' (i & Q) G1 IH]; [reflexivity|]. cbn [map]. rewrite !Qsum_cons, IH. destruct Q as (_ & _ & _ & _ & _ & _ & Q & _). rewrite Q. reflexivity.
Qed.
