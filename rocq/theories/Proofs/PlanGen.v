(** From a property kept by all columns to the plan solve() returns. *)
From Verif.Base Require Import Prelude Graph.
From Verif.Spec Require Import Routes Network Inputs Feasible Prep Heuristics LinProg Pricing MIP Columns Timing Pool Master Run Plans Results.
From Verif.Model Require Import Args Reach Checks Preprocess ClarkeWright Greedy Initial Pricing
  GreedyPricing LPPricing Cspy Master Dive Hyper ColGen Post Schedule Solve.
From Verif.Proofs Require Import RouteLemmas ChecksProofs FeasProofs PreLemmas PruneProofs KnapProofs LockProofs
  PresolveProofs PresolveEnd InitialProofs HeurCor PoolProofs PoolQuality SelectProofs MasterEnd ColGenProofs RunProofs ColGenCor ColGenEnd
  PostProofs PostCor PostEnd SolveProofs SolveHeur SolveUser ExactPool SolveExact.

Lemma of_type_count k sel : of_type k sel = count_occ Nat.eq_dec (map c_type sel) k.
Proof.
  unfold of_type. induction sel as [|c l IH]; cbn; [reflexivity|]. destruct (Nat.eq_dec (c_type c) k) as [->|Hn].
  - rewrite Nat.eqb_refl. cbn. rewrite IH. reflexivity.
  - destruct (c_type c =? k)%nat eqn:E; [apply Nat.eqb_eq in E; contradiction|exact IH].
Qed.

Lemma untag_cost c c' : untag c = untag c' -> c_cost c = c_cost c' /\ c_type c = c_type c' /\ c_name c = c_name c'.
Proof. destruct c, c'. unfold untag. cbn. intro H. injection H as -> -> -> -> -> ->. auto. Qed.

(** A selection of first columns is one of the final columns. *)
Lemma selection_grown E C g o pool l sel dr : grown E C g pool l -> NoDup (map c_name pool) -> NoDup (map c_name l) -> valid_selection g o pool sel dr ->
  exists sel', valid_selection g o l sel' dr /\ price o sel' dr == price o sel dr /\ span_price o sel' dr == span_price o sel dr /\
    forall c, In c sel' -> exists c', In c' sel /\ c_name c' = c_name c /\ c_cost c' = c_cost c.
Proof.
  intros Gr N1 N2 [V1 V2 V3 V4 V5 V6 V7].
  assert (Ex : exists sel', Forall2 (fun c c' => In c' l /\ untag c' = untag c) sel sel').
  { clear V2 V3 V4 V7. induction sel as [|c s IH]; [exists []; constructor|]. destruct IH as (s' & IH); [intros; apply V1; right; assumption|].
    destruct (grown_in _ _ _ _ _ c Gr (V1 c (or_introl eq_refl))) as (c' & Hc' & Eu). exists (c' :: s'). constructor; auto. }
  destruct Ex as (sel' & F). exists sel'.
  assert (L : forall c', In c' sel' -> exists c, In c sel /\ In c' l /\ untag c' = untag c).
  { intros c' Hc'. destruct (F2_in_r _ _ _ _ F Hc') as (c & Hc & Q). exists c. tauto. }
  assert (R : forall c, In c sel -> exists c', In c' sel' /\ untag c' = untag c).
  { intros c Hc. clear - F Hc. induction F as [|x y s s' (_ & Q) F IH]; [destruct Hc|]. destruct Hc as [->|Hc]; [exists y; split; [left; reflexivity|exact Q]|].
    destruct (IH Hc) as (c' & H1 & H2). exists c'. split; [right; exact H1|exact H2]. }
  assert (Uq : forall (q : list column) c c', NoDup (map c_name q) -> In c q -> In c' q -> c_name c = c_name c' -> c = c').
  { clear. induction q as [|x q IH]; intros c c' N Hc Hc' E; [destruct Hc|]. cbn in N. inversion N as [|? ? M1 M2]; subst.
    destruct Hc as [->|Hc], Hc' as [->|Hc']; [reflexivity| | |exact (IH c c' M2 Hc Hc' E)]; exfalso; apply M1; [rewrite E|rewrite <- E]; apply in_map; assumption. }
  assert (U1 : forall c1 c2 c', In c1 sel -> In c2 sel -> untag c' = untag c1 -> untag c' = untag c2 -> c1 = c2).
  { intros c1 c2 c' H1 H2 E1 E2. apply (Uq pool); auto. destruct (untag_cost c1 c2) as (_ & _ & En); [congruence|exact En]. }
  assert (U2 : forall c1 c2, In c1 sel' -> In c2 sel' -> untag c1 = untag c2 -> c1 = c2).
  { intros c1 c2 H1 H2 Eu. apply (Uq l); auto; [destruct (L c1 H1) as (? & _ & Q & _); exact Q|destruct (L c2 H2) as (? & _ & Q & _); exact Q|]. apply untag_cost. exact Eu. }
  assert (MU : map untag sel' = map untag sel) by (clear - F; induction F as [|x y s s' (_ & Q) F IH]; cbn; congruence).
  split; [constructor|split; [|split]].
  - intros c Hc. destruct (L c Hc) as (c' & _ & Q & _). exact Q.
  - assert (Nn : NoDup (map c_name sel)).
    { assert (Z : forall (q : list column), (forall c, In c q -> In c pool) -> NoDup q -> NoDup (map c_name q)).
      { clear - N1 Uq. induction q as [|x q IH]; intros Hp N; [constructor|]. inversion N as [|? ? M1 M2]; subst. cbn. constructor; [|apply IH; [intros; apply Hp; right; assumption|exact M2]].
        intro Q. apply in_map_iff in Q. destruct Q as (y & Ey & Hy). apply M1. rewrite <- (Uq pool y x N1); auto; apply Hp; [right; exact Hy|left; reflexivity]. }
      apply Z; assumption. }
    assert (En : map c_name sel' = map c_name sel).
    { clear - F. induction F as [|x y s s' (_ & Q) F IH]; [reflexivity|]. cbn. rewrite IH. f_equal. apply untag_cost. exact Q. }
    rewrite <- En in Nn. exact (NoDup_map_inv _ _ Nn).
  - intros c i Hc. destruct (L c Hc) as (c' & Hc' & _ & Eu). destruct (untag_cost _ _ Eu) as (_ & _ & ->). exact (V3 c' i Hc').
  - intros u d Hd. destruct (V4 u d Hd) as [((c & C1 & C2 & C3) & D)|(C1 & D)]; [left|right]; (split; [|exact D]).
    + destruct (R c C1) as (c' & Hc' & Eu). exists c'. split; [exact Hc'|]. split; [destruct (untag_times u _ _ Eu) as (-> & _); exact C2|].
      intros c2 H2 T2. destruct (L c2 H2) as (c2' & H2' & _ & Eu2). apply U2; auto. rewrite Eu2, Eu. f_equal. apply C3; [exact H2'|].
      destruct (untag_times u _ _ Eu2) as (<- & _). exact T2.
    + intros c' Hc'. destruct (L c' Hc') as (c & Hc & _ & Eu). destruct (untag_times u _ _ Eu) as (-> & _). exact (C1 c Hc).
  - exact V5.
  - exact V6.
  - intros b Hb k n Hn. assert (Eo : of_type k sel' = of_type k sel).
    { unfold of_type. clear - F. induction F as [|x y s s' (_ & Q) F IH]; [reflexivity|]. cbn. destruct (untag_cost _ _ Q) as (_ & -> & _). destruct (c_type x =? k)%nat; cbn; congruence. }
    rewrite Eo. exact (V7 b Hb k n Hn).
  - unfold price. apply Qplus_comp; [|reflexivity]. clear - F. unfold Qsum_over. induction F as [|x y s s' (_ & Q) F IH]; [reflexivity|]. cbn [map]. rewrite !Qsum_cons, IH.
    destruct (untag_cost _ _ Q) as (-> & _). reflexivity.
  - unfold span_price. apply Qplus_comp; [|reflexivity]. unfold span_of.
    assert (Eq : fold_right (fun c s => if Qltb s (c_cost c) then c_cost c else s) 0 sel' = fold_right (fun c s => if Qltb s (c_cost c) then c_cost c else s) 0 sel).
    { clear - F. induction F as [|x y s s' (_ & Q) F IH]; [reflexivity|]. cbn [fold_right]. rewrite IH. destruct (untag_cost _ _ Q) as (-> & _). reflexivity. }
    rewrite Eq. reflexivity.
  - intros c' Hc'. destruct (L c' Hc') as (c & Hc & _ & Eu). exists c. destruct (untag_cost _ _ Eu) as (E1 & _ & E3). auto.
Qed.

Section Gen.
  Variables (X : outside) (fuel fuel2 : nat) (sa : solve_args) (v v' : vrp) (out : outcome) (a : rargs) (K : nat) (p : prepared).
  Local Notation g3 := (pr_graph p).
  Local Notation o := (options_of v sa).
  Local Notation caps := (caps_arg (a_load_capacity a)).
  Local Notation dur := (int_arg (a_duration a)).
  Local Notation ini := (nonempty_or (sa_initial sa) (v_initial v)).
  Variable ok : nat -> list node -> Prop.
  Variable simple : Prop.
  Hypothesis Net : network K g3.
  Hypothesis AUX : forall u d, node_data g3 u = Some d -> is_aux_depot d = false.
  Hypothesis MR : pr_more_routes p = true.
  Hypothesis E4 : truthy (v_periodic v) = false.
  Hypothesis E5 : nonempty_or (sa_pre sa) (v_pre v) = [].
  Hypothesis E6 : sa_heuristic sa = false.
  Hypothesis E9 : sa_dive sa = false.
  Hypothesis EI : v_iter v = 0%nat /\ v_noimp v = 0%nat /\ v_bounds v = [] /\ v_hyper v = None /\ v_chosen v = [].
  Hypothesis S1 : forall n q, sound_answer q (e_master (x_env X) n q).
  Hypothesis SP : finds_paths (x_path X).
  Hypothesis H : prepare v sa = Ok (a, K, p).

  (** A column that is a route of the right kind for its vehicle type. *)
  Record fits (c : column) (cs : list node) : Prop := {
    ft_shape : route_shape (trip cs);
    ft_along : along (arc_list g3) (trip cs);
    ft_nodes : Permutation (c_nodes c) (trip cs);
    ft_arcs : forall a, In a (c_arcs c) <-> In a (arcs (trip cs));
    ft_path : c_path c = None \/ c_path c = Some (trip cs);
    ft_ok : ok (c_type c) cs;
    ft_cost : simple -> c_cost c == path_sum (cost_of g3 (c_type c)) (trip cs)
  }.
  Definition usable (c : column) : Prop := (exists cs, fits c cs) \/ exists i, c_name c = CNonElem i.

  Hypothesis IG : forall rs pool,
    initialize o (a_mixed_fleet a) caps dur (pr_num_stops p) (x_perms X) ini g3 = Ok (rs, pool) ->
    forall c, In c pool -> usable c.
  Hypothesis PG : forall rs pool,
    initialize o (a_mixed_fleet a) caps dur (pr_num_stops p) (x_perms X) ini g3 = Ok (rs, pool) ->
    forall p1 p2, (forall c, In c p1 -> usable c) ->
    priced (x_env X) (cg_of X v sa a K p (covered rs)) g3 p1 p2 -> forall c, In c p2 -> usable c.

  Lemma usable_untag c c' : untag c = untag c' -> usable c -> usable c'.
  Proof.
    intros U [(cs & G)|(i & G)]; [left; exists cs|right; exists i]; destruct c, c'; unfold untag in U; cbn in *.
    - injection U as -> -> -> -> -> ->. destruct G as [G1 G2 G3 G4 G5 G6 G7]. constructor; assumption.
    - congruence.
  Qed.

  Lemma grown_usable rs pool l :
    initialize o (a_mixed_fleet a) caps dur (pr_num_stops p) (x_perms X) ini g3 = Ok (rs, pool) ->
    grown (x_env X) (cg_of X v sa a K p (covered rs)) g3 pool l -> forall c, In c l -> usable c.
  Proof.
    intros I Gr. induction Gr as [|p1 p2 Gr IH P|p1 p2 Gr IH P].
    - exact (IG rs pool I).
    - exact (PG rs pool I p1 p2 IH P).
    - intros c Hc. apply (in_map untag) in Hc. unfold same_columns in P. rewrite P in Hc. apply in_map_iff in Hc. destruct Hc as (c' & Eu & Hc').
      exact (usable_untag c' c Eu (IH c' Hc')).
  Qed.

  (** The columns chosen at the end, and the routes they stand for. *)
  Lemma generic_core : solve X fuel fuel2 sa v = Ok (v', out) ->
    exists rs0 pool sel dr css, initialize o (a_mixed_fleet a) caps dur (pr_num_stops p) (x_perms X) ini g3 = Ok (rs0, pool) /\
      Forall2 fits sel css /\ NoDup sel /\
      sv_routes (out_solved out) = combine (seq 1 (List.length css)) (map trip css) /\
      (forall i c, nth_error sel i = Some c -> dget Nat.eqb (S i) (sv_types (out_solved out)) = Some (c_type c)) /\
      (forall u, In u (custs g3) -> (once u sel /\ ~ In u dr) \/ (never u sel /\ In u dr)) /\
      NoDup dr /\ (forall u, In u dr -> In u (custs g3)) /\ (truthyQ (v_drop v) = false -> dr = []) /\
      sv_dropped (out_solved out) = (if truthyQ (v_drop v) then dr else v_dropped v) /\
      (custs g3 <> [] -> forall l, pr_num_vehicles p = Some l -> l <> [] -> forall k n, nth_error l k = Some n ->
         inject_Z (Z.of_nat (of_type k sel)) <= n /\ (v_all v = true -> inject_Z (Z.of_nat (of_type k sel)) == n)) /\
      (custs g3 <> [] -> (forall n q, right_answer q (e_master (x_env X) n q)) ->
         let mo := cg_master (cg_of X v sa a K p (covered rs0)) in
         forall sel' dr', valid_selection g3 mo pool sel' dr' ->
         (v_span v = false -> price mo sel dr <= price mo sel' dr') /\
         (v_span v = true -> (forall c i, In c sel' -> c_name c = CNat i -> (75 <= i)%nat -> c_cost c <= 0) ->
            span_price mo sel dr <= span_price mo sel' dr')) /\
      out_schedule out = None /\
      sv_copy (out_solved out) = pr_copy p /\ sv_span (out_solved out) = v_span v /\ sv_drop (out_solved out) = v_drop v.
  Proof.
    intro So. unfold solve in So. rewrite H in So. cbn [bind] in So. rewrite E6 in So.
    apply bind_ok in So. destruct So as (ic & HI & So). destruct ic as (rs0 & pool). cbn [fst snd] in So.
    apply bind_ok in So. destruct So as (s & Hs & So). apply bind_ok in So. destruct So as (e & He & So). rewrite E9 in He.
    apply bind_ok in So. destruct So as ((((routes & types) & dr) & sch) & Hp & So).
    assert (Eo : out_solved out = solved_of v a p (s_graph (fst e)) routes types dr /\ out_schedule out = sch) by (injection So as _ <-; split; reflexivity).
    clear So. destruct Eo as (Eo & Esc). unfold post_process in Hp. rewrite E4 in Hp.
    apply bind_ok in Hp. destruct Hp as (dr0 & Hdr & Hp).
    apply bind_ok in Hp. destruct Hp as ((rts & tys) & Hnl & Hp). cbn [bind fst snd] in Hp.
    assert (Ep : routes = rts /\ types = tys /\ dr = dr0 /\ sch = None) by (injection Hp as <- <- <- <-; auto). clear Hp. destruct Ep as (-> & -> & -> & ->).
    rewrite Eo. cbn [sv_routes sv_types sv_dropped solved_of sv_copy sv_span sv_drop]. rewrite E5 in Hnl.
    set (C := cg_of X v sa a K p (covered rs0)) in *.
    destruct EI as (EI1 & EI2 & EI3 & EI4 & EI5).
    assert (Fr : fresh C g3 s).
    { unfold start in Hs. apply bind_ok in Hs. destruct Hs as (m & Hm & Hs). injection Hs as <-.
      constructor; cbn [s_pool s_master s_graph s_fixed s_diving dv_depth dv_level s_dive s_iter s_noimp s_more s_bounds s_hyper]; auto.
      - exists (a_mixed_fleet a), (x_perms X), ini, rs0. exact HI.
      - rewrite EI4. reflexivity. }
    assert (Pl : s_pool s = pool) by (unfold start in Hs; apply bind_ok in Hs; destruct Hs as (m & Hm & Hs); injection Hs as <-; reflexivity).
    assert (CU : forall u, In u (custs g3) -> exists d, customer g3 u d).
    { intros u Hu. apply in_custs in Hu. destruct Hu as (Hu & U1 & U2). apply node_data_In in Hu. destruct Hu as (d & Hd). exists d.
      split; [apply assoc_node_In; exact Hd|]. split; [exact U1|]. split; [exact U2|]. exact (AUX u d Hd). }
    assert (Key : exists sel dr1, (match snd e with Some t => snd (fst t) | None => v_chosen v end) = sel /\ NoDup sel /\
      (forall c, In c sel -> exists cs, fits c cs) /\
      (forall u, In u (custs g3) -> (once u sel /\ ~ In u dr1) \/ (never u sel /\ In u dr1)) /\
      NoDup dr1 /\ (forall u, In u dr1 -> In u (custs g3)) /\ (truthyQ (v_drop v) = false -> dr1 = []) /\
      dr0 = (if truthyQ (v_drop v) then dr1 else v_dropped v) /\
      (custs g3 <> [] -> forall l, pr_num_vehicles p = Some l -> l <> [] -> forall k n, nth_error l k = Some n ->
         inject_Z (Z.of_nat (of_type k sel)) <= n /\ (v_all v = true -> inject_Z (Z.of_nat (of_type k sel)) == n)) /\
      (custs g3 <> [] -> (forall n q, right_answer q (e_master (x_env X) n q)) ->
         forall sel' dr', valid_selection g3 (cg_master C) pool sel' dr' ->
         (v_span v = false -> price (cg_master C) sel dr1 <= price (cg_master C) sel' dr') /\
         (v_span v = true -> (forall c i, In c sel' -> c_name c = CNat i -> (75 <= i)%nat -> c_cost c <= 0) ->
            span_price (cg_master C) sel dr1 <= span_price (cg_master C) sel' dr'))).
    { destruct e as (s' & [((t & sel) & dropped)|]); cbn [snd fst] in *.
      - destruct (concluded_end _ _ _ _ _ _ _ _ _ _ Fr He) as (Hcg & Gr & Cc). exists sel, dropped. split; [reflexivity|].
        assert (Fi : fine (s_pool s')) by (eapply grown_fine; [exact Gr|apply (fresh_fine C g3 s Fr)]).
        assert (Nm : NoDup (map c_name (s_pool s'))).
        { apply names_NoDup. eapply grown_numbered; [exact Gr|]. exact (iv_numbered _ _ _ (fresh_inv C g3 s Fr)). }
        destruct (conclusion_valid g3 (cg_master C) (s_pool s') _ _ t sel dropped (net_wf _ _ Net) (fun c Hc => proj1 (Fi c Hc)) Nm
          (fun m _ => S1 (S (s_tick s')) (program_of (integral m))) Cc E4) as [V1 V2 V3 V4 V5 V6 V7].
        split; [exact V2|]. split.
        { rewrite Pl in Gr. intros c Hc. destruct (grown_usable rs0 pool (s_pool s') HI Gr c (V1 c Hc)) as [Q|(i & Q)]; [exact Q|]. exfalso. exact (V3 c i Hc Q). }
        split; [intros u Hu; destruct (CU u Hu) as (d & Hd); exact (V4 u d Hd)|]. destruct V5 as (V5 & V5'). split; [exact V5|]. split; [exact V5'|]. split.
        { intro ED. apply V6. intros q (Q1 & Q2). change (mo_drop (cg_master C)) with (v_drop v) in Q1. rewrite Q1 in ED. cbn in ED. apply negb_false_iff, Qeq_bool_iff in ED. contradiction. }
        split.
        { destruct (truthyQ (v_drop v)); cbn in Hdr; congruence. }
        split; [intros _ l El Nl k n Hn; apply (V7 l); [|exact Hn]; split; [exact El|]; split; [exact Nl|exact E4]|].
        intros _ EX sel' dr' Va. assert (NmP : NoDup (map c_name pool)) by (rewrite <- Pl; apply names_NoDup; exact (iv_numbered _ _ _ (fresh_inv C g3 s Fr))). rewrite Pl in Gr. destruct (selection_grown _ _ _ _ _ _ _ _ Gr NmP Nm Va) as (sel2 & Va2 & Pr2 & Sp2 & Nm2). split.
        + intro Sp. destruct (right_selection g3 (cg_master C) (s_pool s') _ _ t sel dropped (net_wf _ _ Net) (fun c Hc => proj1 (Fi c Hc)) Nm
            (fun m _ => EX (S (s_tick s')) (program_of (integral m))) Cc E4 sel2 dr' Va2) as (T & _).
          specialize (T Sp). rewrite Pr2 in T. exact T.
        + intros Sp Few. destruct (right_selection g3 (cg_master C) (s_pool s') _ _ t sel dropped (net_wf _ _ Net) (fun c Hc => proj1 (Fi c Hc)) Nm
            (fun m _ => EX (S (s_tick s')) (program_of (integral m))) Cc E4 sel2 dr' Va2) as (_ & T).
          specialize (T Sp). rewrite Sp2 in T. apply T. intros c i Hc Ei Hi. destruct (Nm2 c Hc) as (c' & Hc' & Ec & <-). apply (Few c' i Hc'); [congruence|exact Hi].
      - assert (NoC : custs g3 = []).
        { unfold solve_columns in He. apply bind_ok in He. destruct He as (s1 & H1 & He). apply bind_ok in He. destruct He as (r & H2 & He).
          assert (Er : r = None) by congruence. rewrite Er in H2. unfold conclude in H2. destruct (2 <? _)%nat eqn:E2'.
          { apply bind_ok in H2. destruct H2 as (x & _ & H2). apply bind_ok in H2. destruct H2 as (y & _ & H2). discriminate. }
          apply Nat.ltb_ge in E2'. apply generation_is_run in H1. destruct H1 as (n & _ & Ru). destruct (run_ok (x_env X) C g3 n s s1 Ru (fresh_inv C g3 s Fr)) as (Iv & _).
          assert (En : map fst (gnodes (s_graph s1)) = nodes g3) by (unfold nodes; rewrite (strip_nodes _ _ (iv_graph _ _ _ Iv)); reflexivity).
          destruct (custs g3) as [|u l] eqn:Ecu; [reflexivity|]. exfalso. assert (Hu : In u (custs g3)) by (rewrite Ecu; left; reflexivity).
          assert (Len : (3 <= List.length (nodes g3))%nat).
          { apply in_custs in Hu. destruct Hu as (Hu & U1 & U2). change 3%nat with (List.length [Source; Sink; u]). apply NoDup_incl_length.
            - constructor; [intros [Z|[Z|[]]]; congruence|]. constructor; [intros [Z|[]]; congruence|]. constructor; [intros []|constructor].
            - intros x [<-|[<-|[<-|[]]]]; [apply (net_source _ _ Net)|apply (net_sink _ _ Net)|exact Hu]. }
          rewrite <- En, map_length in Len. lia. }
        exists [], []. split; [exact EI5|]. split; [constructor|]. split; [intros c []|]. split; [intros u Hu; rewrite NoC in Hu; destruct Hu|]. split; [constructor|].
        split; [intros u []|]. split; [reflexivity|]. split; [destruct (truthyQ (v_drop v)); cbn in Hdr; congruence|]. split; intro Q; congruence. }
    destruct Key as (sel & dr1 & Esel & NDs & Gd & On & D1 & D2 & D3 & D4 & D5 & D6). rewrite Esel in Hnl.
    destruct (F2_choose (fun c cs => fits c cs) sel Gd) as (css & F).
    assert (Frs : Forall2 (fun c r => route_shape r /\ forall e, In e (c_arcs c) <-> In e (arcs r)) sel (map trip css)).
    { clear - F. induction F as [|c cs l l' Q F IH]; [constructor|]. cbn [map]. constructor; [split; [exact (ft_shape _ _ Q)|exact (ft_arcs _ _ Q)]|exact IH]. }
    destruct (node_lists_spec _ _ _ _ _ _ _ _ _ SP Frs Hnl) as (locked & Ke & Er & Ty).
    assert (El : locked = []) by (inversion Ke; reflexivity). rewrite El, app_nil_r in Er.
    exists rs0, pool, sel, dr1, css. split; [exact HI|]. split; [exact F|]. split; [exact NDs|]. split; [rewrite Er, map_length; reflexivity|]. split; [exact Ty|].
    split; [exact On|]. split; [exact D1|]. split; [exact D2|]. split; [exact D3|]. split; [exact D4|]. split; [exact D5|]. split; [exact D6|]. split; [exact Esc|]. auto.
  Qed.

  Lemma generic_plan : solve X fuel fuel2 sa v = Ok (v', out) ->
    exists rs ks dr, List.length ks = List.length rs /\
      sv_routes (out_solved out) = combine (seq 1 (List.length rs)) rs /\
      (forall i k, nth_error ks i = Some k -> dget Nat.eqb (S i) (sv_types (out_solved out)) = Some k) /\
      Forall2 (fun k r => route_shape r /\ along (arc_list g3) r /\ ok k (stops r)) ks rs /\
      (forall u, In u (custs g3) -> (visits u rs = 1%nat /\ ~ In u dr) \/ (visits u rs = 0%nat /\ In u dr)) /\
      only_visits (custs g3) rs /\ NoDup dr /\ (forall u, In u dr -> In u (custs g3)) /\
      (truthyQ (v_drop v) = false -> dr = []) /\
      sv_dropped (out_solved out) = (if truthyQ (v_drop v) then dr else v_dropped v) /\
      (custs g3 <> [] -> forall l, pr_num_vehicles p = Some l -> l <> [] -> forall k n, nth_error l k = Some n ->
         inject_Z (Z.of_nat (count_occ Nat.eq_dec ks k)) <= n /\
         (v_all v = true -> inject_Z (Z.of_nat (count_occ Nat.eq_dec ks k)) == n)) /\
      out_schedule out = None /\
      sv_copy (out_solved out) = pr_copy p /\ sv_span (out_solved out) = v_span v /\ sv_drop (out_solved out) = v_drop v.
  Proof.
    intro So. destruct (generic_core So) as (rs0 & pool & sel & dr1 & css & HI & F & NDs & Er & Ty & On & D1 & D2 & D3 & D4 & D5 & _ & Esc & Cp).
    assert (Ln : List.length css = List.length sel) by (symmetry; exact (F2_length _ _ _ F)).
    exists (map trip css), (map c_type sel), dr1. split; [rewrite !map_length; congruence|]. split; [rewrite map_length; exact Er|].
    assert (Vi : forall u, visits u (map trip css) = total_times u sel).
    { intro u. apply visits_total. clear - F. induction F as [|c cs l l' Q F IH]; [constructor|]. cbn [map]. constructor; [split; [exact (ft_path _ _ Q)|exact (ft_nodes _ _ Q)]|exact IH]. }
    split.
    { intros i k Hk. rewrite nth_error_map in Hk. destruct (nth_error sel i) as [c|] eqn:Hn; [|discriminate]. cbn in Hk. injection Hk as <-. exact (Ty i c Hn). }
    assert (ST : forall cs, route_shape (trip cs) -> stops (trip cs) = cs).
    { intros cs Sh. destruct (route_shape_stops _ Sh) as (cs' & Ec & Es). unfold trip in Ec. injection Ec as Ec. apply app_inv_tail in Ec. subst cs'. exact Es. }
    split.
    { clear - F ST. induction F as [|c cs l l' Q F IH]; [constructor|]. cbn [map]. constructor; [|exact IH]. destruct Q as [Q1 Q2 _ _ _ Q3 _].
      split; [exact Q1|]. split; [exact Q2|]. rewrite (ST cs Q1). exact Q3. }
    split.
    { intros u Hu. rewrite Vi. destruct (On u Hu) as [(O1 & O2)|(O1 & O2)]; [left|right]; (split; [|exact O2]); [apply total_once; assumption|apply total_never; exact O1]. }
    split.
    { intros r u Hr Hu U1 U2. apply in_map_iff in Hr. destruct Hr as (cs & <- & Hr). destruct (F2_in_r _ _ _ _ F Hr) as (c & Hc & Q). apply in_custs. split; [|auto].
      eapply along_nodes; [exact (net_wf _ _ Net)|exact (ft_shape _ _ Q)|exact (ft_along _ _ Q)|exact Hu]. }
    split; [exact D1|]. split; [exact D2|]. split; [exact D3|]. split; [exact D4|]. split.
    { intros Nc l El' Nl k n Hn. rewrite <- of_type_count. exact (D5 Nc l El' Nl k n Hn). }
    split; [exact Esc|]. auto.
  Qed.
End Gen.
