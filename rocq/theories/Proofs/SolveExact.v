(** solve() with MIP pricing on a plain problem. *)
From Verif.Base Require Import Prelude Graph.
From Verif.Spec Require Import Routes Network Inputs Feasible Prep Heuristics LinProg Pricing MIP Columns Timing Pool Master Run Plans Results.
From Verif.Model Require Import Args Reach Checks Preprocess ClarkeWright Greedy Initial Pricing
  GreedyPricing LPPricing Cspy Master Dive Hyper ColGen Post Schedule Solve.
From Verif.Proofs Require Import RouteLemmas ChecksProofs FeasProofs PreLemmas PruneProofs KnapProofs LockProofs
  PresolveProofs PresolveEnd InitialProofs HeurCor PoolProofs PoolQuality SelectProofs MasterEnd ColGenProofs RunProofs ColGenCor ColGenEnd
  PostProofs PostCor PostEnd SolveProofs SolveHeur SolveUser ExactPool.

(* ------------------------------------------------------------------ *)
(** ** Counting visits *)

Fixpoint total_times (v : node) (sel : list column) : nat :=
  match sel with [] => 0 | c :: t => times v c + total_times v t end.

Lemma total_never v sel : (forall c, In c sel -> times v c = 0%nat) -> total_times v sel = 0%nat.
Proof. induction sel as [|c sel IH]; intro H; cbn; [reflexivity|]. rewrite (H c (or_introl eq_refl)), IH; [reflexivity|]. intros; apply H; right; assumption. Qed.

Lemma total_once v sel : NoDup sel -> once v sel -> total_times v sel = 1%nat.
Proof.
  intros ND (c & Hc & H1 & H2). induction sel as [|x sel IH]; [destruct Hc|]. inversion ND as [|? ? Nx ND']; subst. cbn [total_times].
  destruct Hc as [->|Hc].
  - rewrite H1, total_never; [reflexivity|]. intros c' Hc'. destruct (Nat.eq_dec (times v c') 0) as [E|E]; [exact E|].
    assert (c' = c) by (apply H2; [right; exact Hc'|lia]). subst. contradiction.
  - rewrite IH; auto; [|intros c' Hc' Hp; apply H2; [right; exact Hc'|exact Hp]].
    destruct (Nat.eq_dec (times v x) 0) as [E|E]; [lia|]. assert (x = c) by (apply H2; [left; reflexivity|lia]). subst. contradiction.
Qed.

Lemma visits_total v : forall sel rs, Forall2 (fun c r => (c_path c = None \/ c_path c = Some r) /\ Permutation (c_nodes c) r) sel rs -> visits v rs = total_times v sel.
Proof.
  intros sel rs F. induction F as [|c r sel rs (P1 & P2) F IH]; cbn; [reflexivity|]. rewrite IH. f_equal.
  unfold times, served. destruct P1 as [P1|P1]; rewrite P1; [|reflexivity]. symmetry. apply (proj1 (Permutation_count_occ node_eq_dec _ _) P2).
Qed.

Lemma F2_choose {A B} (P : A -> B -> Prop) l : (forall x, In x l -> exists y, P x y) -> exists l', Forall2 P l l'.
Proof.
  induction l as [|x l IH]; intro H; [exists []; constructor|]. destruct (H x (or_introl eq_refl)) as (y & Hy).
  destruct IH as (l' & Hl); [intros; apply H; right; assumption|]. exists (y :: l'). constructor; assumption.
Qed.
Lemma F2_in_r {A B} (P : A -> B -> Prop) l l' y : Forall2 P l l' -> In y l' -> exists x, In x l /\ P x y.
Proof. intro F. induction F as [|a b l l' H F IH]; intros []; [subst; exists a; split; [left; reflexivity|exact H]|]. destruct (IH H0) as (x & Hx & Hp). exists x. split; [right; exact Hx|exact Hp]. Qed.

Section Exact.
  Variables (X : outside) (fuel fuel2 : nat) (sa : solve_args) (v v' : vrp) (out : outcome) (a : rargs) (K : nat) (p : prepared).
  Local Notation G := (v_graph v).
  Local Notation h := (pr_copy p).
  Local Notation g3 := (pr_graph p).
  Local Notation o := (options_of v sa).
  Local Notation caps := (caps_arg (a_load_capacity a)).
  Local Notation dur := (int_arg (a_duration a)).
  Hypothesis R : ready G.
  Hypothesis M : a_mixed_fleet (v_args v) = false.
  Hypothesis NE : no_empty_costs G.
  Hypothesis E1 : v_windows v = false.
  Hypothesis E2 : v_pickup v = false.
  Hypothesis E3 : v_both v = false.
  Hypothesis E4 : truthy (v_periodic v) = false.
  Hypothesis E5 : nonempty_or (sa_pre sa) (v_pre v) = [].
  Hypothesis E6 : sa_heuristic sa = false.
  Hypothesis E7 : nonempty_or (sa_initial sa) (v_initial v) = [].
  Hypothesis E9 : sa_dive sa = false.
  Hypothesis ED : truthyQ (v_drop v) = false.
  Hypothesis EI : v_iter v = 0%nat /\ v_noimp v = 0%nat /\ v_bounds v = [] /\ v_hyper v = None /\ v_chosen v = [].
  Hypothesis ND : nonneg_user_demands G.
  Hypothesis AUX : forall u r, node_data G u = Some r -> r_aux_depot r = false.
  Hypothesis HP : forall x l, Permutation l (x_perms X x l).
  Hypothesis S1 : forall n q, sound_answer q (e_master (x_env X) n q).
  Hypothesis S2 : sa_cspy sa = false -> forall n tl q, sound_answer q (e_pricer (x_env X) n tl q).
  Hypothesis NC : sa_cspy sa = false -> no_circles (x_env X).
  Hypothesis LA : sa_cspy sa = true -> forall n tl h, sound_labelling h (e_label (x_env X) n tl h).
  Hypothesis SP : finds_paths (x_path X).
  Hypothesis H : prepare v sa = Ok (a, K, p).

  (** every customer of the network has to be visited *)
  Lemma all_customers u : In u (custs g3) -> exists d, customer g3 u d.
  Proof.
    intro Hu. destruct (plain_network sa v a K p R M NE E1 E5 H) as (Net & _ & Cu & _ & _ & _ & _ & _ & _ & _ & ND3 & _).
    apply in_custs in Hu. destruct Hu as (Hu & H1 & H2). pose proof Hu as Hn. apply node_data_In in Hn. destruct Hn as (d & Hd).
    exists d. split; [apply assoc_node_In; exact Hd|]. split; [exact H1|]. split; [exact H2|].
    rewrite ND3 in Hd. destruct (one_graph v sa R NE) as (N1 & A1 & D1 & W1 & SO1 & T1 & NI1 & NO1 & C1 & RT1).
    pose proof (one_presolve v sa a K p M H) as P'. destruct (pre_solve_inv _ _ _ _ P') as (g2 & _ & _ & P1 & P2 & _).
    destruct (fixed_stage_ok (config_of a 1) _ g2 W1 C1 P1) as (W2 & N2 & N2' & A2 & C2).
    assert (SO2 : In Source (nodes g2)) by (rewrite N2; exact SO1). assert (T2 : In Sink (nodes g2)) by (rewrite N2; exact T1).
    destruct (update_dummy_ok _ g2 h W2 SO2 T2 P2) as (F1 & _ & F3 & _).
    assert (Hg : In u (nodes g2)). { rewrite <- F1. apply node_data_In. exists d. exact Hd. }
    apply node_data_In in Hg. destruct Hg as (r & Hr). destruct (F3 u r Hr) as (d' & Hd' & Fd). assert (d' = d) by congruence. subst d'.
    unfold filled in Fd. destruct Fd as (_ & _ & _ & _ & _ & _ & _ & ->). apply (AUX u). rewrite <- Hr. unfold node_data. rewrite <- N1. symmetry. f_equal. exact N2'.
  Qed.

  (** the times are such that the heuristics keep the limit *)
  Definition timed : Prop := sa_greedy sa = false /\ 0 <= service_of g3 Source /\ symmetric_times g3 /\
    (sa_cspy sa = true -> forall u, In u (custs g3) -> service_of g3 u == 0) /\
    forall D, limit dur D -> forall u, In u (custs g3) -> path_sum (time_of g3) [Source; u; Sink] + service_of g3 u <= inject_Z D.

  Lemma depots_nothing : demand_of g3 Source == 0 /\ demand_of g3 Sink == 0.
  Proof.
    destruct (plain_network sa v a K p R M NE E1 E5 H) as (Net & _ & Cu & _ & _ & _ & _ & _ & _ & _ & ND3 & _).
    destruct (one_graph v sa R NE) as (N1 & A1 & D1 & W1 & SO1 & T1 & NI1 & NO1 & C1 & RT1). pose proof (one_presolve v sa a K p M H) as P'.
    pose proof (copy_depot_demand (config_of a 1) o _ p Source W1 SO1 T1 C1 P' eq_refl) as Y1.
    pose proof (copy_depot_demand (config_of a 1) o _ p Sink W1 SO1 T1 C1 P' eq_refl) as Y2.
    pose proof (one_nonneg v sa a K p R M NE H ND Source) as Z1. pose proof (one_nonneg v sa a K p R M NE H ND Sink) as Z2.
    assert (Eq : forall u, demand_of g3 u = demand_of h u) by (intro u; unfold demand_of, nd; rewrite ND3; reflexivity). rewrite !Eq. split; lra.
  Qed.

  (** every customer fits in the only vehicle *)
  Lemma customer_fits c : caps = Some [c] -> (0 < c)%Z /\ forall u, In u (custs g3) -> demand_of g3 u <= inject_Z c.
  Proof.
    intro Hc. destruct (plain_network sa v a K p R M NE E1 E5 H) as (_ & _ & Cu & FD & _).
    destruct (one_caps v sa a K p R M NE H) as (_ & Cp & _). rewrite Hc in Cp. destruct Cp as (_ & Cp & _ & Fi). split; [apply Cp; left; reflexivity|].
    intros u Hu. rewrite Cu in Hu. rewrite (FD u Hu). destruct (one_figures v sa a K p R M NE H) as (F1 & _). rewrite <- (F1 u Hu). apply in_custs in Hu.
    destruct (Fi u (proj1 Hu) c [] eq_refl) as (x & [->|[]] & Hx). exact Hx.
  Qed.

  Section Pool.
    Variable rs : list (list node).
    Variable pool : list column.
    Hypothesis I : initialize o (a_mixed_fleet a) caps dur (pr_num_stops p) (x_perms X) [] g3 = Ok (rs, pool).
    Local Notation C := (cg_of X v sa a K p (covered rs)).

    Lemma initial_keys u : In u (custs g3) -> In u (covered rs).
    Proof.
      destruct (plain_network sa v a K p R M NE E1 E5 H) as (Net & RT & Cu & FD & FS & FA & FT & SS & HC & _).
      destruct (one_args v sa a K p M H) as (EK & Ea & _ & _).
      assert (Pl : plain o (a_mixed_fleet a) = true) by (unfold plain; rewrite Ea; cbn; rewrite E1, E2, E3, E4; reflexivity).
      destruct (plain_initial_ok g3 1 Net (le_n 1) RT SS caps dur (pr_num_stops p) HC _ HP o _ Pl) as (rs0 & H0 & _ & H2).
      unfold initialize in I. cbn [nonempty] in I. rewrite H0 in I. cbn [bind] in I. apply bind_ok in I. destruct I as (cs & _ & I'). injection I' as <- _. apply H2.
    Qed.

    Lemma initial_good c : In c pool -> exists cs, good C g3 timed c cs.
    Proof.
      destruct (plain_network sa v a K p R M NE E1 E5 H) as (Net & RT & Cu & FD & FS & FA & FT & SS & HC & _).
      destruct (one_args v sa a K p M H) as (EK & Ea & _ & _).
      assert (Em : a_mixed_fleet a = false) by (rewrite Ea; reflexivity).
      destruct (plain_initial g3 1 caps dur (pr_num_stops p) (x_perms X) o (a_mixed_fleet a) Net (le_n 1) RT SS HC HP E1 E2 E3 Em E4) as (rs0 & H0 & _ & H2).
      unfold initialize in I. cbn [nonempty] in I. rewrite H0 in I. cbn [bind] in I. apply bind_ok in I. destruct I as (cols & Hc & I'). injection I' as <- <-.
      assert (A : forall r, In r rs0 -> along (arc_list g3) r /\ (2 <= List.length r)%nat).
      { intros r Hr. destruct (H2 r Hr) as ((cs & -> & _) & Al & _). split; [exact Al|]. cbn. rewrite app_length. cbn. lia. }
      destruct (convert_from_ok g3 1 Net (le_n 1) caps rs0 1 A) as [(cols' & Hc' & L & Hn)|(Hc' & _)]; [|unfold convert_initial_routes in Hc; congruence].
      assert (cols' = cols) by (unfold convert_initial_routes in Hc; congruence). subst cols'. intro Hin. apply In_nth_error in Hin. destruct Hin as (i & Hi).
      assert (Hr : exists r, nth_error rs0 i = Some r).
      { destruct (nth_error rs0 i) eqn:En; [eauto|]. apply nth_error_None in En. rewrite <- L in En. apply nth_error_None in En. congruence. }
      destruct Hr as (r & Hr). destruct (Hn i r Hr) as (c' & Hi' & Q1 & Q2 & Q3 & Q4 & Q5 & Q6 & Q7 & Q8). assert (c' = c) by congruence. subst c'.
      apply nth_error_In in Hr. destruct (H2 r Hr) as (Sh & Al & St & Lo & Ns & Du).
      destruct (route_shape_stops r Sh) as (cs & Er & Es). exists cs. rewrite Es in *. fold (trip cs) in Er. subst r.
      constructor; auto.
      - apply NoDup_Permutation; [exact Q3|apply route_shape_NoDup; exact Sh|exact Q2].
      - cbn [cg_caps cg_of]. intros x Hx. destruct (customer_fits x Hx) as (Y1 & Y2). apply (Lo x []); auto.
      - cbn [cg_stops cg_of]. intros n Hn' Hp. apply Ns; [exact Hn'|lia].
      - cbn [cg_duration cg_of]. intros (_ & _ & Sy & _ & Tr) Ne D HD. apply Du; auto.
      - cbn [cg_caps cg_of]. intros [Z|(x & Z)]; rewrite Z in Q8; [exact Q8|]. destruct Q8 as ((y & Y1 & _) & _). destruct (c_type c) as [|[|k]]; [reflexivity|discriminate|discriminate].
    Qed.

    Lemma grown_good l : grown (x_env X) C g3 pool l -> forall c, In c l -> useable C g3 timed c.
    Proof.
      destruct (plain_network sa v a K p R M NE E1 E5 H) as (Net & RT & Cu & FD & FS & FA & FT & SS & HC & _).
      destruct (one_args v sa a K p M H) as (EK & Ea & _ & _). destruct depots_nothing as (D1 & D2).
      intro Gr. induction Gr as [|p1 p2 Gr IH P|p1 p2 Gr IH P].
      - intros c Hc. left. exact (initial_good c Hc).
      - refine (priced_good (x_env X) C g3 timed Net _ _ _ _ S2 NC LA D1 D2 _ p1 p2 IH P).
        + exact EK.
        + intros _. unfold custom_ref. cbn. rewrite E1, E2, E3. reflexivity.
        + exact E2.
        + exact initial_keys.
        + intros (T1 & T2 & _ & T3 & _). auto.
      - intros c Hc. apply (in_map untag) in Hc. unfold same_columns in P. rewrite P in Hc. apply in_map_iff in Hc. destruct Hc as (c' & Eu & Hc').
        exact (useable_untag C g3 timed c' c Eu (IH c' Hc')).
    Qed.
  End Pool.

  Lemma exact_plan : solve X fuel fuel2 sa v = Ok (v', out) ->
    exists rs, sv_routes (out_solved out) = combine (seq 1 (List.length rs)) rs /\
      each_once (custs G) rs /\ only_visits (custs G) rs /\
      (forall r, In r rs -> route_shape r /\ along (arc_list g3) r /\ within_limits G (v_args v) r /\
         (timed -> stops r <> [] -> forall D, limit dur D -> path_sum (time_of g3) r + node_sum (service_of g3) (stops r) <= inject_Z D)) /\
      (caps = None \/ (exists x, caps = Some [x]) -> forall i, (1 <= i <= List.length rs)%nat -> dget Nat.eqb i (sv_types (out_solved out)) = Some 0%nat) /\
      sv_dropped (out_solved out) = v_dropped v /\ out_schedule out = None /\
      sv_copy (out_solved out) = h /\ sv_span (out_solved out) = v_span v /\ sv_drop (out_solved out) = v_drop v.
  Proof.
    destruct (plain_network sa v a K p R M NE E1 E5 H) as (Net & RT & Cu & FD & FS & FA & FT & SS & HC & MR & _).
    destruct (one_args v sa a K p M H) as (EK & Ea & _ & _).
    intro So. unfold solve in So. rewrite H in So. cbn [bind] in So. rewrite E6 in So.
    apply bind_ok in So. destruct So as (ic & HI & So). rewrite E7 in HI. destruct ic as (rs0 & pool). cbn [fst snd] in So.
    apply bind_ok in So. destruct So as (s & Hs & So). apply bind_ok in So. destruct So as (e & He & So). rewrite E9 in He.
    apply bind_ok in So. destruct So as ((((routes & types) & dr) & sch) & Hp & So).
    assert (Eo : out_solved out = solved_of v a p (s_graph (fst e)) routes types dr /\ out_schedule out = sch) by (injection So as _ <-; split; reflexivity).
    clear So. destruct Eo as (Eo & Esc). unfold post_process in Hp. rewrite ED, E4 in Hp. cbn [bind] in Hp.
    apply bind_ok in Hp. destruct Hp as ((rts & tys) & Hnl & Hp). cbn [bind fst snd] in Hp.
    assert (Ep : routes = rts /\ types = tys /\ dr = v_dropped v /\ sch = None) by (injection Hp as <- <- <- <-; auto). clear Hp. destruct Ep as (-> & -> & -> & ->).
    rewrite Eo. cbn [sv_routes sv_types sv_dropped solved_of sv_copy sv_span sv_drop]. rewrite E5 in Hnl.
    set (C := cg_of X v sa a K p (covered rs0)) in *.
    destruct EI as (EI1 & EI2 & EI3 & EI4 & EI5).
    assert (Fr : fresh C g3 s).
    { unfold start in Hs. apply bind_ok in Hs. destruct Hs as (m & Hm & Hs). injection Hs as <-.
      constructor; cbn [s_pool s_master s_graph s_fixed s_diving dv_depth dv_level s_dive s_iter s_noimp s_more s_bounds s_hyper]; auto.
      - exists (a_mixed_fleet a), (x_perms X), [], rs0. exact HI.
      - rewrite EI4. reflexivity. }
    assert (Pl : s_pool s = pool) by (unfold start in Hs; apply bind_ok in Hs; destruct Hs as (m & Hm & Hs); injection Hs as <-; reflexivity).
    assert (Key : exists sel, (match snd e with Some t => snd (fst t) | None => v_chosen v end) = sel /\ NoDup sel /\
      (forall c, In c sel -> exists cs, good C g3 timed c cs) /\ forall u, In u (custs g3) -> once u sel).
    { destruct e as (s' & [((t & sel) & dropped)|]); cbn [snd fst] in *.
      - destruct (concluded_end _ _ _ _ _ _ _ _ _ _ Fr He) as (Hcg & Gr & Cc). exists sel. split; [reflexivity|].
        assert (Fi : fine (s_pool s')) by (eapply grown_fine; [exact Gr|apply (fresh_fine C g3 s Fr)]).
        assert (Nm : NoDup (map c_name (s_pool s'))).
        { apply names_NoDup. eapply grown_numbered; [exact Gr|]. exact (iv_numbered _ _ _ (fresh_inv C g3 s Fr)). }
        assert (Nd : forall q, ~ drops (cg_master C) q).
        { intros q (Q1 & Q2). change (mo_drop (cg_master C)) with (v_drop v) in Q1. rewrite Q1 in ED. cbn in ED. apply negb_false_iff, Qeq_bool_iff in ED. contradiction. }
        destruct (exactly_once g3 (cg_master C) (s_pool s') _ _ t sel dropped (net_wf _ _ Net) (fun c Hc => proj1 (Fi c Hc)) Nm
          (fun m _ => S1 (S (s_tick s')) (program_of (integral m))) Cc E4 Nd) as (_ & N & In1 & On).
        split; [exact N|]. split; [|intros u Hu; destruct (all_customers u Hu) as (d & Hd); exact (On u d Hd)].
        rewrite Pl in Gr. intros c Hc. destruct (grown_good rs0 pool HI (s_pool s') Gr c (In1 c Hc)) as [Q|(i & Q)]; [exact Q|]. exfalso.
        exact (conclusion_elementary g3 (cg_master C) (s_pool s') _ _ t sel dropped (net_wf _ _ Net) (fun c Hc => proj1 (Fi c Hc))
          (fun m _ => S1 (S (s_tick s')) (program_of (integral m))) Cc c i Hc Q).
      - exists []. split; [exact EI5|]. split; [constructor|]. split; [intros c []|]. intros u Hu. exfalso.
        unfold solve_columns in He. apply bind_ok in He. destruct He as (s1 & H1 & He). apply bind_ok in He. destruct He as (r & H2 & He).
        assert (Er : r = None) by congruence. rewrite Er in H2. unfold conclude in H2. destruct (2 <? _)%nat eqn:E2'.
        { apply bind_ok in H2. destruct H2 as (x & _ & H2). apply bind_ok in H2. destruct H2 as (y & _ & H2). discriminate. }
        apply Nat.ltb_ge in E2'. apply generation_is_run in H1. destruct H1 as (n & _ & Ru). destruct (run_ok (x_env X) C g3 n s s1 Ru (fresh_inv C g3 s Fr)) as (Iv & _).
        assert (En : map fst (gnodes (s_graph s1)) = nodes g3) by (unfold nodes; rewrite (strip_nodes _ _ (iv_graph _ _ _ Iv)); reflexivity).
        assert (Len : (3 <= List.length (nodes g3))%nat).
        { apply in_custs in Hu. destruct Hu as (Hu & U1 & U2). change 3%nat with (List.length [Source; Sink; u]). apply NoDup_incl_length.
          - constructor; [intros [Z|[Z|[]]]; congruence|]. constructor; [intros [Z|[]]; congruence|]. constructor; [intros []|constructor].
          - intros x [<-|[<-|[<-|[]]]]; [apply (net_source _ _ Net)|apply (net_sink _ _ Net)|exact Hu]. }
        rewrite <- En, map_length in Len. lia. }
    destruct Key as (sel & Esel & NDs & Gd & On). rewrite Esel in Hnl.
    destruct (F2_choose (fun c cs => good C g3 timed c cs) sel Gd) as (css & F).
    assert (Frs : Forall2 (fun c r => route_shape r /\ forall e, In e (c_arcs c) <-> In e (arcs r)) sel (map trip css)).
    { clear - F. induction F as [|c cs l l' Q F IH]; [constructor|]. cbn [map]. constructor; [split; [exact (gd_shape _ _ _ _ _ Q)|exact (gd_arcs _ _ _ _ _ Q)]|exact IH]. }
    destruct (node_lists_spec _ _ _ _ _ _ _ _ _ SP Frs Hnl) as (locked & Ke & Er & Ty).
    assert (El : locked = []) by (inversion Ke; reflexivity). rewrite El, app_nil_r in Er.
    exists (map trip css). split; [exact Er|].
    assert (Vi : forall u, visits u (map trip css) = total_times u sel).
    { intro u. apply visits_total. clear - F. induction F as [|c cs l l' Q F IH]; [constructor|]. cbn [map]. constructor; [split; [exact (gd_path _ _ _ _ _ Q)|exact (gd_nodes _ _ _ _ _ Q)]|exact IH]. }
    split; [intros u Hu; rewrite Vi; apply total_once; [exact NDs|apply On; rewrite Cu; exact Hu]|].
    assert (RR : forall r, In r (map trip css) -> exists c cs, In c sel /\ r = trip cs /\ good C g3 timed c cs /\ stops r = cs).
    { intros r Hr. apply in_map_iff in Hr. destruct Hr as (cs & <- & Hr). destruct (F2_in_r _ _ _ _ F Hr) as (c & Hc & Q). exists c, cs. split; [exact Hc|]. split; [reflexivity|]. split; [exact Q|].
      destruct (route_shape_stops _ (gd_shape _ _ _ _ _ Q)) as (cs' & Ec & Es). unfold trip in Ec. injection Ec as Ec. apply app_inv_tail in Ec. subst cs'. exact Es. }
    assert (OV : only_visits (custs G) (map trip css)).
    { intros r u Hr Hu U1 U2. destruct (RR r Hr) as (c & cs & _ & -> & Q & _). rewrite <- Cu. apply in_custs. split; [|auto].
      eapply along_nodes; [exact (net_wf _ _ Net)|exact (gd_shape _ _ _ _ _ Q)|exact (gd_along _ _ _ _ _ Q)|exact Hu]. }
    split; [exact OV|]. split; [|split; [|split; [reflexivity|split; [exact Esc|auto]]]].
    - intros r Hr. destruct (RR r Hr) as (c & cs & Hc & Err & Q & Es). rewrite Es. split; [rewrite Err; exact (gd_shape _ _ _ _ _ Q)|].
      split; [rewrite Err; exact (gd_along _ _ _ _ _ Q)|]. split.
      + assert (Hst : forall u, In u (stops r) -> In u (custs G)).
        { intros u Hu. unfold stops in Hu. apply filter_In in Hu. destruct Hu as (Hu & Ic). apply (OV r u Hr Hu); intros ->; discriminate. }
        constructor.
        * intros x Hx. destruct (one_caps v sa a K p R M NE H) as (_ & _ & Cl).
          rewrite (node_sum_ext _ (demand_of g3)); [|intros u Hu; rewrite FD by (apply Hst; exact Hu); reflexivity].
          rewrite Es. apply (gd_load _ _ _ _ _ Q). exact (Cl x Hx).
        * intros n Hn. destruct (one_stops v sa a K p R M NE H ND E2 E3 E5 E1 n Hn) as (b & Eb & Hb). rewrite Es. pose proof (gd_stops _ _ _ _ _ Q b Eb) as Z. lia.
      + intros Tm Ne D HD. rewrite Err. apply (gd_time _ _ _ _ _ Q); auto.
    - intros Cs i Hi. rewrite map_length in Hi. assert (Ln : List.length css = List.length sel) by (symmetry; exact (F2_length _ _ _ F)).
      destruct i as [|i]; [lia|]. destruct (nth_error sel i) as [c|] eqn:Hn; [|apply nth_error_None in Hn; lia].
      rewrite (Ty i c Hn). f_equal. apply nth_error_In in Hn. destruct (Gd c Hn) as (cs & Q). apply (gd_type _ _ _ _ _ Q). exact Cs.
  Qed.
End Exact.

(** What solve() returns, in the user's terms. *)
Theorem solve_user X fuel fuel2 sa g a drop all per span tabu v v' out :
  wf g -> a_mixed_fleet a = false -> no_empty_costs g -> nonneg_user_demands g ->
  (forall u r, node_data g u = Some r -> r_aux_depot r = false) ->
  truthy per = false -> truthyQ drop = false ->
  sa_pre sa = [] -> sa_initial sa = [] -> sa_dive sa = false -> sa_heuristic sa = false ->
  (forall x l, Permutation l (x_perms X x l)) ->
  (forall n q, sound_answer q (e_master (x_env X) n q)) ->
  (sa_cspy sa = false -> (forall n tl q, sound_answer q (e_pricer (x_env X) n tl q)) /\ no_circles (x_env X)) ->
  (sa_cspy sa = true -> forall n tl h, sound_labelling h (e_label (x_env X) n tl h)) -> finds_paths (x_path X) ->
  create g a false false false drop all per span tabu = Ok v -> solve X fuel fuel2 sa v = Ok (v', out) ->
  let rs := map snd (sv_routes (out_solved out)) in
  each_once (custs g) rs /\ only_visits (custs g) rs /\
  (forall r, In r rs -> route_shape r /\ (stops r <> [] -> along (arc_list g ++ depot_arcs g) r) /\ within_limits g a r) /\
  map fst (sv_routes (out_solved out)) = seq 1 (List.length rs) /\
  out_schedule out = None /\ sv_dropped (out_solved out) = [] /\
  (span = false -> (forall x y l, a_load_capacity a <> PList (x :: y :: l)) -> (forall r, In r rs -> stops r <> []) ->
   exists q, best_value (out_solved out) = Ok q /\ q == plan_price g a rs) /\
  (sa_greedy sa = false -> 0 <= user_service g Source ->
   (sa_cspy sa = true -> forall u, In u (custs g) -> user_service g u == 0) ->
   (forall u, In u (custs g) -> user_time g u Sink == user_time g Source u) ->
   (forall u w, In u (custs g) -> In w (custs g) -> In (u, w) (arc_list g) -> In (w, u) (arc_list g) -> user_time g w u == user_time g u w) ->
   (forall D u, time_limit a D -> In u (custs g) -> user_time g Source u + user_time g u Sink + user_service g u <= inject_Z D) ->
   forall r, In r rs -> stops r <> [] -> within_time g a r).
Proof.
  intros W M NE ND AUX Per Dr Pre Ini Di He HP S1 S2 LA SP C So.
  pose proof (create_ok _ _ _ _ _ _ _ _ _ _ _ C) as (Ck & Ea & E1 & E2 & E3 & Ed & Eal & E4 & Esp & Ei & Ep & Eit & Eno & Ebo & Ehy & Ech & Edr & _).
  destruct (check_vrp_ready g _ W Ck) as (R & Cp). assert (Mv : a_mixed_fleet (v_args v) = false) by (rewrite Ea; exact M).
  assert (Pre' : nonempty_or (sa_pre sa) (v_pre v) = []) by (unfold nonempty_or; rewrite Pre, Ep; reflexivity).
  assert (Ini' : nonempty_or (sa_initial sa) (v_initial v) = []) by (unfold nonempty_or; rewrite Ini, Ei; reflexivity).
  assert (ND' : nonneg_user_demands (v_graph v)) by (intro u; rewrite (completion_demand _ _ u Cp); apply ND).
  assert (Per' : truthy (v_periodic v) = false) by (rewrite E4; exact Per).
  assert (Dr' : truthyQ (v_drop v) = false) by (rewrite Ed; exact Dr).
  assert (AUX' : forall u r, node_data (v_graph v) u = Some r -> r_aux_depot r = false).
  { intros u r Hu. apply (AUX u). rewrite <- Hu. destruct Cp as (Cp & _). unfold node_data. rewrite Cp. reflexivity. }
  assert (NE' := completion_no_empty _ _ Cp NE).
  assert (Q5 : custs (v_graph v) = custs g) by (apply completion_custs; exact Cp).
  assert (Aiff := completion_arcs_iff g _ W Cp).
  assert (Hp : exists a' K p, prepare v sa = Ok (a', K, p)).
  { unfold solve in So. apply bind_ok in So. destruct So as (((a' & K) & p) & Hp & _). eauto. }
  destruct Hp as (a' & K & p & Hp).
  destruct (exact_plan X fuel fuel2 sa v v' out a' K p R Mv NE' E1 E2 E3 Per' Pre' He Ini' Di Dr'
    (conj Eit (conj Eno (conj Ebo (conj Ehy Ech)))) ND' AUX' HP S1 (fun e => proj1 (S2 e)) (fun e => proj2 (S2 e)) LA SP Hp So)
    as (rs & P1 & P2 & P3 & P4 & P5 & P6 & P7 & P8 & P9 & P10).
  destruct (plain_network sa v a' K p R Mv NE' E1 Pre' Hp) as (Net & RT & Cu & FD & FS & FA & FT & SS & HC & _).
  destruct (one_args v sa a' K p Mv Hp) as (_ & Ea' & _ & _).
  rewrite P1. rewrite map_snd_combine, map_fst_combine by apply seq_length. cbv zeta. rewrite Q5 in *.
  assert (Lim : forall r, within_limits (v_graph v) (v_args v) r -> within_limits g a r).
  { intros r [L1 L2]. constructor.
    - intros c Hc. rewrite (node_sum_ext _ (user_demand (v_graph v))); [|intros; rewrite (completion_demand _ _ _ Cp); reflexivity]. apply L1. rewrite Ea. exact Hc.
    - intros n Hn. apply L2. rewrite Ea. exact Hn. }
  split; [exact P2|]. split; [exact P3|].
  assert (AL : forall r, In r rs -> stops r <> [] -> along (arc_list (v_graph v)) r).
  { intros r Hr Ns. destruct (P4 r Hr) as (Y1 & Y2 & _). apply (user_route sa v a' K p); auto. }
  split; [|split; [reflexivity|split; [exact P7|split; [rewrite P6; exact Edr|split]]]].
  - intros r Hr. destruct (P4 r Hr) as (Y1 & Y2 & Y3 & _). split; [exact Y1|]. split; [|apply Lim; exact Y3].
    intros Ns x y Hxy. apply Aiff. apply (AL r Hr Ns). exact Hxy.
  - intros Sp Cap Ns.
    assert (Cs' : caps_arg (a_load_capacity a') = None \/ exists x, caps_arg (a_load_capacity a') = Some [x]).
    { rewrite Ea' in HC |- *. rewrite Ea in HC |- *. cbn [a_load_capacity] in *. unfold format_val in *.
      destruct (a_load_capacity a) as [|n|[|n [|n' l]]] eqn:El; cbn in *; auto.
      - destruct (num_zero n); cbn; [left; reflexivity|right; eauto].
      - congruence.
      - right. eauto.
      - exfalso. exact (Cap _ _ _ eq_refl). }
    specialize (P5 Cs').
    destruct (one_network v sa a' K p R Mv NE' Hp) as (Nh & Nn & Rh & Ah).
    set (s0 := out_solved out) in *.
    assert (TY : forall i r, In (i, r) (sv_routes s0) -> In r rs /\ dget Nat.eqb i (sv_types s0) = Some 0%nat).
    { intros i r Hir. rewrite P1 in Hir. split; [exact (in_combine_r _ _ _ _ Hir)|]. apply P5. apply in_combine_l, in_seq in Hir. lia. }
    assert (KN : forall i r, In (i, r) (sv_routes s0) -> knows 1 (sv_copy s0) r /\ exists k, dget Nat.eqb i (sv_types s0) = Some k /\ (k < 1)%nat).
    { intros i r Hir. destruct (TY i r Hir) as (Hr & Ti). destruct (P4 r Hr) as (Y1 & _). split; [|exists 0%nat; split; [exact Ti|lia]]. rewrite P8.
      assert (Y4 : along (arc_list (pr_copy p)) r) by (intros x y Hxy; apply Ah; left; exact (AL r Hr (Ns r Hr) x y Hxy)).
      split; [|split; [exact Y4|apply (net_costs _ _ Nh)]]. intros x Hx. eapply along_nodes; [apply (net_wf _ _ Nh)|exact Y1|exact Y4|exact Hx]. }
    assert (Sp0 : sv_span s0 = false) by (rewrite P9, Esp; exact Sp).
    destruct (results_total 1 s0 KN) as (_ & _ & _ & Vt). destruct (Vt (or_intror Sp0)) as (q0 & Hq0). exists q0. split; [exact Hq0|].
    destruct (value_ok s0 q0 Hq0) as (d & m & Hd & Hm & _ & Hq). specialize (Hm Sp0). rewrite Hq, Hm, P6, Edr. cbn [List.length].
    assert (Z : match sv_drop s0 with Some x => x * inject_Z (Z.of_nat 0) | None => 0 end == 0) by (destruct (sv_drop s0); [change (inject_Z (Z.of_nat 0)) with 0; lra|reflexivity]).
    rewrite Z, Qplus_0_r. apply cost_ok in Hd. unfold reports in Hd. unfold plan_price.
    assert (EQ : forall (L : list (nat * list node)) d, (forall i r, In (i, r) L -> In (i, r) (sv_routes s0)) ->
      Forall2 (fun x y => fst y = fst x /\ cost_report s0 (fst x) (snd x) (snd y)) L d ->
      Qsum (map snd d) == Qsum (map (fun r => path_sum (user_cost g 0) r + fixed_price a) (map snd L))).
    { clear - TY R Mv NE' Hp P4 AL Ns Cp P8 Ea. induction L as [|[i r] L IH]; intros d HL F; inversion F as [|x y L' d' F1 F2]; subst; [reflexivity|]. cbn [map snd].
      rewrite !Qsum_cons. rewrite (IH d' (fun i0 r0 Hi => HL i0 r0 (or_intror Hi)) F2). destruct F1 as (_ & k & F1 & F3). cbn [fst snd] in *.
      assert (Hir : In (i, r) (sv_routes s0)) by (apply HL; left; reflexivity). destruct (TY i r Hir) as (Hr & Ti). rewrite Ti in F1. injection F1 as <-. rewrite F3, P8.
      destruct (P4 r Hr) as (Y1 & _). pose proof (AL r Hr (Ns r Hr)) as Y2. pose proof (Ns r Hr) as Y3. destruct (route_shape_stops r Y1) as (cs & Er & Es). rewrite Es in Y3. rewrite Er in Y1, Y2 |- *.
      rewrite (one_route_cost v sa a' K p R Mv NE' Hp cs Y3 Y1 Y2).
      assert (FP : fixed_price (v_args v) = fixed_price a) by (rewrite Ea; reflexivity). rewrite FP.
      rewrite (path_sum_ext (user_cost (v_graph v) 0) (user_cost g 0)); [reflexivity|]. intros; rewrite (completion_cost _ _ _ _ _ Cp); reflexivity. }
    rewrite (EQ (sv_routes s0) d (fun _ _ Hi => Hi) Hd). rewrite P1, map_snd_combine by apply seq_length. reflexivity.
  - intros Gr S0 T0 T1 T2 T3 r Hr Ns D HD. destruct (P4 r Hr) as (Y1 & Y2 & Y3 & Y4).
    rewrite (path_sum_ext _ (time_of (pr_graph p))); [|intros x y Hxy; rewrite (FT x y (Y2 x y Hxy)), (completion_time _ _ _ _ Cp); reflexivity].
    rewrite (node_sum_ext _ (service_of (pr_graph p))); [|intros; rewrite FS, (completion_service _ _ _ Cp); reflexivity].
    assert (Du : int_arg (a_duration a') = int_arg (a_duration a)) by (rewrite Ea'; cbn; rewrite Ea; reflexivity).
    apply Y4; [|exact Ns|destruct HD as (HD & HD0); split; [rewrite Du, HD; reflexivity|exact HD0]].
    split; [exact Gr|]. split; [rewrite FS, (completion_service _ _ _ Cp); exact S0|]. split; [split|split].
    + intros x Hx. destruct (RT x Hx) as (RT1 & RT2). rewrite (FT _ _ RT1), (FT _ _ RT2), !(completion_time _ _ _ _ Cp). apply T1. rewrite <- Cu. exact Hx.
    + intros x y Hx Hy Hxy Hyx. rewrite (FT _ _ Hxy), (FT _ _ Hyx), !(completion_time _ _ _ _ Cp). rewrite Cu in Hx, Hy.
      assert (U : forall x y, In x (custs g) -> In y (custs g) -> In (x, y) (arc_list (pr_graph p)) -> In (x, y) (arc_list g)).
      { clear - FA Aiff. intros x y Hx Hy Hxy. apply in_custs in Hx, Hy. destruct (FA _ _ Hxy) as [Q|Q]; [|injection Q as -> ->; tauto].
        apply Aiff in Q. apply in_app_iff in Q. destruct Q as [Q|Q]; [exact Q|]. apply depot_arcs_inv in Q. destruct Q as [(-> & _)|(-> & _)]; tauto. }
      apply T2; auto.
    + intros Ecs x Hx. rewrite FS, (completion_service _ _ _ Cp). apply T0; [exact Ecs|]. rewrite <- Cu. exact Hx.
    + intros D' (HD' & HD0') x Hx. destruct (RT x Hx) as (RT1 & RT2). unfold path_sum. cbn [arcs map fst snd]. rewrite !Qsum_cons. change (Qsum []) with 0.
      rewrite (FT _ _ RT1), (FT _ _ RT2), FS, (completion_service _ _ _ Cp), !(completion_time _ _ _ _ Cp). rewrite Cu in Hx.
      assert (TL : time_limit a D').
      { rewrite Du in HD'. split; [|exact HD0']. destruct (a_duration a) as [|[z|q]|l]; cbn in HD'; try discriminate; injection HD' as <-; [reflexivity|congruence]. }
      pose proof (T3 D' x TL Hx). lra.
Qed.

(** MIP pricing *)
Theorem exact_user X fuel fuel2 sa g a drop all per span tabu v v' out :
  wf g -> a_mixed_fleet a = false -> no_empty_costs g -> nonneg_user_demands g ->
  (forall u r, node_data g u = Some r -> r_aux_depot r = false) ->
  truthy per = false -> truthyQ drop = false ->
  sa_pre sa = [] -> sa_initial sa = [] -> sa_cspy sa = false -> sa_dive sa = false -> sa_heuristic sa = false ->
  (forall x l, Permutation l (x_perms X x l)) ->
  (forall n q, sound_answer q (e_master (x_env X) n q)) ->
  (forall n tl q, sound_answer q (e_pricer (x_env X) n tl q)) ->
  no_circles (x_env X) -> finds_paths (x_path X) ->
  create g a false false false drop all per span tabu = Ok v -> solve X fuel fuel2 sa v = Ok (v', out) ->
  let rs := map snd (sv_routes (out_solved out)) in
  each_once (custs g) rs /\ only_visits (custs g) rs /\
  (forall r, In r rs -> route_shape r /\ (stops r <> [] -> along (arc_list g ++ depot_arcs g) r) /\ within_limits g a r) /\
  map fst (sv_routes (out_solved out)) = seq 1 (List.length rs) /\
  out_schedule out = None /\ sv_dropped (out_solved out) = [] /\
  (span = false -> (forall x y l, a_load_capacity a <> PList (x :: y :: l)) -> (forall r, In r rs -> stops r <> []) ->
   exists q, best_value (out_solved out) = Ok q /\ q == plan_price g a rs) /\
  (sa_greedy sa = false -> 0 <= user_service g Source ->
   (forall u, In u (custs g) -> user_time g u Sink == user_time g Source u) ->
   (forall u w, In u (custs g) -> In w (custs g) -> In (u, w) (arc_list g) -> In (w, u) (arc_list g) -> user_time g w u == user_time g u w) ->
   (forall D u, time_limit a D -> In u (custs g) -> user_time g Source u + user_time g u Sink + user_service g u <= inject_Z D) ->
   forall r, In r rs -> stops r <> [] -> within_time g a r).
Proof.
  intros W M NE ND AUX Per Dr Pre Ini Cs Di He HP S1 S2 NC SP C So.
  destruct (solve_user X fuel fuel2 sa g a drop all per span tabu v v' out W M NE ND AUX Per Dr Pre Ini Di He HP S1
    (fun _ => conj S2 NC) ltac:(intro; congruence) SP C So) as (Q1 & Q2 & Q3 & Q4 & Q5 & Q6 & Q7 & Q8).
  repeat (split; [assumption|]). intros A B. apply Q8; auto. intro; congruence.
Qed.

(** labelling pricing *)
Theorem labelling_user X fuel fuel2 sa g a drop all per span tabu v v' out :
  wf g -> a_mixed_fleet a = false -> no_empty_costs g -> nonneg_user_demands g ->
  (forall u r, node_data g u = Some r -> r_aux_depot r = false) ->
  truthy per = false -> truthyQ drop = false ->
  sa_pre sa = [] -> sa_initial sa = [] -> sa_cspy sa = true -> sa_dive sa = false -> sa_heuristic sa = false ->
  (forall x l, Permutation l (x_perms X x l)) ->
  (forall n q, sound_answer q (e_master (x_env X) n q)) ->
  (forall n tl h, sound_labelling h (e_label (x_env X) n tl h)) -> finds_paths (x_path X) ->
  create g a false false false drop all per span tabu = Ok v -> solve X fuel fuel2 sa v = Ok (v', out) ->
  let rs := map snd (sv_routes (out_solved out)) in
  each_once (custs g) rs /\ only_visits (custs g) rs /\
  (forall r, In r rs -> route_shape r /\ (stops r <> [] -> along (arc_list g ++ depot_arcs g) r) /\ within_limits g a r) /\
  map fst (sv_routes (out_solved out)) = seq 1 (List.length rs) /\
  out_schedule out = None /\ sv_dropped (out_solved out) = [] /\
  (span = false -> (forall x y l, a_load_capacity a <> PList (x :: y :: l)) -> (forall r, In r rs -> stops r <> []) ->
   exists q, best_value (out_solved out) = Ok q /\ q == plan_price g a rs) /\
  (sa_greedy sa = false -> 0 <= user_service g Source -> (forall u, In u (custs g) -> user_service g u == 0) ->
   (forall u, In u (custs g) -> user_time g u Sink == user_time g Source u) ->
   (forall u w, In u (custs g) -> In w (custs g) -> In (u, w) (arc_list g) -> In (w, u) (arc_list g) -> user_time g w u == user_time g u w) ->
   (forall D u, time_limit a D -> In u (custs g) -> user_time g Source u + user_time g u Sink + user_service g u <= inject_Z D) ->
   forall r, In r rs -> stops r <> [] -> within_time g a r).
Proof.
  intros W M NE ND AUX Per Dr Pre Ini Cs Di He HP S1 LA SP C So.
  destruct (solve_user X fuel fuel2 sa g a drop all per span tabu v v' out W M NE ND AUX Per Dr Pre Ini Di He HP S1
    ltac:(intro; congruence) (fun _ => LA) SP C So) as (Q1 & Q2 & Q3 & Q4 & Q5 & Q6 & Q7 & Q8).
  repeat (split; [assumption|]). intros A B D. apply Q8; auto.
Qed.
