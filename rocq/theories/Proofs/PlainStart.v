(** The first routes of plain problems: the runs of Clarke & Wright and the greedy routes. *)
From Verif.Base Require Import Prelude Graph.
From Verif.Spec Require Import Routes Network Inputs Feasible Prep Heuristics LinProg Pricing MIP Columns Timing Labelling Pool Master Run Plans Results Variants Plain.
From Verif.Model Require Import Args Reach Checks Preprocess ClarkeWright Greedy Initial Pricing
  GreedyPricing LPPricing Cspy Master Dive Hyper ColGen Post Schedule Solve.
From Verif.Proofs Require Import RouteLemmas ChecksProofs FeasProofs PreLemmas PruneProofs KnapProofs LockProofs
  PresolveProofs PresolveEnd CWProofs GreedyProofs InitialProofs HeurCor PostProofs PostCor PostEnd SolveProofs SolveHeur SolveExact AnyProofs AnyPool.

(* ------------------------------------------------------------------ *)
(** ** The shape parameter matters as a number only *)

Local Definition close (x y : arc * Q) : Prop := fst x = fst y /\ snd x == snd y.

Lemma Qltb_same a b c d : a == c -> b == d -> Qltb a b = Qltb c d.
Proof.
  intros H1 H2. destruct (Qltb a b) eqn:E1, (Qltb c d) eqn:E2; auto.
  - apply Qltb_lt in E1. apply Qltb_ge in E2. lra.
  - apply Qltb_ge in E1. apply Qltb_lt in E2. lra.
Qed.

Lemma insert_close x y l l' : close x y -> Forall2 close l l' -> Forall2 close (insert_desc snd x l) (insert_desc snd y l').
Proof.
  intros Hx F. induction F as [|u w l l' Hu F IH]; cbn [insert_desc]; [constructor; auto|].
  rewrite (Qltb_same (snd x) (snd u) (snd y) (snd w) (proj2 Hx) (proj2 Hu)). destruct (Qltb (snd y) (snd w)); constructor; auto.
Qed.

Lemma sorted_close l l' : Forall2 close l l' -> Forall2 close (sorted_desc snd l) (sorted_desc snd l').
Proof. induction 1; cbn; [constructor|]. apply insert_close; assumption. Qed.

Lemma close_fst l l' : Forall2 close l l' -> map fst l = map fst l'.
Proof. induction 1 as [|x y l l' Hx F IH]; cbn; [reflexivity|]. rewrite IH. f_equal. apply Hx. Qed.

Lemma savings_close g al al' l : al == al' ->
  match mapM (fun a : arc => let* s := saving g al (fst a) (snd a) in Ok (a, s)) l,
        mapM (fun a : arc => let* s := saving g al' (fst a) (snd a) in Ok (a, s)) l with
  | Ok x, Ok y => Forall2 close x y
  | Err e, Err e' => e = e'
  | _, _ => False
  end.
Proof.
  intro Ha. induction l as [|a l IH]; cbn [mapM]; [constructor|]. unfold saving.
  destruct (scost g (fst a) Sink) as [c1|e1]; cbn [bind]; [|reflexivity]. destruct (scost g Source (snd a)) as [c2|e2]; cbn [bind]; [|reflexivity].
  destruct (scost g (fst a) (snd a)) as [c3|e3]; cbn [bind]; [|reflexivity]. unfold saving in IH.
  destruct (mapM _ l) as [x|e], (mapM _ l) as [y|e']; cbn [bind] in *; auto; try contradiction. constructor; [|exact IH]. split; cbn [fst snd]; [reflexivity|]. rewrite Ha. reflexivity.
Qed.

Lemma cw_alpha g caps dur st al al' perm : al == al' -> clarke_wright g caps dur st al perm = clarke_wright g caps dur st al' perm.
Proof.
  intro Ha. unfold clarke_wright. destruct (first_costs g) as [g1|]; cbn [bind]; [|reflexivity]. destruct (first_capacity caps) as [c|]; cbn [bind]; [|reflexivity].
  unfold cw_run. destruct (cw_init g1 _) as [s|]; cbn [bind]; [|reflexivity].
  assert (E : ordered_edges g1 al = ordered_edges g1 al').
  { unfold ordered_edges, cw_savings. match goal with |- context [mapM _ ?l] => pose proof (savings_close g1 al al' l Ha) as S end.
    destruct (mapM _ _) as [x|e], (mapM _ _) as [y|e']; cbn [bind] in *; try contradiction; [|congruence]. f_equal. apply close_fst, sorted_close, S. }
  rewrite E. reflexivity.
Qed.

(* ------------------------------------------------------------------ *)
(** ** The runs *)

Lemma cw_runs_in g caps dur st perms rs : cw_runs g caps dur st perms = Ok rs ->
  (forall r, In r rs -> exists x l q, clarke_wright g caps dur st (Z.of_nat x # 10) (perms x) = Ok (l, q) /\ In r l) /\
  (forall x l q, (1 <= x <= 19)%nat -> clarke_wright g caps dur st (Z.of_nat x # 10) (perms x) = Ok (l, q) -> forall r, In r l -> In r rs).
Proof.
  unfold cw_runs. intro Hr.
  assert (A : forall xs acc out, foldM (fun acc x => let* r := clarke_wright g caps dur st (Z.of_nat x # 10) (perms x) in Ok (acc ++ fst r)) xs acc = Ok out ->
    (forall r, In r acc -> In r out) /\
    (forall r, In r out -> In r acc \/ exists x l q, clarke_wright g caps dur st (Z.of_nat x # 10) (perms x) = Ok (l, q) /\ In r l) /\
    (forall x l q, In x xs -> clarke_wright g caps dur st (Z.of_nat x # 10) (perms x) = Ok (l, q) -> forall r, In r l -> In r out)).
  { induction xs as [|x xs IH]; intros acc out Ho; cbn [foldM] in Ho.
    - injection Ho as <-. split; [auto|]. split; [auto|]. intros x l q [].
    - destruct (clarke_wright g caps dur st (Z.of_nat x # 10) (perms x)) as [[l q]|] eqn:Ec; cbn [bind fst] in Ho; [|discriminate].
      destruct (IH _ _ Ho) as (I1 & I2 & I3). split; [intros r Hi; apply I1, in_or_app; auto|]. split.
      + intros r Hi. destruct (I2 r Hi) as [Hi'|Hi']; [|auto]. apply in_app_or in Hi'. destruct Hi' as [|Hi']; [auto|]. right. exists x, l, q. auto.
      + intros y l' q' [<-|Hy] Hy' r Hi; [|exact (I3 y l' q' Hy Hy' r Hi)]. apply I1, in_or_app. right. rewrite Ec in Hy'. injection Hy' as -> _. exact Hi. }
  destruct (A _ _ _ Hr) as (_ & A2 & A3). split.
  - intros r Hi. destruct (A2 r Hi) as [[]|Hx]. exact Hx.
  - intros x l q Hx. apply A3. apply in_seq. lia.
Qed.

Section Plain.
  Variables (X : outside) (sa : solve_args) (v : vrp) (a : rargs) (K : nat) (p : prepared).
  Local Notation G := (v_graph v).
  Local Notation g3 := (pr_graph p).
  Local Notation o := (options_of v sa).
  Local Notation caps := (caps_arg (a_load_capacity a)).
  Local Notation dur := (int_arg (a_duration a)).
  Local Notation UA := (v_args v).
  Hypothesis R : ready G.
  Hypothesis M : a_mixed_fleet UA = false.
  Hypothesis NE : no_empty_costs G.
  Hypothesis E1 : v_windows v = false.
  Hypothesis E2 : v_pickup v = false.
  Hypothesis E3 : v_both v = false.
  Hypothesis E4 : truthy (v_periodic v) = false.
  Hypothesis E5 : nonempty_or (sa_pre sa) (v_pre v) = [].
  Hypothesis ND : nonneg_user_demands G.
  Hypothesis HP : forall x l, Permutation l (x_perms X x l).
  Hypothesis FA : fair_times G UA.
  Hypothesis H : prepare v sa = Ok (a, K, p).

  Lemma limit_user D : limit dur D -> time_limit UA D.
  Proof.
    destruct (one_args v sa a K p M H) as (_ & Ea & _ & _). intros (HD & HD0). rewrite Ea in HD. cbn in HD.
    split; [|exact HD0]. destruct (a_duration UA) as [|[z|q]|l]; cbn in HD; try discriminate; injection HD as <-; [reflexivity|congruence].
  Qed.
  Lemma user_limit D : time_limit UA D -> limit dur D.
  Proof. destruct (one_args v sa a K p M H) as (_ & Ea & _ & _). intros (HD & HD0). rewrite Ea. cbn. rewrite HD. split; [reflexivity|exact HD0]. Qed.

  Lemma fair_network D : limit dur D -> symmetric_times g3 /\
    forall u, In u (custs g3) -> path_sum (time_of g3) [Source; u; Sink] + service_of g3 u <= inject_Z D.
  Proof.
    intro HD. destruct (plain_network sa v a K p R M NE E1 E5 H) as (Net & RT & Cu & FD & FS & FAr & FT & SS & HC & _).
    destruct (FA D (limit_user D HD)) as (T1 & T2 & T3). split; [split|].
    - intros x Hx. destruct (RT x Hx) as (RT1 & RT2). rewrite (FT _ _ RT1), (FT _ _ RT2). apply T1. rewrite <- Cu. exact Hx.
    - intros x y Hx Hy Hxy Hyx. rewrite (FT _ _ Hxy), (FT _ _ Hyx). rewrite Cu in Hx, Hy.
      assert (U : forall x y, In x (custs G) -> In (x, y) (arc_list g3) -> In (x, y) (arc_list G)).
      { clear - FAr. intros x y Hx Hxy. apply in_custs in Hx. destruct (FAr _ _ Hxy) as [Q|Q]; [exact Q|injection Q as -> ->; tauto]. }
      apply T2; auto.
    - intros x Hx. destruct (RT x Hx) as (RT1 & RT2). unfold path_sum. cbn [arcs map fst snd]. rewrite !Qsum_cons. change (Qsum []) with 0.
      rewrite (FT _ _ RT1), (FT _ _ RT2), FS. rewrite Cu in Hx. pose proof (T3 x Hx). lra.
  Qed.

  Section Given.
    Variables (rs : list (list node)) (pool : list column).
    Hypothesis I : initialize o (a_mixed_fleet a) caps dur (pr_num_stops p) (x_perms X) [] g3 = Ok (rs, pool).

    Lemma plain_parts : exists rs1 rs2 q, cw_runs g3 caps dur (pr_num_stops p) (x_perms X) = Ok rs1 /\
      greedy_heuristic g3 caps (pr_num_stops p) dur = Ok (rs2, q) /\ rs = rs1 ++ rs2.
    Proof.
      destruct (one_args v sa a K p M H) as (EK & Ea & _ & _).
      assert (Pl : plain o (a_mixed_fleet a) = true) by (unfold plain; rewrite Ea; cbn; rewrite E1, E2, E3, E4; reflexivity).
      unfold initialize in I. cbn [nonempty] in I. unfold get_initial_solution in I. rewrite Pl in I.
      apply bind_ok in I. destruct I as (r & Hr & I'). apply bind_ok in I'. destruct I' as (cs & _ & I'). injection I' as -> _.
      apply bind_ok in Hr. destruct Hr as (rs1 & H1 & Hr). apply bind_ok in Hr. destruct Hr as ((rs2 & q) & H2 & Hr). injection Hr as <-. exists rs1, rs2, q. auto.
    Qed.

    (** nobody drives for nothing if each customer can be served alone by the only vehicle type *)
    Lemma plain_busy : (forall x y l, a_load_capacity UA <> PList (x :: y :: l)) -> forall r, In r rs -> stops r <> [].
    Proof.
      intros Cap r Hr. destruct (plain_network sa v a K p R M NE E1 E5 H) as (Net & RT & Cu & FD & FS & FAr & FT & SS & HC & _).
      destruct plain_parts as (rs1 & rs2 & q & P1 & P2 & ->). apply in_app_or in Hr. destruct Hr as [Hr|Hr].
      - destruct (cw_runs_in _ _ _ _ _ _ P1) as (A & _). destruct (A r Hr) as (x & l & q' & Hl & Hi).
        destruct (cw_spec g3 1 caps dur (pr_num_stops p) (Z.of_nat x # 10) (x_perms X x) Net (le_n 1) RT HC (HP x)) as (l' & q'' & Hl' & _ & _ & _ & _ & B).
        rewrite Hl in Hl'. injection Hl' as <- _. apply B in Hi. tauto.
      - destruct (greedy_spec g3 1 caps dur (pr_num_stops p) Net (le_n 1) RT SS HC) as (l' & q'' & Hl' & _ & _ & _ & _ & B & _).
        rewrite P2 in Hl'. injection Hl' as <- _. apply B; [|exact Hr]. intros u Hu. split.
        + cbn. intros c Hc _. unfold node_sum. cbn.
          destruct (one_args v sa a K p M H) as (_ & Ea & _ & _).
          assert (Cs' : caps = None \/ exists x, caps = Some [x]).
          { clear Hc. rewrite Ea in HC |- *. cbn [a_load_capacity] in *. unfold format_val in *.
            destruct (a_load_capacity UA) as [|n|[|n [|n' l]]] eqn:El; cbn in *; auto.
            - destruct (num_zero n); cbn; [left; reflexivity|right; eauto].
            - congruence.
            - right. eauto.
            - exfalso. exact (Cap _ _ _ eq_refl). }
          destruct Cs' as [Z|(x & Z)]; rewrite Z in Hc; [discriminate|]. injection Hc as ->.
          destruct (customer_fits sa v a K p R M NE E1 E5 H c Z) as (_ & Q). specialize (Q u Hu). unfold Qsum; cbn. lra.
        + cbn [first_vehicle v_dur]. intros D HD HD0. destruct (fair_network D (conj HD HD0)) as (_ & Q). specialize (Q u Hu). cbn [app]. unfold node_sum. cbn [map]. rewrite Qsum_cons. change (Qsum []) with 0. lra.
    Qed.

    Lemma plain_starts (busy : Prop) : (busy -> forall x y l, a_load_capacity UA <> PList (x :: y :: l)) -> starts v busy rs.
    Proof.
      intro Bz. destruct (plain_network sa v a K p R M NE E1 E5 H) as (Net & RT & Cu & FD & FS & FAr & FT & SS & HC & _).
      destruct (one_args v sa a K p M H) as (EK & Ea & _ & _).
      assert (Em : a_mixed_fleet a = false) by (rewrite Ea; reflexivity).
      split; [|intros u Hu; rewrite <- Cu in Hu; exact (initial_keys X sa v a K p R M NE E1 E2 E3 E4 E5 HP H rs pool I u Hu)].
      intros r Hr. pose proof Hr as Hr0.
      destruct (plain_initial g3 1 caps dur (pr_num_stops p) (x_perms X) o (a_mixed_fleet a) Net (le_n 1) RT SS HC HP E1 E2 E3 Em E4) as (rs0 & H0 & _ & H2).
      assert (rs0 = rs).
      { unfold initialize in I. cbn [nonempty] in I. rewrite H0 in I. cbn [bind] in I. apply bind_ok in I. destruct I as (cs & _ & I'). injection I' as <- _. reflexivity. }
      subst rs0. destruct (H2 r Hr) as (Sh & Al & St & Lo & Ns & Du). destruct (route_shape_stops r Sh) as (cs & Er & Es). exists cs. fold (trip cs) in Er.
      split; [exact Er|]. split; [intros Z Ec; apply (plain_busy (Bz Z) r Hr0); rewrite Es; exact Ec|]. split; [rewrite <- Er; exact Sh|].
      intros Nc k _ Hload _ _. rewrite E1, E2, E3. constructor; try discriminate.
      - exact Hload.
      - intros n Hn. destruct (one_stops v sa a K p R M NE H ND E2 E3 E5 E1 n Hn) as (b & Hb & Hb1). specialize (Ns b Hb). lia.
      - intros D HD. pose proof (user_limit D HD) as HD'. destruct (fair_network D HD') as (Sy & Tr).
        assert (Q : path_sum (time_of g3) r + node_sum (service_of g3) (stops r) <= inject_Z D) by (apply Du; auto; rewrite Es; exact Nc).
        rewrite (path_sum_ext _ (time_of g3)); [|intros x y Hxy; rewrite (FT x y (Al x y Hxy)); reflexivity].
        rewrite (node_sum_ext _ (service_of g3)); [exact Q|]. intros; rewrite FS; reflexivity.
    Qed.

    (** the run with alpha = 1 is among them *)
    Lemma plain_first l q : clarke_wright g3 caps dur (pr_num_stops p) 1 (x_perms X 10) = Ok (l, q) -> forall r, In r l -> In r rs /\ stops r <> [].
    Proof.
      intros Hl r Hr. destruct (plain_network sa v a K p R M NE E1 E5 H) as (Net & RT & Cu & FD & FS & FAr & FT & SS & HC & _). split.
      - destruct plain_parts as (rs1 & rs2 & q' & P1 & P2 & ->). apply in_or_app. left. destruct (cw_runs_in _ _ _ _ _ _ P1) as (_ & A).
        apply (A 10%nat l q); [lia| |exact Hr]. rewrite <- Hl. apply cw_alpha. reflexivity.
      - destruct (cw_spec g3 1 caps dur (pr_num_stops p) 1 (x_perms X 10) Net (le_n 1) RT HC (HP 10%nat)) as (l' & q'' & Hl' & _ & _ & _ & _ & B).
        rewrite Hl in Hl'. injection Hl' as <- _. apply B in Hr. tauto.
    Qed.
  End Given.
End Plain.
