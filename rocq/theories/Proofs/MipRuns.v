(** Column generation that never ends: serving a customer pays, and the same route is priced again
    and again. *)
From Verif.Base Require Import Prelude Graph.
From Verif.Spec Require Import Routes Network Inputs Feasible LinProg Pricing MIP Columns Pool Master Duality Run Plans.
From Verif.Model Require Import Args Reach Checks Preprocess ClarkeWright Greedy Initial Pricing
  GreedyPricing LPPricing Cspy Master Dive Hyper ColGen Post Schedule Solve.
From Verif.Proofs Require Import Deciders MasterProofs PoolQuality ColGenProofs RunProofs ColGenCor ColGenEnd Certificate PricingCor PricingWitness
  MasterWitness ColGenWitness Oracles PostEnd SolveUser SolveSamples SolveWitness AgainWitness DiveProofs Ends.

Definition rawn : rgraph :=
  let nr := mkNR None None None None None None None false in
  let er := mkER (Some (Scalar (-2 # 1))) None in
  mkGraph [(Source, nr); (Cust 1, nr); (Sink, nr)] [((Source, Cust 1), er); ((Cust 1, Sink), er)].
Definition argsn : rargs := mkArgs PNone PNone PNone PNone PNone false "Exact".
Definition san : solve_args := mkSA [] [] "Exact" false false None false false None 1 false.
Definition no_object : vrp := mkVrp rawn argsn false false false None false None false [] [] 0 0 [] None [] [] [].
Definition no_prepared : prepared := mkPrepared (mkGraph [] []) (mkGraph [] []) None None None [] true.
Definition objn : vrp := got no_object (create rawn argsn false false false None false None false []).
Definition prepn : rargs * nat * prepared := got (argsn, 0%nat, no_prepared) (prepare objn san).
Definition netn : vgraph := pr_graph (snd prepn).

(** ** The solver of the master problems: use every route, if that is optimal *)
Definition onesn (v : mvar) : Q := match v with Y _ => 1 | _ => 0 end.
Definition cappedb (p : program mvar) (t : Q * mvar) : bool :=
  Qle_bool (fst t) 0 && Qle_bool 1 (onesn (snd t)) &&
  existsb (fun b => mvar_eqb (snd t) (fst b) && match b_up (snd b) with Some u => Qle_bool u 1 | None => false end) (p_vars p).
Definition solvern (p : program mvar) : answer mvar :=
  if feasibleb onesn p && forallb (cappedb p) (p_obj p)
  then mkAnswer Optimal (Some (value onesn (p_obj p))) onesn
  else mkAnswer NotSolved None onesn.
Lemma solvern_right p : sound_answer p (solvern p) /\
  (a_status (solvern p) = Optimal -> a_objective (solvern p) <> None /\
   forall y, feasible y p -> value (a_value (solvern p)) (p_obj p) <= value y (p_obj p)).
Proof.
  unfold solvern. destruct (feasibleb onesn p && _) eqn:H.
  - apply andb_true_iff in H. destruct H as [F O]. apply feasibleb_ok in F. split; [constructor; cbn; [auto|]|].
    + intros q E. injection E as <-. reflexivity.
    + intros _. split; [discriminate|]. intros y Fy. cbn [a_value]. rewrite forallb_forall in O. unfold value. apply Qsum_mono.
      intros t Ht. specialize (O t Ht). unfold cappedb in O. rewrite !andb_true_iff in O. destruct O as [[O1 O2] O3].
      apply Qle_bool_iff in O1, O2. apply existsb_exists in O3. destruct O3 as ([v b] & Hb & O3). cbn [fst snd] in O3. apply andb_true_iff in O3.
      destruct O3 as [O3 O4]. apply mvar_eqb_eq in O3. destruct (b_up b) as [u|] eqn:U; [|discriminate]. apply Qle_bool_iff in O4.
      destruct (feas_vars _ _ Fy v b Hb) as (_ & Y1 & _). specialize (Y1 u U). rewrite <- O3 in Y1.
      assert (E1 : onesn (snd t) == 1). { destruct (snd t); cbn in *; lra. }
      rewrite E1. assert (0 <= (- fst t) * (1 - y (snd t))) by (apply Qmult_le_0_compat; lra). lra.
  - split; [|discriminate]. constructor; cbn; [intros [Z|(Z & _)]; congruence|discriminate].
Qed.

Definition taken (v : pvar) : Q :=
  match v with X a => if arc_eqb a (Source, Sink) then 0 else 1 | _ => 0 end.
Definition envn (pr : program pvar -> answer pvar) : env :=
  mkEnv (fun _ => 0) (fun _ => solvern) (fun _ _ => 0)
        (fun _ _ p => mkAnswer NotSolved None onesn) (fun _ l => l) (fun _ _ => pr) (fun _ _ => false)
        (fun _ _ _ => []) (fun _ _ _ _ _ _ _ => None) (fun _ _ _ => 0%nat) (fun _ => 0%nat) (fun _ _ => 0).
Definition cgn : cgconfig := mkCG (Some Exact) false false false None 1 None 0 1 None None None (options_of objn san) (mkMO None (Some []) false false false) (repeat (Cust 1) 20).
Definition rows1 : master := mkMaster [(Visit (Cust 1), (GE, 1))] [].
Definition Dn : dual_dict := got (mkDuals [] None []) (get_duals netn (cg_master cgn) rows1 [] (fun _ => 0)).
Definition netw : vgraph := got netn (add_reduced_cost Dn 0 None netn).
Definition progn : program pvar := got (mkProgram [] [] []) (LPPricing.formulate netw 0 None (options_of objn san) None None false).

Definition pricern : program pvar -> answer pvar := certify pvar_eqb [(taken, [0; 0; 0; 0])].
Definition En : env := envn pricern.
Definition mcoln (i : nat) : mcol := mkMCol (Y (CNat i)) (zero_one false) (-4 # 1) [(Visit (Cust 1), 1)].
Definition mastern (k : nat) : master := mkMaster [(Visit (Cust 1), (GE, 1))] (map mcoln (seq 1 k)).

(** The state before an iteration, with [k] copies of the route. *)
Record stuck (k : nat) (s : state) : Prop := {
  sk_graph : s_graph s = netn \/ s_graph s = netw;
  sk_pool : List.length (s_pool s) = k;
  sk_master : s_master s = mastern k;
  sk_dive : s_dive s = false;
  sk_noimp : s_noimp s = 0%nat;
  sk_more : s_more s = true;
  sk_bounds : (s_iter s = 0%nat /\ s_bounds s = []) \/
    exists q l, s_bounds s = l ++ [Some q] /\ q == - inject_Z (4 * (Z.of_nat k - 1))
}.
Lemma value_n k : value onesn (p_obj (program_of (mastern k))) == - inject_Z (4 * Z.of_nat k).
Proof.
  unfold program_of, mastern, value. cbn [p_obj ms_cols]. rewrite !map_map. generalize 1%nat.
  induction k as [|k IH]; intro i; [reflexivity|]. cbn [seq map]. rewrite Qsum_cons, IH. cbn [mc_cost mc_var mcoln fst snd onesn].
  rewrite Nat2Z.inj_succ. unfold Z.succ. rewrite Z.mul_add_distr_l, inject_Z_plus. change (inject_Z (4 * 1)) with 4. lra.
Qed.

Lemma sum_n i n : value onesn (row_lhs (map mcoln (seq i n)) (Visit (Cust 1))) == inject_Z (Z.of_nat n).
Proof.
  revert i. unfold row_lhs. induction n as [|n IH]; intro i; [reflexivity|]. cbn [seq map flat_map]. unfold value in *. rewrite map_app.
  rewrite Qsum_app, IH. rewrite Nat2Z.inj_succ. unfold Z.succ. rewrite inject_Z_plus. change (inject_Z 1) with 1.
  match goal with |- ?a + _ == _ => assert (A : a == 1) by reflexivity; rewrite A end. ring.
Qed.
Lemma answer_n k : (1 <= k)%nat ->
  solvern (program_of (mastern k)) = mkAnswer Optimal (Some (value onesn (p_obj (program_of (mastern k))))) onesn.
Proof.
  intro Hk. unfold solvern.
  assert (F : feasibleb onesn (program_of (mastern k)) = true).
  { unfold feasibleb. apply andb_true_iff. split.
    - cbn [program_of mastern p_rows ms_rows ms_cols map forallb fst snd]. rewrite andb_true_r. unfold holdsb. cbn [r_sense r_lhs r_rhs].
      apply Qle_bool_iff. rewrite sum_n. change 1 with (inject_Z 1). rewrite <- Zle_Qle. lia.
    - apply forallb_forall. intros t Ht. cbn [program_of mastern p_vars ms_cols] in Ht. rewrite map_map in Ht. apply in_map_iff in Ht.
      destruct Ht as (i & <- & _). reflexivity. }
  assert (O : forallb (cappedb (program_of (mastern k))) (p_obj (program_of (mastern k))) = true).
  { apply forallb_forall. intros t Ht. cbn [program_of mastern p_obj ms_cols] in Ht. rewrite map_map in Ht. apply in_map_iff in Ht.
    destruct Ht as (i & <- & Hi). unfold cappedb. cbn [fst snd mcoln mc_cost mc_var onesn]. apply andb_true_iff. split; [reflexivity|].
    apply existsb_exists. exists (Y (CNat i), zero_one false). split; [|cbn [fst snd b_up zero_one]; rewrite (proj2 (mvar_eqb_eq _ _) eq_refl); reflexivity].
    cbn [program_of mastern p_vars ms_cols]. rewrite map_map. apply in_map_iff. exists i. split; [reflexivity|exact Hi]. }
  rewrite F, O. reflexivity.
Qed.

Lemma sub_n s pool : s_graph s = netn \/ s_graph s = netw -> s_pool s = pool ->
  exists c, subproblem En cgn Dn 0 None PExact s = Ok (tick (set_pool netw (pool ++ [c]) true (tick (tick s))), true) /\
    c = mkCol (CNat (S (List.length pool))) [Source; Cust 1; Sink] [(Source, Cust 1); (Cust 1, Sink)] None (-4 # 1) 0 None.
Proof.
  intros G P. eexists. split; [|reflexivity]. unfold subproblem.
  assert (A : add_reduced_cost Dn 0 None (s_graph s) = Ok netw) by (destruct G as [-> | ->]; vm_compute; reflexivity).
  rewrite A. cbn [bind pricing_graph fst snd]. rewrite P. cbv zeta.
  assert (B : forall tl pl, time_remaining cgn false tl = None ->
    lp_solve netw true 0 (cg_caps cgn) (cg_options cgn) (cg_stops cgn) (cg_duration cgn) false None true pricern (cg_keys cgn) pl =
    Ok (pl ++ [mkCol (CNat (S (List.length pl))) [Source; Cust 1; Sink] [(Source, Cust 1); (Cust 1, Sink)] None (-4 # 1) 0 None], true)).
  { intros tl pl _. unfold lp_solve. cbn [negb truthyQ andb].
    assert (F : LPPricing.formulate netw 0 (cg_caps cgn) (cg_options cgn) (cg_stops cgn) (cg_duration cgn) false = Ok progn) by (vm_compute; reflexivity).
    rewrite F. cbn [bind]. cbv zeta.
    assert (R : pricern progn = mkAnswer Optimal (Some (value taken (p_obj progn))) taken).
    { unfold pricern, certify. cbn [find fst snd]. assert (O : optimalb pvar_eqb progn taken [0; 0; 0; 0] = true) by (vm_compute; reflexivity). rewrite O. reflexivity. }
    rewrite R. cbn [a_objective a_status a_value].
    assert (N : Qltb (value taken (p_obj progn)) (- (1 # 1000)) = true) by (vm_compute; reflexivity). rewrite N. cbn [status_eqb negb andb orb].
    unfold lp_new_route.
    match goal with |- context [filter ?f ?l] => assert (CH : filter f l = [(Source, Cust 1); (Cust 1, Sink)]) by (vm_compute; reflexivity); rewrite CH end.
    match goal with |- context [foldM ?f ?l ?z] => assert (CO : foldM f l z = Ok (-4 # 1)) by (vm_compute; reflexivity); rewrite CO end.
    cbn [bind]. 
    assert (DG : digraph_of [(Source, Cust 1); (Cust 1, Sink)] = ([Source; Cust 1; Sink], [(Source, Cust 1); (Cust 1, Sink)])) by (vm_compute; reflexivity). rewrite DG.
    match goal with |- context [shortest_path ?a ?b ?c] => destruct (shortest_path a b c) as [sp|] eqn:SP; [|vm_compute in SP; discriminate] end.
    reflexivity. }
  cbn [cg_cspy cgn]. change (e_negative En _ netw) with false. change (e_pricer En _ _) with pricern.
  change (time_remaining _ false _) with (@None Q).
  rewrite (B 0 pool eq_refl). reflexivity.
Qed.

Lemma find_n k s : stuck k s -> (1 <= k)%nat -> exists s1, find_columns En cgn s = Ok s1 /\ stuck (S k) (tick (tick s1)).
Proof.
  intros [G P M D N MO B] Hk. unfold find_columns, solve_relaxed. cbn [s_dive tick]. rewrite D. unfold solve_master.
  cbn [s_master s_graph s_pool tick]. rewrite M. change (e_master En (s_tick (tick s))) with solvern. rewrite (answer_n k Hk).
  cbn [a_status a_objective]. cbn [status_eqb negb raise_if bind].
  assert (GD : get_duals (s_graph s) (cg_master cgn) (mastern k) (s_pool s) (e_duals En (s_tick (tick s))) = Ok Dn).
  { destruct G as [-> | ->]; vm_compute; reflexivity. }
  cbn [s_tick tick] in *. rewrite GD. cbn [bind].
  unfold next_strategy. cbn [s_noimp tick set_solution]. rewrite N. cbn [Z.of_nat cg_run_exact cgn Z.eqb cg_strategy bind fst snd].
  change (cg_types cgn) with 1%nat. cbn [seq vehicles]. unfold greedy_step. change (greedy_applies cgn) with false. cbn [bind fst snd]. change (mo_span (cg_master cgn)) with false. cbv iota. cbn [greedy_applies cg_greedy cgn andb bind mo_span cg_master mo0 solve_subproblem cg_strategy attempt].
  match goal with |- context [subproblem En cgn Dn 0 None PExact ?t] => destruct (sub_n t (s_pool s) G eq_refl) as (c & SU & EC); rewrite SU end.
  cbn [bind fst snd]. unfold adopt. cbn [s_pool set_more set_pool tick tag_of]. unfold tag_last. rewrite rev_unit. cbv zeta. rewrite rev_unit.
  cbn [nth_error of_opt bind]. 
  cbn [s_master set_more set_pool tick set_solution set_master]. rewrite M. subst c.
  match goal with |- context [update ?o ?m ?c] => assert (UP : update o m c = Ok (mastern (S k))) end.
  { unfold update. cbn [ms_rows mastern].
    match goal with |- context [new_variable ?r ?o ?c] => assert (NV : new_variable r o c = Ok (mcoln (S (List.length (s_pool s))))) by reflexivity; rewrite NV end.
    cbn [bind ms_cols]. rewrite P. unfold mastern. rewrite seq_S, map_app. reflexivity. }
  rewrite UP. cbn [bind]. unfold progress. cbn [s_iter set_master set_more set_pool tick set_solution s_bounds s_dive s_noimp]. rewrite D.
  match goal with |- context [bind ?x _] => assert (SC : x = Ok false) end.
  { destruct B as [[-> _]|(q & l & B & Bq)]; [reflexivity|]. destruct (1 <? S (s_iter s))%nat; [|reflexivity].
    rewrite B, rev_unit. cbn [nth_error of_opt bind same_cost]. f_equal. destruct (Qeq_bool _ q) eqn:X; [|reflexivity].
    apply Qeq_bool_iff in X. rewrite value_n, Bq in X. exfalso.
    unfold Z.sub in X. rewrite !inject_Z_mult, inject_Z_plus in X. change (inject_Z 4) with 4 in X. change (inject_Z (- (1))) with (- (1)) in X. lra. }
  rewrite SC. cbn [bind]. eexists. split; [reflexivity|]. constructor; cbn [s_graph s_pool s_master s_dive s_noimp s_more s_iter s_bounds tick set_progress set_master set_more set_pool set_solution]; auto.
  - rewrite app_length, rev_length, rev_length, P. cbn. lia.
  - right. eexists. exists (s_bounds s). split; [reflexivity|]. rewrite value_n. rewrite Nat2Z.inj_succ. replace (Z.succ (Z.of_nat k) - 1)%Z with (Z.of_nat k) by lia. reflexivity.
Qed.
Lemma stuck_runs : forall f k s, (1 <= k)%nat -> stuck k s -> column_generation En cgn f s = Err OutOfFuel.
Proof.
  induction f as [|f IH]; intros k s Hk S0; cbn [column_generation]; rewrite (sk_more _ _ S0); cbn [negb]; [reflexivity|].
  destruct (find_n k s S0 Hk) as (s1 & F & S1). rewrite F. cbn [bind]. cbv zeta. change (time_up En cgn s1) with false.
  unfold limit_reached. rewrite (sk_noimp _ _ S1). cbn [cg_max_iter cgn Z.of_nat Z.ltb Z.compare orb]. apply (IH (S k)); [lia|exact S1].
Qed.

Definition Xn : outside := mkOut En 0 (fun _ l => l) nx_path (fun _ => mkAnswer Infeasible None (fun _ => 0)).
Definition inin := got ([], []) (initialize (options_of objn san) false None None (pr_num_stops (snd prepn)) (x_perms Xn) [] netn).
Definition startn : state := got (mkSt netn [] rows1 (fun _ => 0) [] (mkDive 0 0 []) false 0 0 true [] None 0) (start objn san cgn (snd prepn) (snd inin)).
Theorem never_ends : exists X sa g a v, wf g /\ acceptable g a (sa_strategy sa) /\ sa_pre sa = [] /\ sa_initial sa = [] /\
  sa_cspy sa = false /\ sa_dive sa = false /\ sa_max_iter sa = None /\ sa_time_limit sa = None /\
  (forall x l, Permutation l (x_perms X x l)) /\
  (forall n q, sound_answer q (e_master (x_env X) n q) /\
     (a_status (e_master (x_env X) n q) = Optimal -> a_objective (e_master (x_env X) n q) <> None /\
      forall y, feasible y q -> value (a_value (e_master (x_env X) n q)) (p_obj q) <= value y (p_obj q))) /\
  (forall n tl q, sound_answer q (e_pricer (x_env X) n tl q) /\
     (a_status (e_pricer (x_env X) n tl q) = Optimal -> forall y, feasible y q ->
      value (a_value (e_pricer (x_env X) n tl q)) (p_obj q) <= value y (p_obj q))) /\
  create g a false false false None false None false [] = Ok v /\
  forall f f2, solve X f f2 sa v = Err OutOfFuel.
Proof.
  exists Xn, san, rawn, argsn, objn.
  split; [apply wfb_ok; vm_compute; reflexivity|]. split.
  { apply accepted; try reflexivity; try (vm_compute; reflexivity). apply wfb_ok; vm_compute; reflexivity. }
  do 6 (split; [reflexivity|]). split; [intros x l; apply Permutation_refl|]. split; [intros n q; apply solvern_right|].
  split; [intros n tl q; apply (certify_right pvar_eqb pvar_eqb_eq)|]. split; [vm_compute; reflexivity|].
  intros f f2. unfold solve.
  assert (P : prepare objn san = Ok (fst (fst prepn), snd (fst prepn), snd prepn)) by (vm_compute; reflexivity). rewrite P. cbn [bind].
  cbv beta iota zeta. cbn [sa_heuristic san].
  match goal with |- bind ?i _ = _ => assert (I : i = Ok inin) by (vm_compute; reflexivity) end.
  rewrite I. cbn [bind].
  match goal with |- bind ?i _ = _ => assert (ST : exists s, i = Ok s /\ stuck 20 s) end.
  { exists startn. split; [vm_compute; reflexivity|].
    constructor; [left; vm_compute; reflexivity|vm_compute; reflexivity|vm_compute; reflexivity|vm_compute; reflexivity|vm_compute; reflexivity|vm_compute; reflexivity|left; split; vm_compute; reflexivity]. }
  destruct ST as (s & -> & S0). cbn [bind]. unfold solve_columns. cbn [sa_dive san].
  match goal with |- context [column_generation ?e ?C f s] => assert (EC : C = cgn) by (vm_compute; reflexivity) end.
  rewrite EC. change (x_env Xn) with En. rewrite (stuck_runs f 20 s ltac:(lia) S0). reflexivity.
Qed.
