(** Concrete calls of solve() with MIP pricing: hypotheses that can be met, and properties that fail. *)
From Verif.Base Require Import Prelude Graph.
From Verif.Spec Require Import Routes Network Inputs Feasible LinProg Pricing MIP Master Run Results Plans.
From Verif.Model Require Import Args Reach Checks Preprocess ClarkeWright Greedy Initial Pricing
  GreedyPricing LPPricing Cspy Master Dive Hyper ColGen Post Schedule Solve.
From Verif.Proofs Require Import RouteLemmas Deciders LPProofs PricingCor Certificate DiveProofs PricingWitness MasterWitness PostEnd Oracles ColGenWitness SolveUser SolveSamples.

(* ------------------------------------------------------------------ *)
(** ** A solver that answers only what it can certify *)

Section Certified.
  Context {V : Type}.
  Variable eqb : V -> V -> bool.
  Hypothesis eqb_eq : forall a b, eqb a b = true <-> a = b.
  (** the first of the candidates (assignment, multipliers) that is certified optimal *)
  Definition certify (l : list ((V -> Q) * list Q)) (p : program V) : answer V :=
    match find (fun c => optimalb eqb p (fst c) (snd c)) l with
    | Some c => mkAnswer Optimal (Some (value (fst c) (p_obj p))) (fst c)
    | None => mkAnswer NotSolved None (fun _ => 0)
    end.
  Lemma certify_right l p : sound_answer p (certify l p) /\
    (a_status (certify l p) = Optimal -> forall y, feasible y p -> value (a_value (certify l p)) (p_obj p) <= value y (p_obj p)).
  Proof.
    unfold certify. destruct (find _ l) as [c|] eqn:F.
    - apply find_some in F. destruct F as (_ & F).
      assert (X : exact_answer p (mkAnswer Optimal (Some (value (fst c) (p_obj p))) (fst c))).
      { apply (optimalb_ok eqb eqb_eq) with (ys := snd c); [exact F|reflexivity|]. eexists. split; reflexivity. }
      destruct X as [X [(_ & _ & Y)|(Y & _)]]; [|discriminate]. split; [exact X|]. intros _. exact Y.
    - split; [|discriminate]. constructor; cbn; [intros [Z|(Z & _)]; congruence|discriminate].
  Qed.
End Certified.

Definition pvar_eqb (a b : pvar) : bool :=
  match a, b with
  | X p, X q | Unload p, Unload q | Collected p, Collected q => arc_eqb p q
  | Time u, Time v | Rank u, Rank v | Load u, Load v => node_eqb u v
  | _, _ => false
  end.
Lemma pvar_eqb_eq a b : pvar_eqb a b = true <-> a = b.
Proof.
  destruct a, b; cbn [pvar_eqb]; rewrite ?arc_eqb_eq, ?node_eqb_eq; split; intro H; congruence.
Qed.

(* ------------------------------------------------------------------ *)
(** ** A circle of weight 0 *)

(** Four customers; the best new route takes 1 and 4, and 2 and 3 form a circle of weight 0. *)
Definition raw5 : rgraph :=
  let nr := mkNR (Some 1) None None None None None None false in
  let er c := mkER (Some (Scalar c)) None in
  mkGraph [(Source, mkNR None None None None None None None false); (Cust 1, nr); (Cust 2, nr); (Cust 3, nr); (Cust 4, nr);
           (Sink, mkNR None None None None None None None false)]
          [((Source, Cust 1), er 10); ((Source, Cust 2), er 10); ((Source, Cust 3), er 10); ((Source, Cust 4), er 10);
           ((Cust 1, Sink), er 10); ((Cust 2, Sink), er 10); ((Cust 3, Sink), er 10); ((Cust 4, Sink), er 10);
           ((Cust 1, Cust 4), er 5); ((Cust 2, Cust 3), er 20); ((Cust 3, Cust 2), er 20)].
Definition args5 : rargs := mkArgs PNone PNone PNone PNone PNone false "Exact".
Definition pot5 (v : node) : Q := match v with Source => 0 | Sink => -15 # 1 | Cust 4 => -5 # 1 | Cust _ => 10 end.
Definition env5 : env :=
  mkEnv (fun _ => 0)
        (fun _ => certify mvar_eqb [(by_name [(1%nat, 1); (2%nat, 1); (3%nat, 1); (4%nat, 1)], [20; 20; 20; 20]);
                                    (by_name [(5%nat, 1)], [20; 20; 20; 5])])
        (fun _ => by_node [(1%Z, 20); (2%Z, 20); (3%Z, 20); (4%Z, 20)])
        (fun _ _ => answers (fun _ => 0)) (fun _ l => l)
        (fun _ _ => certify pvar_eqb
           [(onec [(Source, Cust 1); (Cust 1, Cust 4); (Cust 4, Sink); (Cust 2, Cust 3); (Cust 3, Cust 2)],
             [10; 10; 10; -5 # 1; 0; -15 # 1; 0])])
        (fun _ h => negb (potentialb h pot5))
        (fun _ _ _ => []) (fun _ _ _ _ _ _ _ => None) (fun _ _ _ => 0%nat) (fun _ => 0%nat) (fun _ _ => 0).
Definition X5 : outside := mkOut env5 0 (fun _ l => l) nx_path (fun _ => mkAnswer Infeasible None (fun _ => 0)).
Definition sa5 : solve_args :=
  mkSA [trip [Cust 1]; trip [Cust 2]; trip [Cust 3]; trip [Cust 4]] [] "Exact" false true None false false (Some 1%Z) 1 false.
Definition run5 := (let* v := made raw5 args5 in solve X5 5 5 sa5 v).

Lemma solve_ok X sa g a f (P : vrp -> outcome -> Prop) :
  match (let* v := made g a in solve X f f sa v) with Ok r => P (fst r) (snd r) | Err _ => False end ->
  exists v v' out, made g a = Ok v /\ solve X f f sa v = Ok (v', out) /\ P v' out.
Proof.
  destruct (made g a) as [v|e] eqn:E; cbn [bind]; [|tauto].
  destruct (solve X f f sa v) as [[v' out]|e] eqn:E2; [|tauto]. intro H. exists v, v', out. auto.
Qed.

Lemma raw5_acceptable : wf raw5 /\ acceptable raw5 args5 "Exact".
Proof.
  assert (W : wf raw5) by (apply wfb_ok; vm_compute; reflexivity). split; [exact W|].
  apply preparedb_iff; [exact W|reflexivity|apply costs_givenb_ok; vm_compute; reflexivity|apply demandsb_ok; vm_compute; reflexivity|apply timesb_ok; vm_compute; reflexivity|].
  vm_compute. reflexivity.
Qed.

Theorem exact_loses_customers : exists X sa g a v v' out u,
  wf g /\ acceptable g a (sa_strategy sa) /\ sa_pre sa = [] /\ sa_cspy sa = false /\ sa_dive sa = false /\
  sa_heuristic sa = false /\ (forall x l, Permutation l (x_perms X x l)) /\
  (forall n q, sound_answer q (e_master (x_env X) n q) /\
     (a_status (e_master (x_env X) n q) = Optimal -> forall y, feasible y q ->
      value (a_value (e_master (x_env X) n q)) (p_obj q) <= value y (p_obj q))) /\
  (forall n tl q, sound_answer q (e_pricer (x_env X) n tl q) /\
     (a_status (e_pricer (x_env X) n tl q) = Optimal -> forall y, feasible y q ->
      value (a_value (e_pricer (x_env X) n tl q)) (p_obj q) <= value y (p_obj q))) /\
  (forall n h, e_negative (x_env X) n h = false -> ~ negative_cycle h) /\
  finds_paths (x_path X) /\
  create g a false false false None false None false [] = Ok v /\
  solve X 5 5 sa v = Ok (v', out) /\
  In u (custs g) /\ forall i r, In (i, r) (sv_routes (out_solved out)) -> ~ In u r.
Proof.
  destruct (solve_ok X5 sa5 raw5 args5 5
    (fun _ out => sv_routes (out_solved out) = [(1%nat, [Source; Cust 1; Cust 4; Sink])])) as (v & v' & out & C & Sv & Hr);
    [vm_compute; reflexivity|].
  exists X5, sa5, raw5, args5, v, v', out, (Cust 2). destruct raw5_acceptable as (W & A).
  split; [exact W|]. split; [exact A|]. do 4 (split; [reflexivity|]). split; [intros x l; reflexivity|].
  split; [intros n q; apply (certify_right mvar_eqb mvar_eqb_eq)|].
  split; [intros n tl q; apply (certify_right pvar_eqb pvar_eqb_eq)|].
  split.
  { intros n h H. cbn [X5 x_env env5 e_negative] in H. apply negb_false_iff in H. apply (potential_no_negative_cycle h pot5).
    intros p q Hab. unfold potentialb in H. apply (proj1 (forallb_forall _ _) H) in Hab. apply Qle_bool_iff. exact Hab. }
  split; [exact nx_path_ok|]. split; [exact C|]. split; [exact Sv|]. split; [cbn; tauto|].
  rewrite Hr. intros i r [E|[]] Hi. injection E as <- <-. cbn in Hi. intuition discriminate.
Qed.

(* ------------------------------------------------------------------ *)
(** ** Solvers that answer with given routes, and with given selections of columns *)

(** the first feasible candidate *)
Definition propose {V} (l : list (V -> Q)) (p : program V) : answer V :=
  match find (fun x => feasibleb x p) l with
  | Some x => mkAnswer Optimal (Some (value x (p_obj p))) x
  | None => mkAnswer NotSolved None (fun _ => 0)
  end.
Lemma propose_sound {V} (l : list (V -> Q)) p : sound_answer p (propose l p).
Proof.
  unfold propose. destruct (find _ l) as [x|] eqn:F.
  - apply find_some in F. destruct F as (_ & F). apply feasibleb_ok in F. constructor; cbn; [auto|]. intros q E. injection E as <-. reflexivity.
  - constructor; cbn; [intros [Z|(Z & _)]; congruence|discriminate].
Qed.

(** the routes whose arcs are all variables *)
Definition offered (p : program pvar) (r : list node) : bool :=
  forallb (fun a => existsb (fun t => pvar_eqb (X a) (fst t)) (p_vars p)) (arcs (trip r)).
Definition route_pricer (routes : list (list node)) (p : program pvar) : answer pvar :=
  propose (map (fun r => onec (arcs (trip r))) (filter (offered p) routes)) p.
Definition properb (r : list node) : bool :=
  nonempty r && nodupb r && forallb (fun v => negb (node_eqb v Source) && negb (node_eqb v Sink)) r.

Lemma value_zero {V} (e : list (Q * V)) : value (fun _ => 0) e == 0.
Proof. unfold value. apply Qsum_zero. intros t _. lra. Qed.

Lemma vars_are_arcs h k caps o ns dur neg p a : LPPricing.formulate h k caps o ns dur neg = Ok p ->
  In (X a) (map fst (p_vars p)) -> In a (arc_list h).
Proof.
  intros F H. destruct (formulate_inv _ _ _ _ _ _ _ _ F) as (_ & _ & loads & reqs & sdc & _ & Hr & Hs & ->). cbn [p_vars] in H.
  rewrite !map_app, !in_app_iff in H. destruct H as [H|[H|[H|[H|H]]]].
  - rewrite map_map in H. apply in_map_iff in H. destruct H as (b & E & H). cbn in E. injection E as <-.
    unfold edges in H. apply in_flat_map in H. destruct H as (u & _ & H). apply in_map_iff in H. destruct H as (v & <- & H).
    unfold succs in H. apply in_map_iff in H. destruct H as ([u' v'] & <- & H). apply filter_In in H. destruct H as (H & E). cbn in E. apply node_eqb_eq in E. subst u'. exact H.
  - exfalso. destruct (o_time_windows o); [|destruct H]. unfold time_vars in H. rewrite map_map in H. apply in_map_iff in H. destruct H as (b & E & _). discriminate.
  - exfalso. destruct (neg || o_pickup_delivery o); [|destruct H]. unfold rank_vars in H. rewrite map_map in H. apply in_map_iff in H. destruct H as (b & E & _). discriminate.
  - exfalso. destruct (o_pickup_delivery o); [|injection Hr as <-; destruct H]. apply bind_ok in Hr. destruct Hr as (r1 & _ & Hr). apply bind_ok in Hr. destruct Hr as (M & _ & Hr).
    injection Hr as <-. cbn [snd] in H. unfold pickup_vars in H. rewrite map_map in H. apply in_map_iff in H. destruct H as (b & E & _). discriminate.
  - exfalso. destruct (o_distribution_collection o); [|injection Hs as <-; destruct H]. apply bind_ok in Hs. destruct Hs as (M & _ & Hs).
    injection Hs as <-. cbn [snd] in H. unfold sdc_vars in H. rewrite map_app, in_app_iff, !map_map in H.
    destruct H as [H|H]; apply in_map_iff in H; destruct H as (b & E & _); discriminate.
Qed.

Lemma route_pricer_straight routes E : forallb properb routes = true ->
  (forall n tl p, e_pricer E n tl p = route_pricer routes p) -> no_circles E.
Proof.
  intros PR HE n tl g h k caps o ns dur p _ _ F. cbv zeta. rewrite HE. intros _ HV. unfold route_pricer, propose in *.
  destruct (find _ _) as [x|] eqn:Fi; cbn [a_value] in *; [|rewrite value_zero in HV; lra].
  apply find_some in Fi. destruct Fi as (Hx & _). apply in_map_iff in Hx. destruct Hx as (r & <- & Hr). apply filter_In in Hr. destruct Hr as (Hr & OF).
  apply (proj1 (forallb_forall _ _) PR) in Hr. unfold properb in Hr. rewrite !andb_true_iff in Hr. destruct Hr as ((R1 & R2) & R3).
  exists r. split.
  - constructor.
    + apply nodupb_ok. exact R2.
    + intros v Hv. apply (proj1 (forallb_forall _ _) R3) in Hv. apply andb_true_iff in Hv. destruct Hv as [A B]. apply negb_true_iff in A, B.
      split; intros ->; [rewrite (proj2 (node_eqb_eq Source Source) eq_refl) in A|rewrite (proj2 (node_eqb_eq Sink Sink) eq_refl) in B]; discriminate.
    + intros ->. discriminate.
    + intros u v Ha. unfold offered in OF. apply (proj1 (forallb_forall _ _) OF) in Ha. apply existsb_exists in Ha. destruct Ha as (t & T1 & T2).
      apply pvar_eqb_eq in T2. eapply vars_are_arcs; [exact F|]. rewrite T2. apply in_map. exact T1.
  - intros u v _. cbn [onec]. destruct (mem_arc (u, v) (arcs (trip r))) eqn:M.
    + apply mem_arc_In in M. split; [auto|]. intros _. reflexivity.
    + split; [intro Z; vm_compute in Z; discriminate|]. intro I. apply mem_arc_In in I. congruence.
Qed.

(* ------------------------------------------------------------------ *)
(** ** A call that meets the hypotheses *)

Definition env6 : env :=
  mkEnv (fun _ => 0)
        (fun _ => propose [by_name [(1%nat, 1); (2%nat, 1); (3%nat, 1)]])
        (fun n => if (n <? 4)%nat then by_node [(1%Z, 27); (2%Z, 20); (3%Z, 13); (4%Z, 10000000012 # 1)] else fun _ => 0)
        (fun _ _ => answers (fun _ => 0)) (fun _ l => l)
        (fun _ _ => route_pricer [[Cust 2; Cust 1]]) (fun _ _ => false)
        (fun _ _ _ => []) (fun _ _ _ _ _ _ _ => None) (fun _ _ _ => 0%nat) (fun _ => 0%nat) (fun _ _ => 0).
Definition X6 : outside := mkOut env6 0 (fun _ l => l) nx_path (fun _ => mkAnswer Infeasible None (fun _ => 0)).
Definition sa6 : solve_args := mkSA [] [] "Exact" false true None false false None 1 false.
Definition args6 : rargs := args2_with 10 9.
Definition routes6 : list (nat * list node) :=
  [(1%nat, trip [Cust 1]); (2%nat, trip [Cust 2; Cust 3]); (3%nat, trip [Cust 4])].

Lemma exact_case : wf raw2 /\ no_empty_costs raw2 /\ nonneg_user_demands raw2 /\
  (forall u r, node_data raw2 u = Some r -> r_aux_depot r = false) /\
  (forall x l, Permutation l (x_perms X6 x l)) /\
  (forall n q, sound_answer q (e_master (x_env X6) n q)) /\
  (forall n tl q, sound_answer q (e_pricer (x_env X6) n tl q)) /\
  no_circles (x_env X6) /\ finds_paths (x_path X6) /\
  0 <= user_service raw2 Source /\
  (forall u, In u (custs raw2) -> user_time raw2 u Sink == user_time raw2 Source u) /\
  (forall u w, In u (custs raw2) -> In w (custs raw2) -> In (u, w) (arc_list raw2) -> In (w, u) (arc_list raw2) ->
     user_time raw2 w u == user_time raw2 u w) /\
  (forall D u, time_limit args6 D -> In u (custs raw2) ->
     user_time raw2 Source u + user_time raw2 u Sink + user_service raw2 u <= inject_Z D) /\
  exists v v' out, create raw2 args6 false false false None false None false [] = Ok v /\
    solve X6 9 9 sa6 v = Ok (v', out) /\ v_iter v' = 2%nat /\
    sv_routes (out_solved out) = routes6 /\ best_value (out_solved out) = Ok 10000000072.
Proof.
  split; [exact raw2_wf|]. split; [exact raw2_costs|]. split; [exact raw2_demands|].
  split. { intros u r H. unfold node_data in H. apply assoc_node_In in H. cbn in H.
           repeat (destruct H as [H|H]; [injection H as <- <-; reflexivity|]). destruct H. }
  split; [intros x l; reflexivity|]. split; [intros n q; apply propose_sound|]. split; [intros n tl q; apply propose_sound|].
  split; [apply (route_pricer_straight [[Cust 2; Cust 1]]); [vm_compute; reflexivity|reflexivity]|].
  split; [exact nx_path_ok|]. split; [vm_compute; discriminate|].
  split. { intros u H. cbn in H. repeat (destruct H as [<-|H]; [vm_compute; reflexivity|]). destruct H. }
  split. { intros u w Hu Hw H1 H2. cbn in H1, H2.
           repeat (destruct H1 as [H1|H1]; [injection H1 as <- <-; first [vm_compute; reflexivity | exfalso; cbn in H2; intuition discriminate | exfalso; cbn in Hu; intuition discriminate | exfalso; cbn in Hw; intuition discriminate]|]).
           destruct H1. }
  split. { intros D u (E & _) H. injection E as <-. cbn in H. repeat (destruct H as [<-|H]; [vm_compute; discriminate|]). destruct H. }
  apply (solve_ok X6 sa6 raw2 args6 9
    (fun v' out => v_iter v' = 2%nat /\ sv_routes (out_solved out) = routes6 /\ best_value (out_solved out) = Ok 10000000072)).
  vm_compute. repeat split; reflexivity.
Qed.
