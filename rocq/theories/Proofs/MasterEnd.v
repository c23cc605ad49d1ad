(** The statements of the properties of the master problem, from the lemmas about it. *)
From Verif.Base Require Import Prelude Graph.
From Verif.Spec Require Import Routes Network LinProg Pricing MIP Master Duality.
From Verif.Model Require Import Args Reach Checks Preprocess ClarkeWright Greedy Initial Pricing LPPricing Master.
From Verif.Proofs Require Import RouteLemmas Deciders PreLemmas MasterProofs SelectProofs DualityProofs MasterCor.

Section End.
  Variables (g : vgraph) (o : moptions) (cs : list column).
  Variables (solver resolver : program mvar -> answer mvar).
  Variables (t : Q) (sel : list column) (dropped : list node).
  Hypothesis WF : wf g.
  Hypothesis LAB : forall c, In c cs -> labelled c.

  Lemma exactly_once : NoDup (map c_name cs) ->
    (forall m, built g o cs m -> sound_answer (program_of (integral m)) (solver (program_of (integral m)))) ->
    concluded g o cs solver resolver t sel dropped ->
    mo_periodic o = false -> (forall p, ~ drops o p) ->
    dropped = [] /\ NoDup sel /\ (forall c, In c sel -> In c cs) /\ forall v d, customer g v d -> once v sel.
  Proof.
    intros ND SO C P N. assert (V := conclusion_valid g o cs solver resolver t sel dropped WF LAB ND SO C P).
    assert (E := va_nodrop _ _ _ _ _ V N). split; [exact E|]. split; [exact (va_NoDup _ _ _ _ _ V)|].
    split; [exact (va_cols _ _ _ _ _ V)|]. intros v d H. destruct (va_once _ _ _ _ _ V v d H) as [[H1 _]|[_ H2]]; [exact H1|].
    rewrite E in H2. destruct H2.
  Qed.

  Lemma dropped_or_served : NoDup (map c_name cs) ->
    (forall m, built g o cs m -> sound_answer (program_of (integral m)) (solver (program_of (integral m)))) ->
    concluded g o cs solver resolver t sel dropped -> mo_periodic o = false ->
    NoDup dropped /\ (forall v, In v dropped -> In v (custs g)) /\
    forall v d, customer g v d -> (once v sel /\ ~ In v dropped) \/ (never v sel /\ In v dropped).
  Proof.
    intros ND SO C P. assert (V := conclusion_valid g o cs solver resolver t sel dropped WF LAB ND SO C P).
    destruct (va_dropped _ _ _ _ _ V) as [V1 V2]. split; [exact V1|]. split; [exact V2|]. exact (va_once _ _ _ _ _ V).
  Qed.

  Lemma selected_elementary : (forall c, In c cs -> honest c) ->
    (forall m, built g o cs m -> sound_answer (program_of (integral m)) (solver (program_of (integral m)))) ->
    concluded g o cs solver resolver t sel dropped ->
    forall c, In c sel -> NoDup (served c) /\ forall i, c_name c <> CNonElem i.
  Proof.
    intros HON SO C c Hc.
    assert (N := fun i => conclusion_elementary g o cs solver resolver t sel dropped WF LAB SO C c i Hc).
    split; [|exact N]. apply (HON c); [|exact N]. exact (conclusion_cols g o cs solver resolver t sel dropped WF LAB SO C c Hc).
  Qed.

  Lemma span_result : NoDup (map c_name cs) ->
    (forall m, built g o cs m -> exact_answer (program_of (integral m)) (solver (program_of (integral m)))) ->
    (forall m, built g o cs m -> exact_answer (program_of (integral m)) (resolver (program_of (integral m)))) ->
    concluded g o cs solver resolver t sel dropped -> mo_periodic o = false -> mo_span o = true ->
    t == span_price o sel dropped /\
    forall sel' dropped', valid_selection g o cs sel' dropped' ->
      (forall c i, In c sel' -> c_name c = CNat i -> (75 <= i)%nat -> c_cost c <= 0) ->
      t <= span_price o sel' dropped'.
  Proof.
    intros ND E1 E2 C P S. assert (RI := fun m B => exact_right _ _ (E1 m B)). assert (AG := exact_agreed _ _ _ _ _ E1 E2). split.
    - exact (proj1 (span_value g o cs solver resolver t sel dropped WF LAB ND RI AG C P S)).
    - exact (span_best g o cs solver resolver t sel dropped WF LAB ND RI AG C P S).
  Qed.

  Lemma cheapest : NoDup (map c_name cs) ->
    (forall m, built g o cs m -> exact_answer (program_of (integral m)) (solver (program_of (integral m)))) ->
    (forall m, built g o cs m -> exact_answer (program_of (integral m)) (resolver (program_of (integral m)))) ->
    concluded g o cs solver resolver t sel dropped -> mo_periodic o = false -> mo_span o = false ->
    valid_selection g o cs sel dropped /\ t == price o sel dropped /\
    forall sel' dropped', valid_selection g o cs sel' dropped' -> t <= price o sel' dropped'.
  Proof.
    intros ND E1 E2 C P S. assert (RI := fun m B => exact_right _ _ (E1 m B)). assert (AG := exact_agreed _ _ _ _ _ E1 E2). split; [|split].
    - exact (conclusion_valid g o cs solver resolver t sel dropped WF LAB ND (fun m B => ea_sound _ _ (E1 m B)) C P).
    - exact (conclusion_price g o cs solver resolver t sel dropped WF LAB ND RI AG C P S).
    - intros sel' dropped' V. exact (conclusion_best g o cs solver resolver t sel dropped WF LAB ND RI AG C P sel' dropped' S V).
  Qed.

  Lemma final_price : NoDup (map c_name cs) ->
    (forall m, built g o cs m -> exact_answer (program_of (integral m)) (solver (program_of (integral m)))) ->
    (forall m, built g o cs m -> exact_answer (program_of (integral m)) (resolver (program_of (integral m)))) ->
    concluded g o cs solver resolver t sel dropped -> mo_periodic o = false -> mo_span o = false -> t == price o sel dropped.
  Proof. intros ND E1 E2 C P S. exact (proj1 (proj2 (cheapest ND E1 E2 C P S))). Qed.

  (** nothing cheaper can be selected, whatever the solver says when it is asked again *)
  Lemma right_selection : NoDup (map c_name cs) ->
    (forall m, built g o cs m -> right_answer (program_of (integral m)) (solver (program_of (integral m)))) ->
    concluded g o cs solver resolver t sel dropped -> mo_periodic o = false ->
    forall sel' dropped', valid_selection g o cs sel' dropped' ->
    (mo_span o = false -> price o sel dropped <= price o sel' dropped') /\
    (mo_span o = true -> (forall c i, In c sel' -> c_name c = CNat i -> (75 <= i)%nat -> c_cost c <= 0) ->
       span_price o sel dropped <= span_price o sel' dropped').
  Proof.
    intros ND RI C P sel' dropped' V. destruct (concluded_again _ _ _ _ _ _ _ _ C) as (t' & C'). assert (AG := again_agreed g o cs solver). split.
    - intro S. rewrite <- (conclusion_price g o cs solver _ t' sel dropped WF LAB ND RI AG C' P S).
      exact (conclusion_best g o cs solver _ t' sel dropped WF LAB ND RI AG C' P sel' dropped' S V).
    - intros S F. rewrite <- (proj1 (span_value g o cs solver _ t' sel dropped WF LAB ND RI AG C' P S)).
      exact (span_best g o cs solver _ t' sel dropped WF LAB ND RI AG C' P S sel' dropped' V F).
  Qed.
End End.

Lemma weak_duality_built g o cs m pi D q eps P :
  wf g -> built g o cs m -> mo_periodic o = false -> mo_span o = false ->
  get_duals g o m cs pi = Ok D -> dual_solution o m pi q -> serves g o P ->
  (forall t, In t P -> - eps <= reduced_cost g D 1 (fst t) (snd t)) ->
  q <= tours_cost g P + eps * inject_Z (Z.of_nat (List.length P)).
Proof.
  intros W B P1 P2 H. exact (weak_duality g o cs m pi W (built_shape _ _ _ _ B) P1 P2 D H q eps P).
Qed.

Lemma documented g o cs m (final : bool) x :
  wf g -> (forall c, In c cs -> labelled c) -> built g o cs m ->
  (feasible x (program_of (if final then integral m else m)) <-> solution g o cs final x) /\
  value x (p_obj (program_of (if final then integral m else m))) == total_cost g o cs x.
Proof.
  intros W L B. assert (SH := built_shape _ _ _ _ B). split.
  - exact (feasible_iff g o cs m W L SH final x).
  - exact (objective_is g o cs m L SH final x).
Qed.

Lemma span_of_solutions g o cs m final x c i :
  wf g -> (forall c, In c cs -> labelled c) -> NoDup (map c_name cs) -> built g o cs m -> mo_span o = true ->
  feasible x (program_of (if final : bool then integral m else m)) ->
  In c cs -> c_name c = CNat i -> 0 < x (Y (c_name c)) ->
  x (Y (c_name c)) == 1 /\ ((i <= 74)%nat -> c_cost c <= x Span) /\ ((75 <= i)%nat -> c_cost c <= 0).
Proof.
  intros W L ND B S F Hc En Hx. apply (documented g o cs m final x W L B) in F. assert (SH := built_shape _ _ _ _ B).
  destruct (sh_cols _ _ _ _ SH) as (ys & FF & _). destruct (Forall2_in_l _ _ _ _ FF Hc) as (y & _ & Hy).
  assert (AD : addable g o c) by (apply (proj1 (new_variable_ok g o c (sh_fleet _ _ _ _ SH))); eauto).
  destruct (ad_name _ _ _ AD S) as (j & Ej & Hj). assert (j = i) by congruence. subst j.
  exact (span_used g o cs ND S final x c i F Hc En Hj Hx).
Qed.

Lemma span_no_row g o cs m c : built g o cs m -> mo_span o = true ->
  (forall i, c_name c = CNat i -> (1000 <= i)%nat) -> update o m c = Err KeyError.
Proof.
  intros B S H. apply (proj2 (update_ok g o cs m c B)). intro A. destruct (ad_name _ _ _ A S) as (i & Ei & Hi).
  specialize (H i Ei). lia.
Qed.

Lemma solve_master_cases g o relax cs solver pi m : built g o cs m ->
  let p := program_of (if relax : bool then m else integral m) in
  (a_status (solver p) = Optimal ->
   exists D, solve_master g o relax cs solver pi m =
     Ok (if relax then m else integral m, D, a_objective (solver p))) /\
  (a_status (solver p) <> Optimal -> solve_master g o relax cs solver pi m = Err GenericException).
Proof.
  intros B p. split.
  - intro H. destruct relax; [exact (solve_master_ok g o true cs solver pi m B H)|exact (solve_master_ok g o false cs solver pi m B H)].
  - intro H. unfold solve_master. fold p. destruct (a_status (solver p)); try reflexivity. congruence.
Qed.

Lemma get_total_runs g o cs m (final : bool) x total : (forall c, In c cs -> labelled c) -> built g o cs m ->
  exists sel dropped, get_total_cost_and_routes o (if final then integral m else m) x total cs =
    Ok (match total with Some q => q | None => 0 end, sel, dropped).
Proof. exact (get_total_ok g o cs m final x total). Qed.

Lemma selections_are_solutions g o cs : wf g -> (forall c, In c cs -> labelled c) -> NoDup (map c_name cs) ->
  mo_periodic o = false -> mo_span o = false ->
  (forall m sel dropped, built g o cs m -> valid_selection g o cs sel dropped ->
     exists x, feasible x (program_of (integral m)) /\ value x (p_obj (program_of (integral m))) == price o sel dropped /\
       forall c, In c cs -> (x (Y (c_name c)) == 1 <-> In c sel)).
Proof.
  intros W L ND P S m sel dropped B V. assert (SH := built_shape _ _ _ _ B).
  assert (EN : solution g o cs true (enc sel dropped 0)).
  { apply (enc_solution g o cs ND sel dropped 0 V P). rewrite S. discriminate. }
  exists (enc sel dropped 0). split; [exact (proj2 (feasible_iff g o cs m W L SH true _) EN)|]. split.
  - assert (E := objective_is g o cs m L SH true (enc sel dropped 0)). cbn [stage] in E. rewrite E.
    exact (enc_cost g o cs W ND sel dropped 0 V P S).
  - intros c Hc. rewrite (enc_one g o cs ND sel dropped V c Hc). cbn [enc].
    destruct (has_name (c_name c) sel); split; intro E; try reflexivity; discriminate E.
Qed.
