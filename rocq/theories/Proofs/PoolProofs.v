(** The pool of columns only grows and the names are distinct. *)
From Coq Require Import Relations.
From Verif.Base Require Import Prelude Graph.
From Verif.Spec Require Import Routes Network LinProg Columns Pool.
From Verif.Model Require Import Args Preprocess Initial Pricing GreedyPricing LPPricing Cspy.

Definition good_step (old new : list column) : Prop := extends old new /\ (numbered old -> numbered new).

Lemma good_refl l : good_step l l.
Proof. split; auto. exists []. symmetry. apply app_nil_r. Qed.
Lemma good_trans a b c : good_step a b -> good_step b c -> good_step a c.
Proof.
  intros ((l1 & ->) & H1) ((l2 & ->) & H2). split; auto. exists (l1 ++ l2). rewrite app_assoc. reflexivity.
Qed.
Lemma good_snoc l c : number (c_name c) = S (List.length l) -> good_step l (l ++ [c]).
Proof.
  intro Hc. split; [exists [c]; auto|]. intros H i d Hd.
  destruct (Nat.lt_ge_cases i (List.length l)) as [Hi|Hi].
  - rewrite nth_error_app1 in Hd by auto. apply H; auto.
  - rewrite nth_error_app2 in Hd by auto. destruct (i - List.length l)%nat as [|j] eqn:E.
    + cbn in Hd. injection Hd as <-. rewrite Hc. f_equal. lia.
    + destruct j; discriminate.
Qed.

Lemma lp_new_route_good h k keys routes x r : lp_new_route h k keys routes x = Ok r -> good_step routes r.
Proof.
  unfold lp_new_route. intro H. apply bind_ok in H. destruct H as (q & _ & H).
  destruct (digraph_of _) as [a b]. apply bind_ok in H. destruct H as (sp & _ & H). injection H as <-.
  apply good_snoc. reflexivity.
Qed.

Lemma lp_solve_good h run k caps o ns dur neg tl exact solver keys pool pool1 more :
  lp_solve h run k caps o ns dur neg tl exact solver keys pool = Ok (pool1, more) -> good_step pool pool1.
Proof.
  unfold lp_solve. intro H. destruct (negb run); [injection H as <- <-; apply good_refl|].
  destruct (truthyQ tl && _); [injection H as <- <-; apply good_refl|].
  apply bind_ok in H. destruct H as (p & _ & H).
  destruct (_ || _).
  - apply bind_ok in H. destruct H as (r & H1 & H2). injection H2 as <- <-.
    eapply lp_new_route_good; eauto.
  - injection H as <- <-. apply good_refl.
Qed.

Lemma p_attempt_good h caps ns dur k keys fw s pick r :
  p_attempt h caps ns dur k keys fw s pick = Ok r -> good_step (fst s) (fst r).
Proof.
  unfold p_attempt. intro H. apply bind_ok in H. destruct H as (x & _ & H).
  destruct (snd x && _); [|injection H as <-; apply good_refl].
  apply bind_ok in H. destruct H as (l & H1 & H2). injection H2 as <-. cbn [fst].
  unfold p_new_route in H1. destruct (digraph_of _) as [a b].
  apply bind_ok in H1. destruct H1 as (q & _ & H1). injection H1 as <-. apply good_snoc. reflexivity.
Qed.

Lemma p_attempts_good h caps ns dur k keys fw : forall l s r,
  foldM (p_attempt h caps ns dur k keys fw) l s = Ok r -> good_step (fst s) (fst r).
Proof.
  induction l as [|x l IH]; intros s r H; cbn in H.
  - injection H as <-. apply good_refl.
  - apply bind_ok in H. destruct H as (s1 & H1 & H2).
    eapply good_trans; [eapply p_attempt_good; eauto|eauto].
Qed.

Lemma greedy_good h k caps ns dur keys n rnd pool pool1 more :
  greedy_pricing h caps ns dur k keys pool n rnd = Ok (pool1, more) -> good_step pool pool1.
Proof.
  unfold greedy_pricing. intro H. apply bind_ok in H. destruct H as (s & H1 & H2).
  apply p_attempts_good in H1. apply p_attempts_good in H2. eapply good_trans; eauto.
Qed.

Lemma cspy_good g h k caps o ns dur alg keys run elementary pool pool1 more :
  cspy_solve g h k caps o ns dur alg keys run elementary pool = Ok (pool1, more) -> good_step pool pool1.
Proof.
  unfold cspy_solve. intro H. destruct (negb run); [injection H as <- <-; apply good_refl|].
  apply bind_ok in H. destruct H as (m & _ & H). revert H. generalize (passes o elementary).
  induction l as [|e t IH]; cbn [cspy_loop]; intro H; [injection H as <- <-; apply good_refl|].
  apply bind_ok in H. destruct H as (thr & _ & H).
  destruct (alg m _ e thr) as [[cost path]|]; [|injection H as <- <-; apply good_refl].
  destruct (Qltb cost _); [|injection H as <- <-; apply good_refl].
  apply bind_ok in H. destruct H as (c & Hc & H).
  destruct (existsb _ pool); [auto|]. injection H as <- <-. apply good_snoc.
  unfold cspy_new_route in Hc. destruct (digraph_of (arcs path)) as [a b].
  apply bind_ok in Hc. destruct Hc as (q & _ & Hc). injection Hc as <-. cbn [c_name].
  destruct (no_repeat path); reflexivity.
Qed.

Lemma step_good a b : pricing_step a b -> good_step a b.
Proof.
  intro H. destruct H.
  - eapply lp_solve_good; eauto.
  - eapply greedy_good; eauto.
  - eapply cspy_good; eauto.
Qed.

Lemma steps_good a b : clos_refl_trans _ pricing_step a b -> good_step a b.
Proof.
  intro H. induction H; [apply step_good; auto|apply good_refl|eapply good_trans; eauto].
Qed.

Lemma numbered_names pool : numbered pool -> NoDup (map (fun c => number (c_name c)) pool).
Proof.
  intro H. apply NoDup_nth_error. intros i j Hi E. rewrite map_length in Hi.
  rewrite !nth_error_map in E. destruct (nth_error pool i) as [c|] eqn:Ei; [|apply nth_error_None in Ei; lia].
  destruct (nth_error pool j) as [d|] eqn:Ej; [|discriminate]. cbn in E. injection E as E.
  rewrite (H _ _ Ei), (H _ _ Ej) in E. lia.
Qed.

Lemma convert_from_numbered g caps : forall rs n cs, convert_from g caps n rs = Ok cs ->
  forall i c, nth_error cs i = Some c -> number (c_name c) = (n + i)%nat.
Proof.
  induction rs as [|r rs IH]; intros n cs H i c Hc; cbn [convert_from] in H.
  - injection H as <-. destruct i; discriminate.
  - apply bind_ok in H. destruct H as (c0 & H0 & H). apply bind_ok in H. destruct H as (cs0 & H1 & H).
    injection H as <-. destruct i as [|i].
    + cbn in Hc. injection Hc as <-. unfold initial_column in H0.
      apply bind_ok in H0. destruct H0 as (q & _ & H0). apply bind_ok in H0. destruct H0 as (k & _ & H0).
      destruct (digraph_of (arcs r)) as [a b]. injection H0 as <-. cbn. lia.
    + cbn in Hc. rewrite (IH _ _ H1 i c Hc). lia.
Qed.

Theorem pool_history o mixed caps dur ns perms given g rs pool0 pool :
  initialize o mixed caps dur ns perms given g = Ok (rs, pool0) ->
  clos_refl_trans _ pricing_step pool0 pool ->
  extends pool0 pool /\ numbered pool /\ NoDup (map c_name pool).
Proof.
  intros H1 H2. destruct (steps_good _ _ H2) as (H3 & H4). split; auto.
  assert (N : numbered pool).
  { apply H4. unfold initialize in H1. apply bind_ok in H1. destruct H1 as (l & _ & H1).
    apply bind_ok in H1. destruct H1 as (cs & Hcs & H1). injection H1 as <- <-.
    intros i c Hc. apply (convert_from_numbered _ _ _ _ _ Hcs i c Hc). }
  split; auto. apply numbered_names in N. rewrite <- (map_map c_name number) in N.
  apply NoDup_map_inv in N. auto.
Qed.

Theorem pool_step_grows pool pool1 : pricing_step pool pool1 ->
  extends pool pool1 /\ (numbered pool -> numbered pool1).
Proof. exact (step_good pool pool1). Qed.
