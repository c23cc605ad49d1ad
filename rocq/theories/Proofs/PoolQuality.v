(** The columns of the pool are labelled correctly: names, paths and repeated nodes. *)
From Coq Require Import Relations.
From Verif.Base Require Import Prelude Graph.
From Verif.Spec Require Import Routes Network LinProg Columns Pool Master.
From Verif.Model Require Import Args Reach Checks Preprocess ClarkeWright Greedy Initial Pricing GreedyPricing LPPricing Cspy Master.
From Verif.Proofs Require Import RouteLemmas LPColumn PoolProofs.

Definition fine (l : list column) : Prop := forall c, In c l -> labelled c /\ honest c.

Lemma fine_snoc l c : fine l -> labelled c -> honest c -> fine (l ++ [c]).
Proof. intros H L O d Hd. apply in_app_or in Hd. destruct Hd as [Hd|[<-|[]]]; auto. Qed.

Lemma fine_plain i l a b q k t : digraph_of l = (a, b) -> labelled (mkCol (CNat i) a b None q k t) /\ honest (mkCol (CNat i) a b None q k t).
Proof.
  intro E. split; [reflexivity|]. intros _. unfold served. cbn [c_path c_nodes].
  assert (H := digraph_fst_NoDup l). rewrite E in H. exact H.
Qed.

Lemma lp_new_route_fine h k keys routes x r : lp_new_route h k keys routes x = Ok r -> fine routes -> fine r.
Proof.
  unfold lp_new_route. intros H F. apply bind_ok in H. destruct H as (q & _ & H).
  destruct (digraph_of _) as [a b] eqn:E. apply bind_ok in H. destruct H as (sp & _ & H). injection H as <-.
  destruct (fine_plain (S (List.length routes)) _ a b q k None E) as [F1 F2]. apply fine_snoc; auto.
Qed.

Lemma lp_solve_fine h run k caps o ns dur neg tl exact solver keys pool pool1 more :
  lp_solve h run k caps o ns dur neg tl exact solver keys pool = Ok (pool1, more) -> fine pool -> fine pool1.
Proof.
  unfold lp_solve. intros H F. destruct (negb run); [injection H as <- <-; exact F|].
  destruct (truthyQ tl && _); [injection H as <- <-; exact F|].
  apply bind_ok in H. destruct H as (p & _ & H).
  destruct (_ || _).
  - apply bind_ok in H. destruct H as (r & H1 & H2). injection H2 as <- <-.
    eapply lp_new_route_fine; eauto.
  - injection H as <- <-. exact F.
Qed.

Lemma p_attempt_fine h caps ns dur k keys fw s pick r :
  p_attempt h caps ns dur k keys fw s pick = Ok r -> fine (fst s) -> fine (fst r).
Proof.
  unfold p_attempt. intros H F. apply bind_ok in H. destruct H as (x & _ & H).
  destruct (snd x && _); [|injection H as <-; exact F].
  apply bind_ok in H. destruct H as (l & H1 & H2). injection H2 as <-. cbn [fst].
  unfold p_new_route in H1. destruct (digraph_of _) as [a b] eqn:E.
  apply bind_ok in H1. destruct H1 as (q & _ & H1). injection H1 as <-.
  destruct (fine_plain (S (List.length (fst s))) _ a b q k None E) as [F1 F2]. apply fine_snoc; auto.
Qed.

Lemma p_attempts_fine h caps ns dur k keys fw : forall l s r,
  foldM (p_attempt h caps ns dur k keys fw) l s = Ok r -> fine (fst s) -> fine (fst r).
Proof.
  induction l as [|x l IH]; intros s r H F; cbn in H.
  - injection H as <-. exact F.
  - apply bind_ok in H. destruct H as (s1 & H1 & H2). eapply IH; [exact H2|]. eapply p_attempt_fine; eauto.
Qed.

Lemma greedy_fine h k caps ns dur keys n rnd pool pool1 more :
  greedy_pricing h caps ns dur k keys pool n rnd = Ok (pool1, more) -> fine pool -> fine pool1.
Proof.
  unfold greedy_pricing. intros H F. apply bind_ok in H. destruct H as (s & H1 & H2).
  apply p_attempts_fine in H1; [|exact F]. apply p_attempts_fine in H2; auto.
Qed.

Lemma no_repeat_NoDup p : no_repeat p = true -> NoDup p.
Proof.
  induction p as [|v p IH]; cbn [no_repeat]; intro H; [constructor|].
  apply andb_true_iff in H. destruct H as [H1 H2]. constructor; [|auto].
  apply negb_true_iff in H1. apply mem_false in H1. exact H1.
Qed.

Lemma cspy_fine g h k caps o ns dur alg keys run elementary pool pool1 more :
  cspy_solve g h k caps o ns dur alg keys run elementary pool = Ok (pool1, more) -> fine pool -> fine pool1.
Proof.
  unfold cspy_solve. intros H F. destruct (negb run); [injection H as <- <-; exact F|].
  apply bind_ok in H. destruct H as (m & _ & H). revert H. generalize (passes o elementary).
  induction l as [|e t IH]; cbn [cspy_loop]; intro H; [injection H as <- <-; exact F|].
  apply bind_ok in H. destruct H as (thr & _ & H).
  destruct (alg m _ e thr) as [[cost path]|]; [|injection H as <- <-; exact F].
  destruct (Qltb cost _); [|injection H as <- <-; exact F].
  apply bind_ok in H. destruct H as (c & Hc & H).
  destruct (existsb _ pool); [auto|]. injection H as <- <-.
  unfold cspy_new_route in Hc. destruct (digraph_of (arcs path)) as [a b].
  apply bind_ok in Hc. destruct Hc as (q & _ & Hc). injection Hc as <-. apply fine_snoc; [exact F| |].
  - unfold labelled. cbn [c_name c_path]. destruct (no_repeat path); discriminate.
  - intro N. unfold served. cbn [c_path]. destruct (no_repeat path) eqn:E; [apply no_repeat_NoDup; exact E|].
    exfalso. apply (N (S (List.length pool))). cbn [c_name]. reflexivity.
Qed.

Lemma step_fine a b : pricing_step a b -> fine a -> fine b.
Proof.
  intro H. destruct H.
  - eapply lp_solve_fine; eauto.
  - eapply greedy_fine; eauto.
  - eapply cspy_fine; eauto.
Qed.

Lemma steps_fine a b : clos_refl_trans _ pricing_step a b -> fine a -> fine b.
Proof. intro H. induction H; auto. apply step_fine. exact H. Qed.

Lemma convert_from_fine g caps : forall rs n cs, convert_from g caps n rs = Ok cs -> fine cs.
Proof.
  induction rs as [|r rs IH]; intros n cs H; cbn [convert_from] in H.
  - injection H as <-. intros c [].
  - apply bind_ok in H. destruct H as (c0 & H0 & H). apply bind_ok in H. destruct H as (cs0 & H1 & H).
    injection H as <-. intros c [<-|Hc].
    + unfold initial_column in H0.
      apply bind_ok in H0. destruct H0 as (q & _ & H0). apply bind_ok in H0. destruct H0 as (k & _ & H0).
      destruct (digraph_of _) as [a b] eqn:E. injection H0 as <-. apply (fine_plain _ _ _ _ _ _ _ E).
    + exact (IH _ _ H1 c Hc).
Qed.

Theorem pool_fine o mixed caps dur ns perms given g rs pool0 pool :
  initialize o mixed caps dur ns perms given g = Ok (rs, pool0) ->
  clos_refl_trans _ pricing_step pool0 pool ->
  NoDup (map c_name pool) /\ forall c, In c pool -> labelled c /\ honest c.
Proof.
  intros H1 H2. split; [apply (pool_history _ _ _ _ _ _ _ _ _ _ _ H1 H2)|].
  apply (steps_fine _ _ H2). unfold initialize in H1. apply bind_ok in H1. destruct H1 as (l & _ & H1).
  apply bind_ok in H1. destruct H1 as (cs & Hcs & H1). injection H1 as <- <-. exact (convert_from_fine _ _ _ _ _ Hcs).
Qed.
