(** Honest oracles for concrete runs: the shortest simple paths by enumeration, and the cheapest of
    some routes, optimal by a potential. *)
From Verif.Base Require Import Prelude Graph.
From Verif.Spec Require Import Routes Network LinProg Pricing MIP.
From Verif.Model Require Import Args Reach Checks Preprocess ClarkeWright Greedy Initial Pricing LPPricing.
From Verif.Proofs Require Import RouteLemmas ReachLemmas PreLemmas PricingProofs LPProofs PricingCor PricingWitness.

(** ** Shortest simple paths *)
Lemma paths_to_sound A : forall f seen u p, ~ In u seen -> In p (paths_to A f seen u) ->
  walk A u Sink p /\ NoDup p /\ (forall v, In v p -> ~ In v seen) /\ exists q, p = u :: q.
Proof.
  induction f as [|f IH]; intros seen u p Hu H; [destruct H|]. cbn [paths_to] in H. apply in_app_or in H. destruct H as [H|H].
  - destruct (node_eqb u Sink) eqn:X; [|destruct H]. destruct H as [<-|[]]. apply node_eqb_eq in X. subst u.
    split; [constructor|]. split; [repeat constructor; intros []|]. split; [intros v [<-|[]]; exact Hu|eauto].
  - apply in_flat_map in H. destruct H as ([a b] & Hin & H). cbn [fst snd] in H.
    destruct (node_eqb a u && negb (mem b (u :: seen))) eqn:X; [|destruct H]. apply andb_true_iff in X. destruct X as [X1 X2].
    apply node_eqb_eq in X1. subst a. apply negb_true_iff, mem_false in X2. apply in_map_iff in H. destruct H as (p1 & <- & H).
    destruct (IH _ _ _ X2 H) as (W & ND & NS & q & Ep). split; [econstructor; eassumption|].
    split; [constructor; [|exact ND]; intro I; apply (NS u I); left; reflexivity|].
    split; [|eauto]. intros v [<-|Hv]; [exact Hu|]. intro S. apply (NS v Hv). right. exact S.
Qed.

Lemma paths_to_NoDup A : NoDup A -> forall f seen u, ~ In u seen -> NoDup (paths_to A f seen u).
Proof.
  intros NA. induction f as [|f IH]; intros seen u Hu; [constructor|]. cbn [paths_to].
  set (F := fun a : arc => if node_eqb (fst a) u && negb (mem (snd a) (u :: seen)) then map (cons u) (paths_to A f (u :: seen) (snd a)) else []).
  assert (FS : forall a p, In p (F a) -> exists q, p = u :: snd a :: q).
  { intros a p Hp. unfold F in Hp. destruct (node_eqb (fst a) u && negb (mem (snd a) (u :: seen))) eqn:X; [|destruct Hp].
    apply andb_true_iff in X. destruct X as [_ X2]. apply negb_true_iff, mem_false in X2. apply in_map_iff in Hp. destruct Hp as (p1 & <- & Hp).
    destruct (paths_to_sound _ _ _ _ _ X2 Hp) as (_ & _ & _ & q & ->). eauto. }
  assert (FU : forall a p, In p (F a) -> fst a = u).
  { intros a p Hp. unfold F in Hp. destruct (node_eqb (fst a) u) eqn:X; [apply node_eqb_eq; exact X|destruct Hp]. }
  assert (K : forall B, NoDup B -> NoDup (flat_map F B)).
  { induction B as [|a B IB]; intro NB; [constructor|]. inversion NB as [|x y N1 N2]; subst. cbn [flat_map]. apply NoDup_app_intro.
    - unfold F. destruct (node_eqb (fst a) u && negb (mem (snd a) (u :: seen))) eqn:X; [|constructor].
      apply andb_true_iff in X. destruct X as [_ X2]. apply negb_true_iff, mem_false in X2.
      apply FinFun.Injective_map_NoDup; [intros p q E; congruence|apply IH; exact X2].
    - apply IB. exact N2.
    - intros p H1 H2. apply in_flat_map in H2. destruct H2 as (b & Hb & H2).
      destruct (FS _ _ H1) as (q1 & E1). destruct (FS _ _ H2) as (q2 & E2). assert (U1 := FU _ _ H1). assert (U2 := FU _ _ H2).
      assert (a = b); [|subst b; contradiction]. destruct a, b. cbn [fst snd] in *. congruence. }
  apply NoDup_app_intro.
  - destruct (node_eqb u Sink); repeat constructor; intros [].
  - apply K. exact NA.
  - intros p H1 H2. apply in_flat_map in H2. destruct H2 as (b & _ & H2). destruct (FS _ _ H2) as (q & ->).
    destruct (node_eqb u Sink); [destruct H1 as [H1|[]]; discriminate|destruct H1].
Qed.

Definition ksp_of (A : list arc) (fuel : nat) (w : arc -> Q) (n : nat) : list (list node) :=
  firstn n (sorted_asc (fun p => Qsum (map w (arcs p))) (paths_to A fuel [] Source)).

Lemma ksp_of_honest (g : vgraph) fuel w n : wf g -> In Source (nodes g) -> (List.length (nodes g) <= fuel)%nat ->
  k_shortest (arc_list g) w n (ksp_of (arc_list g) fuel w n).
Proof.
  intros W HS Hf. set (key := fun p => Qsum (map w (arcs p))). set (all := paths_to (arc_list g) fuel [] Source).
  assert (P := sorted_asc_perm key all). assert (SO := sorted_asc_ascending key all).
  assert (NS : ~ In Source (@nil node)) by (intros []).
  assert (ND : NoDup all) by (apply paths_to_NoDup; [apply wf_arcs; exact W|exact NS]).
  assert (NDs : NoDup (sorted_asc key all)) by (apply (Permutation_NoDup P); exact ND).
  unfold ksp_of. fold key all. set (s := sorted_asc key all) in *. rewrite <- (firstn_skipn n s) in NDs, SO.
  constructor.
  - intros p Hp. assert (Hin : In p all).
    { apply (Permutation_in _ (Permutation_sym P)). rewrite <- (firstn_skipn n s). apply in_or_app. left. exact Hp. }
    destruct (paths_to_sound _ _ _ _ _ NS Hin) as (A1 & A2 & _). split; assumption.
  - apply NoDup_app_inv in NDs. tauto.
  - apply firstn_le_length.
  - intros q (Q1 & Q2) Hq.
    assert (Hin : In q all).
    { apply paths_to_complete; auto. etransitivity; [|exact Hf]. apply NoDup_incl_length; [exact Q2|].
      eapply walk_nodes_in; [exact W|exact HS|exact Q1]. }
    apply (Permutation_in _ P) in Hin. fold s in Hin. rewrite <- (firstn_skipn n s) in Hin. apply in_app_or in Hin.
    destruct Hin as [Hin|Hin]; [contradiction|]. split.
    + rewrite firstn_length. destruct (Nat.le_gt_cases n (List.length s)) as [L|L]; [lia|].
      rewrite skipn_all2 in Hin by lia. destruct Hin.
    + intros p Hp. exact (ascending_app key _ _ SO p q Hp Hin).
Qed.

(** ** Pricing *)
(** the cheapest of those routes that are feasible *)
Definition pricer_of (routes : list (list node)) (p : program pvar) : answer pvar :=
  let x r := onec (arcs (trip r)) in
  let cost r := value (x r) (p_obj p) in
  match filter (fun r => feasibleb (x r) p) routes with
  | [] => mkAnswer Infeasible None (fun _ => 0)
  | r0 :: rs => let r := fold_left (fun b r => if Qltb (cost r) (cost b) then r else b) rs r0 in
                mkAnswer Optimal (Some (cost r)) (x r)
  end.

Definition potentialb (h : vgraph) (pi : node -> Q) : bool :=
  forallb (fun a => Qle_bool (pi (snd a) - pi (fst a)) (weight_of h (fst a) (snd a))) (arc_list h).

Lemma pricer_exact h K k caps o ns dur neg p pi routes : network K h -> (k < K)%nat -> potentialb h pi = true ->
  formulate h k caps o ns dur neg = Ok p ->
  (status_eqb (a_status (pricer_of routes p)) Optimal && feasibleb (a_value (pricer_of routes p)) p &&
   Qeq_bool (value (a_value (pricer_of routes p)) (p_obj p)) (pi Sink - pi Source)) = true ->
  exact_answer p (pricer_of routes p).
Proof.
  intros N Hk HP F H. apply andb_true_iff in H. destruct H as [H1 H2]. apply andb_true_iff in H1. destruct H1 as [H0 H1].
  apply Qeq_bool_iff in H2. assert (FE := feasibleb_ok _ _ H1).
  assert (EO : a_status (pricer_of routes p) = Optimal /\
               a_objective (pricer_of routes p) = Some (value (a_value (pricer_of routes p)) (p_obj p))).
  { unfold pricer_of in *. destruct (filter _ routes); [discriminate|]. split; reflexivity. }
  destruct EO as [ES EO]. constructor.
  - constructor; [intros _; exact FE|]. intros q E. rewrite EO in E. injection E as <-. reflexivity.
  - left. split; [exact ES|]. split; [rewrite EO; discriminate|]. intros y Hy. rewrite H2.
    apply (potential_bound h K k caps o ns dur neg p y pi (custs h) N Hk ltac:(auto)); [|exact F|exact Hy].
    intros a b Hab. unfold potentialb in HP. apply (proj1 (forallb_forall _ _) HP) in Hab. apply Qle_bool_iff. exact Hab.
Qed.
(** the same, as one computation *)
Definition pricer_okb (h : vgraph) (k : nat) (caps : option (list Z)) (o : options) (ns dur : option Z) (neg : bool)
    (pi : node -> Q) (routes : list (list node)) : bool :=
  potentialb h pi &&
  match formulate h k caps o ns dur neg with
  | Ok p => status_eqb (a_status (pricer_of routes p)) Optimal && feasibleb (a_value (pricer_of routes p)) p &&
            Qeq_bool (value (a_value (pricer_of routes p)) (p_obj p)) (pi Sink - pi Source)
  | Err _ => true
  end.
Lemma pricer_ok h K k caps o ns dur neg pi routes : network K h -> (k < K)%nat ->
  pricer_okb h k caps o ns dur neg pi routes = true ->
  forall p, formulate h k caps o ns dur neg = Ok p -> exact_answer p (pricer_of routes p).
Proof.
  intros N Hk H p F. unfold pricer_okb in H. rewrite F in H. apply andb_true_iff in H. destruct H as [H1 H2].
  eapply pricer_exact; eassumption.
Qed.
