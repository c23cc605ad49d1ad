(** The pricing MIP with time windows: when it takes time to go from a customer to the next, the
    times exclude circles. *)
From Verif.Base Require Import Prelude Graph.
From Verif.Spec Require Import Routes Network LinProg Pricing MIP.
From Verif.Model Require Import Args Preprocess Initial Pricing LPPricing.
From Verif.Proofs Require Import RouteLemmas ReachLemmas PricingProofs FlowProofs LPProofs.

Lemma rising_balanced_nil (y : node -> Q) A :
  (forall u v, In (u, v) A -> y u < y v) -> balanced A -> A = [].
Proof.
  intros Hy Hb. destruct A as [|a A]; auto. exfalso.
  destruct (max_key (fun a : arc => y (snd a)) (a :: A)) as ([u v] & Hin & Hmax); [discriminate|].
  simpl in Hmax. assert (Hi := indeg_in _ _ _ Hin). rewrite <- (Hb v) in Hi.
  destruct (outdeg_pos _ _ Hi) as (w & Hw). specialize (Hmax (v, w) Hw). specialize (Hy v w Hw).
  simpl in Hmax. lra.
Qed.

Theorem timed_solution h K k caps o ns dur neg p x :
  network K h -> formulate h k caps o ns dur neg = Ok p -> feasible x p -> o_time_windows o = true ->
  (forall u v, In u (custs h) -> In v (custs h) -> In (u, v) (arc_list h) -> 0 < service_of h u + time_of h u v) ->
  exists cs, elementary_route h cs /\ Permutation (chosen h x) (arcs (trip cs)).
Proof.
  intros N F S Htw Pos.
  destruct (general_solution h K k caps o ns dur neg p x N F S) as (q & B & Hq & Hnd & HP & HB).
  destruct (formulate_inv _ _ _ _ _ _ _ _ F) as (_ & _ & loads & reqs & sdc & _ & _ & _ & Hp).
  assert (InB : forall u v, In (u, v) B -> In (u, v) (chosen h x)).
  { intros u v Hv. apply (Permutation_in _ (Permutation_sym HP)), in_or_app. auto. }
  assert (Ends : forall u v, In (u, v) B -> In u (custs h) /\ In v (custs h)).
  { assert (T : forall u v, In (u, v) B -> In (u, v) (arc_list h)).
    { intros u v Hv. apply InB in Hv. apply (chosen_In h K x N) in Hv. tauto. }
    intros u v Hv. pose proof (outdeg_in _ _ _ Hv) as Du. pose proof (indeg_in _ _ _ Hv) as Dv.
    rewrite (HB u) in Du. rewrite <- (HB v) in Dv. apply indeg_pos in Du. apply outdeg_pos in Dv.
    destruct Du as (t & Ht), Dv as (z & Hz). apply T in Hv, Ht, Hz.
    destruct (wf_ends _ (net_wf _ _ N) _ _ Hv) as (W1 & W2).
    split; apply in_custs; repeat split; auto; intros ->.
    - exact (net_no_in _ _ N _ Ht).
    - exact (net_no_out _ _ N _ Hv).
    - exact (net_no_in _ _ N _ Hv).
    - exact (net_no_out _ _ N _ Hz). }
  assert (B = []).
  { apply (rising_balanced_nil (fun v => x (Time v))); auto. intros u v Huv.
    destruct (Ends u v Huv) as (Cu & Cv). apply InB in Huv.
    apply (chosen_In h K x N) in Huv. destruct Huv as (Ha & Hs).
    specialize (Pos u v Cu Cv Ha).
    assert (H1 : holds x (mkRow [(1, Time u); (- (1), Time v); (upper_of h Sink, X (u, v))] LE
             (upper_of h Sink - service_of h u - time_of h u v))).
    { apply (row_ok p x S). rewrite Hp. cbn [p_rows]. rewrite Htw, !in_app_iff. do 2 right. left.
      unfold time_rows. apply in_or_app. left. apply in_map_iff. exists (u, v). split; auto. apply in_edges; auto. apply N. }
    unfold holds, value in H1. cbn in H1. rewrite (x01 h K k caps o ns dur neg p x N F S (u, v) Ha), Hs in H1. lra. }
  subst B. rewrite app_nil_r in HP.
  destruct (simple_walk_route h q Hq Hnd) as (cs & -> & Hcs & Hcu).
  exists cs. split; [|exact HP]. constructor; auto.
  - intro C. subst cs. apply Permutation_length in HP. pose proof (at_least_two h K k caps o ns dur neg p x N F S) as H2.
    assert (E : List.length (chosen h x) = 1%nat) by exact HP. rewrite E in H2. lia.
  - apply (walk_along _ _ _ _ Hq).
Qed.
