(** The routes the search starts from, as a selection of columns. *)
From Verif.Base Require Import Prelude Graph.
From Verif.Spec Require Import Routes Network Inputs Feasible Prep Heuristics LinProg Pricing MIP Columns Timing Labelling Pool Master Run Plans Results Variants.
From Verif.Model Require Import Args Reach Checks Preprocess ClarkeWright Greedy Initial Pricing
  GreedyPricing LPPricing Cspy Master Dive Hyper ColGen Post Schedule Solve.
From Verif.Proofs Require Import RouteLemmas FeasProofs PreLemmas InitialProofs PricingCor PoolProofs PoolQuality SelectProofs MasterEnd PostProofs PostEnd ExactPool SolveHeur SolveUser SolveExact PlanGen.

Lemma total_times_once u sel : total_times u sel = 1%nat -> NoDup sel -> once u sel.
Proof.
  induction sel as [|c l IH]; intros H N; cbn in H; [discriminate|]. inversion N as [|? ? N1 N2]; subst.
  assert (Z : forall q, total_times u q = 0%nat -> forall c', In c' q -> times u c' = 0%nat).
  { clear. induction q as [|x q IH]; intros H c' Hc'; [destruct Hc'|]. cbn in H. destruct Hc' as [->|Hc']; [lia|apply IH; [lia|exact Hc']]. }
  destruct (Nat.eq_dec (times u c) 0) as [E|E].
  - destruct (IH ltac:(lia) N2) as (d & D1 & D2 & D3). exists d. split; [right; exact D1|]. split; [exact D2|]. intros c' [<-|Hc'] Hp; [lia|exact (D3 c' Hc' Hp)].
  - exists c. split; [left; reflexivity|]. split; [lia|]. intros c' [<-|Hc'] Hp; [reflexivity|]. exfalso. rewrite (Z l ltac:(lia) c' Hc') in Hp. lia.
Qed.
Lemma total_times_never u sel : total_times u sel = 0%nat -> never u sel.
Proof.
  induction sel as [|x q IH]; intros H c' Hc'; [destruct Hc'|]. cbn in H. destruct Hc' as [->|Hc']; [lia|apply IH; [lia|exact Hc']].
Qed.

(** Routes of a plan that visits nobody twice differ, if none of them is empty. *)
Lemma visited_NoDup (cu : list node) rs : (forall u, In u cu -> (visits u rs <= 1)%nat) ->
  (forall r, In r rs -> exists u, In u cu /\ In u r) -> NoDup rs.
Proof.
  induction rs as [|r rs IH]; intros V B; [constructor|]. constructor.
  - intro Hr. destruct (B r (or_introl eq_refl)) as (u & Hu & Hur). specialize (V u Hu). cbn in V.
    assert (C1 : (0 < count_occ node_eq_dec r u)%nat) by (apply count_occ_In; exact Hur).
    assert (C2 : (0 < visits u rs)%nat).
    { clear - Hr C1. induction rs as [|x rs IH]; [destruct Hr|]. cbn. destruct Hr as [->|Hr]; [lia|]. specialize (IH Hr). lia. }
    lia.
  - apply IH; [intros u Hu; specialize (V u Hu); cbn in V; lia|intros x Hx; apply B; right; exact Hx].
Qed.

Lemma first_selection g K mo caps rs0 pool rs1 dr1 :
  network K g -> (1 <= K)%nat -> convert_from g caps 1 rs0 = Ok pool ->
  (forall r, In r rs0 -> route_shape r /\ along (arc_list g) r) ->
  (forall r, In r rs1 -> In r rs0 /\ stops r <> []) ->
  (forall u, In u (custs g) -> (visits u rs1 = 1%nat /\ ~ In u dr1) \/ (visits u rs1 = 0%nat /\ In u dr1)) ->
  NoDup dr1 -> (forall u, In u dr1 -> In u (custs g)) -> ((forall q, ~ drops mo q) -> dr1 = []) ->
  (forall c, In c pool -> c_type c = 0%nat) ->
  (forall l, fleet_bound mo l -> forall k n, nth_error l k = Some n ->
     inject_Z (Z.of_nat (count_occ Nat.eq_dec (map (fun _ => 0%nat) rs1) k)) <= n /\
     (mo_all mo = true -> inject_Z (Z.of_nat (count_occ Nat.eq_dec (map (fun _ => 0%nat) rs1) k)) == n)) ->
  exists sel, valid_selection g mo pool sel dr1 /\ Forall2 (fun c r => c_cost c == path_sum (cost_of g 0) r) sel rs1 /\
    forall c i, In c sel -> c_name c = CNat i -> (i <= List.length rs0)%nat.
Proof.
  intros Net K1 Cv Sh Sub Vi N1 D1 D2 Ty Fl.
  destruct (convert_from_ok g K Net K1 caps rs0 1) as [(cols & F1 & F2 & F3)|(F1 & _)]; [|  |congruence].
  { intros r Hr. destruct (Sh r Hr) as ((cs & -> & _) & Al). split; [exact Al|]. cbn. rewrite app_length. cbn. lia. }
  assert (cols = pool) by congruence. subst cols.
  assert (Ch : exists sel, Forall2 (fun r c => In c pool /\ exists i, (i < List.length rs0)%nat /\ column_of g caps (1 + i) r c) rs1 sel).
  { apply F2_choose. intros r Hr. destruct (Sub r Hr) as (Hr0 & _). apply In_nth_error in Hr0. destruct Hr0 as (i & Hi). destruct (F3 i r Hi) as (c & Hc & Co).
    exists c. split; [exact (nth_error_In _ _ Hc)|]. exists i. split; [|exact Co]. apply nth_error_Some. congruence. }
  destruct Ch as (sel & F). exists sel.
  assert (FN : Forall2 (fun c r => (c_path c = None \/ c_path c = Some r) /\ Permutation (c_nodes c) r) sel rs1).
  { assert (Sh1 : forall r, In r rs1 -> route_shape r) by (intros r Hr; apply Sh, Sub; exact Hr). clear - F Sh1. induction F as [|r c l l' (_ & i & _ & Q) F IH]; [constructor|]. constructor.
    - destruct Q as (_ & _ & _ & _ & Nd & Pa & _). split; [left; exact Pa|]. destruct (Nd (route_shape_NoDup _ (Sh1 r (or_introl eq_refl)))) as (-> & _). apply Permutation_refl.
    - apply IH. intros; apply Sh1; right; assumption. }
  assert (Vt : forall u, visits u rs1 = total_times u sel) by (intro u; apply visits_total; exact FN).
  assert (NR : NoDup rs1).
  { apply (visited_NoDup (custs g)).
    - intros u Hu. destruct (Vi u Hu) as [(Q & _)|(Q & _)]; lia.
    - intros r Hr. destruct (Sub r Hr) as (Hr0 & Ne). destruct (Sh r Hr0) as (Shr & Al). destruct (stops r) as [|u q] eqn:Es; [congruence|]. exists u.
      assert (Hu : In u (stops r)) by (rewrite Es; left; reflexivity). unfold stops in Hu. apply filter_In in Hu. destruct Hu as (Hu & Ic). split; [|exact Hu].
      apply in_custs. split; [|split; intros ->; discriminate]. eapply along_nodes; [exact (net_wf _ _ Net)|exact Shr|exact Al|exact Hu]. }
  assert (Ns : NoDup sel).
  { assert (Sh1 : forall r, In r rs1 -> route_shape r) by (intros r Hr; apply Sh, Sub; exact Hr). clear - F NR Sh1.
    assert (Nn : map c_nodes sel = rs1).
    { clear NR. induction F as [|r c l l' (_ & i & _ & Q) F IH]; [reflexivity|]. cbn. rewrite IH by (intros; apply Sh1; right; assumption). f_equal.
      destruct Q as (_ & _ & _ & _ & Nd & _). apply Nd. apply route_shape_NoDup, Sh1. left. reflexivity. }
    rewrite <- Nn in NR. exact (NoDup_map_inv _ _ NR). }
  assert (In_ : forall c, In c sel -> In c pool /\ exists i, (i < List.length rs0)%nat /\ c_name c = CNat (S i)).
  { intros c Hc. destruct (F2_in_r _ _ _ _ F Hc) as (r & _ & Q1 & i & Q2 & Q3). split; [exact Q1|]. exists i. split; [exact Q2|]. destruct Q3 as (-> & _). reflexivity. }
  assert (Len : List.length sel = List.length rs1) by (symmetry; exact (F2_length _ _ _ F)).
  split; [constructor|split].
  - intros c Hc. apply In_. exact Hc.
  - exact Ns.
  - intros c i Hc. destruct (In_ c Hc) as (_ & j & _ & ->). discriminate.
  - intros u d (Hd1 & Hd2 & Hd3 & _). assert (Hu : In u (custs g)).
    { apply in_custs. split; [apply node_data_In; exists d; apply gnodes_data; [exact (net_wf _ _ Net)|exact Hd1]|auto]. }
    destruct (Vi u Hu) as [(Q1 & Q2)|(Q1 & Q2)]; [left|right]; rewrite Vt in Q1; (split; [|exact Q2]); [apply total_times_once; assumption|apply total_times_never; exact Q1].
  - auto.
  - exact D2.
  - intros l Hl k n Hn. destruct (Fl l Hl k n Hn) as (Q1 & Q2). assert (Eo : of_type k sel = count_occ Nat.eq_dec (map (fun _ => 0%nat) rs1) k).
    { rewrite of_type_count. f_equal. assert (Tz : forall c, In c sel -> c_type c = 0%nat) by (intros c Hc; apply Ty, In_; exact Hc). clear - Len Tz. revert rs1 Len.
      induction sel as [|c q IH]; intros [|r rs] Len; try discriminate; [reflexivity|]. cbn. rewrite (Tz c (or_introl eq_refl)), (IH (fun x Hx => Tz x (or_intror Hx)) rs); [reflexivity|]. cbn in Len. lia. }
    rewrite Eo. auto.
  - clear - F. induction F as [|r c l l' (_ & i & _ & Q) F IH]; [constructor|]. constructor; [|exact IH]. destruct Q as (_ & _ & _ & _ & _ & _ & Q & _). exact Q.
  - intros c i Hc Ei. destruct (In_ c Hc) as (_ & j & Hj & En). rewrite En in Ei. injection Ei as <-. lia.
Qed.

Lemma cost_sums (f : list node -> Q) sel rs : Forall2 (fun c r => c_cost c == f r) sel rs -> Qsum_over sel c_cost == Qsum (map f rs).
Proof. intro F. unfold Qsum_over. induction F as [|c r l l' Q F IH]; [reflexivity|]. cbn [map]. rewrite !Qsum_cons, Q, IH. reflexivity. Qed.

Lemma cost_spans (f : list node -> Q) sel rs : Forall2 (fun c r => c_cost c == f r) sel rs ->
  span_of sel == fold_right (fun r s => if Qltb s (f r) then f r else s) 0 rs.
Proof.
  intro F. unfold span_of. induction F as [|c r l l' Q F IH]; [reflexivity|]. cbn [fold_right].
  match goal with |- (if Qltb ?x ?y then _ else _) == (if Qltb ?x' ?y' then _ else _) => destruct (Qltb x y) eqn:E1, (Qltb x' y') eqn:E2 end.
  - exact Q.
  - apply Qltb_lt in E1. apply Qltb_ge in E2. lra.
  - apply Qltb_ge in E1. apply Qltb_lt in E2. lra.
  - exact IH.
Qed.

Lemma span_of_ub sel c : In c sel -> c_cost c <= span_of sel.
Proof.
  unfold span_of. induction sel as [|x l IH]; intro H; [destruct H|]. cbn [fold_right].
  match goal with |- _ <= (if Qltb ?x ?y then _ else _) => destruct (Qltb x y) eqn:E end; (destruct H as [->|H]; [|specialize (IH H)]).
  - lra.
  - apply Qltb_lt in E. lra.
  - apply Qltb_ge in E. lra.
  - exact IH.
Qed.
