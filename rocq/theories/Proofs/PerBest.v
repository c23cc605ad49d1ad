(** What the last program of a periodic problem minimises. *)
From Coq Require Import Qround.
From Verif.Base Require Import Prelude Graph.
From Verif.Spec Require Import Routes Network LinProg Master.
From Verif.Model Require Import Initial Master.
From Verif.Proofs Require Import RouteLemmas FeasProofs MasterProofs SelectProofs MasterEnd SolveExact.

Local Notation big := (10000000000 # 1).

(** A selection of columns and the number of missing visits of every customer. *)
Record week_choice (g : vgraph) (cs sel : list column) (art : node -> nat) : Prop := {
  wc_cols : forall c, In c sel -> In c cs;
  wc_NoDup : NoDup sel;
  wc_elem : forall c i, In c sel -> c_name c <> CNonElem i;
  wc_visits : forall v d, customer g v d ->
    Z.of_nat (list_sum (map (times v) sel) + art v) = freq d /\ ((freq d <= 1)%Z -> art v = 0%nat)
}.
Definition week_cost (g : vgraph) (sel : list column) (art : node -> nat) : Q :=
  Qsum_over sel c_cost + big * Qsum_over (custs g) (fun v => inject_Z (Z.of_nat (art v))).

Lemma sum_filter' {A} (f : A -> bool) (h : A -> Q) l :
  Qsum_over (filter f l) h == Qsum_over l (fun c => if f c then h c else 0).
Proof.
  unfold Qsum_over. induction l as [|c l IH]; [simpl; lra|]. cbn [filter map].
  rewrite Qsum_cons. destruct (f c); cbn [map]; rewrite ?Qsum_cons, IH; lra.
Qed.
Lemma custs_sum (g : vgraph) (h : node -> Q) :
  Qsum_over (custs g) h == Qsum_over (gnodes g) (fun p => if is_cust (fst p) then h (fst p) else 0).
Proof.
  unfold custs. rewrite sum_filter'. unfold nodes, Qsum_over. rewrite map_map. reflexivity.
Qed.

Section Week.
  Variables (g : vgraph) (o : moptions) (cs : list column).
  Variables (solver resolver : program mvar -> answer mvar).
  Variables (t : Q) (sel : list column) (dropped : list node).
  Hypothesis WF : wf g.
  Hypothesis AUX : forall v d, In (v, d) (gnodes g) -> is_aux_depot d = false.
  Hypothesis LAB : forall c, In c cs -> labelled c.
  Hypothesis NAMES : NoDup (map c_name cs).
  Hypothesis RIGHT : forall m, built g o cs m -> right_answer (program_of (integral m)) (solver (program_of (integral m))).
  Hypothesis END : concluded g o cs solver resolver t sel dropped.
  Hypothesis PERIOD : mo_periodic o = true.
  Hypothesis NODROP : truthyQ (mo_drop o) = false.
  Hypothesis SPAN : mo_span o = false.

  Lemma nodrop_zero x : match mo_drop o with Some p => p * (if truthyQ (mo_drop o) then Qsum_over (custs g) (fun v => x (Drop v)) else 0) | None => 0 end == 0.
  Proof. rewrite NODROP. destruct (mo_drop o); lra. Qed.

  Lemma week_value x : solution g o cs true x ->
    total_cost g o cs x == Qsum_over (chosen x cs) c_cost + big * Qsum_over (filter has_dummy (gnodes g)) (fun p => x (Dummy (fst p))).
  Proof.
    intro S. unfold total_cost. rewrite SPAN, PERIOD, nodrop_zero.
    rewrite (chosen_sum g o cs x S c_cost cs (fun c H => H)).
    assert (Z0 : Qsum_over (seq 0 match mo_fleet o with Some l => List.length l | None => 0 end) (fun k => x (Extra k)) == 0).
    { unfold Qsum_over. apply Qsum_map_zero. intros k Hk. apply in_seq in Hk. destruct (mo_fleet o) as [l|] eqn:El; [|lia].
      apply (proj2 (so_extra _ _ _ _ _ S l El k ltac:(lia))). reflexivity. }
    rewrite Z0. lra.
  Qed.

  (** Every choice of columns is a solution of the last program. *)
  Section One.
    Variables (sel1 : list column) (art1 : node -> nat).
    Hypothesis W : week_choice g cs sel1 art1.
    Let x (v : mvar) : Q :=
      match v with
      | Y n => if has_name n sel1 then 1 else 0
      | Dummy u => if is_cust u then inject_Z (Z.of_nat (art1 u)) else 0
      | _ => 0
      end.

    Lemma wk_one c : In c cs -> (In c sel1 <-> has_name (c_name c) sel1 = true).
    Proof.
      intro Hc. rewrite has_name_in. split.
      - intro H. exists c. auto.
      - intros (c' & H' & E). assert (c' = c); [|subst; exact H'].
        apply (same_name cs); auto. apply (wc_cols _ _ _ _ W). exact H'.
    Qed.
    Lemma wk_chosen : Permutation (chosen x cs) sel1.
    Proof.
      apply NoDup_Permutation; [apply chosen_NoDup, NAMES|exact (wc_NoDup _ _ _ _ W)|].
      intro c. unfold chosen. rewrite filter_In.
      assert (E : Qltb 0 (x (Y (c_name c))) = has_name (c_name c) sel1).
      { unfold x. destruct (has_name (c_name c) sel1); reflexivity. }
      rewrite E. split.
      - intros [Hc H]. apply (wk_one c Hc). exact H.
      - intro H. assert (Hc := wc_cols _ _ _ _ W c H). split; [exact Hc|]. apply (wk_one c Hc). exact H.
    Qed.
    Lemma wk_sum f : Qsum_over cs (fun c => f c * x (Y (c_name c))) == Qsum_over sel1 f.
    Proof.
      rewrite binary_sum; [apply Qsum_over_perm, wk_chosen|].
      intros c _. unfold x. destruct (has_name (c_name c) sel1); reflexivity.
    Qed.

    Lemma wk_solution : solution g o cs true x.
    Proof.
      constructor.
      - intros v d Hc. destruct (wc_visits _ _ _ _ W v d Hc) as (V1 & V2).
        assert (E : count_visits g o cs x v d == required o d).
        { unfold count_visits, required. rewrite NODROP, PERIOD. cbn [andb].
          rewrite (wk_sum (fun c => inject_Z (Z.of_nat (times v c)))), sum_times, <- V1, Nat2Z.inj_add, inject_Z_plus.
          assert (Cu : is_cust v = true) by (destruct Hc as (_ & N1 & N2 & _); destruct v; try reflexivity; congruence).
          unfold x. rewrite Cu. rewrite <- Nat2Z.inj_add, V1. destruct (1 <? freq d)%Z eqn:Ef; [lra|].
          apply Z.ltb_ge in Ef. rewrite (V2 Ef). change (inject_Z (Z.of_nat 0)) with 0. lra. }
        split; [lra|intros _; exact E].
      - intros l (_ & _ & C). congruence.
      - congruence.
      - intros c Hc. unfold x. destruct (has_name (c_name c) sel1) eqn:H.
        + split; [lra|]. split; [lra|]. split; [intros _; exists 1%Z; reflexivity|].
          intros _ (i & C). exfalso. apply (wk_one c Hc) in H. exact (wc_elem _ _ _ _ W c i H C).
        + split; [lra|]. split; [lra|]. split; [intros _; exists 0%Z; reflexivity|intros; reflexivity].
      - intros p (D1 & D2). exfalso. rewrite D1 in NODROP. cbn in NODROP. apply negb_false_iff, Qeq_bool_iff in NODROP. contradiction.
      - intros _ v d _ _ _. unfold x. destruct (is_cust v).
        + split; [change 0 with (inject_Z 0); rewrite <- Zle_Qle; lia|]. intros _. exists (Z.of_nat (art1 v)). reflexivity.
        + split; [lra|]. intros _. exists 0%Z. reflexivity.
      - intros l _ k _. split; [unfold x; lra|reflexivity].
      - congruence.
    Qed.

    Lemma wk_cost : total_cost g o cs x == week_cost g sel1 art1.
    Proof.
      rewrite (week_value x wk_solution). unfold week_cost. rewrite (Qsum_over_perm c_cost _ _ wk_chosen).
      assert (E : Qsum_over (filter has_dummy (gnodes g)) (fun p => x (Dummy (fst p))) == Qsum_over (custs g) (fun v => inject_Z (Z.of_nat (art1 v)))).
      { rewrite custs_sum, sum_filter'. unfold Qsum_over. apply Qsum_map_ext. intros (v & d) Hv. cbn [fst].
        unfold x, has_dummy. destruct (is_cust v) eqn:Cu; [|destruct (_ && _); reflexivity].
        assert (Hc : customer g v d). { split; [exact Hv|]. split; [intros ->; discriminate|]. split; [intros ->; discriminate|]. exact (AUX v d Hv). }
        destruct (wc_visits _ _ _ _ W v d Hc) as (_ & V2). cbn [fst snd]. rewrite andb_comm.
        destruct (negb (node_eqb v Source) && (1 <? freq d)%Z) eqn:Ef; [reflexivity|].
        assert (Ns : negb (node_eqb v Source) = true) by (destruct v; try reflexivity; discriminate). rewrite Ns in Ef. cbn [andb] in Ef.
        apply Z.ltb_ge in Ef. rewrite (V2 Ef). reflexivity. }
      rewrite E. reflexivity.
    Qed.
  End One.

  Theorem right_week : exists art, week_choice g cs sel art /\
    forall sel1 art1, week_choice g cs sel1 art1 -> week_cost g sel art <= week_cost g sel1 art1.
  Proof.
    destruct (concluded_again _ _ _ _ _ _ _ _ END) as (t' & END').
    destruct (values g o cs solver (again solver) t' sel dropped WF LAB RIGHT (again_agreed _ _ _ _) END')
      as (m & x & SH & S & E1 & E2 & E3 & M).
    assert (NUM : forall v d, In (v, d) (gnodes g) -> v <> Source -> (1 < freq d)%Z -> x (Dummy v) == inject_Z (Z.of_nat (Z.to_nat (Qfloor (x (Dummy v)))))).
    { intros v d Hv N Hf. destruct (so_dummy _ _ _ _ _ S PERIOD v d Hv N Hf) as (P1 & P2). destruct (P2 eq_refl) as (z & Ez). rewrite Ez, Qfloor_Z.
      rewrite Ez in P1. change 0 with (inject_Z 0) in P1. rewrite <- Zle_Qle in P1. rewrite Z2Nat.id by lia. reflexivity. }
    exists (fun v => match node_data g v with Some d => if (1 <? freq d)%Z then Z.to_nat (Qfloor (x (Dummy v))) else 0%nat | None => 0%nat end).
    match goal with |- week_choice _ _ _ ?a /\ _ => set (art := a) end.
    assert (NDT : forall v d, In (v, d) (gnodes g) -> node_data g v = Some d) by (intros v d Hv; apply gnodes_data; [exact WF|exact Hv]).
    assert (WC : week_choice g cs sel art).
    { constructor.
      - rewrite E1. intros c Hc. apply filter_In in Hc. tauto.
      - rewrite E1. apply chosen_NoDup, NAMES.
      - rewrite E1. intros c i Hc. exact (chosen_elem g o cs x S c i Hc).
      - intros v d Hc. assert (V := proj2 (so_visits _ _ _ _ _ S v d Hc) eq_refl). unfold count_visits, required in V. rewrite NODROP, PERIOD in V. cbn [andb] in V.
        rewrite (chosen_sum g o cs x S (fun c => inject_Z (Z.of_nat (times v c))) cs (fun c H => H)), sum_times, <- E1 in V.
        destruct Hc as (Hv & N1 & _). unfold art. rewrite (NDT v d Hv).
        destruct (1 <? freq d)%Z eqn:Ef.
        + apply Z.ltb_lt in Ef. rewrite (NUM v d Hv N1 Ef) in V. split; [|lia]. apply (inject_Z_injective). rewrite Nat2Z.inj_add, inject_Z_plus. lra.
        + split; [|reflexivity]. rewrite Nat.add_0_r. apply inject_Z_injective. lra. }
    split; [exact WC|]. intros sel1 art1 W1. rewrite <- (wk_cost sel1 art1 W1).
    apply Qle_trans with t'; [|apply M; exact (wk_solution sel1 art1 W1)]. rewrite E3, (week_value x S), <- E1. unfold week_cost.
    assert (Le : Qsum_over (custs g) (fun v => inject_Z (Z.of_nat (art v))) <= Qsum_over (filter has_dummy (gnodes g)) (fun p => x (Dummy (fst p)))); [|lra].
    rewrite custs_sum, sum_filter'. unfold Qsum_over. apply Qsum_map_le. intros (v & d) Hv. cbn [fst]. unfold has_dummy. cbn [fst snd]. rewrite andb_comm.
    destruct (negb (node_eqb v Source) && (1 <? freq d)%Z) eqn:Ef.
    - apply andb_true_iff in Ef. destruct Ef as (F1 & F2). assert (N : v <> Source) by (intros ->; discriminate).
      pose proof F2 as F3. apply Z.ltb_lt in F3. destruct (is_cust v); [|apply (so_dummy _ _ _ _ _ S PERIOD v d Hv N F3)].
      unfold art. rewrite (NDT v d Hv), F2, <- (NUM v d Hv N F3). lra.
    - destruct (is_cust v) eqn:Cu; [|lra]. assert (F1 : negb (node_eqb v Source) = true) by (destruct v; try reflexivity; discriminate).
      rewrite F1 in Ef. cbn [andb] in Ef. unfold art. rewrite (NDT v d Hv), Ef. change (inject_Z (Z.of_nat 0)) with 0. lra.
  Qed.
End Week.
