(** Proofs about the schedule of a periodic problem. *)
From Verif.Base Require Import Prelude Graph.
From Verif.Spec Require Import Routes Network LinProg Results.
From Verif.Model Require Import Args Reach Checks Preprocess ClarkeWright Greedy Initial Pricing Post Schedule.
From Verif.Proofs Require Import RouteLemmas PreLemmas PostProofs TimesProofs.

(* ------------------------------------------------------------------ *)
(** ** Sums of zeros and ones *)

Definition binary (q : Q) : Prop := q == 0 \/ q == 1.

Lemma binary_bounds q : in_bounds q (mkBounds (Some 0) (Some 1) true) -> binary q.
Proof.
  intros (L & U & I). specialize (L 0 eq_refl). specialize (U 1 eq_refl). destruct (I eq_refl) as (z & E).
  assert (Z1 : (0 <= z)%Z) by (rewrite Zle_Qle; change (inject_Z 0) with 0; lra).
  assert (Z2 : (z <= 1)%Z) by (rewrite Zle_Qle; change (inject_Z 1) with 1; lra).
  assert (z = 0 \/ z = 1)%Z as [-> | ->] by lia; [left|right]; exact E.
Qed.

Lemma one_of {A} (f : A -> Q) : forall l, NoDup l -> (forall a, In a l -> binary (f a)) -> Qsum (map f l) == 1 ->
  exists a, In a l /\ f a == 1 /\ forall b, In b l -> b <> a -> f b == 0.
Proof.
  induction l as [|a l IH]; intros N B S; [cbn in S; lra|]. cbn [map] in S. rewrite Qsum_cons in S. inversion N as [|x y N1 N2]; subst.
  destruct (B a (or_introl eq_refl)) as [Z|Z].
  - destruct IH as (c & C1 & C2 & C3); [exact N2|intros; apply B; right; assumption|lra|]. exists c. split; [right; exact C1|]. split; [exact C2|].
    intros b [<-|Hb] Hn; [exact Z|apply C3; assumption].
  - exists a. split; [left; reflexivity|]. split; [exact Z|]. intros b [<-|Hb] Hn; [congruence|].
    assert (S0 : Qsum (map f l) == 0) by lra. clear - S0 B Hb. assert (P : forall c, In c l -> 0 <= f c).
    { intros c Hc. destruct (B c (or_intror Hc)); lra. }
    clear B. induction l as [|c l IH]; [destruct Hb|]. cbn [map] in S0. rewrite Qsum_cons in S0.
    assert (0 <= f c) by (apply P; left; reflexivity). assert (0 <= Qsum (map f l)).
    { apply Qsum_nonneg. intros x Hx. apply in_map_iff in Hx. destruct Hx as (y & <- & Hy). apply P. right. exact Hy. }
    destruct Hb as [->|Hb]; [lra|]. apply IH; [exact Hb|lra|intros; apply P; right; assumption].
Qed.

Lemma indicator_sum rs (day : nat -> nat) t : Qsum (map (fun r => if (day r =? t)%nat then 1 else 0) rs) == inject_Z (Z.of_nat (load_on rs day t)).
Proof.
  unfold load_on. induction rs as [|r rs IH]; [reflexivity|]. cbn [map filter]. rewrite Qsum_cons, IH. destruct (day r =? t)%nat; [|lra].
  cbn [List.length]. rewrite Nat2Z.inj_succ, <- Z.add_1_l, inject_Z_plus. reflexivity.
Qed.

(* ------------------------------------------------------------------ *)
(** ** Solutions of the program are assignments of days *)

Lemma nth_error_combine {A B} (a : A) (b : B) : forall l m i, nth_error (combine l m) i = Some (a, b) <-> nth_error l i = Some a /\ nth_error m i = Some b.
Proof.
  induction l as [|x l IH]; intros [|y m] [|i]; cbn; try (split; [discriminate|intros [? ?]; discriminate]); [|apply IH].
  split; [intro H; injection H as -> ->; auto|intros [H1 H2]; congruence].
Qed.

Section Sched.
  Variables (g : vgraph) (span : Z) (routes : list (nat * list node)) (types : list (nat * nat)) (nv : list Q).
  Hypothesis W : wf g.
  Hypothesis NR : NoDup (map fst routes).
  Local Notation rs := (map fst routes).
  Local Notation ty := (fun i => dget Nat.eqb i types).

  Lemma in_days t : In t (days span) <-> (Z.of_nat t < span)%Z.
  Proof. unfold days. rewrite in_seq. lia. Qed.
  Lemma days_NoDup : NoDup (days span).
  Proof. apply seq_NoDup. Qed.

  (** what a solution says about the days *)
  Record assigns (x : svar -> Q) (day : nat -> nat) : Prop := {
    as_in : forall r, In r rs -> In (day r) (days span);
    as_val : forall r t, In r rs -> In t (days span) -> x (OnDay r t) == if (day r =? t)%nat then 1 else 0
  }.

  Definition picked (x : svar -> Q) (r : nat) : nat :=
    match find (fun t => Qltb (9 # 10) (x (OnDay r t))) (days span) with Some t => t | None => 0%nat end.

  Lemma value_day x l t : value x (day_sum l t) == Qsum (map (fun r => x (OnDay r t)) l).
  Proof. unfold value, day_sum. rewrite map_map. apply Qsum_map_ext. intros r _. cbn [fst snd]. lra. Qed.

  Lemma day_load x day l t : assigns x day -> (forall r, In r l -> In r rs) -> In t (days span) ->
    value x (day_sum l t) == inject_Z (Z.of_nat (load_on l day t)).
  Proof.
    intros A S Ht. rewrite value_day, <- indicator_sum. apply Qsum_map_ext. intros r Hr. apply (as_val _ _ A); auto.
  Qed.

  Lemma fleet_list k : forall l acc r, foldM (fun acc (p : nat * list node) => let* j := of_opt KeyError (dget Nat.eqb (fst p) types) in
      Ok (if (j =? k)%nat then acc ++ [fst p] else acc)) l acc = Ok r ->
    r = acc ++ filter (fun i => match dget Nat.eqb i types with Some j => (j =? k)%nat | None => false end) (map fst l).
  Proof.
    induction l as [|p l IH]; intros acc r H; cbn [foldM map filter] in *; [injection H as <-; rewrite app_nil_r; reflexivity|].
    apply bind_ok in H. destruct H as (a1 & H1 & H2). apply IH in H2. apply bind_ok in H1. destruct H1 as (j & J & H1). unfold of_opt in J.
    destruct (dget Nat.eqb (fst p) types) as [j'|]; [|discriminate]. injection J as ->. injection H1 as <-.
    destruct (j =? k)%nat; [rewrite H2, <- app_assoc; reflexivity|exact H2].
  Qed.

  Lemma fleet_rows_ok fl : fleet_rows span types routes nv = Ok fl ->
    forall r, In r fl <-> exists k n t, nth_error nv k = Some n /\ In t (days span) /\
      r = mkRow (day_sum (filter (fun i => match ty i with Some j => (j =? k)%nat | None => false end) rs) t) LE n.
  Proof.
    unfold fleet_rows. intro H. apply bind_ok in H. destruct H as (l & H & E). injection E as <-. intro r. rewrite in_concat.
    apply mapM_ok in H.
    assert (ROW : forall k t n ro, fleet_row types routes k t n = Ok ro ->
      ro = mkRow (day_sum (filter (fun i => match ty i with Some j => (j =? k)%nat | None => false end) rs) t) LE n).
    { intros k t n ro R. unfold fleet_row in R. apply bind_ok in R. destruct R as (q & R & E). injection E as <-. apply fleet_list in R. rewrite R. reflexivity. }
    assert (CN : forall k n, In (k, n) (combine (seq 0 (List.length nv)) nv) <-> nth_error nv k = Some n).
    { intros k n. split; intro X.
      - apply In_nth_error in X. destruct X as (i & X). apply nth_error_combine in X. destruct X as [H0 H1].
        assert (I : (i < List.length nv)%nat) by (apply nth_error_Some; congruence).
        rewrite nth_error_nth' with (d := 0%nat) in H0 by (rewrite seq_length; exact I). rewrite seq_nth in H0 by exact I. injection H0 as <-. exact H1.
      - assert (I : (k < List.length nv)%nat) by (apply nth_error_Some; congruence).
        apply nth_error_In with (n := k). apply nth_error_combine. split; [|exact X].
        rewrite nth_error_nth' with (d := 0%nat) by (rewrite seq_length; exact I). rewrite seq_nth by exact I. reflexivity. }
    split.
    - intros (m & Hm & Hr). destruct (F2_in _ _ _ _ H Hm) as ([k n] & K1 & K2). cbn [fst snd] in K2. apply mapM_ok in K2.
      destruct (F2_in _ _ _ _ K2 Hr) as (t & T1 & T2). apply ROW in T2. exists k, n, t. split; [apply CN; exact K1|]. auto.
    - intros (k & n & t & K & T & ->). apply CN in K. destruct (F2_in_l _ _ _ _ H K) as (m & M1 & M2). exists m. split; [exact M1|].
      cbn [fst snd] in M2. apply mapM_ok in M2. destruct (F2_in_l _ _ _ _ M2 T) as (ro & R1 & R2). apply ROW in R2. rewrite <- R2. exact R1.
  Qed.

  Lemma node_demand v d : In (v, d) (gnodes g) -> demand_of g v = demand d.
  Proof. intro H. unfold demand_of, nd, node_data. rewrite (assoc_node_NoDup v d _ (wf_nodes g W) H). reflexivity. Qed.

  Lemma visit_rows_ok r : In r (visit_rows g span routes) <-> exists t v, In t (days span) /\ In v (nodes g) /\ 0 < demand_of g v /\ r = visit_row routes t v.
  Proof.
    unfold visit_rows. rewrite in_flat_map. split.
    - intros (t & Ht & H). apply in_flat_map in H. destruct H as ([v d] & Hv & H). cbn [fst snd] in H. destruct (Qltb 0 (demand d)) eqn:E; [|destruct H].
      destruct H as [<-|[]]. apply Qltb_lt in E. exists t, v. split; [exact Ht|]. split; [apply (in_map fst) in Hv; exact Hv|]. rewrite (node_demand v d Hv). auto.
    - intros (t & v & Ht & Hv & E & ->). exists t. split; [exact Ht|]. apply in_flat_map. apply in_map_iff in Hv. destruct Hv as ([v' d] & <- & Hv).
      exists (v', d). split; [exact Hv|]. cbn [fst snd] in *. rewrite (node_demand v' d Hv) in E. apply Qltb_lt in E. rewrite E. left. reflexivity.
  Qed.

  Lemma row_in fl r : (nv = [] -> fl = []) -> (nv <> [] -> fleet_rows span types routes nv = Ok fl) ->
    In r fl <-> exists k n t, nth_error nv k = Some n /\ In t (days span) /\
      r = mkRow (day_sum (filter (fun i => match ty i with Some j => (j =? k)%nat | None => false end) rs) t) LE n.
  Proof.
    intros H1 H2. destruct nv as [|n0 nv'] eqn:E.
    - rewrite (H1 eq_refl). split; [intros []|]. intros (k & n & t & K & _). destruct k; discriminate.
    - rewrite <- E in *. apply fleet_rows_ok. apply H2. rewrite E. discriminate.
  Qed.

  Variable p : program svar.
  Hypothesis FP : formulate_schedule g span routes types nv = Ok p.

  Lemma prog_shape : exists fl, (nv = [] -> fl = []) /\ (nv <> [] -> fleet_rows span types routes nv = Ok fl) /\
    p = mkProgram [(1, LoadMax); (- (1), LoadMin)]
        (map (max_row rs) (days span) ++ map (min_row rs) (days span) ++ map (route_row span) rs ++ visit_rows g span routes ++ fl)
        (flat_map (fun r => map (fun t => (OnDay r t, mkBounds (Some 0) (Some 1) true)) (days span)) rs
         ++ [(LoadMax, mkBounds (Some 0) None false); (LoadMin, mkBounds (Some 0) None false)]).
  Proof.
    unfold formulate_schedule in FP. apply bind_ok in FP. destruct FP as (fl & H1 & H2). exists fl. injection H2 as <-.
    destruct nv as [|n nv']; cbn in H1.
    - split; [intros _; congruence|]. split; [congruence|reflexivity].
    - split; [congruence|]. split; [intros _; exact H1|reflexivity].
  Qed.

  Lemma feasible_assigns x : feasible x p -> assigns x (picked x).
  Proof.
    intro F. destruct prog_shape as (fl & _ & _ & E). subst p. destruct F as [FR FV]. cbn [p_rows p_vars] in *.
    assert (B : forall r t, In r rs -> In t (days span) -> binary (x (OnDay r t))).
    { intros r t Hr Ht. apply binary_bounds. apply FV. apply in_or_app. left. apply in_flat_map. exists r. split; [exact Hr|]. apply in_map_iff. exists t. auto. }
    assert (U : forall r, In r rs -> exists t, In t (days span) /\ x (OnDay r t) == 1 /\ forall t', In t' (days span) -> t' <> t -> x (OnDay r t') == 0).
    { intros r Hr. apply (one_of (fun t => x (OnDay r t))); [apply days_NoDup|intros t Ht; apply B; assumption|].
      assert (R : holds x (route_row span r)). { apply FR. apply in_or_app. right. apply in_or_app. right. apply in_or_app. left. apply in_map. exact Hr. }
      unfold holds, route_row in R. cbn [r_sense r_lhs r_rhs] in R. unfold value in R. rewrite map_map in R. rewrite <- R. apply Qsum_map_ext.
      intros t _. cbn [fst snd]. lra. }
    assert (PK : forall r, In r rs -> In (picked x r) (days span) /\ x (OnDay r (picked x r)) == 1 /\ forall t', In t' (days span) -> t' <> picked x r -> x (OnDay r t') == 0).
    { intros r Hr. destruct (U r Hr) as (t & T1 & T2 & T3). assert (X : picked x r = t).
      { unfold picked. destruct (find _ (days span)) as [t'|] eqn:Ef.
        - apply find_some in Ef. destruct Ef as [F1 F2]. apply Qltb_lt in F2. destruct (Nat.eq_dec t' t) as [->|Hn]; [reflexivity|]. specialize (T3 t' F1 Hn). lra.
        - apply find_none with (x := t) in Ef; [|exact T1]. apply Qltb_ge in Ef. lra. }
      rewrite X. auto. }
    constructor; [intros r Hr; apply (PK r Hr)|]. intros r t Hr Ht. destruct (PK r Hr) as (P1 & P2 & P3).
    destruct (picked x r =? t)%nat eqn:E; [apply Nat.eqb_eq in E; subst t; exact P2|]. apply Nat.eqb_neq in E. apply P3; [exact Ht|congruence].
  Qed.

  Lemma load_le_one (l : list nat) (day : nat -> nat) t : NoDup l -> (load_on l day t <= 1)%nat <-> (forall i j, In i l -> In j l -> day i = t -> day j = t -> i = j).
  Proof.
    unfold load_on. intro N. split.
    - intros L i j Hi Hj Ei Ej. assert (I : In i (filter (fun r => (day r =? t)%nat) l)) by (apply filter_In; split; [exact Hi|apply Nat.eqb_eq; exact Ei]).
      assert (J : In j (filter (fun r => (day r =? t)%nat) l)) by (apply filter_In; split; [exact Hj|apply Nat.eqb_eq; exact Ej]).
      destruct (filter _ l) as [|a [|b m]]; [destruct I| |cbn in L; lia]. destruct I as [<-|[]]. destruct J as [<-|[]]. reflexivity.
    - intro H. assert (NF : NoDup (filter (fun r => (day r =? t)%nat) l)) by (apply NoDup_filter; exact N).
      destruct (filter (fun r => (day r =? t)%nat) l) as [|a [|b m]] eqn:E; [cbn; lia|cbn; lia|]. exfalso.
      assert (A : In a (a :: b :: m)) by (left; reflexivity). assert (B : In b (a :: b :: m)) by (right; left; reflexivity). rewrite <- E in A, B.
      apply filter_In in A. apply filter_In in B. destruct A as [A1 A2]. destruct B as [B1 B2]. apply Nat.eqb_eq in A2. apply Nat.eqb_eq in B2.
      assert (a = b) by (apply H; assumption). subst b. inversion NF as [|z z' N1 N2]; subst. apply N1. left. reflexivity.
  Qed.

  Lemma visitors_sub v r : In r (map fst (filter (fun q : nat * list node => mem v (snd q)) routes)) <-> exists l, In (r, l) routes /\ In v l.
  Proof.
    rewrite in_map_iff. split.
    - intros ([r' l] & <- & H). apply filter_In in H. destruct H as [H1 H2]. apply mem_In in H2. exists l. auto.
    - intros (l & H1 & H2). exists (r, l). split; [reflexivity|]. apply filter_In. split; [exact H1|]. apply mem_In. exact H2.
  Qed.
  Lemma visitors_NoDup v : NoDup (map fst (filter (fun q : nat * list node => mem v (snd q)) routes)).
  Proof.
    clear - NR. induction routes as [|[i l] R IH]; [constructor|]. cbn in NR. inversion NR as [|z z' N1 N2]; subst. cbn [filter].
    destruct (mem v (snd (i, l))); [|apply IH; exact N2]. cbn [map fst]. constructor; [|apply IH; exact N2].
    intro C. apply N1. apply in_map_iff in C. destruct C as (q & E & C). apply filter_In in C. apply in_map_iff. exists q. tauto.
  Qed.

  Theorem feasible_good x : feasible x p -> good_days g span routes ty nv (picked x).
  Proof.
    intro F. assert (A := feasible_assigns x F). destruct prog_shape as (fl & F1 & F2 & E). assert (FR := feas_rows _ _ F). subst p. cbn [p_rows] in FR. constructor.
    - intros i r Hir. apply in_days. apply (as_in _ _ A). apply (in_map fst) in Hir. exact Hir.
    - intros v i j r r' Hv Hd Hi Hj Vi Vj Ed.
      assert (T : In (picked x i) (days span)) by (apply (as_in _ _ A); apply (in_map fst) in Hi; exact Hi).
      assert (R : holds x (visit_row routes (picked x i) v)).
      { apply FR. do 3 (apply in_or_app; right). apply in_or_app. left. apply visit_rows_ok. exists (picked x i), v. auto. }
      unfold holds, visit_row in R. cbn [r_sense r_lhs r_rhs] in R. rewrite (day_load x (picked x) _ _ A) in R; [|intros q Hq; apply visitors_sub in Hq; destruct Hq as (l & Hq & _); apply (in_map fst) in Hq; exact Hq|exact T].
      change 1 with (inject_Z 1) in R. rewrite <- Zle_Qle in R. assert (L : (load_on (map fst (filter (fun q : nat * list node => mem v (snd q)) routes)) (picked x) (picked x i) <= 1)%nat) by lia.
      rewrite load_le_one in L by apply visitors_NoDup. apply L; [apply visitors_sub; eauto|apply visitors_sub; eauto|reflexivity|congruence].
    - intros k n t Hk Ht. assert (T : In t (days span)) by (apply in_days; exact Ht).
      assert (R : holds x (mkRow (day_sum (filter (fun i => match ty i with Some j => (j =? k)%nat | None => false end) rs) t) LE n)).
      { apply FR. do 4 (apply in_or_app; right). apply (row_in fl _ F1 F2). exists k, n, t. auto. }
      unfold holds in R. cbn [r_sense r_lhs r_rhs] in R. rewrite (day_load x (picked x) _ _ A) in R; [exact R|intros q Hq; apply filter_In in Hq; tauto|exact T].
  Qed.

  (** ** Conversely *)
  Lemma extremum (f : nat -> nat) l : l <> [] -> (exists t, In t l /\ forall t', In t' l -> (f t' <= f t)%nat) /\ (exists t, In t l /\ forall t', In t' l -> (f t <= f t')%nat).
  Proof.
    induction l as [|a l IH]; [congruence|]. intros _. destruct l as [|b l].
    - split; exists a; (split; [left; reflexivity|]); intros t' [<-|[]]; lia.
    - destruct IH as [(t & T1 & T2) (u & U1 & U2)]; [discriminate|]. split.
      + destruct (le_lt_dec (f a) (f t)); [exists t; split; [right; exact T1|]; intros t' [<-|H]; auto|].
        exists a. split; [left; reflexivity|]. intros t' [<-|H]; [lia|]. specialize (T2 t' H). lia.
      + destruct (le_lt_dec (f u) (f a)); [exists u; split; [right; exact U1|]; intros t' [<-|H]; auto|].
        exists a. split; [left; reflexivity|]. intros t' [<-|H]; [lia|]. specialize (U2 t' H). lia.
  Qed.

  Definition encode (day : nat -> nat) (mx mn : nat) (v : svar) : Q :=
    match v with
    | OnDay r t => if (day r =? t)%nat then 1 else 0
    | LoadMax => inject_Z (Z.of_nat mx)
    | LoadMin => inject_Z (Z.of_nat mn)
    end.

  Lemma good_feasible day mx mn : good_days g span routes ty nv day ->
    (forall t, In t (days span) -> (load_on rs day t <= mx)%nat /\ (mn <= load_on rs day t)%nat) ->
    feasible (encode day mx mn) p.
  Proof.
    intros G M. destruct prog_shape as (fl & F1 & F2 & E).
    assert (A : assigns (encode day mx mn) day).
    { constructor; [|intros; reflexivity]. intros r Hr. apply in_map_iff in Hr. destruct Hr as ([i l] & <- & H). apply in_days. apply (gd_period _ _ _ _ _ _ G i l H). }
    subst p. constructor; cbn [p_rows p_vars].
    - intros r Hr. rewrite !in_app_iff in Hr. destruct Hr as [Hr|[Hr|[Hr|[Hr|Hr]]]].
      + apply in_map_iff in Hr. destruct Hr as (t & <- & Ht). unfold holds, max_row. cbn [r_sense r_lhs r_rhs]. unfold value. rewrite map_app, Qsum_app.
        fold (value (encode day mx mn) (day_sum rs t)). rewrite (day_load _ day rs t A) by auto. cbn [map fst snd encode]. rewrite Qsum_cons. change (Qsum []) with 0.
        destruct (M t Ht) as [M1 _]. assert (Q1 : inject_Z (Z.of_nat (load_on rs day t)) <= inject_Z (Z.of_nat mx)) by (rewrite <- Zle_Qle; lia). lra.
      + apply in_map_iff in Hr. destruct Hr as (t & <- & Ht). unfold holds, min_row. cbn [r_sense r_lhs r_rhs]. unfold value. rewrite map_app, Qsum_app.
        fold (value (encode day mx mn) (day_sum rs t)). rewrite (day_load _ day rs t A) by auto. cbn [map fst snd encode]. rewrite Qsum_cons. change (Qsum []) with 0.
        destruct (M t Ht) as [_ M1]. assert (Q1 : inject_Z (Z.of_nat mn) <= inject_Z (Z.of_nat (load_on rs day t))) by (rewrite <- Zle_Qle; lia). lra.
      + apply in_map_iff in Hr. destruct Hr as (i & <- & Hi). unfold holds, route_row. cbn [r_sense r_lhs r_rhs]. unfold value. rewrite map_map. cbn [fst snd encode].
        assert (D := as_in _ _ A i Hi). assert (N := days_NoDup). clear - D N. induction (days span) as [|t l IH]; [destruct D|]. cbn [map]. rewrite Qsum_cons. inversion N as [|z z' N1 N2]; subst.
        destruct (day i =? t)%nat eqn:E.
        * apply Nat.eqb_eq in E. assert (Z : Qsum (map (fun t0 => 1 * (if (day i =? t0)%nat then 1 else 0)) l) == 0).
          { apply Qsum_map_zero. intros u Hu. destruct (day i =? u)%nat eqn:E2; [|lra]. apply Nat.eqb_eq in E2. exfalso. apply N1. congruence. }
          rewrite Z. lra.
        * apply Nat.eqb_neq in E. destruct D as [D|D]; [congruence|]. rewrite (IH D N2). lra.
      + apply visit_rows_ok in Hr. destruct Hr as (t & v & Ht & Hv & Hd & ->). unfold holds, visit_row. cbn [r_sense r_lhs r_rhs].
        rewrite (day_load _ day _ t A); [|intros q Hq; apply visitors_sub in Hq; destruct Hq as (l & Hq & _); apply (in_map fst) in Hq; exact Hq|exact Ht].
        change 1 with (inject_Z 1). rewrite <- Zle_Qle. assert (L : (load_on (map fst (filter (fun q : nat * list node => mem v (snd q)) routes)) day t <= 1)%nat); [|lia].
        apply load_le_one; [apply visitors_NoDup|]. intros i j Hi Hj Ei Ej. apply visitors_sub in Hi. apply visitors_sub in Hj. destruct Hi as (l & I1 & I2). destruct Hj as (l' & J1 & J2).
        apply (gd_once _ _ _ _ _ _ G v i j l l'); auto. congruence.
      + apply (row_in fl _ F1 F2) in Hr. destruct Hr as (k & n & t & Hk & Ht & ->). unfold holds. cbn [r_sense r_lhs r_rhs].
        rewrite (day_load _ day _ t A); [|intros q Hq; apply filter_In in Hq; tauto|exact Ht]. apply (gd_fleet _ _ _ _ _ _ G); [exact Hk|apply in_days; exact Ht].
    - intros v b Hv. apply in_app_or in Hv. destruct Hv as [Hv|[Hv|[Hv|[]]]].
      + apply in_flat_map in Hv. destruct Hv as (r & Hr & Hv). apply in_map_iff in Hv. destruct Hv as (t & Ht & _). injection Ht as <- <-. cbn [encode].
        split; [|split]; intros; cbn in *; destruct (day r =? t)%nat; try (match goal with H : Some _ = Some _ |- _ => injection H as <- end); try lra; [exists 1%Z|exists 0%Z]; reflexivity.
      + injection Hv as <- <-. cbn [encode]. split; [|split]; intros; cbn in *; try discriminate. injection H as <-. change 0 with (inject_Z 0). rewrite <- Zle_Qle. lia.
      + injection Hv as <- <-. cbn [encode]. split; [|split]; intros; cbn in *; try discriminate. injection H as <-. change 0 with (inject_Z 0). rewrite <- Zle_Qle. lia.
  Qed.

  Lemma good_solution day : good_days g span routes ty nv day -> exists mx mn, feasible (encode day mx mn) p /\
    (days span <> [] -> exists t t', In t (days span) /\ In t' (days span) /\ mx = load_on rs day t /\ mn = load_on rs day t').
  Proof.
    intro G. destruct (days span) as [|d0 ds] eqn:E.
    - exists 0%nat, 0%nat. split; [|congruence]. apply good_feasible; [exact G|]. rewrite E. intros t [].
    - destruct (extremum (load_on rs day) (days span)) as [(t & T1 & T2) (u & U1 & U2)]; [rewrite E; discriminate|]. rewrite E in T1, T2, U1, U2.
      exists (load_on rs day t), (load_on rs day u). split; [|intros _; exists t, u; auto]. apply good_feasible; [exact G|]. rewrite E. auto.
  Qed.

  (** ** The reported dictionary *)
  Lemma filtered_pairs x day : assigns x day -> forall l, (forall r, In r l -> In r rs) ->
    filter (fun rt => Qltb (9 # 10) (x (OnDay (fst rt) (snd rt)))) (flat_map (fun r => map (fun t => (r, t)) (days span)) l) = map (fun r => (r, day r)) l.
  Proof.
    intros A l. induction l as [|r l IH]; intro S; [reflexivity|]. cbn [flat_map map]. rewrite filter_app, IH by (intros; apply S; right; assumption).
    assert (Hr : In r rs) by (apply S; left; reflexivity). change ((r, day r) :: map (fun r0 => (r0, day r0)) l) with ([(r, day r)] ++ map (fun r0 => (r0, day r0)) l). f_equal.
    assert (D := as_in _ _ A r Hr). assert (N := days_NoDup). assert (V := fun t => as_val _ _ A r t Hr). clear - D N V.
    revert D N V. generalize (days span). intro ds. induction ds as [|t ds IH]; intros D N V; [destruct D|]. cbn [map filter fst snd]. inversion N as [|z z' N1 N2]; subst.
    assert (VT := V t (or_introl eq_refl)). destruct (day r =? t)%nat eqn:E.
    - apply Nat.eqb_eq in E. subst t. assert (L : Qltb (9 # 10) (x (OnDay r (day r))) = true) by (apply Qltb_lt; lra). rewrite L. f_equal.
      assert (V' : forall t, In t ds -> x (OnDay r t) == 0).
      { intros t Ht. specialize (V t (or_intror Ht)). destruct (day r =? t)%nat eqn:E2; [apply Nat.eqb_eq in E2; subst t; contradiction|exact V]. }
      clear - V'. induction ds as [|t ds IH]; [reflexivity|]. cbn [map filter fst snd]. assert (X := V' t (or_introl eq_refl)).
      assert (L : Qltb (9 # 10) (x (OnDay r t)) = false) by (apply Qltb_ge; lra). rewrite L. apply IH. intros; apply V'; right; assumption.
    - assert (L : Qltb (9 # 10) (x (OnDay r t)) = false) by (apply Qltb_ge; lra). rewrite L. apply IH; [|exact N2|intros; apply V; right; assumption].
      destruct D as [D|D]; [|exact D]. apply Nat.eqb_neq in E. congruence.
  Qed.
End Sched.

(** the dictionary built for the routes [l] *)
Record holds_days (l : list nat) (day : nat -> nat) (d : list (nat * list nat)) : Prop := {
  hd_keys : NoDup (map fst d);
  hd_lists : forall t m, In (t, m) d -> m = filter (fun r => (day r =? t)%nat) l /\ m <> [];
  hd_all : forall r, In r l -> on_day d r (day r)
}.

Lemma dset_keys {V} k (x : V) : forall d, map fst (dset Nat.eqb k x d) = if existsb (fun j => Nat.eqb j k) (map fst d) then map fst d else map fst d ++ [k].
Proof.
  induction d as [|[j y] d IH]; [reflexivity|]. cbn [dset map fst existsb]. destruct (j =? k)%nat eqn:E; [reflexivity|]. cbn [map fst orb]. rewrite IH.
  destruct (existsb _ _); reflexivity.
Qed.
Lemma dset_in {V} k (x : V) : forall d, NoDup (map fst d) -> forall j y, In (j, y) (dset Nat.eqb k x d) <-> (j = k /\ y = x) \/ (j <> k /\ In (j, y) d).
Proof.
  induction d as [|[i z] d IH]; intros N j y; cbn [dset].
  - cbn. split; [intros [H|[]]; injection H as <- <-; auto|intros [[-> ->]|[_ []]]; auto].
  - inversion N as [|q q' N1 N2]; subst. destruct (i =? k)%nat eqn:E.
    + apply Nat.eqb_eq in E. subst i. cbn. split.
      * intros [H|H]; [injection H as <- <-; auto|]. right. split; [|auto]. intros ->. apply N1. apply (in_map fst) in H. exact H.
      * intros [[-> ->]|[Hn [H|H]]]; [auto|injection H as -> _; congruence|auto].
    + apply Nat.eqb_neq in E. cbn. rewrite (IH N2). split.
      * intros [H|[H|H]]; [injection H as <- <-; right; auto|auto|right; tauto].
      * intros [H|[Hn [H|H]]]; [auto|auto|right; right; auto].
Qed.

Lemma put_day_holds l day d r : holds_days l day d -> holds_days (l ++ [r]) day (put_day d (r, day r)).
Proof.
  intros [K L A]. unfold put_day. cbn [fst snd]. set (t := day r) in *.
  assert (EX : forall V (e : list (nat * V)), dget Nat.eqb t e = None -> existsb (fun j => Nat.eqb j t) (map fst e) = false).
  { intros V e. induction e as [|[j y] e IH]; cbn; [reflexivity|]. destruct (j =? t)%nat; [discriminate|auto]. }
  assert (KEYS : forall x, NoDup (map fst (dset Nat.eqb t x d))).
  { intro x. rewrite dset_keys. destruct (existsb _ (map fst d)) eqn:E; [exact K|].
    apply NoDup_rev in K. rewrite <- rev_involutive at 1. apply NoDup_rev. rewrite rev_app_distr. cbn. constructor; [|exact K].
    rewrite <- in_rev. intro C. apply not_true_iff_false in E. apply E. apply existsb_exists. exists t. split; [exact C|apply Nat.eqb_refl]. }
  assert (FA : forall u, filter (fun q => (day q =? u)%nat) (l ++ [r]) = filter (fun q => (day q =? u)%nat) l ++ (if (t =? u)%nat then [r] else [])).
  { intro u. rewrite filter_app. cbn. fold t. destruct (t =? u)%nat; reflexivity. }
  set (new := match dget Nat.eqb t d with None => [r] | Some m => m ++ [r] end).
  assert (NEW : new = filter (fun q => (day q =? t)%nat) (l ++ [r])).
  { rewrite FA, Nat.eqb_refl. unfold new. destruct (dget Nat.eqb t d) as [m|] eqn:G.
    - apply dget_in_nat in G. destruct (L t m G) as [-> _]. reflexivity.
    - assert (Z : filter (fun q => (day q =? t)%nat) l = []).
      { destruct (filter (fun q => (day q =? t)%nat) l) as [|q m] eqn:E; [reflexivity|]. exfalso. assert (Q1 : In q (q :: m)) by (left; reflexivity). rewrite <- E in Q1.
        apply filter_In in Q1. destruct Q1 as [Q1 Q2]. apply Nat.eqb_eq in Q2. destruct (A q Q1) as (m' & M1 & M2). rewrite Q2 in M1.
        apply (dget_found_nat t m' d K) in M1. congruence. }
      rewrite Z. reflexivity. }
  assert (E : match dget Nat.eqb t d with None => dset Nat.eqb t [r] d | Some m => dset Nat.eqb t (m ++ [r]) d end = dset Nat.eqb t new d).
  { unfold new. destruct (dget Nat.eqb t d); reflexivity. }
  rewrite E. clear E. constructor.
  - apply KEYS.
  - intros u m H. apply (dset_in t new d K) in H. destruct H as [[-> ->]|[Hn H]].
    + split; [exact NEW|]. rewrite NEW, FA, Nat.eqb_refl. destruct (filter _ l); discriminate.
    + destruct (L u m H) as [-> NE]. split; [|exact NE]. rewrite FA. destruct (t =? u)%nat eqn:E; [apply Nat.eqb_eq in E; congruence|rewrite app_nil_r; reflexivity].
  - intros q Hq. destruct (Nat.eq_dec (day q) t) as [Eq|Nq].
    + exists new. split; [apply (dset_in t new d K); left; auto|]. rewrite NEW. apply filter_In. split; [exact Hq|apply Nat.eqb_eq; exact Eq].
    + apply in_app_or in Hq. destruct Hq as [Hq|[<-|[]]]; [|exfalso; apply Nq; reflexivity]. destruct (A q Hq) as (m & M1 & M2). exists m.
      split; [apply (dset_in t new d K); right; auto|exact M2].
Qed.

Lemma put_days_hold day : forall l l0 d, holds_days l0 day d -> holds_days (l0 ++ l) day (fold_left put_day (map (fun r => (r, day r)) l) d).
Proof.
  induction l as [|r l IH]; intros l0 d H; [rewrite app_nil_r; exact H|]. cbn [map fold_left]. replace (l0 ++ r :: l) with ((l0 ++ [r]) ++ l) by (rewrite <- app_assoc; reflexivity).
  apply IH. apply put_day_holds. exact H.
Qed.

(* ------------------------------------------------------------------ *)
(** ** The schedule *)

Theorem schedule_sound g span routes types nv solver d : wf g -> NoDup (map fst routes) ->
  schedule_routes g span routes types nv solver = Ok d ->
  (forall p, formulate_schedule g span routes types nv = Ok p -> sound_answer p (solver p)) ->
  d = [] \/ exists day, good_days g span routes (fun i => dget Nat.eqb i types) nv day /\ describes routes day d.
Proof.
  intros W NR H SO. unfold schedule_routes in H. apply bind_ok in H. destruct H as (p & FP & H). injection H as <-.
  specialize (SO p FP). unfold routes_per_day. destruct (a_status (solver p)) eqn:E; cbn [status_eqb]; try (left; reflexivity).
  right. assert (F : feasible (a_value (solver p)) p) by (apply (sa_feasible _ _ SO); auto).
  exists (picked span (a_value (solver p))). split; [eapply feasible_good; eassumption|].
  assert (A := feasible_assigns _ _ _ _ _ p FP _ F).
  rewrite (filtered_pairs _ _ _ _ A (map fst routes)) by auto.
  assert (HD := put_days_hold (picked span (a_value (solver p))) (map fst routes) [] []). cbn [app] in HD.
  destruct HD as [K L AL]; [constructor; [constructor|intros t m []|intros r []]|]. split; [exact K|]. split; [exact L|].
  intros i r Hir. apply AL. apply (in_map fst) in Hir. exact Hir.
Qed.

(** A best solution of the program spreads the routes best. *)
Lemma schedule_least g span routes types nv p (x : answer svar) : wf g -> NoDup (map fst routes) ->
  formulate_schedule g span routes types nv = Ok p -> sound_answer p x -> a_status x = Optimal ->
  exists day, good_days g span routes (fun i => dget Nat.eqb i types) nv day /\ describes routes day (routes_per_day span (map fst routes) x) /\
    ((forall y, feasible y p -> value (a_value x) (p_obj p) <= value y (p_obj p)) -> forall day', good_days g span routes (fun i => dget Nat.eqb i types) nv day' ->
    forall m, spread_within span (map fst routes) day' m -> spread_within span (map fst routes) day m).
Proof.
  intros W NR FP SO S1.
  assert (F : feasible (a_value x) p) by (apply (sa_feasible _ _ SO); auto).
  exists (picked span (a_value x)). split; [eapply feasible_good; eassumption|].
  assert (A := feasible_assigns _ _ _ _ _ p FP _ F). split.
  - unfold routes_per_day. rewrite S1. cbn [status_eqb]. rewrite (filtered_pairs _ _ _ _ A (map fst routes)) by auto.
    assert (HD := put_days_hold (picked span (a_value x)) (map fst routes) [] []). cbn [app] in HD.
    destruct HD as [K L AL]; [constructor; [constructor|intros t m []|intros r []]|]. split; [exact K|]. split; [exact L|].
    intros i r Hir. apply AL. apply (in_map fst) in Hir. exact Hir.
  - intros S3 day' G' m SP t t' Ht Ht'. apply in_days in Ht. apply in_days in Ht'.
    destruct (good_solution g span routes types nv W NR p FP day' G') as (mx & mn & F' & M).
    assert (NE : days span <> []) by (intro C; rewrite C in Ht; destruct Ht). destruct (M NE) as (u & u' & U1 & U2 & U3 & U4).
    apply in_days in U1. apply in_days in U2. specialize (SP u u' U1 U2). specialize (S3 _ F').
    destruct (prog_shape g span routes types nv p FP) as (fl & _ & _ & EP). assert (FR := feas_rows _ _ F). rewrite EP in FR, S3. cbn [p_rows p_obj] in FR, S3.
    unfold value in S3. cbn [map fst snd encode] in S3. rewrite !Qsum_cons in S3. change (Qsum []) with 0 in S3.
    assert (R1 : holds (a_value x) (max_row (map fst routes) t)). { apply FR. apply in_or_app. left. apply in_map. exact Ht. }
    assert (R2 : holds (a_value x) (min_row (map fst routes) t')). { apply FR. apply in_or_app. right. apply in_or_app. left. apply in_map. exact Ht'. }
    unfold holds, max_row in R1. unfold holds, min_row in R2. cbn [r_sense r_lhs r_rhs] in R1, R2. unfold value in R1, R2. rewrite map_app, Qsum_app in R1, R2.
    fold (value (a_value x) (day_sum (map fst routes) t)) in R1. fold (value (a_value x) (day_sum (map fst routes) t')) in R2.
    rewrite (day_load _ _ _ _ _ _ A) in R1 by auto. rewrite (day_load _ _ _ _ _ _ A) in R2 by auto.
    cbn [map fst snd] in R1, R2. rewrite Qsum_cons in R1, R2. change (Qsum []) with 0 in R1, R2. rewrite U3, U4 in S3. lra.
Qed.

Theorem schedule_right g span routes types nv solver d : wf g -> NoDup (map fst routes) ->
  schedule_routes g span routes types nv solver = Ok d -> (forall p, sound_answer p (solver p)) ->
  d = [] \/ exists day, good_days g span routes (fun i => dget Nat.eqb i types) nv day /\ describes routes day d /\
    ((forall p, right_answer p (solver p)) ->
     forall day', good_days g span routes (fun i => dget Nat.eqb i types) nv day' ->
     forall m, spread_within span (map fst routes) day' m -> spread_within span (map fst routes) day m).
Proof.
  intros W NR H SO. unfold schedule_routes in H. apply bind_ok in H. destruct H as (p & FP & H). injection H as <-.
  destruct (a_status (solver p)) eqn:E; try (left; unfold routes_per_day; rewrite E; reflexivity).
  right. destruct (schedule_least g span routes types nv p (solver p) W NR FP (SO p) E) as (day & D1 & D2 & D3). exists day. split; [exact D1|]. split; [exact D2|].
  intro RA. apply D3. exact (ra_least _ _ (RA p) E).
Qed.

Theorem schedule_exact g span routes types nv solver d : wf g -> NoDup (map fst routes) ->
  schedule_routes g span routes types nv solver = Ok d ->
  (forall p, formulate_schedule g span routes types nv = Ok p -> exact_answer p (solver p)) ->
  (forall day', good_days g span routes (fun i => dget Nat.eqb i types) nv day' ->
     exists day, good_days g span routes (fun i => dget Nat.eqb i types) nv day /\ describes routes day d /\
       forall m, spread_within span (map fst routes) day' m -> spread_within span (map fst routes) day m) /\
  ((forall day', ~ good_days g span routes (fun i => dget Nat.eqb i types) nv day') -> d = []).
Proof.
  intros W NR H EX. unfold schedule_routes in H. apply bind_ok in H. destruct H as (p & FP & H). injection H as <-.
  specialize (EX p FP). destruct EX as [SO CA]. split.
  - intros day' G'. destruct (good_solution g span routes types nv W NR p FP day' G') as (mx & mn & F' & M).
    destruct CA as [(S1 & S2 & S3)|(S1 & S2)]; [|exfalso; apply (S2 _ F')].
    destruct (schedule_least g span routes types nv p (solver p) W NR FP SO S1) as (day & D1 & D2 & D3). exists day. split; [exact D1|]. split; [exact D2|exact (D3 S3 day' G')].
  - intro NG. unfold routes_per_day. destruct CA as [(S1 & S2 & S3)|(S1 & S2)]; [|rewrite S1; reflexivity].
    exfalso. apply (NG (picked span (a_value (solver p)))). eapply feasible_good; try eassumption. apply (sa_feasible _ _ SO). auto.
Qed.

Theorem schedule_total g span routes types nv solver : (forall i r, In (i, r) routes -> exists k, dget Nat.eqb i types = Some k) ->
  exists d, schedule_routes g span routes types nv solver = Ok d.
Proof.
  intro T. unfold schedule_routes, formulate_schedule. destruct (nonempty nv); [|cbn [bind]; eexists; reflexivity].
  unfold fleet_rows. destruct (mapM_total (fun kn => mapM (fun t => fleet_row types routes (fst kn) t (snd kn)) (days span)) (combine (seq 0 (List.length nv)) nv)) as (l & ->).
  2:{ cbn [bind]. eexists. reflexivity. }
  intros [k n] _. apply mapM_total. intros t _. unfold fleet_row. cbn [fst snd].
  destruct (foldM_inv_ok (fun acc (p : nat * list node) => let* j := of_opt KeyError (dget Nat.eqb (fst p) types) in Ok (if (j =? k)%nat then acc ++ [fst p] else acc)) (fun _ => True) routes) with (s := @nil nat) as (s & -> & _).
  - intros s [i r] Hir _. destruct (T i r Hir) as (j & Hj). cbn [fst]. rewrite Hj. cbn. eexists. split; [reflexivity|exact I].
  - exact I.
  - cbn. eexists. reflexivity.
Qed.
