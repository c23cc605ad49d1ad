(** Optimality of concrete answers, checked by computation: a linear combination of the rows and
    the bounds gives a lower bound on the objective. *)
From Verif.Base Require Import Prelude.
From Verif.Spec Require Import LinProg.
From Verif.Proofs Require Import PricingCor.

Section Certificate.
  Context {V : Type}.
  Variable eqb : V -> V -> bool.
  Hypothesis eqb_eq : forall a b, eqb a b = true <-> a = b.

  Definition coef (e : list (Q * V)) (v : V) : Q :=
    Qsum (map fst (filter (fun t => eqb v (snd t)) e)).

  Lemma coef_cons t e v : coef (t :: e) v == (if eqb v (snd t) then fst t else 0) + coef e v.
  Proof. unfold coef. cbn [filter]. destruct (eqb v (snd t)); unfold Qsum; cbn [map fold_right]; lra. Qed.

  Lemma Qsum_zero {A} (f : A -> Q) l : (forall a, In a l -> f a == 0) -> Qsum (map f l) == 0.
  Proof.
    induction l as [|a l IH]; intro H; cbn [map Qsum fold_right]; [reflexivity|].
    fold (Qsum (map f l)). rewrite IH by (intros; apply H; right; assumption). rewrite (H a) by (left; reflexivity). lra.
  Qed.
  Lemma Qsum_add {A} (f h : A -> Q) l : Qsum (map (fun a => f a + h a) l) == Qsum (map f l) + Qsum (map h l).
  Proof. induction l as [|a l IH]; cbn [map Qsum fold_right]; [lra|]. fold (Qsum (map (fun a => f a + h a) l)) (Qsum (map f l)) (Qsum (map h l)). rewrite IH. lra. Qed.
  Lemma Qsum_ext {A} (f h : A -> Q) l : (forall a, In a l -> f a == h a) -> Qsum (map f l) == Qsum (map h l).
  Proof.
    induction l as [|a l IH]; intro H; cbn [map Qsum fold_right]; [reflexivity|]. fold (Qsum (map f l)) (Qsum (map h l)).
    rewrite IH by (intros; apply H; right; assumption). rewrite (H a) by (left; reflexivity). reflexivity.
  Qed.
  Lemma Qsum_mono {A} (f h : A -> Q) l : (forall a, In a l -> f a <= h a) -> Qsum (map f l) <= Qsum (map h l).
  Proof.
    induction l as [|a l IH]; intro H; cbn [map Qsum fold_right]; [lra|]. fold (Qsum (map f l)) (Qsum (map h l)).
    assert (H1 := IH ltac:(intros; apply H; right; assumption)). assert (H2 := H a (or_introl eq_refl)). lra.
  Qed.
  Lemma Qsum_single vs v q x : NoDup vs -> In v vs -> Qsum (map (fun w => (if eqb w v then q else 0) * x w) vs) == q * x v.
  Proof.
    induction vs as [|w vs IH]; intros ND Hin; [destruct Hin|]. inversion ND as [|a b N1 N2]; subst. cbn [map Qsum fold_right].
    fold (Qsum (map (fun w => (if eqb w v then q else 0) * x w) vs)). destruct Hin as [->|Hin].
    - assert (E : eqb v v = true) by (apply eqb_eq; reflexivity). rewrite E.
      rewrite Qsum_zero; [lra|]. intros a Ha. destruct (eqb a v) eqn:X; [apply eqb_eq in X; subst a; contradiction|lra].
    - destruct (eqb w v) eqn:X; [apply eqb_eq in X; subst w; contradiction|]. rewrite IH by assumption. lra.
  Qed.

  Lemma value_grouped x vs : NoDup vs -> forall e, (forall t, In t e -> In (snd t) vs) ->
    value x e == Qsum (map (fun v => coef e v * x v) vs).
  Proof.
    intros ND. induction e as [|t e IH]; intro H.
    - rewrite Qsum_zero; [reflexivity|]. intros v _. unfold coef. cbn. lra.
    - unfold value. cbn [map Qsum fold_right]. fold (Qsum (map (fun t => fst t * x (snd t)) e)). fold (value x e).
      rewrite IH by (intros; apply H; right; assumption).
      rewrite (Qsum_ext (fun v => coef (t :: e) v * x v) (fun v => (if eqb v (snd t) then fst t else 0) * x v + coef e v * x v)).
      + rewrite Qsum_add, Qsum_single; [lra|exact ND|apply H; left; reflexivity].
      + intros v _. rewrite coef_cons. lra.
  Qed.

  Lemma value_app (x : V -> Q) a b : value x (a ++ b) == value x a + value x b.
  Proof. unfold value. rewrite map_app. induction (map _ a) as [|q l IH]; cbn [app]; rewrite ?Qsum_cons; [cbn; lra|]. rewrite IH. lra. Qed.
  Lemma value_scale (x : V -> Q) q e : value x (map (fun t => (q * fst t, snd t)) e) == q * value x e.
  Proof.
    unfold value. rewrite map_map. cbn [fst snd]. induction e as [|t e IH]; cbn [map Qsum fold_right]; [lra|].
    unfold Qsum in *. rewrite IH. lra.
  Qed.

  (** multipliers [ys], one per row *)
  Definition sign_ok (s : sense) (y : Q) : bool :=
    match s with GE => Qle_bool 0 y | LE => Qle_bool y 0 | EQ => true end.
  Fixpoint residual (rows : list (row V)) (ys : list Q) (e : list (Q * V)) : list (Q * V) :=
    match rows, ys with
    | r :: rows', y :: ys' => residual rows' ys' (e ++ map (fun t => (- y * fst t, snd t)) (r_lhs r))
    | _, _ => e
    end.
  Fixpoint rhs_sum (rows : list (row V)) (ys : list Q) : Q :=
    match rows, ys with
    | r :: rows', y :: ys' => y * r_rhs r + rhs_sum rows' ys'
    | _, _ => 0
    end.
  Lemma residual_bound x : forall rows ys e, (forall r, In r rows -> holds x r) ->
    forallb (fun t => sign_ok (r_sense (fst t)) (snd t)) (combine rows ys) = true ->
    value x (residual rows ys e) + rhs_sum rows ys <= value x e.
  Proof.
    induction rows as [|r rows IH]; intros ys e H S; cbn [residual rhs_sum]; [lra|]. destruct ys as [|y ys]; [lra|].
    cbn [combine forallb fst snd] in S. apply andb_true_iff in S. destruct S as [S1 S2].
    assert (I := IH ys (e ++ map (fun t => (- y * fst t, snd t)) (r_lhs r)) ltac:(intros; apply H; right; assumption) S2).
    rewrite value_app, value_scale in I. assert (Hr := H r (or_introl eq_refl)).
    assert (K : y * r_rhs r <= y * value x (r_lhs r)).
    { unfold holds in Hr. unfold sign_ok in S1. destruct (r_sense r).
      - apply Qle_bool_iff in S1. nra.
      - apply Qle_bool_iff in S1. nra.
      - rewrite Hr. lra. }
    lra.
  Qed.

  (** the least value of [d * x] within the bounds *)
  Definition least_in (d : Q) (b : bounds) : option Q :=
    if Qeq_bool d 0 then Some 0 else
    if Qltb 0 d then option_map (fun l => d * l) (b_low b) else option_map (fun u => d * u) (b_up b).
  Lemma least_in_ok d b q x : least_in d b = Some q -> in_bounds x b -> q <= d * x.
  Proof.
    intros H (B1 & B2 & _). unfold least_in in H. destruct (Qeq_bool d 0) eqn:E.
    - injection H as <-. apply Qeq_bool_iff in E. rewrite E. lra.
    - destruct (Qltb 0 d) eqn:P.
      + apply Qltb_lt in P. destruct (b_low b) as [l|]; [|discriminate]. injection H as <-. assert (Hl := B1 l eq_refl). nra.
      + apply Qltb_ge in P. destruct (b_up b) as [u|]; [|discriminate]. injection H as <-. assert (Hu := B2 u eq_refl). nra.
  Qed.

  Fixpoint bounds_sum (e : list (Q * V)) (vars : list (V * bounds)) : option Q :=
    match vars with
    | [] => Some 0
    | (v, b) :: t => match least_in (coef e v) b, bounds_sum e t with Some p, Some q => Some (p + q) | _, _ => None end
    end.
  Lemma bounds_sum_ok x e : forall vars q, bounds_sum e vars = Some q ->
    (forall v b, In (v, b) vars -> in_bounds (x v) b) ->
    q <= Qsum (map (fun v => coef e v * x v) (map fst vars)).
  Proof.
    induction vars as [|[v b] vars IH]; intros q H B; cbn [bounds_sum] in H; cbn [map Qsum fold_right fst].
    - injection H as <-. lra.
    - destruct (least_in _ b) as [p|] eqn:E1; [|discriminate]. destruct (bounds_sum e vars) as [r|]; [|discriminate]. injection H as <-.
      fold (Qsum (map (fun v => coef e v * x v) (map fst vars))).
      assert (I := IH r eq_refl ltac:(intros; apply B; right; assumption)).
      assert (J := least_in_ok _ _ _ _ E1 (B v b (or_introl eq_refl))). lra.
  Qed.

  Fixpoint distinctb (l : list V) : bool :=
    match l with [] => true | v :: t => negb (existsb (eqb v) t) && distinctb t end.
  Lemma distinctb_ok l : distinctb l = true -> NoDup l.
  Proof.
    induction l as [|v l IH]; intro H; [constructor|]. cbn [distinctb] in H. apply andb_true_iff in H. destruct H as [H1 H2].
    constructor; [|exact (IH H2)]. intro I. apply negb_true_iff in H1. rewrite <- Bool.not_true_iff_false, existsb_exists in H1.
    apply H1. exists v. split; [exact I|apply eqb_eq; reflexivity].
  Qed.

  Definition certified (p : program V) (ys : list Q) : option Q :=
    let e := residual (p_rows p) ys (p_obj p) in
    if forallb (fun t => sign_ok (r_sense (fst t)) (snd t)) (combine (p_rows p) ys) &&
       distinctb (map fst (p_vars p)) && forallb (fun t => existsb (eqb (snd t)) (map fst (p_vars p))) e
    then option_map (fun q => q + rhs_sum (p_rows p) ys) (bounds_sum e (p_vars p)) else None.

  Theorem certified_ok p ys b x : certified p ys = Some b -> feasible x p -> b <= value x (p_obj p).
  Proof.
    unfold certified. intros H [F1 F2].
    destruct (forallb _ (combine _ _)) eqn:S; [|discriminate]. destruct (distinctb _) eqn:D; [|discriminate].
    destruct (forallb _ (residual _ _ _)) eqn:I; [|discriminate]. cbn [andb] in H.
    destruct (bounds_sum _ _) as [q|] eqn:B; [|discriminate]. cbn [option_map] in H. injection H as <-.
    assert (R := residual_bound x _ ys (p_obj p) F1 S).
    rewrite (value_grouped x (map fst (p_vars p)) (distinctb_ok _ D)) in R.
    - assert (K := bounds_sum_ok x _ _ _ B F2). lra.
    - intros t Ht. apply (proj1 (forallb_forall _ _) I) in Ht. apply existsb_exists in Ht. destruct Ht as (w & Hw & E).
      apply eqb_eq in E. rewrite E. exact Hw.
  Qed.

  Definition optimalb (p : program V) (x : V -> Q) (ys : list Q) : bool :=
    feasibleb x p && match certified p ys with Some b => Qeq_bool b (value x (p_obj p)) | None => false end.
  Theorem optimalb_ok p a ys : optimalb p (a_value a) ys = true -> a_status a = Optimal ->
    (exists q, a_objective a = Some q /\ q == value (a_value a) (p_obj p)) -> exact_answer p a.
  Proof.
    unfold optimalb. intros H St (q & Eq & Hq). apply andb_true_iff in H. destruct H as [H1 H2].
    destruct (certified p ys) as [b|] eqn:Cb; [|discriminate]. apply Qeq_bool_iff in H2.
    assert (F := feasibleb_ok _ _ H1). constructor.
    - constructor; [intros _; exact F|]. intros q' E'. rewrite Eq in E'. injection E' as <-. exact Hq.
    - left. split; [exact St|]. split; [rewrite Eq; discriminate|]. intros y Hy. assert (K := certified_ok _ _ _ _ Cb Hy). lra.
  Qed.

  (** no solution: a combination of rows that is never met *)
  Definition infeasibleb (p : program V) (ys : list Q) : bool :=
    match certified (mkProgram [] (p_rows p) (p_vars p)) ys with Some b => Qltb 0 b | None => false end.
  Theorem infeasibleb_ok p ys x : infeasibleb p ys = true -> ~ feasible x p.
  Proof.
    unfold infeasibleb. intros H F. destruct (certified _ ys) as [b|] eqn:Cb; [|discriminate]. apply Qltb_lt in H.
    assert (K := certified_ok _ _ _ x Cb). cbn [p_obj] in K.
    assert (F' : feasible x (mkProgram [] (p_rows p) (p_vars p))) by (destruct F; constructor; assumption).
    specialize (K F'). unfold value in K. cbn in K. lra.
  Qed.
End Certificate.
