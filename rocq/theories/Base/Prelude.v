(** Common vocabulary: Python results with exceptions as values, Python's
    [sorted], sums of rationals, and list lemmas used everywhere. *)
From Coq Require Export List ZArith QArith Qminmax Lia Lqa Bool Permutation Arith.
Export ListNotations.
Open Scope Q_scope.
Open Scope list_scope.

(* ------------------------------------------------------------------ *)
(** * Results: a value or the Python exception that was raised *)

Inductive exn :=
| TypeError | ValueError | KeyError | IndexError | NetworkXError
| NotImplementedError | ZeroDivisionError | AttributeError | AssertionError
| GenericException
| OutOfFuel.  (* not a Python exception: a loop ran out of fuel *)

Inductive res (A : Type) :=
| Ok (a : A)
| Err (e : exn).
Arguments Ok {A} a.
Arguments Err {A} e.

Definition bind {A B} (r : res A) (f : A -> res B) : res B :=
  match r with Ok a => f a | Err e => Err e end.

Notation "'let*' x ':=' r 'in' k" := (bind r (fun x => k))
  (at level 200, x pattern, r at level 100, k at level 200, right associativity).

(** Python [raise] guarded by a condition. *)
Definition raise_if (b : bool) (e : exn) : res unit := if b then Err e else Ok tt.

(** [for a in l: s = f(s, a)] *)
Fixpoint foldM {A S} (f : S -> A -> res S) (l : list A) (s : S) : res S :=
  match l with
  | [] => Ok s
  | a :: t => let* s' := f s a in foldM f t s'
  end.

(** [[f(a) for a in l]] *)
Fixpoint mapM {A B} (f : A -> res B) (l : list A) : res (list B) :=
  match l with
  | [] => Ok []
  | a :: t => let* b := f a in let* bs := mapM f t in Ok (b :: bs)
  end.

(** [for a in l: f(a)], only for the exceptions *)
Fixpoint iterM {A} (f : A -> res unit) (l : list A) : res unit :=
  match l with
  | [] => Ok tt
  | a :: t => let* _ := f a in iterM f t
  end.

Definition of_opt {A} (e : exn) (o : option A) : res A :=
  match o with Some a => Ok a | None => Err e end.

Definition is_ok {A} (r : res A) : Prop := exists a, r = Ok a.

Lemma bind_ok {A B} (r : res A) (f : A -> res B) b :
  bind r f = Ok b <-> exists a, r = Ok a /\ f a = Ok b.
Proof.
  destruct r as [a|e]; simpl; split; intro H.
  - exists a; auto.
  - destruct H as (a' & Ha & Hb). congruence.
  - discriminate.
  - destruct H as (a' & Ha & Hb). discriminate.
Qed.

Lemma raise_if_ok b e u : raise_if b e = Ok u <-> b = false.
Proof. destruct b, u; simpl; split; intro; congruence. Qed.

Lemma raise_if_err b e e' : raise_if b e = Err e' <-> b = true /\ e' = e.
Proof. destruct b; simpl; split; [intro H; inversion H; auto|intros [_ ->]; auto|discriminate|intros [H _]; discriminate]. Qed.

Lemma foldM_app {A S} (f : S -> A -> res S) l1 l2 s :
  foldM f (l1 ++ l2) s = (let* s' := foldM f l1 s in foldM f l2 s').
Proof.
  revert s. induction l1 as [|a l1 IH]; intro s; simpl; [reflexivity|].
  destruct (f s a) as [s'|e]; simpl; auto.
Qed.

(** Invariant rule for [for] loops. *)
Lemma foldM_inv {A S} (f : S -> A -> res S) (P : S -> Prop) l :
  (forall s a s', In a l -> P s -> f s a = Ok s' -> P s') ->
  forall s s', P s -> foldM f l s = Ok s' -> P s'.
Proof.
  induction l as [|a l IH]; intros Hstep s s' Hs H; simpl in H.
  - inversion H; subst; auto.
  - apply bind_ok in H. destruct H as (s1 & H1 & H2).
    apply (IH (fun s0 a0 s0' Hin => Hstep s0 a0 s0' (or_intror Hin)) s1); auto.
    apply (Hstep s a s1); simpl; auto.
Qed.

(** Invariant rule for loops that also establishes absence of exceptions. *)
Lemma foldM_inv_ok {A S} (f : S -> A -> res S) (P : S -> Prop) l :
  (forall s a, In a l -> P s -> exists s', f s a = Ok s' /\ P s') ->
  forall s, P s -> exists s', foldM f l s = Ok s' /\ P s'.
Proof.
  induction l as [|a l IH]; intros Hstep s Hs; simpl.
  - exists s; auto.
  - destruct (Hstep s a (or_introl eq_refl) Hs) as (s1 & -> & H1). simpl.
    apply IH; auto. intros s0 a0 Hin; apply Hstep; simpl; auto.
Qed.

Lemma iterM_ok {A} (f : A -> res unit) l u :
  iterM f l = Ok u <-> (forall a, In a l -> f a = Ok tt).
Proof.
  destruct u. induction l as [|a l IH]; simpl; split; intro H.
  - intros b [].
  - reflexivity.
  - apply bind_ok in H. destruct H as ([] & Ha & Hl).
    intros b [<-|Hb]; auto. apply IH; auto.
  - rewrite (H a (or_introl eq_refl)). simpl. apply IH. auto.
Qed.

Lemma iterM_err {A} (f : A -> res unit) l e :
  iterM f l = Err e -> exists a, In a l /\ f a = Err e.
Proof.
  induction l as [|a l IH]; simpl; intro H; [discriminate|].
  destruct (f a) as [[]|e'] eqn:Ea; simpl in H.
  - destruct (IH H) as (b & Hb & Hf). exists b; auto.
  - inversion H; subst. exists a; auto.
Qed.

Lemma mapM_ok {A B} (f : A -> res B) l bs :
  mapM f l = Ok bs <-> Forall2 (fun a b => f a = Ok b) l bs.
Proof.
  revert bs. induction l as [|a l IH]; intro bs; simpl; split; intro H.
  - inversion H; constructor.
  - inversion H; reflexivity.
  - apply bind_ok in H. destruct H as (b & Hb & H).
    apply bind_ok in H. destruct H as (bs' & Hbs & H). inversion H; subst.
    constructor; auto. apply IH; auto.
  - inversion H as [|x y l1 l2 Hx Hl]; subst. rewrite Hx. simpl.
    apply IH in Hl. rewrite Hl. reflexivity.
Qed.

Lemma mapM_pure {A B} (f : A -> res B) (g : A -> B) l :
  (forall a, In a l -> f a = Ok (g a)) -> mapM f l = Ok (map g l).
Proof.
  induction l as [|a l IH]; intro H; simpl; [reflexivity|].
  rewrite (H a (or_introl eq_refl)). simpl. rewrite IH; auto.
  intros b Hb. apply H. simpl; auto.
Qed.

(* ------------------------------------------------------------------ *)
(** * Truthiness of optional numbers *)

(** [if x] for [x] None or an int *)
Definition truthy (o : option Z) : bool :=
  match o with Some z => negb (z =? 0)%Z | None => false end.

(** [if x] for [x] None or a number *)
Definition truthyQ (o : option Q) : bool :=
  match o with Some q => negb (Qeq_bool q 0) | None => false end.

(** [if l] for a list *)
Definition nonempty {A} (l : list A) : bool := match l with [] => false | _ => true end.

Lemma truthy_Some z : truthy (Some z) = true <-> z <> 0%Z.
Proof. simpl. rewrite negb_true_iff, Z.eqb_neq. tauto. Qed.

Lemma truthy_some o : truthy o = true <-> exists z, o = Some z /\ z <> 0%Z.
Proof.
  destruct o as [z|]; simpl; split; intro H.
  - exists z. split; auto. apply negb_true_iff, Z.eqb_neq in H. auto.
  - destruct H as (z' & E & Hz). inversion E; subst. apply negb_true_iff, Z.eqb_neq; auto.
  - discriminate.
  - destruct H as (z' & E & Hz). discriminate.
Qed.

(* ------------------------------------------------------------------ *)
(** * Rationals *)

Definition Qltb (a b : Q) : bool := negb (Qle_bool b a).

Lemma Qltb_lt a b : Qltb a b = true <-> a < b.
Proof.
  unfold Qltb. rewrite negb_true_iff. split; intro H.
  - apply Qnot_le_lt. intro C. apply Qle_bool_iff in C. congruence.
  - apply not_true_iff_false. intro C. apply Qle_bool_iff in C. lra.
Qed.

Lemma Qltb_ge a b : Qltb a b = false <-> b <= a.
Proof.
  unfold Qltb. rewrite negb_false_iff. apply Qle_bool_iff.
Qed.

Lemma Qle_bool_false a b : Qle_bool a b = false <-> b < a.
Proof.
  split; intro H.
  - apply Qnot_le_lt. intro C. apply Qle_bool_iff in C. congruence.
  - apply not_true_iff_false. intro C. apply Qle_bool_iff in C. lra.
Qed.

Definition Qsum (l : list Q) : Q := fold_right Qplus 0 l.

Lemma Qsum_cons x l : Qsum (x :: l) = x + Qsum l.
Proof. reflexivity. Qed.

Lemma Qsum_app l1 l2 : Qsum (l1 ++ l2) == Qsum l1 + Qsum l2.
Proof. induction l1 as [|a l1 IH]; simpl; [lra|]. rewrite IH. lra. Qed.

Lemma Qsum_perm l1 l2 : Permutation l1 l2 -> Qsum l1 == Qsum l2.
Proof.
  induction 1 as [|x l l' Hp IH|x y l|l l' l'' H1 IH1 H2 IH2]; simpl; try lra.
Qed.

Lemma Qsum_nonneg l : (forall x, In x l -> 0 <= x) -> 0 <= Qsum l.
Proof.
  induction l as [|a l IH]; intro H; simpl; [lra|].
  assert (0 <= a) by (apply H; simpl; auto).
  assert (0 <= Qsum l) by (apply IH; intros; apply H; simpl; auto). lra.
Qed.

Lemma Qsum_map_ext {A} (f g : A -> Q) l :
  (forall a, In a l -> f a == g a) -> Qsum (map f l) == Qsum (map g l).
Proof.
  induction l as [|a l IH]; intro H; simpl; [lra|].
  rewrite (H a (or_introl eq_refl)). rewrite IH; [lra|]. intros b Hb; apply H; simpl; auto.
Qed.

Lemma Qsum_map_le {A} (f g : A -> Q) l :
  (forall a, In a l -> f a <= g a) -> Qsum (map f l) <= Qsum (map g l).
Proof.
  induction l as [|a l IH]; intro H; simpl; [lra|].
  assert (f a <= g a) by (apply H; simpl; auto).
  assert (Qsum (map f l) <= Qsum (map g l)) by (apply IH; intros; apply H; simpl; auto). lra.
Qed.

Lemma Qsum_map_plus {A} (f g : A -> Q) l :
  Qsum (map (fun a => f a + g a) l) == Qsum (map f l) + Qsum (map g l).
Proof. induction l as [|a l IH]; simpl; [lra|]. rewrite IH. lra. Qed.

Lemma Qsum_map_minus {A} (f g : A -> Q) l :
  Qsum (map (fun a => f a - g a) l) == Qsum (map f l) - Qsum (map g l).
Proof. induction l as [|a l IH]; simpl; [lra|]. rewrite IH. lra. Qed.

Lemma Qsum_map_scale {A} (c : Q) (f : A -> Q) l :
  Qsum (map (fun a => c * f a) l) == c * Qsum (map f l).
Proof. induction l as [|a l IH]; simpl; [ring|]. rewrite IH. ring. Qed.

Lemma Qsum_map_zero {A} (f : A -> Q) l :
  (forall a, In a l -> f a == 0) -> Qsum (map f l) == 0.
Proof.
  intro H. rewrite (Qsum_map_ext f (fun _ => 0)); auto.
  clear H. induction l as [|a l IH]; simpl; [lra|]. rewrite IH. lra.
Qed.

(** Python [sum(...)]: a left fold starting from 0. *)
Definition pysum (l : list Q) : Q := fold_left Qplus l 0.

Lemma fold_left_Qplus l a : fold_left Qplus l a == a + Qsum l.
Proof. revert a. induction l as [|b l IH]; intro a; simpl; [lra|]. rewrite IH. lra. Qed.

Lemma pysum_Qsum l : pysum l == Qsum l.
Proof. unfold pysum. rewrite fold_left_Qplus. lra. Qed.

(** Python [max]/[min] of a non-empty list of numbers: the first extremal element. *)
Fixpoint pymax_from (m : Q) (l : list Q) : Q :=
  match l with [] => m | a :: t => pymax_from (if Qltb m a then a else m) t end.
Definition pymax (l : list Q) : res Q :=
  match l with [] => Err ValueError | a :: t => Ok (pymax_from a t) end.
Fixpoint pymin_from (m : Q) (l : list Q) : Q :=
  match l with [] => m | a :: t => pymin_from (if Qltb a m then a else m) t end.
Definition pymin (l : list Q) : res Q :=
  match l with [] => Err ValueError | a :: t => Ok (pymin_from a t) end.

(** Python [max(a, b)] and [min(a, b)] of two numbers. *)
Definition pymax2 (a b : Q) : Q := if Qltb a b then b else a.
Definition pymin2 (a b : Q) : Q := if Qltb b a then b else a.

Lemma pymax2_spec a b : a <= pymax2 a b /\ b <= pymax2 a b /\ (pymax2 a b = a \/ pymax2 a b = b).
Proof.
  unfold pymax2. destruct (Qltb a b) eqn:E.
  - apply Qltb_lt in E. split; [lra|]. split; [lra|auto].
  - apply Qltb_ge in E. split; [lra|]. split; [lra|auto].
Qed.

Lemma pymin2_spec a b : pymin2 a b <= a /\ pymin2 a b <= b /\ (pymin2 a b = a \/ pymin2 a b = b).
Proof.
  unfold pymin2. destruct (Qltb b a) eqn:E.
  - apply Qltb_lt in E. split; [lra|]. split; [lra|auto].
  - apply Qltb_ge in E. split; [lra|]. split; [lra|auto].
Qed.

Lemma pymax_from_spec l m :
  m <= pymax_from m l /\ (forall x, In x l -> x <= pymax_from m l) /\
  (pymax_from m l = m \/ In (pymax_from m l) l).
Proof.
  revert m. induction l as [|a l IH]; intro m; simpl.
  - repeat split; auto; [lra|intros x []].
  - destruct (IH (if Qltb m a then a else m)) as (H1 & H2 & H3).
    destruct (Qltb m a) eqn:E.
    + apply Qltb_lt in E. split; [lra|]. split.
      * intros x [<-|Hx]; auto.
      * destruct H3 as [H3|H3]; auto.
    + apply Qltb_ge in E. split; [lra|]. split.
      * intros x [<-|Hx]; auto. lra.
      * destruct H3 as [H3|H3]; auto.
Qed.

Lemma pymax_ok l m : pymax l = Ok m -> In m l /\ forall x, In x l -> x <= m.
Proof.
  destruct l as [|a l]; simpl; intro H; inversion H; subst.
  destruct (pymax_from_spec l a) as (H1 & H2 & H3). split.
  - destruct H3 as [->|H3]; auto.
  - intros x [<-|Hx]; auto.
Qed.

Lemma pymin_from_spec l m :
  pymin_from m l <= m /\ (forall x, In x l -> pymin_from m l <= x) /\
  (pymin_from m l = m \/ In (pymin_from m l) l).
Proof.
  revert m. induction l as [|a l IH]; intro m; simpl.
  - repeat split; auto; [lra|intros x []].
  - destruct (IH (if Qltb a m then a else m)) as (H1 & H2 & H3).
    destruct (Qltb a m) eqn:E.
    + apply Qltb_lt in E. split; [lra|]. split.
      * intros x [<-|Hx]; auto.
      * destruct H3 as [H3|H3]; auto.
    + apply Qltb_ge in E. split; [lra|]. split.
      * intros x [<-|Hx]; auto. lra.
      * destruct H3 as [H3|H3]; auto.
Qed.

Lemma pymin_ok l m : pymin l = Ok m -> In m l /\ forall x, In x l -> m <= x.
Proof.
  destruct l as [|a l]; simpl; intro H; inversion H; subst.
  destruct (pymin_from_spec l a) as (H1 & H2 & H3). split.
  - destruct H3 as [->|H3]; auto.
  - intros x [<-|Hx]; auto.
Qed.

(** Maximum of a non-empty list of ints. *)
Fixpoint zmax_from (m : Z) (l : list Z) : Z :=
  match l with [] => m | a :: t => zmax_from (Z.max m a) t end.
Definition zmax (l : list Z) : res Z :=
  match l with [] => Err ValueError | a :: t => Ok (zmax_from a t) end.

Lemma zmax_from_spec l m :
  (m <= zmax_from m l)%Z /\ (forall x, In x l -> (x <= zmax_from m l)%Z) /\
  (zmax_from m l = m \/ In (zmax_from m l) l).
Proof.
  revert m. induction l as [|a l IH]; intro m; simpl.
  - repeat split; auto; [lia|intros x []].
  - destruct (IH (Z.max m a)) as (H1 & H2 & H3). split; [lia|]. split.
    + intros x [<-|Hx]; auto. lia.
    + destruct H3 as [H3|H3]; auto. rewrite H3. destruct (Z.max_spec m a) as [[_ ->]|[_ ->]]; auto.
Qed.

Lemma zmax_ok l m : zmax l = Ok m -> In m l /\ forall x, In x l -> (x <= m)%Z.
Proof.
  destruct l as [|a l]; simpl; intro H; inversion H; subst.
  destruct (zmax_from_spec l a) as (H1 & H2 & H3). split.
  - destruct H3 as [->|H3]; auto.
  - intros x [<-|Hx]; auto.
Qed.

(** Python [int(x)]: truncation towards zero. *)
Definition qtrunc (q : Q) : Z := Z.quot (Qnum q) (QDen q).

Lemma qtrunc_nonneg q : 0 <= q -> (0 <= qtrunc q)%Z /\ inject_Z (qtrunc q) <= q.
Proof.
  destruct q as [n d]. unfold qtrunc, Qle, inject_Z. simpl. intro H.
  assert (Hn : (0 <= n)%Z) by lia.
  assert (Hq := Z.quot_pos n (Z.pos d) Hn ltac:(lia)).
  split; [exact Hq|].
  rewrite Z.quot_div_nonneg by lia.
  pose proof (Z.mul_div_le n (Z.pos d) ltac:(lia)). lia.
Qed.

Lemma qtrunc_Z z : qtrunc (inject_Z z) = z.
Proof. unfold qtrunc, inject_Z. simpl. apply Z.quot_1_r. Qed.

(* ------------------------------------------------------------------ *)
(** * Python's stable [sorted(l, key=...)] *)

Section Sorted.
  Context {A : Type} (key : A -> Q).

  Fixpoint insert_asc (a : A) (l : list A) : list A :=
    match l with
    | [] => [a]
    | b :: t => if Qltb (key b) (key a) then b :: insert_asc a t else a :: l
    end.
  (** [sorted(l, key=key)]: elements are inserted from the right, so that equal keys keep
      their order *)
  Definition sorted_asc (l : list A) : list A := fold_right insert_asc [] l.

  Fixpoint insert_desc (a : A) (l : list A) : list A :=
    match l with
    | [] => [a]
    | b :: t => if Qltb (key a) (key b) then b :: insert_desc a t else a :: l
    end.
  (** [sorted(l, key=key, reverse=True)]: decreasing keys, equal keys keep their order *)
  Definition sorted_desc (l : list A) : list A := fold_right insert_desc [] l.

  Lemma insert_asc_perm a l : Permutation (a :: l) (insert_asc a l).
  Proof.
    induction l as [|b l IH]; simpl; [apply Permutation_refl|].
    destruct (Qltb (key b) (key a)); [|apply Permutation_refl].
    eapply Permutation_trans; [apply perm_swap|]. apply perm_skip, IH.
  Qed.

  Lemma insert_desc_perm a l : Permutation (a :: l) (insert_desc a l).
  Proof.
    induction l as [|b l IH]; simpl; [apply Permutation_refl|].
    destruct (Qltb (key a) (key b)); [|apply Permutation_refl].
    eapply Permutation_trans; [apply perm_swap|]. apply perm_skip, IH.
  Qed.

  Lemma sorted_asc_perm l : Permutation l (sorted_asc l).
  Proof.
    induction l as [|a l IH]; simpl; [apply perm_nil|].
    eapply Permutation_trans; [apply perm_skip, IH|apply insert_asc_perm].
  Qed.

  Lemma sorted_desc_perm l : Permutation l (sorted_desc l).
  Proof.
    induction l as [|a l IH]; simpl; [apply perm_nil|].
    eapply Permutation_trans; [apply perm_skip, IH|apply insert_desc_perm].
  Qed.

  Fixpoint ascending (l : list A) : Prop :=
    match l with
    | [] => True
    | a :: t => (forall b, In b t -> key a <= key b) /\ ascending t
    end.

  Fixpoint descending (l : list A) : Prop :=
    match l with
    | [] => True
    | a :: t => (forall b, In b t -> key b <= key a) /\ descending t
    end.

  Lemma insert_asc_ascending a l : ascending l -> ascending (insert_asc a l).
  Proof.
    induction l as [|b l IH]; simpl; intro H.
    - split; [intros b []|auto].
    - destruct H as (Hb & Hl). destruct (Qltb (key b) (key a)) eqn:E.
      + apply Qltb_lt in E. simpl. split; [|auto].
        intros c Hc. apply (Permutation_in _ (Permutation_sym (insert_asc_perm a l))) in Hc.
        destruct Hc as [<-|Hc]; [lra|auto].
      + apply Qltb_ge in E. simpl. split; [|split; auto].
        intros c [<-|Hc]; [lra|]. specialize (Hb c Hc). lra.
  Qed.

  Lemma sorted_asc_ascending l : ascending (sorted_asc l).
  Proof. induction l as [|a l IH]; simpl; [auto|]. apply insert_asc_ascending, IH. Qed.

  Lemma insert_desc_descending a l : descending l -> descending (insert_desc a l).
  Proof.
    induction l as [|b l IH]; simpl; intro H.
    - split; [intros b []|auto].
    - destruct H as (Hb & Hl). destruct (Qltb (key a) (key b)) eqn:E.
      + apply Qltb_lt in E. simpl. split; [|auto].
        intros c Hc. apply (Permutation_in _ (Permutation_sym (insert_desc_perm a l))) in Hc.
        destruct Hc as [<-|Hc]; [lra|auto].
      + apply Qltb_ge in E. simpl. split; [|split; auto].
        intros c [<-|Hc]; [lra|]. specialize (Hb c Hc). lra.
  Qed.

  Lemma sorted_desc_descending l : descending (sorted_desc l).
  Proof. induction l as [|a l IH]; simpl; [auto|]. apply insert_desc_descending, IH. Qed.

  Lemma ascending_app l1 l2 : ascending (l1 ++ l2) ->
    forall a b, In a l1 -> In b l2 -> key a <= key b.
  Proof.
    induction l1 as [|c l1 IH]; simpl; intros H a b Ha Hb; [destruct Ha|].
    destruct H as (Hc & H). destruct Ha as [<-|Ha].
    - apply Hc. apply in_or_app; auto.
    - apply IH; auto.
  Qed.
End Sorted.

(* ------------------------------------------------------------------ *)
(** * Lists *)

Fixpoint set_nth {A} (n : nat) (a : A) (l : list A) : list A :=
  match l, n with
  | [], _ => []
  | _ :: t, O => a :: t
  | b :: t, S m => b :: set_nth m a t
  end.

Lemma set_nth_length {A} n (a : A) l : length (set_nth n a l) = length l.
Proof. revert n. induction l as [|b l IH]; intros [|n]; simpl; auto. Qed.

Lemma nth_error_set_nth {A} n m (a : A) l :
  nth_error (set_nth n a l) m =
  if Nat.eqb n m then (if Nat.ltb n (length l) then Some a else None) else nth_error l m.
Proof.
  revert n m. induction l as [|b l IH]; intros n m; simpl.
  - destruct n, m; simpl; auto. destruct (Nat.eqb n m); auto.
  - destruct n as [|n], m as [|m]; simpl; auto. rewrite IH.
    destruct (Nat.eqb n m); auto.
Qed.

Lemma NoDup_app_intro {A} (l1 l2 : list A) :
  NoDup l1 -> NoDup l2 -> (forall x, In x l1 -> In x l2 -> False) -> NoDup (l1 ++ l2).
Proof.
  induction l1 as [|a l1 IH]; intros H1 H2 Hd; simpl; auto.
  inversion H1; subst. constructor.
  - rewrite in_app_iff. intros [H|H]; auto. apply (Hd a); simpl; auto.
  - apply IH; auto. intros x Hx Hy. apply (Hd x); simpl; auto.
Qed.

Lemma NoDup_app_inv {A} (l1 l2 : list A) :
  NoDup (l1 ++ l2) -> NoDup l1 /\ NoDup l2 /\ (forall x, In x l1 -> In x l2 -> False).
Proof.
  induction l1 as [|a l1 IH]; intro H; simpl in *.
  - repeat split; auto. constructor.
  - inversion H as [|x l Hn Hd]; subst. destruct (IH Hd) as (I1 & I2 & I3).
    rewrite in_app_iff in Hn. repeat split; auto.
    + constructor; auto.
    + intros x [<-|Hx] Hy; [tauto|]. eapply I3; eauto.
Qed.

Lemma NoDup_map_inj {A B} (f : A -> B) l :
  (forall x y, In x l -> In y l -> f x = f y -> x = y) -> NoDup l -> NoDup (map f l).
Proof.
  intros Hinj H. induction H as [|a l Hn Hd IH]; simpl; constructor.
  - rewrite in_map_iff. intros (b & Hb & Hin). apply Hn.
    rewrite <- (Hinj b a); simpl; auto.
  - apply IH. intros x y Hx Hy. apply Hinj; simpl; auto.
Qed.

Lemma NoDup_filter' {A} (f : A -> bool) l : NoDup l -> NoDup (filter f l).
Proof. apply NoDup_filter. Qed.

Lemma last_app_single {A} (l : list A) a d : last (l ++ [a]) d = a.
Proof. induction l as [|b l IH]; simpl; auto. destruct (l ++ [a]) eqn:E; auto. destruct l; discriminate. Qed.

Lemma forallb_false_exists {A} (f : A -> bool) l :
  forallb f l = false <-> exists a, In a l /\ f a = false.
Proof.
  induction l as [|a l IH]; simpl; split; intro H; try discriminate.
  - destruct H as (a & [] & _).
  - apply andb_false_iff in H. destruct H as [H|H]; [exists a; auto|].
    apply IH in H. destruct H as (b & Hb & Hf). exists b; auto.
  - destruct H as (b & [<-|Hb] & Hf); [rewrite Hf; auto|].
    apply andb_false_iff. right. apply IH. exists b; auto.
Qed.
