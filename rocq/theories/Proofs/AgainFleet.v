(** What becomes of the number of vehicles when solve() returns. *)
From Verif.Base Require Import Prelude Graph.
From Verif.Spec Require Import Routes Network Inputs LinProg Variants.
From Verif.Model Require Import Args Reach Checks Preprocess ClarkeWright Greedy Initial Pricing
  GreedyPricing LPPricing Cspy Master Dive Hyper ColGen Post Schedule Solve.

Lemma format_number a : (forall k n, number_of (mkArgs (a_num_stops a) (a_load_capacity a) (a_duration a) (a_fixed_cost a)
    (format_val (a_num_vehicles a)) (a_mixed_fleet a) (a_strategy a)) k n <-> number_of a k n).
Proof.
  intros k n. unfold number_of. cbn [a_num_vehicles]. destruct (a_num_vehicles a) as [|x|l]; unfold format_val, py_truthy; [tauto| |destruct (nonempty l); tauto].
  destruct (num_zero x) eqn:Z; cbn [negb].
  - tauto.
  - assert (NZ : ~ num_val x == 0). { intro Y. unfold num_zero in Z. apply Qeq_bool_iff in Y. congruence. }
    split.
    + intros [(y & Y & _)|(l & y & Y & H & ->)]; [discriminate|]. injection Y as <-. left. exists x. destruct k as [|k]; [|destruct k; discriminate].
      injection H as <-. auto.
    + intros [(y & Y & _ & -> & ->)|(l & y & Y & _)]; [|discriminate]. injection Y as <-. right. exists [x], x. auto.
Qed.

Lemma prepare_number v sa a K p : prepare v sa = Ok (a, K, p) -> forall k n, number_of a k n <-> number_of (v_args v) k n.
Proof.
  intros H k n. unfold prepare in H. apply bind_ok in H. destruct H as ([[a1 ty] g1] & H & H').
  apply bind_ok in H'. destruct H' as (K1 & _ & H'). apply bind_ok in H'. destruct H' as (p1 & _ & H'). injection H' as <- _ _.
  unfold prepare_args in H. destruct (a_mixed_fleet _).
  - apply bind_ok in H. destruct H as (x1 & _ & H). apply bind_ok in H. destruct H as (x2 & _ & H). injection H as <- _ _. reflexivity.
  - unfold format in H. apply bind_ok in H. destruct H as (x1 & _ & H). apply bind_ok in H. destruct H as (x2 & _ & H). injection H as <- _ _.
    rewrite <- (format_number (v_args v) k n). reflexivity.
Qed.

Lemma solve_args X fuel fuel2 sa v v' out : solve X fuel fuel2 sa v = Ok (v', out) ->
  exists a K p, prepare v sa = Ok (a, K, p) /\ v_args v' = args_after a (v_pickup v) (v_periodic v) p.
Proof.
  intro H. unfold solve in H. cbv zeta in H. apply bind_ok in H. destruct H as ([[a K] p] & P & H). exists a, K, p. split; [exact P|].
  destruct (sa_heuristic sa).
  - apply bind_ok in H. destruct H as (r & _ & H). injection H as <- _. reflexivity.
  - apply bind_ok in H. destruct H as (ic & _ & H). apply bind_ok in H. destruct H as (s & _ & H). apply bind_ok in H. destruct H as (e & _ & H).
    apply bind_ok in H. destruct H as ([[[rs ts] dr] sch] & _ & H). injection H as <- _. reflexivity.
Qed.

(** The number of vehicles is kept, but a periodic problem loses it. *)
Theorem number_after X fuel fuel2 sa v v' out : solve X fuel fuel2 sa v = Ok (v', out) ->
  (truthy (v_periodic v) = false -> forall k n, number_of (v_args v') k n <-> number_of (v_args v) k n) /\
  (truthy (v_periodic v) = true -> forall k n, ~ number_of (v_args v') k n).
Proof.
  intro H. destruct (solve_args _ _ _ _ _ _ _ H) as (a & K & p & P & E). assert (N := prepare_number _ _ _ _ _ P). rewrite E.
  split; intros T k n; unfold args_after; rewrite T.
  - rewrite <- N. reflexivity.
  - unfold number_of. cbn [andb a_num_vehicles]. destruct (a_num_vehicles a) as [|x|l] eqn:En.
    + cbn. intros [(y & Y & _)|(l & y & Y & _)]; discriminate.
    + cbn [py_truthy]. destruct (num_zero x) eqn:Z; cbn [negb].
      * intros [(y & Y & Y2 & _)|(l & y & Y & _)]; [|discriminate]. injection Y as <-. apply Y2. apply Qeq_bool_iff. exact Z.
      * intros [(y & Y & _)|(l & y & Y & Y2 & _)]; [discriminate|]. injection Y as <-. destruct k; discriminate.
    + cbn [py_truthy]. destruct l as [|x l]; cbn [nonempty].
      * intros [(y & Y & _)|(l & y & Y & Y2 & _)]; [discriminate|]. injection Y as <-. destruct k; discriminate.
      * intros [(y & Y & _)|(l0 & y & Y & Y2 & _)]; [discriminate|]. injection Y as <-. destruct k; discriminate.
Qed.
