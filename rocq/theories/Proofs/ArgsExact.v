(** The effect of argument formatting on the arguments themselves. *)
From Verif.Base Require Import Prelude Graph.
From Verif.Spec Require Import Routes Network Inputs Prep.
From Verif.Model Require Import Args Checks.
From Verif.Proofs Require Import ChecksProofs.

Lemma format_wrapped v : wrapped v (format_val v).
Proof.
  unfold format_val. destruct (py_truthy v) eqn:T.
  - destruct v as [|n|l]; try discriminate; [|constructor].
    constructor. apply (not_falsy _ T).
  - apply wrapped_not_given. apply falsy_intro; auto.
Qed.

Lemma prepare_args_args a g a' types g' :
  prepare_args a g = Ok (a', types, g') ->
  a_num_stops a' = a_num_stops a /\ a_duration a' = a_duration a /\
  a_mixed_fleet a' = a_mixed_fleet a /\ a_strategy a' = a_strategy a /\
  (a_mixed_fleet a = true -> a' = a /\ forall K, types = Some K <-> fleet_size a K) /\
  (a_mixed_fleet a = false -> types = Some 1%nat /\
     wrapped (a_load_capacity a) (a_load_capacity a') /\ wrapped (a_fixed_cost a) (a_fixed_cost a') /\
     wrapped (a_num_vehicles a) (a_num_vehicles a')).
Proof.
  intro H. rewrite prepare_args_unfold in H. destruct (a_mixed_fleet a) eqn:M.
  - apply bind_ok in H. destruct H as (t & Ht & H). apply bind_ok in H. destruct H as (u & _ & H).
    inversion H; subst. split; auto. split; auto. split; auto. split; auto. split; [|discriminate].
    intros _. split; auto. intro K. split; intro HK.
    + subst types. apply (define_types_ok a' (Some K)). auto.
    + apply fleet_size_define in HK. congruence.
  - apply bind_ok in H. destruct H as (u & _ & H). inversion H; subst. cbn.
    split; auto. split; auto. split; auto. split; auto. split; [discriminate|].
    intros _. split; auto. split; [|split]; apply format_wrapped.
Qed.
