(** Property C91: the hyper-heuristic chooses by the score of the history.

    [history st last l] (Spec/History.v): what the run up to [st] gives to note about the strategies.
    [score] (ibid.): the score of a strategy as a function of that. *)
From Verif.Base Require Import Prelude Graph.
From Verif.Spec Require Import Routes Network LinProg Pool Master Run History.
From Verif.Model Require Import Args Initial Pricing Master Hyper ColGen.
From Verif.Proofs Require Import MasterWitness DiveWitness Stagnation HistoryProofs TagProofs.

(* ---- C91 ---- *)
(** [note st last s1 v e]: [e] is what is noted before the choice. *)
Theorem C91_scores : forall E C g, cg_strategy C = None -> forall s st s1 D q s2 p,
  fresh C g s -> cg_run_exact C <> 0%Z -> iteration E C s st -> (0 < s_iter st)%nat -> ~ forced C st ->
  solve_relaxed E C st = Ok (s1, D, q) -> next_strategy E C q s1 = Ok (s2, p) ->
  exists last l v e, history E C s st last l /\ q = Some v /\ note E st last s1 v e /\
    let used := in_use (s_values s1) (s_pool st) in
    forall x, score (e_ucb E) (e :: l) (List.length (found_by x used)) (List.length used) x <=
              score (e_ucb E) (e :: l) (List.length (found_by p used)) (List.length used) p.
Proof. exact scored_choice. Qed.
Print Assumptions C91_scores.

(** The marks by which the columns in use are credited: the column that ends an iteration gets the
    mark of the strategy of the iteration, the columns of the greedy search get none, and no mark
    is ever changed. *)
Theorem C91_marks : forall E C st s1 D q s2 p s', (0 < cg_types C)%nat -> s_more st = true ->
  solve_relaxed E C st = Ok (s1, D, q) -> next_strategy E C q s1 = Ok (s2, p) -> find_columns E C st = Ok s' ->
  exists old new, Forall2 (remarked (s_values s1)) (s_pool st) old /\ unmarked new /\
    (s_more s' = false /\ s_pool s' = old ++ new \/
     s_more s' = true /\ exists c, s_pool s' = old ++ new ++ [c] /\ c_tag c = Some (mark p)).
Proof. exact tags. Qed.
Print Assumptions C91_marks.

Example C91_case : exists st s1 D q s2 p, fresh (cg_s None 1) netm start_k /\ cg_run_exact (cg_s None 1) <> 0%Z /\
  iteration env_q (cg_s None 1) start_k st /\ s_iter st = 5%nat /\ ~ forced (cg_s None 1) st /\
  solve_relaxed env_q (cg_s None 1) st = Ok (s1, D, q) /\ next_strategy env_q (cg_s None 1) q s1 = Ok (s2, p) /\
  exists last l, history env_q (cg_s None 1) start_k st (Some last) l /\ List.length l = 4%nat.
Proof. exact history_case. Qed.
