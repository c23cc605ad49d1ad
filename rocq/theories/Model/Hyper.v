(** hyper_heuristic.py with the defaults used by vrp.py 240: performance measure
    "weighted_average", acceptance "objective_decrease" (move_acceptance 186-204 then does nothing).
    The "relative_improvement" branches are not modelled. *)
From Verif.Base Require Import Prelude Graph.
From Verif.Spec Require Import Routes Network.
From Verif.Model Require Import Args Reach Checks Preprocess ClarkeWright Greedy Initial Pricing.

(** 48: heuristic_options *)
Inductive strat := BestPaths | BestEdges1 | BestEdges2 | Exact.
(** hyper_heuristic.py 48, the order of heuristic_options *)
Definition strats : list strat := [BestPaths; BestEdges1; BestEdges2; Exact].
(** hyper_heuristic.py 48, equality of strategy names *)
Definition strat_eqb (a b : strat) : bool :=
  match a, b with
  | BestPaths, BestPaths | BestEdges1, BestEdges1 | BestEdges2, BestEdges2 | Exact, Exact => true
  | _, _ => false
  end.

(** A dict with the four strategies as keys (hyper_heuristic.py 79-88) *)
Record per (A : Type) := mkPer { of_paths : A; of_edges1 : A; of_edges2 : A; of_exact : A }.
Arguments mkPer {A}. Arguments of_paths {A}. Arguments of_edges1 {A}.
Arguments of_edges2 {A}. Arguments of_exact {A}.
(** hyper_heuristic.py 79-88, reading an entry *)
Definition at_ {A} (p : per A) (s : strat) : A :=
  match s with BestPaths => of_paths p | BestEdges1 => of_edges1 p | BestEdges2 => of_edges2 p | Exact => of_exact p end.
(** hyper_heuristic.py 79-88, dict.fromkeys *)
Definition tab {A} (f : strat -> A) : per A := mkPer (f BestPaths) (f BestEdges1) (f BestEdges2) (f Exact).
(** hyper_heuristic.py 79-88, writing an entry *)
Definition put {A} (p : per A) (s : strat) (a : A) : per A := tab (fun s' => if strat_eqb s s' then a else at_ p s').

(** The attributes used (64-105). *)
Record hyper := mkHyper {
  hy_theta : Q;
  hy_objective : option Q;       (* current_objective_value *)
  hy_current : option strat;     (* current_heuristic *)
  hy_produced : bool;            (* produced_column *)
  hy_decreased : bool;           (* obj_has_decreased *)
  hy_iterations : per nat;
  hy_added : per nat;            (* added_columns *)
  hy_exp : per Q;
  hy_points : per Q;             (* heuristic_points *)
  hy_decrease : per Q;           (* objective_decrease *)
  hy_norm_decrease : per Q;
  hy_norm_runtime : per Q;
  hy_last : per Q;               (* last_runtime_dict *)
  hy_runtimes : list Q;          (* runtime_dist; kept in order of arrival, see [rank] *)
  hy_total : Q;                  (* total_objective_decrease *)
  hy_active : per nat;           (* active_columns *)
  hy_active_sum : nat;           (* sum(active_columns.values()), including "Other" *)
  hy_end : option Q              (* end_time *)
}.

(** hyper_heuristic.py 79-88, the same value for every strategy *)
Definition all {A} (a : A) : per A := mkPer a a a a.

(** 46-105 __init__; inf is 1e10 *)
Definition inf : Q := 10000000000 # 1.
(** hyper_heuristic.py 46-105 *)
Definition new_hyper : hyper :=
  mkHyper 1 None None false false (all 0%nat) (all 0%nat) (all 0) (all inf) (all 0) (all 0) (all 0) (all 0)
          [] 0 (all 0%nat) 0 None.

(** 107-115 init; [t] is time() *)
Definition init (q : option Q) (t : Q) (h : hyper) : hyper :=
  mkHyper (hy_theta h) q (Some BestPaths) (hy_produced h) (hy_decreased h) (hy_iterations h) (hy_added h)
          (hy_exp h) (hy_points h) (hy_decrease h) (hy_norm_decrease h) (hy_norm_runtime h) (hy_last h)
          (hy_runtimes h) (hy_total h) (hy_active h) (hy_active_sum h) (Some t).

(** vrp.py 607: end_time = time() *)
Definition set_end (t : Q) (h : hyper) : hyper :=
  mkHyper (hy_theta h) (hy_objective h) (hy_current h) (hy_produced h) (hy_decreased h) (hy_iterations h)
          (hy_added h) (hy_exp h) (hy_points h) (hy_decrease h) (hy_norm_decrease h) (hy_norm_runtime h)
          (hy_last h) (hy_runtimes h) (hy_total h) (hy_active h) (hy_active_sum h) (Some t).

(** 117-133 pick_heuristic; [choice] is the index drawn by random_state.choice *)
Definition max_points (h : hyper) : Q :=
  fold_left (fun m s => if Qltb m (at_ (hy_points h) s) then at_ (hy_points h) s else m) [BestEdges1; BestEdges2; Exact]
            (at_ (hy_points h) BestPaths).
(** hyper_heuristic.py 127-128 *)
Definition best_heuristics (h : hyper) : list strat :=
  filter (fun s => Qeq_bool (at_ (hy_points h) s) (max_points h)) strats.
(** hyper_heuristic.py 130-132, assignment to current_heuristic *)
Definition set_current (s : strat) (h : hyper) : hyper :=
  mkHyper (hy_theta h) (hy_objective h) (Some s) (hy_produced h) (hy_decreased h) (hy_iterations h)
          (hy_added h) (hy_exp h) (hy_points h) (hy_decrease h) (hy_norm_decrease h) (hy_norm_runtime h)
          (hy_last h) (hy_runtimes h) (hy_total h) (hy_active h) (hy_active_sum h) (hy_end h).
(** hyper_heuristic.py 117-133 *)
Definition pick_heuristic (choice : nat) (h : hyper) : hyper * strat :=
  let l := best_heuristics h in
  let s := nth (choice mod List.length l) l BestPaths in
  (set_current s h, s).

(** bisect.bisect(sorted list, x): the number of elements not larger than x (hyper_heuristic.py 274) *)
Definition rank (l : list Q) (x : Q) : nat := List.length (filter (fun y => Qle_bool y x) l).

Section Performance.
  (** 317-320 _update_exp: sqrt(2 * log(n) / i) *)
  Variable ucb : nat -> nat -> Q.

  (** hyper_heuristic.py 319 *)
  Definition total_iterations (p : per nat) : nat :=
    (of_paths p + of_edges1 p + of_edges2 p + of_exact p)%nat.

  (** 157-184 current_performance with 233-238 _compute_last_runtime and 258-284
      _current_performance_wgtavr; [t] is time(), [active] and [active_sum] describe the argument
      active_columns *)
  Definition current_performance (q : option Q) (produced : bool) (active : per nat) (active_sum : nat)
      (t : Q) (h : hyper) : res hyper :=
    let* start := of_opt TypeError (hy_end h) in
    let last := t - start in
    let* cur := of_opt KeyError (hy_current h) in
    let lasts := put (hy_last h) cur last in
    let iters := put (hy_iterations h) cur (S (at_ (hy_iterations h) cur)) in
    let added := if produced then put (hy_added h) cur (S (at_ (hy_added h) cur)) else hy_added h in
    let* q0 := of_opt TypeError (hy_objective h) in
    let* q1 := of_opt TypeError q in
    let dec := pymax2 (q0 - q1) 0 in
    let runs := hy_runtimes h ++ [last] in
    let decs := put (hy_decrease h) cur (at_ (hy_decrease h) cur + dec) in
    let total := hy_total h + dec in
    let used s := (0 <? at_ iters s)%nat in
    let n := total_iterations iters in
    Ok (mkHyper (hy_theta h) q (hy_current h) produced (Qltb 0 (q0 - q1)) iters added
          (tab (fun s => if used s then ucb n (at_ iters s) else at_ (hy_exp h) s))
          (hy_points h) decs
          (tab (fun s => if used s && Qltb 0 total then at_ decs s / total else at_ (hy_norm_decrease h) s))
          (tab (fun s => if used s
                         then inject_Z (Z.of_nat (List.length runs - rank runs (at_ lasts s)))
                              / inject_Z (Z.of_nat (List.length runs))
                         else at_ (hy_norm_runtime h) s))
          lasts runs total active active_sum (Some t)).

  (** 135-155 update_scaling_factor; step is 0.1 *)
  Definition new_theta (h : hyper) : Q :=
    if hy_decreased h && hy_produced h then 99 # 100 else pymax2 (hy_theta h - (1 # 10)) (1 # 10).

  (** 322-345 _update_params_wgtavr: the new points of a strategy that was applied *)
  Definition quality (h : hyper) (s : strat) : res Q :=
    let a := inject_Z (Z.of_nat (at_ (hy_active h) s)) in
    let* _ := raise_if (hy_active_sum h =? 0)%nat ZeroDivisionError in
    let* _ := raise_if (at_ (hy_added h) s =? 0)%nat ZeroDivisionError in
    Ok ((5 # 10) * a / inject_Z (Z.of_nat (hy_active_sum h))
        + (1 # 10) * at_ (hy_norm_runtime h) s
        + (5 # 100) * at_ (hy_norm_decrease h) s
        + (5 # 100) * a / inject_Z (Z.of_nat (at_ (hy_added h) s))).
  (** hyper_heuristic.py 324 *)
  Definition sum_exp (h : hyper) : Q :=
    of_paths (hy_exp h) + of_edges1 (hy_exp h) + of_edges2 (hy_exp h) + of_exact (hy_exp h).
  (** hyper_heuristic.py 332-334 *)
  Definition spread (h : hyper) (s : strat) : Q :=
    if Qeq_bool (sum_exp h) 0 then 0 else at_ (hy_exp h) s / sum_exp h.
  (** hyper_heuristic.py 341-343 *)
  Definition set_points (theta : Q) (points : per Q) (h : hyper) : hyper :=
    mkHyper theta (hy_objective h) (hy_current h) (hy_produced h) (hy_decreased h) (hy_iterations h)
            (hy_added h) (hy_exp h) points (hy_decrease h) (hy_norm_decrease h) (hy_norm_runtime h)
            (hy_last h) (hy_runtimes h) (hy_total h) (hy_active h) (hy_active_sum h) (hy_end h).

  (** 220-231 update_parameters, with the loop of 322-345 *)
  Definition update_parameters (h : hyper) : res hyper :=
    let theta := new_theta h in
    let* points := foldM (fun p s =>
        if (0 <? at_ (hy_iterations h) s)%nat then
          let* q := quality h s in
          Ok (put p s (theta * q + (3 # 10) * spread h s * (1 - theta)))
        else Ok p) strats (hy_points h) in
    Ok (set_points theta points h).
End Performance.
