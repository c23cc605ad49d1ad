(** The limits of a call of solve(), and the searches for routes that run within them. *)
From Verif.Base Require Import Prelude Graph.
From Verif.Spec Require Import Network LinProg MIP.
From Verif.Model Require Import Args Preprocess Pricing LPPricing Cspy ColGen Solve.

(** The same call with other values of time_limit and max_iter *)
Definition with_limits (tl : option Q) (mi : option Z) (sa : solve_args) : solve_args :=
  mkSA (sa_initial sa) (sa_pre sa) (sa_strategy sa) (sa_cspy sa) (sa_elementary sa) tl (sa_dive sa)
       (sa_greedy sa) mi (sa_run_exact sa) (sa_heuristic sa).

(** The solver and the labelling algorithm make nothing of the time limit they are given. *)
Definition time_blind (E : env) : Prop :=
  forall n t t', e_label E n t = e_label E n t' /\ e_pricer E n t = e_pricer E n t'.

(** Everything outside is the same, but for the searches for routes. *)
Definition with_searches (X : outside)
    (pr : nat -> option Q -> program pvar -> answer pvar)
    (la : nat -> option Q -> vgraph -> label -> (label -> arc -> res label) -> bool -> option Q -> option (Q * list node))
  : outside :=
  let E := x_env X in
  mkOut (mkEnv (e_clock E) (e_master E) (e_duals E) (e_dive E) (e_order E) pr (e_negative E) (e_paths E)
               la (e_random E) (e_choice E) (e_ucb E))
        (x_start X) (x_perms X) (x_path X) (x_days X).
