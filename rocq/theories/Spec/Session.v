(** Several problems in one process. *)
From Verif.Base Require Import Prelude Graph.
From Verif.Spec Require Import Routes Network LinProg.
From Verif.Model Require Import Args Initial Pricing Master Dive ColGen Post Solve.

(** [session dived tabu]: any number of calls of solve() were made in this process, on any objects, new or
    solved before, and [tabu] is the list of columns that diving may not fix any more. Every object reads
    that one list. [dived] tells whether one of the calls dived. (Calls that raise are left out.) *)
Inductive session : bool -> list mvar -> Prop :=
| session_begin : session false []
| session_call dived X fuel fuel2 sa v v' out : session dived (v_tabu v) ->
    solve X fuel fuel2 sa v = Ok (v', out) ->
    session (dived || (sa_dive sa && negb (sa_heuristic sa))) (v_tabu v').

(** What the user can see of a call: the results, or the exception. *)
Definition results (r : res (vrp * outcome)) : res outcome :=
  match r with Ok p => Ok (snd p) | Err e => Err e end.
