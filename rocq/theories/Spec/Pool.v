(** Histories of the pool of columns. *)
From Coq Require Import Relations.
From Verif.Base Require Import Prelude Graph.
From Verif.Spec Require Import Routes Network LinProg.
From Verif.Model Require Import Args Preprocess Initial Pricing GreedyPricing LPPricing Cspy.

(** One call of one of the three pricing algorithms, on any graph, with any limits, and whatever
    the solver, the random numbers or cspy do. *)
Inductive pricing_step : list column -> list column -> Prop :=
| by_mip h run k caps o ns dur neg tl exact solver keys pool pool1 more :
    lp_solve h run k caps o ns dur neg tl exact solver keys pool = Ok (pool1, more) ->
    pricing_step pool pool1
| by_greedy h k caps ns dur keys n rnd pool pool1 more :
    greedy_pricing h caps ns dur k keys pool n rnd = Ok (pool1, more) ->
    pricing_step pool pool1
| by_labelling g h k caps o ns dur alg keys run elementary pool pool1 more :
    cspy_solve g h k caps o ns dur alg keys run elementary pool = Ok (pool1, more) ->
    pricing_step pool pool1.

(** The number in the name of a column. *)
Definition number (n : cname) : nat :=
  match n with CNat i | CElem i | CNonElem i => i end.

(** Columns are numbered 1, 2, 3, ... in the order of their creation. *)
Definition numbered (pool : list column) : Prop :=
  forall i c, nth_error pool i = Some c -> number (c_name c) = S i.
