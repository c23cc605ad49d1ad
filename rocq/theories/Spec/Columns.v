(** What it means that a column of the master problem is a given route. *)
From Verif.Base Require Import Prelude Graph.
From Verif.Spec Require Import Routes Network MIP.
From Verif.Model Require Import Initial.

(** [c] is the route through the customers [cs] in network [g], driven by a vehicle of type [k]. *)
Record is_column (g : vgraph) (k : nat) (cs : list node) (c : column) : Prop := {
  co_nodes : Permutation (c_nodes c) (trip cs);
  co_arcs : Permutation (c_arcs c) (arcs (trip cs));
  co_cost : c_cost c == path_sum (cost_of g k) (trip cs);
  co_type : c_type c = k
}.

(** The columns grow: [new] is [old] followed by further columns. *)
Definition extends (old new : list column) : Prop := exists l, new = old ++ l.
