(** What solve(dive=True) returns. *)
From Verif.Base Require Import Prelude Graph.
From Verif.Spec Require Import Routes Network Inputs Plans Variants.
From Verif.Model Require Import Args.

(** As [planned], without a word on how often a customer is visited or how many vehicles there are. *)
Record driven (g : rgraph) (a : rargs) (w pd both : bool) (drop : option Q)
  (routes : list (nat * list node)) (types : nat -> option nat) (dropped : list node) (ks : list nat) : Prop := {
  dr_length : List.length ks = List.length routes;
  dr_names : map fst routes = seq 1 (List.length routes);
  dr_types : forall i k, nth_error ks i = Some k -> types (S i) = Some k;
  dr_routes : Forall2 (fun k r => route_shape r /\
                (stops r <> [] -> along (arc_list g ++ depot_arcs g) r /\ respects g a w pd both k r)) ks (map snd routes);
  dr_only : only_visits (custs g) (map snd routes);
  dr_dropped : NoDup dropped /\ (forall u, In u dropped -> In u (custs g)) /\ (truthyQ drop = false -> dropped = [])
}.

(** Every customer is on a route or reported as dropped. *)
Definition nobody_lost (g : rgraph) (routes : list (nat * list node)) (dropped : list node) : Prop :=
  forall u, In u (custs g) -> (exists i r, In (i, r) routes /\ In u r) \/ In u dropped.
