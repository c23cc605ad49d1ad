(** Plain problems: no time windows, no pickups and deliveries, no distribution with collection,
    one vehicle type, no periods. *)
From Verif.Base Require Import Prelude Graph.
From Verif.Spec Require Import Routes Network Inputs Plans.
From Verif.Model Require Import Args.

(** If there is a time limit, then there and back takes the same time, and every customer can be
    served alone within the limit. *)
Definition fair_times (g : rgraph) (a : rargs) : Prop := forall D, time_limit a D ->
  (forall u, In u (custs g) -> user_time g u Sink == user_time g Source u) /\
  (forall u w, In u (custs g) -> In w (custs g) -> In (u, w) (arc_list g) -> In (w, u) (arc_list g) ->
     user_time g w u == user_time g u w) /\
  (forall u, In u (custs g) ->
     user_time g Source u + user_time g u Sink + user_service g u <= inject_Z D).
