(** What is left of a problem when some customers are taken out, in terms of the user's graph. *)
From Verif.Base Require Import Prelude Graph.
From Verif.Spec Require Import Routes Network Inputs Plans Variants.
From Verif.Model Require Import Args.

(** Complete routes, and the customers on them. *)
Definition all_complete (pre : list (list node)) : Prop := forall r, In r pre -> exists cs, r = Source :: cs ++ [Sink].
Definition riders (pre : list (list node)) : list node := flat_map stops pre.

(** The graph without the nodes [away] and their arcs. *)
Definition others (away : list node) (g : rgraph) : rgraph :=
  mkGraph (filter (fun x => negb (mem (fst x) away)) (gnodes g))
          (filter (fun x => negb (mem (fst (fst x)) away) && negb (mem (snd (fst x)) away)) (gedges g)).

(** The same graph, but the Sink closes at [T] ([None]: as in [g]). *)
Definition closing (T : option Q) (g : rgraph) : rgraph :=
  match T with
  | None => g
  | Some t => mkGraph (map (fun x => (fst x, if node_eqb (fst x) Sink
      then let r := snd x in mkNR (r_demand r) (r_collect r) (r_service r) (r_lower r) (Some t) (r_freq r) (r_request r) (r_aux_depot r)
      else snd x)) (gnodes g)) (gedges g)
  end.

(** Somebody can be served and left for Sink at a positive time, or Sink's closing time is given, or
    there are no times at all. *)
Definition untimed (g : rgraph) : Prop :=
  (forall u r, node_data g u = Some r -> r_upper r = None /\ r_service r = None) /\
  forall u w e, arc_data g u w = Some e -> r_time e = None.
Definition clocked (g : rgraph) : Prop :=
  (exists u, In u (custs g) /\ In (u, Sink) (arc_list g) /\ 0 < user_upper g 0 u + user_service g u + user_time g u Sink) \/
  ~ user_upper g 0 Sink == 0 \/ untimed g.
