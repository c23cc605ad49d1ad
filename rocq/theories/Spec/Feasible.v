(** Basic feasibility, in terms of the prepared network. *)
From Verif.Base Require Import Prelude Graph.
From Verif.Spec Require Import Routes Network.

(** A limit given by the user ([None] and 0 both mean "no limit"). *)
Definition limit (o : option Z) (D : Z) : Prop := o = Some D /\ D <> 0%Z.

(** The amount [q] fits in some vehicle ([None] and the empty list mean "no capacity limit"). *)
Definition fits_some (caps : option (list Z)) (q : Q) : Prop :=
  forall c l, caps = Some (c :: l) -> exists x, In x (c :: l) /\ q <= inject_Z x.

Definition nonneg_times (g : vgraph) : Prop := forall u v, 0 <= time_of g u v.
Definition nonneg_services (g : vgraph) : Prop := forall v, 0 <= service_of g v.
Definition nonneg_demands (g : vgraph) : Prop := forall v, 0 <= demand_of g v.
Definition nonneg_collects (g : vgraph) : Prop := forall v, 0 <= collect_of g v.

(** [v] lies on a Source-to-Sink walk of travel time at most [D]. *)
Definition reachable_within (g : vgraph) (v : node) (D : Q) : Prop :=
  exists p1 p2, walk (arc_list g) Source v p1 /\ walk (arc_list g) v Sink p2 /\
    path_sum (time_of g) p1 + path_sum (time_of g) p2 <= D.
