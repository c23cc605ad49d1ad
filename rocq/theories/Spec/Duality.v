(** Lower bounds: plans with several vehicle types, and dual values. *)
From Verif.Base Require Import Prelude Graph.
From Verif.Spec Require Import Routes Network LinProg MIP Master.
From Verif.Model Require Import Master.

(** A plan: routes (customers in order) with the type of the vehicle. *)
Definition tour := (nat * list node)%type.
Definition tours_cost (g : vgraph) (P : list tour) : Q :=
  Qsum_over P (fun t => path_sum (cost_of g (fst t)) (trip (snd t))).

(** Everybody is visited, and no type is used more often than allowed (with use_all_vehicles:
    exactly as often as demanded). *)
Record serves (g : vgraph) (o : moptions) (P : list tour) : Prop := {
  sv_visit : forall v d, customer g v d -> exists t, In t P /\ In v (snd t);
  sv_fleet : forall l, fleet_bound o l -> forall k n, nth_error l k = Some n ->
    inject_Z (Z.of_nat (List.length (filter (fun t => (fst t =? k)%nat) P))) <= n /\
    (mo_all o = true -> inject_Z (Z.of_nat (List.length (filter (fun t => (fst t =? k)%nat) P))) == n)
}.

(** Dual values [pi] of the relaxed master problem: signs, and their value is at least the value
    [q] reported for the relaxation. Both hold for the optimal dual solution of the relaxation;
    the upper bounds of the route variables can only make [q] smaller. *)
Definition dual_value (m : master) (pi : mrow -> Q) : Q :=
  Qsum_over (ms_rows m) (fun r => pi (fst r) * snd (snd r)).
Record dual_solution (o : moptions) (m : master) (pi : mrow -> Q) (q : Q) : Prop := {
  ds_visit : forall v, 0 <= pi (Visit v);
  ds_fleet : forall k, mo_all o = false -> pi (Fleet k) <= 0;
  ds_value : q <= dual_value m pi
}.
