(** Periodic problems, in terms of the user's graph. *)
From Verif.Base Require Import Prelude Graph.
From Verif.Spec Require Import Routes Network Inputs Plans Variants Results.
From Verif.Model Require Import Args.

(** How often a customer has to be visited in the period: once unless the user says otherwise. *)
Definition user_freq (g : rgraph) (u : node) : Z :=
  match node_data g u with
  | Some r => match r_freq r with Some f => f | None => 1%Z end
  | None => 1%Z
  end.

(** Visits missing from a plan. *)
Definition missing (g : rgraph) (rs : list (list node)) : Z :=
  fold_right Z.add 0%Z (map (fun u => (user_freq g u - Z.of_nat (visits u rs))%Z) (custs g)).

(** [day i] is the day of the route numbered [i]: a day of the period, such that no customer with a
    demand is visited twice a day and the vehicles of each type suffice every day. *)
Record good_week (g : rgraph) (a : rargs) (period : Z) (routes : list (nat * list node)) (type : nat -> option nat)
    (day : nat -> nat) : Prop := {
  gw_period : forall i r, In (i, r) routes -> (Z.of_nat (day i) < period)%Z;
  gw_once : forall u i j r r', In u (custs g) -> 0 < user_demand g u ->
    In (i, r) routes -> In (j, r') routes -> In u r -> In u r' -> day i = day j -> i = j;
  gw_fleet : forall k n t, number_of a k n -> (Z.of_nat t < period)%Z ->
    inject_Z (Z.of_nat (load_on (filter (fun i => match type i with Some j => (j =? k)%nat | None => false end)
                                        (map fst routes)) day t)) <= n
}.

(** A plan for the period: every customer is visited as often as required, the routes respect the
    limits, and they can be spread over the days as [day] says. *)
Record full_plan (g : rgraph) (a : rargs) (w pd both : bool) (period : Z) (ks : list nat) (rs : list (list node))
    (day : nat -> nat) : Prop := {
  fp_routes : Forall2 (fun k r => route_shape r /\ along (arc_list g) r /\ respects g a w pd both k r) ks rs;
  fp_visits : forall u, In u (custs g) -> Z.of_nat (visits u rs) = user_freq g u;
  fp_days : good_week g a period (combine (seq 1 (List.length rs)) rs) (fun i => nth_error ks (i - 1)) day
}.
