(** Properties C38-C44 and C68-C70: the master problem. *)
From Coq Require Import Relations.
From Verif.Base Require Import Prelude Graph.
From Verif.Spec Require Import Routes Network LinProg Pricing MIP Columns Pool Master Duality.
From Verif.Model Require Import Args Reach Checks Preprocess ClarkeWright Greedy Initial Pricing
  GreedyPricing LPPricing Cspy Master.
From Verif.Proofs Require Import Deciders LPProofs PricingCor MasterProofs SelectProofs DualityProofs MasterCor MasterEnd PoolQuality
  PricingWitness MasterWitness.

(** [concluded g o cs solver resolver t sel dropped]: the final integer program over the columns
    [cs] was solved and the total [t], the columns [sel] and the dropped customers were read off.
    [sound_final]: the solver's answer to the final program satisfies it; [exact_final]: it is optimal. *)
Definition sound_final g o cs (solver : program mvar -> answer mvar) : Prop :=
  forall m, built g o cs m -> sound_answer (program_of (integral m)) (solver (program_of (integral m))).
Definition exact_final g o cs (solver : program mvar -> answer mvar) : Prop :=
  forall m, built g o cs m -> exact_answer (program_of (integral m)) (solver (program_of (integral m))).

(** The conditions on the pool hold for every pool that pricing can produce. *)
Theorem C38_pools : forall o mixed caps dur ns perms given g rs pool0 pool,
  initialize o mixed caps dur ns perms given g = Ok (rs, pool0) ->
  clos_refl_trans _ pricing_step pool0 pool ->
  NoDup (map c_name pool) /\ forall c, In c pool -> labelled c /\ honest c.
Proof. exact pool_fine. Qed.
Print Assumptions C38_pools.

(* ---- C38 ---- *)
Theorem C38_exactly_once : forall g o cs solver resolver t sel dropped,
  wf g -> (forall c, In c cs -> labelled c) -> NoDup (map c_name cs) -> sound_final g o cs solver ->
  concluded g o cs solver resolver t sel dropped ->
  mo_periodic o = false -> (forall p, ~ drops o p) ->
  dropped = [] /\ NoDup sel /\ (forall c, In c sel -> In c cs) /\
  forall v d, customer g v d -> once v sel.
Proof. exact exactly_once. Qed.
Print Assumptions C38_exactly_once.

Example C38_case : network 1 netm /\ NoDup (map c_name pool3) /\ solution netm mo3 pool3 true x3 /\
  sound_final netm mo3 pool3 (answers x3) /\
  concluded netm mo3 pool3 (answers x3) (answers x3) 103 [col 3 [Cust 3] 0; col 4 [Cust 1; Cust 2] 0] [].
Proof. exact case3. Qed.

(* ---- C39 ---- *)
Theorem C39_dropped : forall g o cs solver resolver t sel dropped,
  wf g -> (forall c, In c cs -> labelled c) -> NoDup (map c_name cs) -> sound_final g o cs solver ->
  concluded g o cs solver resolver t sel dropped -> mo_periodic o = false ->
  NoDup dropped /\ (forall v, In v dropped -> In v (custs g)) /\
  forall v d, customer g v d -> (once v sel /\ ~ In v dropped) \/ (never v sel /\ In v dropped).
Proof. exact dropped_or_served. Qed.
Print Assumptions C39_dropped.

Theorem C39_value : forall g o cs solver resolver t sel dropped,
  wf g -> (forall c, In c cs -> labelled c) -> NoDup (map c_name cs) ->
  exact_final g o cs solver -> exact_final g o cs resolver ->
  concluded g o cs solver resolver t sel dropped -> mo_periodic o = false -> mo_span o = false ->
  t == price o sel dropped.
Proof. exact final_price. Qed.
Print Assumptions C39_value.

Example C39_case : network 1 netm /\ NoDup (map c_name poolm) /\ (forall c, In c poolm -> labelled c) /\
  exact_final netm mom poolm (answers xm) /\
  concluded netm mom poolm (answers xm) (answers xm) 53 [col 4 [Cust 1; Cust 2] 0] [Cust 3] /\
  price mom [col 4 [Cust 1; Cust 2] 0] [Cust 3] == 23 + 30.
Proof. exact casem. Qed.

(* ---- C40: for the columns selected; preassigned routes are not counted, see C40_preassigned_refuted ---- *)
Theorem C40_fleet_partial : forall g o cs solver resolver t sel dropped,
  wf g -> (forall c, In c cs -> labelled c) -> sound_final g o cs solver ->
  concluded g o cs solver resolver t sel dropped ->
  forall l k n, fleet_bound o l -> nth_error l k = Some n ->
  inject_Z (Z.of_nat (of_type k sel)) <= n /\
  (mo_all o = true -> inject_Z (Z.of_nat (of_type k sel)) == n).
Proof. intros g o cs solver resolver t sel dropped H1 H2 H3 H4. exact (conclusion_fleet g o cs solver resolver t sel dropped H1 H2 H3 H4). Qed.
Print Assumptions C40_fleet_partial.

Example C40_case : fleet_bound mom [2] /\ nth_error [2] 0 = Some 2 /\ of_type 0 [col 4 [Cust 1; Cust 2] 0] = 1%nat.
Proof. split; [split; [reflexivity|split; [discriminate|reflexivity]]|]. split; reflexivity. Qed.

(* ---- C41 ---- *)
Theorem C41_periodic : forall g o cs solver resolver t sel dropped,
  wf g -> (forall c, In c cs -> labelled c) -> (forall c, In c cs -> honest c) ->
  NoDup (map c_name cs) -> sound_final g o cs solver ->
  concluded g o cs solver resolver t sel dropped ->
  mo_periodic o = true -> (forall p, ~ drops o p) ->
  exists artificial : node -> nat, forall v d, customer g v d ->
    Z.of_nat (columns_with v sel + artificial v) = freq d /\ ((freq d <= 1)%Z -> artificial v = 0%nat).
Proof. exact periodic_visits. Qed.
Print Assumptions C41_periodic.

Example C41_case : network 1 netq /\ sound_final netq moq poolm (answers xq) /\
  concluded netq moq poolm (answers xq) (answers xq) 123 selq [] /\
  customer netq (Cust 1) (mkN 1 0 0 0 0 2 None false) /\ columns_with (Cust 1) selq = 2%nat.
Proof. exact caseq. Qed.

(* ---- C42 ---- *)
Theorem C42_elementary : forall g o cs solver resolver t sel dropped,
  wf g -> (forall c, In c cs -> labelled c) -> (forall c, In c cs -> honest c) -> sound_final g o cs solver ->
  concluded g o cs solver resolver t sel dropped ->
  forall c, In c sel -> NoDup (served c) /\ forall i, c_name c <> CNonElem i.
Proof. exact selected_elementary. Qed.
Print Assumptions C42_elementary.

Example C42_case : exists c, In c poolm /\ ~ NoDup (served c) /\ labelled c /\ honest c /\
  concluded netm mom poolm (answers xm) (answers xm) 53 [col 4 [Cust 1; Cust 2] 0] [Cust 3].
Proof. exact case_nonelem. Qed.

(* ---- C43 ---- *)
(** For any dual values: if every route of the plan [P] has reduced cost at least [- eps], the plan
    costs at least [q - eps] per route. With [eps = 0] this is the lower bound. *)
Theorem C43_weak_duality : forall g o cs m pi D q eps P,
  wf g -> built g o cs m -> mo_periodic o = false -> mo_span o = false ->
  get_duals g o m cs pi = Ok D -> dual_solution o m pi q -> serves g o P ->
  (forall t, In t P -> - eps <= reduced_cost g D 1 (fst t) (snd t)) ->
  q <= tours_cost g P + eps * inject_Z (Z.of_nat (List.length P)).
Proof. exact weak_duality_built. Qed.
Print Assumptions C43_weak_duality.

(** The value reported for the relaxation, when exact pricing finds nothing for any vehicle type. *)
Theorem C43_lower_bound : forall K g o cs m solver pi m1 D q po caps ns dur P,
  network K g -> built g o cs m -> mo_periodic o = false -> mo_span o = false ->
  (forall fl, mo_fleet o = Some fl -> fl <> [] -> (K <= List.length fl)%nat) ->
  solve_master g o true cs solver pi m = Ok (m1, D, Some q) -> dual_solution o m pi q ->
  (forall k, (k < K)%nat -> mip_data g po caps k) ->
  (forall k, (k < K)%nat -> exists h neg tl pricer keys routes, add_reduced_cost D k None g = Ok h /\
     (forall t, tl = Some t -> 0 < t \/ t == 0) /\
     (forall p, LPPricing.formulate h k caps po ns dur neg = Ok p -> exact_answer p (pricer p)) /\
     lp_solve h true k caps po ns dur neg tl true pricer keys routes = Ok (routes, false)) ->
  serves g o P -> (forall k c, In (k, c) P -> (k < K)%nat /\ drivable g po caps k ns dur c) ->
  q <= tours_cost g P + (1 # 1000) * inject_Z (Z.of_nat (List.length P)).
Proof. exact lower_bound. Qed.
Print Assumptions C43_lower_bound.

Example C43_case : network 1 netm /\ built netm mo3 pool3 master3 /\
  solve_master netm mo3 true pool3 (answers x3) pi3 master3 = Ok (master3, duals3, Some 103) /\
  dual_solution mo3 master3 pi3 103 /\ mip_data netm optm None 0 /\
  add_reduced_cost duals3 0 None netm = Ok net3p /\
  (forall p, LPPricing.formulate net3p 0 None optm None None false = Ok p -> exact_answer p (pricer3 p)) /\
  lp_solve net3p true 0 None optm None None false None true pricer3 (custs netm) pool3 = Ok (pool3, false) /\
  serves netm mo3 [(0%nat, [Cust 1; Cust 2]); (0%nat, [Cust 3])] /\
  drivable netm optm None 0 None None [Cust 1; Cust 2] /\
  tours_cost netm [(0%nat, [Cust 1; Cust 2]); (0%nat, [Cust 3])] == 103.
Proof. exact case_bound. Qed.

(* ---- C44: columns numbered up to 74; see the refutations for the others ---- *)
Theorem C44_span_partial : forall g o cs m final x c i,
  wf g -> (forall c, In c cs -> labelled c) -> NoDup (map c_name cs) -> built g o cs m -> mo_span o = true ->
  feasible x (program_of (if final : bool then integral m else m)) ->
  In c cs -> c_name c = CNat i -> 0 < x (Y (c_name c)) ->
  x (Y (c_name c)) == 1 /\ ((i <= 74)%nat -> c_cost c <= x Span) /\ ((75 <= i)%nat -> c_cost c <= 0).
Proof. exact span_of_solutions. Qed.
Print Assumptions C44_span_partial.

(** The result is the cost of the most expensive selected column, and is minimal among the
    selections without paid columns numbered 75 or more. *)
Theorem C44_value_partial : forall g o cs solver resolver t sel dropped,
  wf g -> (forall c, In c cs -> labelled c) -> NoDup (map c_name cs) ->
  exact_final g o cs solver -> exact_final g o cs resolver ->
  concluded g o cs solver resolver t sel dropped -> mo_periodic o = false -> mo_span o = true ->
  t == span_price o sel dropped /\
  forall sel' dropped', valid_selection g o cs sel' dropped' ->
    (forall c i, In c sel' -> c_name c = CNat i -> (75 <= i)%nat -> c_cost c <= 0) ->
    t <= span_price o sel' dropped'.
Proof. exact span_result. Qed.
Print Assumptions C44_value_partial.

(** The 75th column cannot be used: 75 customers, their round trips, and the problem has no solution. *)
Theorem C44_seventy_fifth_refuted : exists (g : vgraph) po o rs pool m,
  network 1 g /\ round_trips g /\ mo_span o = true /\ mo_drop o = None /\
  initialize po false None None None (fun _ l => l) [] g = Ok (rs, pool) /\
  Master.formulate g o pool = Ok m /\
  valid_selection g o pool pool [] /\
  (forall x, ~ feasible x (program_of m)) /\ (forall x, ~ feasible x (program_of (integral m))).
Proof. exact span_seventy_fifth. Qed.
Print Assumptions C44_seventy_fifth_refuted.

(** The 1000th column, and every column of the labelling algorithm, raises KeyError. *)
Theorem C44_other_columns_refuted : forall g o cs m c, built g o cs m -> mo_span o = true ->
  (forall i, c_name c = CNat i -> (1000 <= i)%nat) -> update o m c = Err KeyError.
Proof. exact span_no_row. Qed.
Print Assumptions C44_other_columns_refuted.

Example C44_case : let o := mkMO None (Some []) false false true in
  exists m t sel, built netm o pool3 m /\ exact_final netm o pool3 (answers (enc sel [] t)) /\
    concluded netm o pool3 (answers (enc sel [] t)) (answers (enc sel [] t)) t sel [] /\
    t = 80 /\ span_price o sel [] == 80 /\ List.length sel = 2%nat.
Proof. exact case_span. Qed.

(* ---- C68 ---- *)
Theorem C68_cheapest : forall g o cs solver resolver t sel dropped,
  wf g -> (forall c, In c cs -> labelled c) -> NoDup (map c_name cs) ->
  exact_final g o cs solver -> exact_final g o cs resolver ->
  concluded g o cs solver resolver t sel dropped -> mo_periodic o = false -> mo_span o = false ->
  valid_selection g o cs sel dropped /\ t == price o sel dropped /\
  forall sel' dropped', valid_selection g o cs sel' dropped' -> t <= price o sel' dropped'.
Proof. exact cheapest. Qed.
Print Assumptions C68_cheapest.

Example C68_case : exists sel' dropped', valid_selection netm mom poolm sel' dropped' /\ price mom sel' dropped' == 72.
Proof. exact other_selection. Qed.

(* ---- C69 ---- *)
Theorem C69_formulate : forall g o cs,
  (exists m, Master.formulate g o cs = Ok m) <->
  (forall c, In c cs -> addable g o c) /\
  ((forall p, drops o p -> forall v, In v (custs g) -> exists d, customer g v d) /\
   (mo_periodic o = true -> forall v d, In (v, d) (gnodes g) -> v <> Source -> (1 < freq d)%Z -> exists d', customer g v d')) /\
  (exists l, mo_fleet o = Some l /\ (l <> [] -> mo_periodic o = false)).
Proof. exact formulate_ok. Qed.
Print Assumptions C69_formulate.

Theorem C69_update : forall g o cs m c, built g o cs m ->
  ((exists m1, update o m c = Ok m1) <-> addable g o c) /\
  (~ addable g o c -> update o m c = Err KeyError).
Proof. exact update_ok. Qed.
Print Assumptions C69_update.

Theorem C69_solve : forall g o relax cs solver pi m, built g o cs m ->
  let p := program_of (if relax : bool then m else integral m) in
  (a_status (solver p) = Optimal ->
   exists D, solve_master g o relax cs solver pi m =
     Ok (if relax then m else integral m, D, a_objective (solver p))) /\
  (a_status (solver p) <> Optimal -> solve_master g o relax cs solver pi m = Err GenericException).
Proof. exact solve_master_cases. Qed.
Print Assumptions C69_solve.

Theorem C69_read : forall g o cs m (final : bool) x total, (forall c, In c cs -> labelled c) -> built g o cs m ->
  exists sel dropped, get_total_cost_and_routes o (if final then integral m else m) x total cs =
    Ok (match total with Some q => q | None => 0 end, sel, dropped).
Proof. exact get_total_runs. Qed.
Print Assumptions C69_read.

Example C69_case : (forall c, In c poolm -> addable netm mom c) /\ ~ addable netm mom (col 7 [Cust 9] 0).
Proof. exact case_addable. Qed.

(* ---- C70 ---- *)
(** The program handed to the solver is the documented one: relaxation and final program. *)
Theorem C70_formulation : forall g o cs m (final : bool) x,
  wf g -> (forall c, In c cs -> labelled c) -> built g o cs m ->
  (feasible x (program_of (if final then integral m else m)) <-> solution g o cs final x) /\
  value x (p_obj (program_of (if final then integral m else m))) == total_cost g o cs x.
Proof. exact documented. Qed.
Print Assumptions C70_formulation.

(** Every valid selection of columns is a solution of the final program, and conversely the columns
    at 1 in any solution are a valid selection of the same price. *)
Theorem C70_selections : forall g o cs, wf g -> (forall c, In c cs -> labelled c) -> NoDup (map c_name cs) ->
  mo_periodic o = false -> mo_span o = false ->
  (forall m sel dropped, built g o cs m -> valid_selection g o cs sel dropped ->
     exists x, feasible x (program_of (integral m)) /\ value x (p_obj (program_of (integral m))) == price o sel dropped /\
       forall c, In c cs -> (x (Y (c_name c)) == 1 <-> In c sel)) .
Proof. exact selections_are_solutions. Qed.
Print Assumptions C70_selections.

Example C70_case : built netm mom poolm masterm /\ solution netm mom poolm true xm /\ total_cost netm mom poolm xm == 53.
Proof. split; [apply b_formulate; exact masterm_ok|]. split; [exact xm_solution|]. vm_compute. reflexivity. Qed.
