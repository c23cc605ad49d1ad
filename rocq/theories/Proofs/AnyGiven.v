(** solve() with initial routes given by the user, and its value against them. *)
From Verif.Base Require Import Prelude Graph.
From Verif.Spec Require Import Routes Network Inputs LinProg MIP Timing Run Plans Results Variants.
From Verif.Model Require Import Args Preprocess Initial LPPricing Cspy Master ColGen Post Schedule Solve.
From Verif.Proofs Require Import RouteLemmas AnyUser AnyCases.

Theorem given_user X fuel fuel2 sa g a w pd both drop all per span tabu v v' out :
  wf g -> (a_mixed_fleet a = false -> no_empty_costs g) ->
  (forall u r, node_data g u = Some r -> r_aux_depot r = false) ->
  truthy per = false -> sa_pre sa = [] -> sa_initial sa <> [] -> sa_dive sa = false -> sa_heuristic sa = false ->
  sa_greedy sa = false \/ w || pd || both = true ->
  (forall r, In r (sa_initial sa) -> route_shape r /\ stops r <> [] /\
     forall k, first_carrier a (node_sum (user_demand g) (stops r)) k -> respects g a w pd both k r) ->
  0 <= user_demand g Source -> 0 <= user_demand g Sink -> 0 <= user_service g Source ->
  (pd = false -> nonneg_user_demands g) -> (pd = false -> both = true -> forall u, 0 <= user_collect g u) ->
  (pd = true -> proper_pairs g) ->
  (forall n q, sound_answer q (e_master (x_env X) n q)) ->
  (sa_cspy sa = false -> (forall n tl q, sound_answer q (e_pricer (x_env X) n tl q)) /\
     (pd = false -> no_circles (x_env X) \/ (w = true /\ takes_time g))) ->
  (sa_cspy sa = true -> (forall n tl h, sound_labelling h (e_label (x_env X) n tl h)) /\
     (w = true -> opens_well g) /\
     (w || pd || both = false -> forall D, time_limit a D -> forall u, user_service g u == 0)) ->
  finds_paths (x_path X) ->
  create g a w pd both drop all per span tabu = Ok v -> solve X fuel fuel2 sa v = Ok (v', out) ->
  let s := out_solved out in
  exists ks, planned g a w pd both drop all (sv_routes s) (fun i => dget Nat.eqb i (sv_types s)) (sv_dropped s) ks /\
    (sa_cspy sa = false -> nobody_idle (sv_routes s)) /\ out_schedule out = None /\
    (span = false -> nobody_idle (sv_routes s) -> a_mixed_fleet a = true \/ (forall x y l, a_load_capacity a <> PList (x :: y :: l)) ->
     exists q, best_value s = Ok q /\ q == plan_cost g a drop ks (sv_routes s) (sv_dropped s)).
Proof.
  intros W NE AUX Per Pre Ini Di He Gr GV DS DT SS ND NC PP S1 S2 S3 SP C So s.
  destruct (any_user X fuel fuel2 sa g a w pd both drop all per span tabu v v' out) as (ks & P1 & P2 & P3 & P4 & PI & P5 & P6 & P7 & P8 & P9 & P10 & P11 & P12 & _); auto.
  { intros r Hr. destruct (GV r Hr) as (Q1 & Q2 & _). auto. }
  { intros r k Hr Hk _ _ _. unfold first_route in Hr. destruct (sa_initial sa) as [|r0 l]; [congruence|]. apply (GV r Hr). exact Hk. }
  fold s in P1, P2, P3, P4, PI, P5, P6, P7, P8, P9, P12.
  assert (NI : (forall r, In r (map snd (sv_routes s)) -> stops r <> []) <-> nobody_idle (sv_routes s)).
  { unfold nobody_idle. split; [intros Z i r Hr; apply Z, in_map_iff; exists (i, r); auto|].
    intros Z r Hr. apply in_map_iff in Hr. destruct Hr as ((i & r') & <- & Hr). exact (Z i r' Hr). }
  exists ks. rewrite map_length in P1, P2. split; [constructor; auto|]. split; [intro Z; apply NI, PI; exact Z|].
  split; [exact P11|]. intros Z1 Z2. apply P12; [exact Z1|]. apply NI. exact Z2.
Qed.

Theorem warm_user X fuel fuel2 sa g a w pd both drop all per span tabu v v' out rs dropped :
  wf g -> a_mixed_fleet a = false -> no_empty_costs g -> (forall x y l, a_load_capacity a <> PList (x :: y :: l)) ->
  (forall u r, node_data g u = Some r -> r_aux_depot r = false) ->
  truthy per = false -> sa_pre sa = [] -> sa_dive sa = false -> sa_heuristic sa = false ->
  sa_greedy sa = false \/ w || pd || both = true ->
  (sa_initial sa = [] -> w || pd || both = true) ->
  (forall r, In r (sa_initial sa) -> route_shape r /\ stops r <> []) ->
  (forall r, first_route (sa_initial sa) g pd r -> respects g a w pd both 0 r) ->
  0 <= user_demand g Source -> 0 <= user_demand g Sink -> 0 <= user_service g Source ->
  (pd = false -> nonneg_user_demands g) -> (pd = false -> both = true -> forall u, 0 <= user_collect g u) ->
  (pd = true -> proper_pairs g) ->
  (forall n q, right_answer q (e_master (x_env X) n q)) ->
  (sa_cspy sa = false -> (forall n tl q, sound_answer q (e_pricer (x_env X) n tl q)) /\
     (pd = false -> no_circles (x_env X) \/ (w = true /\ takes_time g))) ->
  (sa_cspy sa = true -> (forall n tl h, sound_labelling h (e_label (x_env X) n tl h)) /\
     (w = true -> opens_well g) /\
     (w || pd || both = false -> forall D, time_limit a D -> forall u, user_service g u == 0)) ->
  finds_paths (x_path X) -> custs g <> [] ->
  create g a w pd both drop all per span tabu = Ok v -> solve X fuel fuel2 sa v = Ok (v', out) ->
  (all = true -> nobody_idle (sv_routes (out_solved out))) ->
  starting_plan g a pd drop all (sa_initial sa) rs dropped ->
  let penalties := match drop with Some x => x * inject_Z (Z.of_nat (List.length dropped)) | None => 0 end in
  (span = false -> exists q, best_value (out_solved out) = Ok q /\ q <= Qsum (map (route_price g a) rs) + penalties) /\
  (span = true -> few_first (sa_initial sa) g -> forall q, best_value (out_solved out) = Ok q ->
     q <= dearest g a rs + penalties).
Proof.
  intros W MF NE OT AUX Per Pre Di He Gr Odd GV FR DS DT SS ND NC PP S1 S2 S3 SP Cu C So Bz St pen.
  destruct (any_user X fuel fuel2 sa g a w pd both drop all per span tabu v v' out) as (ks & _ & _ & _ & _ & _ & _ & _ & _ & _ & _ & _ & _ & _ & B); auto.
  { intro Z. rewrite (Odd Z). reflexivity. }
  { intros r k Hr Hk _ _ _. assert (k = 0%nat); [|subst k; auto]. unfold first_carrier in Hk. destruct (a_load_capacity a) as [|n|[|x [|y l]]] eqn:El; auto; [|exfalso; exact (OT _ _ _ eq_refl)].
    destruct Hk as ((m & Hm & _) & _). destruct k as [|[|k]]; [reflexivity| |]; discriminate. }
  { intros n q. exact (ra_sound _ _ (S1 n q)). }
  exact (B MF OT S1 Cu Bz rs dropped St).
Qed.
