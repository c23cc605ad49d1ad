(** solve() for each of the variants, with MIP and with labelling pricing. *)
From Verif.Base Require Import Prelude Graph.
From Verif.Spec Require Import Routes Network Inputs LinProg MIP Timing Run Plans Results Variants.
From Verif.Model Require Import Args Preprocess Initial LPPricing Cspy Master ColGen Post Schedule Solve.
From Verif.Proofs Require Import RouteLemmas AnyUser.

Lemma stops_one (g : rgraph) u : In u (custs g) -> stops [Source; u; Sink] = [u].
Proof. intro H. apply in_custs in H. destruct u; [tauto|tauto|reflexivity]. Qed.
Lemma stops_two (g : rgraph) u d : In u (custs g) -> In d (custs g) -> stops [Source; u; d; Sink] = [u; d].
Proof. intros H J. apply in_custs in H, J. destruct u; [tauto|tauto|]. destruct d; [tauto|tauto|reflexivity]. Qed.

Lemma alone_respects g a w both k u : In u (custs g) ->
  (forall c, capacity_of a k c -> node_sum (user_demand g) [u] <= inject_Z c) ->
  (forall n, stop_limit a n -> (0 < n)%Z) ->
  within_time g a [Source; u; Sink] ->
  (w = true -> exists T, tw_feasible (user_time g) (user_service g) (user_lower g) (user_upper g T) [Source; u; Sink]) ->
  (both = true -> forall c, capacity_of a k c -> user_collect g u <= inject_Z c) ->
  respects g a w false both k [Source; u; Sink].
Proof.
  intros Hu L S T W B. assert (Es := stops_one g u Hu). constructor; try discriminate; auto; try (rewrite Es; exact L).
  - intros n Hn. specialize (S n Hn). rewrite Es. cbn [List.length]. lia.
  - intros Hb c Hc c1 c2 E. rewrite Es in E. specialize (B Hb c Hc). specialize (L c Hc). unfold node_sum in *.
    destruct c1 as [|x c1]; cbn [app] in E.
    + subst c2. cbn [map Qsum fold_right] in *. lra.
    + injection E as <- E. symmetry in E. apply app_eq_nil in E. destruct E as (-> & ->). cbn [map Qsum fold_right]. lra.
Qed.

Lemma pair_respects g a w both k u d : proper_pairs g -> user_pair g u d ->
  (forall n, stop_limit a n -> (2 <= n)%Z) ->
  within_time g a [Source; u; d; Sink] ->
  (forall c, capacity_of a k c -> user_demand g u <= inject_Z c) ->
  (w = true -> exists T, tw_feasible (user_time g) (user_service g) (user_lower g) (user_upper g T) [Source; u; d; Sink]) ->
  both = false ->
  respects g a w true both k [Source; u; d; Sink].
Proof.
  intros PP Hp S T C W Hb. destruct (pp_goods _ PP u d Hp) as (G1 & G2). destruct (pp_custs _ PP u d Hp) as (I1 & I2). assert (Es := stops_two g u d I1 I2). apply in_custs in I1, I2.
  assert (Pu : forall x y, user_pair g x y -> In x [Source; u; d; Sink] -> x = u /\ y = d).
  { intros x y Hx [<-|[<-|[<-|[<-|[]]]]].
    - destruct (pp_custs _ PP _ _ Hx) as (J & _). apply in_custs in J. tauto.
    - split; [reflexivity|]. destruct Hx as (r & X1 & X2), Hp as (r' & Y1 & Y2). congruence.
    - exfalso. exact (pp_roles _ PP u d y Hp Hx).
    - destruct (pp_custs _ PP _ _ Hx) as (J & _). apply in_custs in J. tauto. }
  assert (Z : node_sum (user_demand g) (stops [Source; u; d; Sink]) == 0).
  { rewrite Es. unfold node_sum. cbn [map Qsum fold_right]. rewrite G2. lra. }
  constructor; auto.
  - intros c Hc. rewrite Z. specialize (C c Hc). lra.
  - intros n Hn. specialize (S n Hn). rewrite Es. cbn [List.length]. lia.
  - intros _ x y Hx. split; intro Hi.
    + destruct (Pu x y Hx Hi) as (-> & ->). cbn. auto.
    + destruct Hi as [<-|[<-|[<-|[<-|[]]]]]; try (destruct (pp_custs _ PP _ _ Hx) as (_ & J); apply in_custs in J; tauto).
      * exfalso. exact (pp_roles _ PP x u d Hx Hp).
      * rewrite (pp_one _ PP x u d Hx Hp). cbn. auto.
  - intros _ x y Hx Hi. destruct (Pu x y Hx Hi) as (-> & ->). exists [Source], [], [Sink]. reflexivity.
  - intros _ c Hc. split; [|exact Z]. specialize (C c Hc). rewrite Es.
    intros l [<-|[<-|[]]]; rewrite ?G2; lra.
  - intros Hb'. congruence.
Qed.

Section Cases.
  Variables (X : outside) (fuel fuel2 : nat) (sa : solve_args) (g : rgraph) (a : rargs).
  Variables (drop : option Q) (all : bool) (per : option Z) (span : bool) (tabu : list mvar).
  Variables (w pd both : bool) (v v' : vrp) (out : outcome).

  Definition good_plan : Prop :=
    let s := out_solved out in
    exists ks, planned g a w pd both drop all (sv_routes s) (fun i => dget Nat.eqb i (sv_types s)) (sv_dropped s) ks /\
      (sa_cspy sa = false -> nobody_idle (sv_routes s)) /\ out_schedule out = None /\
      (span = false -> nobody_idle (sv_routes s) -> a_mixed_fleet a = true \/ (forall x y l, a_load_capacity a <> PList (x :: y :: l)) ->
       exists q, best_value s = Ok q /\ q == plan_cost g a drop ks (sv_routes s) (sv_dropped s)).

  Hypothesis W : wf g.
  Hypothesis NE : a_mixed_fleet a = false -> no_empty_costs g.
  Hypothesis AUX : forall u r, node_data g u = Some r -> r_aux_depot r = false.
  Hypothesis Per : truthy per = false.
  Hypothesis Pre : sa_pre sa = [].
  Hypothesis Ini : sa_initial sa = [].
  Hypothesis Di : sa_dive sa = false.
  Hypothesis He : sa_heuristic sa = false.
  Hypothesis DS : 0 <= user_demand g Source.
  Hypothesis DT : 0 <= user_demand g Sink.
  Hypothesis SS : 0 <= user_service g Source.
  Hypothesis S1 : forall n q, sound_answer q (e_master (x_env X) n q).
  Hypothesis S2 : sa_cspy sa = false -> (forall n tl q, sound_answer q (e_pricer (x_env X) n tl q)) /\
    (pd = false -> no_circles (x_env X) \/ (w = true /\ takes_time g)).
  Hypothesis S3 : sa_cspy sa = true -> (forall n tl h, sound_labelling h (e_label (x_env X) n tl h)) /\
    (w = true -> opens_well g) /\
    (w || pd || both = false -> forall D, time_limit a D -> forall u, user_service g u == 0).
  Hypothesis SP : finds_paths (x_path X).
  Hypothesis C : create g a w pd both drop all per span tabu = Ok v.
  Hypothesis So : solve X fuel fuel2 sa v = Ok (v', out).

  Lemma any_good :
    w || pd || both || a_mixed_fleet a = true ->
    sa_greedy sa = false \/ w || pd || both = true ->
    (pd = false -> nonneg_user_demands g) -> (pd = false -> both = true -> forall u, 0 <= user_collect g u) ->
    (pd = true -> proper_pairs g) ->
    (forall r k, alone g pd r -> first_carrier a (node_sum (user_demand g) (stops r)) k ->
       (forall c, capacity_of a k c -> node_sum (user_demand g) (stops r) <= inject_Z c) ->
       (forall n, stop_limit a n -> (0 < n)%Z) -> (forall l n, a_load_capacity a = PList l -> In n l -> 0 < num_val n) ->
       respects g a w pd both k r) -> good_plan.
  Proof.
    intros Odd Gr ND NC PP IR.
    destruct (any_user X fuel fuel2 sa g a w pd both drop all per span tabu v v' out) as (ks & P1 & P2 & P3 & P4 & PI & P5 & P6 & P7 & P8 & P9 & P10 & P11 & P12 & _); auto.
    { rewrite Ini. intros r []. }
    { rewrite Ini. exact IR. }
    assert (NI : (forall r, In r (map snd (sv_routes (out_solved out))) -> stops r <> []) <-> nobody_idle (sv_routes (out_solved out))).
    { unfold nobody_idle. split; [intros Z i r Hr; apply Z, in_map_iff; exists (i, r); auto|].
      intros Z r Hr. apply in_map_iff in Hr. destruct Hr as ((i & r') & <- & Hr). exact (Z i r' Hr). }
    exists ks. rewrite map_length in P1, P2. split; [constructor; auto|]. split; [intro Z; apply NI, PI; exact Z|].
    split; [exact P11|]. intros Z1 Z2. apply P12; [exact Z1|]. apply NI. exact Z2.
  Qed.

  Lemma good_single : pd = false -> w || both || a_mixed_fleet a = true ->
    sa_greedy sa = false \/ w || both = true ->
    nonneg_user_demands g -> (both = true -> forall u, 0 <= user_collect g u) ->
    (forall u, In u (custs g) -> within_time g a [Source; u; Sink]) ->
    (w = true -> forall u, In u (custs g) ->
       exists T, tw_feasible (user_time g) (user_service g) (user_lower g) (user_upper g T) [Source; u; Sink]) ->
    (both = true -> forall u k c, In u (custs g) -> first_carrier a (user_demand g u) k -> capacity_of a k c ->
       user_collect g u <= inject_Z c) -> good_plan.
  Proof.
    intros Hp Odd Gr ND NC RT RW RB. apply any_good; auto; try (rewrite Hp; discriminate).
    - rewrite Hp, orb_false_r. exact Odd.
    - rewrite Hp, orb_false_r. exact Gr.
    - rewrite Hp. intros r k (u & Hu & ->) Hk Hc Hn Hcp. rewrite (stops_one g u Hu) in Hc. apply alone_respects; auto.
      intros Hb c Hc'. apply (RB Hb u k c Hu); [|exact Hc']. rewrite (stops_one g u Hu) in Hk.
      assert (E : node_sum (user_demand g) [u] == user_demand g u) by (unfold node_sum; cbn [map Qsum fold_right]; lra).
      unfold first_carrier in *. destruct (a_load_capacity a) as [|n|[|n l]]; auto. destruct Hk as ((m & K1 & K2) & K3).
      split; [exists m; split; [exact K1|rewrite <- E; exact K2]|]. intros j n' Hj Hn'. rewrite <- E. apply (K3 j n' Hj Hn').
  Qed.

  Lemma good_pairs : pd = true -> both = false -> proper_pairs g ->
    (forall n, stop_limit a n -> (2 <= n)%Z) ->
    (forall u d, user_pair g u d -> within_time g a [Source; u; d; Sink]) ->
    (forall u d c, user_pair g u d -> capacity_of a 0 c -> user_demand g u <= inject_Z c) ->
    (w = true -> forall u d, user_pair g u d ->
       exists T, tw_feasible (user_time g) (user_service g) (user_lower g) (user_upper g T) [Source; u; d; Sink]) -> good_plan.
  Proof.
    intros Hp Hb PP St RT RC RW. apply any_good; auto; try (rewrite Hp; discriminate).
    - rewrite Hp, orb_true_r. reflexivity.
    - right. rewrite Hp, orb_true_r. reflexivity.
    - rewrite Hp. intros r k (u & d & Hud & ->) Hk Hc Hn Hcp. apply pair_respects; auto.
      intros c Hc'. assert (k = 0%nat); [|subst k; apply (RC u d c Hud Hc')].
      destruct (pp_custs _ PP u d Hud) as (I1 & I2). unfold first_carrier in Hk. rewrite (stops_two g u d I1 I2) in Hk. destruct (pp_goods _ PP u d Hud) as (G1 & G2).
      destruct (a_load_capacity a) as [|n|[|n l]] eqn:El; auto. destruct Hk as (_ & Hk). destruct k as [|k]; [reflexivity|].
      specialize (Hk 0%nat n ltac:(lia) eq_refl). specialize (Hcp (n :: l) n eq_refl (or_introl eq_refl)).
      unfold node_sum in Hk. cbn [map Qsum fold_right] in Hk. rewrite G2 in Hk. lra.
  Qed.
End Cases.

Theorem windows_user X fuel fuel2 sa g a drop all per span tabu v v' out :
  wf g -> a_mixed_fleet a = false -> no_empty_costs g ->
  (forall u r, node_data g u = Some r -> r_aux_depot r = false) ->
  truthy per = false -> sa_pre sa = [] -> sa_initial sa = [] -> sa_cspy sa = false -> sa_dive sa = false ->
  sa_heuristic sa = false ->
  nonneg_user_demands g -> 0 <= user_service g Source ->
  (forall u, In u (custs g) -> within_time g a [Source; u; Sink]) ->
  (forall u, In u (custs g) ->
     exists T, tw_feasible (user_time g) (user_service g) (user_lower g) (user_upper g T) [Source; u; Sink]) ->
  (forall n q, sound_answer q (e_master (x_env X) n q)) ->
  (forall n tl q, sound_answer q (e_pricer (x_env X) n tl q)) ->
  no_circles (x_env X) \/ takes_time g -> finds_paths (x_path X) ->
  create g a true false false drop all per span tabu = Ok v -> solve X fuel fuel2 sa v = Ok (v', out) ->
  let s := out_solved out in
  exists ks, planned g a true false false drop all (sv_routes s) (fun i => dget Nat.eqb i (sv_types s)) (sv_dropped s) ks /\
    nobody_idle (sv_routes s) /\ out_schedule out = None /\
    (span = false -> (forall x y l, a_load_capacity a <> PList (x :: y :: l)) ->
     exists q, best_value s = Ok q /\ q == plan_cost g a drop ks (sv_routes s) (sv_dropped s)).
Proof.
  intros. destruct (good_single X fuel fuel2 sa g a drop all per span tabu true false false v v' out) as (ks & P1 & P2 & P3 & P4); auto; try discriminate; try congruence.
  { intros _. split; [assumption|]. intros _. match goal with Z : _ \/ takes_time _ |- _ => destruct Z; auto end. }
  exists ks. split; [exact P1|]. split; [exact (P2 ltac:(assumption))|]. split; [exact P3|]. auto.
Qed.

Theorem pairs_user X fuel fuel2 sa g a w drop all per span tabu v v' out :
  wf g -> (a_mixed_fleet a = false -> no_empty_costs g) ->
  (forall u r, node_data g u = Some r -> r_aux_depot r = false) ->
  truthy per = false -> sa_pre sa = [] -> sa_initial sa = [] -> sa_cspy sa = false -> sa_dive sa = false ->
  sa_heuristic sa = false ->
  proper_pairs g -> 0 <= user_demand g Source -> 0 <= user_demand g Sink -> 0 <= user_service g Source ->
  (forall n, stop_limit a n -> (2 <= n)%Z) ->
  (forall u d, user_pair g u d -> within_time g a [Source; u; d; Sink]) ->
  (forall u d c, user_pair g u d -> capacity_of a 0 c -> user_demand g u <= inject_Z c) ->
  (w = true -> forall u d, user_pair g u d ->
     exists T, tw_feasible (user_time g) (user_service g) (user_lower g) (user_upper g T) [Source; u; d; Sink]) ->
  (forall n q, sound_answer q (e_master (x_env X) n q)) ->
  (forall n tl q, sound_answer q (e_pricer (x_env X) n tl q)) -> finds_paths (x_path X) ->
  create g a w true false drop all per span tabu = Ok v -> solve X fuel fuel2 sa v = Ok (v', out) ->
  let s := out_solved out in
  exists ks, planned g a w true false drop all (sv_routes s) (fun i => dget Nat.eqb i (sv_types s)) (sv_dropped s) ks /\
    nobody_idle (sv_routes s) /\ out_schedule out = None /\
    (span = false -> a_mixed_fleet a = true \/ (forall x y l, a_load_capacity a <> PList (x :: y :: l)) ->
     exists q, best_value s = Ok q /\ q == plan_cost g a drop ks (sv_routes s) (sv_dropped s)).
Proof.
  intros. destruct (good_pairs X fuel fuel2 sa g a drop all per span tabu w true false v v' out) as (ks & P1 & P2 & P3 & P4); auto; try congruence.
  { intros _. split; [assumption|discriminate]. }
  exists ks. split; [exact P1|]. assert (NI := P2 ltac:(assumption)). auto.
Qed.

Theorem both_user X fuel fuel2 sa g a w drop all per span tabu v v' out :
  wf g -> (a_mixed_fleet a = false -> no_empty_costs g) ->
  (forall u r, node_data g u = Some r -> r_aux_depot r = false) ->
  truthy per = false -> sa_pre sa = [] -> sa_initial sa = [] -> sa_cspy sa = false -> sa_dive sa = false ->
  sa_heuristic sa = false ->
  nonneg_user_demands g -> (forall u, 0 <= user_collect g u) -> 0 <= user_service g Source ->
  (forall u, In u (custs g) -> within_time g a [Source; u; Sink]) ->
  (forall u k c, In u (custs g) -> first_carrier a (user_demand g u) k -> capacity_of a k c ->
     user_collect g u <= inject_Z c) ->
  (w = true -> forall u, In u (custs g) ->
     exists T, tw_feasible (user_time g) (user_service g) (user_lower g) (user_upper g T) [Source; u; Sink]) ->
  (forall n q, sound_answer q (e_master (x_env X) n q)) ->
  (forall n tl q, sound_answer q (e_pricer (x_env X) n tl q)) ->
  no_circles (x_env X) \/ (w = true /\ takes_time g) -> finds_paths (x_path X) ->
  create g a w false true drop all per span tabu = Ok v -> solve X fuel fuel2 sa v = Ok (v', out) ->
  let s := out_solved out in
  exists ks, planned g a w false true drop all (sv_routes s) (fun i => dget Nat.eqb i (sv_types s)) (sv_dropped s) ks /\
    nobody_idle (sv_routes s) /\ out_schedule out = None /\
    (span = false -> a_mixed_fleet a = true \/ (forall x y l, a_load_capacity a <> PList (x :: y :: l)) ->
     exists q, best_value s = Ok q /\ q == plan_cost g a drop ks (sv_routes s) (sv_dropped s)).
Proof.
  intros. destruct (good_single X fuel fuel2 sa g a drop all per span tabu w false true v v' out) as (ks & P1 & P2 & P3 & P4); auto; try congruence; try (rewrite ?orb_true_r; auto; discriminate).
  exists ks. assert (NI := P2 ltac:(assumption)). auto.
Qed.

Theorem mixed_user X fuel fuel2 sa g a w drop all per span tabu v v' out :
  wf g -> a_mixed_fleet a = true ->
  (forall u r, node_data g u = Some r -> r_aux_depot r = false) ->
  truthy per = false -> sa_pre sa = [] -> sa_initial sa = [] -> sa_cspy sa = false -> sa_dive sa = false ->
  sa_heuristic sa = false -> sa_greedy sa = false \/ w = true ->
  nonneg_user_demands g -> 0 <= user_service g Source ->
  (forall u, In u (custs g) -> within_time g a [Source; u; Sink]) ->
  (w = true -> forall u, In u (custs g) ->
     exists T, tw_feasible (user_time g) (user_service g) (user_lower g) (user_upper g T) [Source; u; Sink]) ->
  (forall n q, sound_answer q (e_master (x_env X) n q)) ->
  (forall n tl q, sound_answer q (e_pricer (x_env X) n tl q)) ->
  no_circles (x_env X) \/ (w = true /\ takes_time g) -> finds_paths (x_path X) ->
  create g a w false false drop all per span tabu = Ok v -> solve X fuel fuel2 sa v = Ok (v', out) ->
  let s := out_solved out in
  exists ks, planned g a w false false drop all (sv_routes s) (fun i => dget Nat.eqb i (sv_types s)) (sv_dropped s) ks /\
    nobody_idle (sv_routes s) /\ out_schedule out = None /\
    (span = false -> exists q, best_value s = Ok q /\ q == plan_cost g a drop ks (sv_routes s) (sv_dropped s)).
Proof.
  intros. destruct (good_single X fuel fuel2 sa g a drop all per span tabu w false false v v' out) as (ks & P1 & P2 & P3 & P4); auto; try discriminate; try congruence; try (rewrite ?orb_false_r; auto; discriminate).
  { rewrite orb_false_r, H0. apply orb_true_r. }
  exists ks. assert (NI := P2 ltac:(assumption)). auto 10.
Qed.

Theorem windows_labelled X fuel fuel2 sa g a drop all per span tabu v v' out :
  wf g -> a_mixed_fleet a = false -> no_empty_costs g ->
  (forall u r, node_data g u = Some r -> r_aux_depot r = false) ->
  truthy per = false -> sa_pre sa = [] -> sa_initial sa = [] -> sa_cspy sa = true -> sa_dive sa = false ->
  sa_heuristic sa = false ->
  nonneg_user_demands g -> 0 <= user_service g Source ->
  (forall u, In u (custs g) -> within_time g a [Source; u; Sink]) ->
  (forall u, In u (custs g) ->
     exists T, tw_feasible (user_time g) (user_service g) (user_lower g) (user_upper g T) [Source; u; Sink]) ->
  (forall n q, sound_answer q (e_master (x_env X) n q)) ->
  (forall n tl h, sound_labelling h (e_label (x_env X) n tl h)) -> finds_paths (x_path X) ->
  opens_well g ->
  create g a true false false drop all per span tabu = Ok v -> solve X fuel fuel2 sa v = Ok (v', out) ->
  let s := out_solved out in
  exists ks, planned g a true false false drop all (sv_routes s) (fun i => dget Nat.eqb i (sv_types s)) (sv_dropped s) ks /\
    out_schedule out = None /\
    (span = false -> nobody_idle (sv_routes s) -> (forall x y l, a_load_capacity a <> PList (x :: y :: l)) ->
     exists q, best_value s = Ok q /\ q == plan_cost g a drop ks (sv_routes s) (sv_dropped s)).
Proof.
  intros. destruct (good_single X fuel fuel2 sa g a drop all per span tabu true false false v v' out) as (ks & P1 & P2 & P3 & P4); auto; try discriminate; try congruence.
  { intros _. split; [assumption|]. split; [auto|discriminate]. }
  exists ks. split; [exact P1|]. split; [exact P3|]. auto.
Qed.

Theorem both_labelled X fuel fuel2 sa g a w drop all per span tabu v v' out :
  wf g -> (a_mixed_fleet a = false -> no_empty_costs g) ->
  (forall u r, node_data g u = Some r -> r_aux_depot r = false) ->
  truthy per = false -> sa_pre sa = [] -> sa_initial sa = [] -> sa_cspy sa = true -> sa_dive sa = false ->
  sa_heuristic sa = false ->
  nonneg_user_demands g -> (forall u, 0 <= user_collect g u) -> 0 <= user_service g Source ->
  (forall u, In u (custs g) -> within_time g a [Source; u; Sink]) ->
  (forall u k c, In u (custs g) -> first_carrier a (user_demand g u) k -> capacity_of a k c ->
     user_collect g u <= inject_Z c) ->
  (w = true -> forall u, In u (custs g) ->
     exists T, tw_feasible (user_time g) (user_service g) (user_lower g) (user_upper g T) [Source; u; Sink]) ->
  (forall n q, sound_answer q (e_master (x_env X) n q)) ->
  (forall n tl h, sound_labelling h (e_label (x_env X) n tl h)) -> finds_paths (x_path X) ->
  (w = true -> opens_well g) ->
  create g a w false true drop all per span tabu = Ok v -> solve X fuel fuel2 sa v = Ok (v', out) ->
  let s := out_solved out in
  exists ks, planned g a w false true drop all (sv_routes s) (fun i => dget Nat.eqb i (sv_types s)) (sv_dropped s) ks /\
    out_schedule out = None /\
    (span = false -> nobody_idle (sv_routes s) -> a_mixed_fleet a = true \/ (forall x y l, a_load_capacity a <> PList (x :: y :: l)) ->
     exists q, best_value s = Ok q /\ q == plan_cost g a drop ks (sv_routes s) (sv_dropped s)).
Proof.
  intros. destruct (good_single X fuel fuel2 sa g a drop all per span tabu w false true v v' out) as (ks & P1 & P2 & P3 & P4); auto; try congruence; try (rewrite ?orb_true_r; auto; discriminate).
  { intros _. split; [assumption|]. split; [assumption|]. rewrite orb_true_r. discriminate. }
  exists ks. auto.
Qed.

Theorem mixed_labelled X fuel fuel2 sa g a w drop all per span tabu v v' out :
  wf g -> a_mixed_fleet a = true ->
  (forall u r, node_data g u = Some r -> r_aux_depot r = false) ->
  truthy per = false -> sa_pre sa = [] -> sa_initial sa = [] -> sa_cspy sa = true -> sa_dive sa = false ->
  sa_heuristic sa = false -> sa_greedy sa = false \/ w = true ->
  nonneg_user_demands g -> 0 <= user_service g Source ->
  (forall u, In u (custs g) -> within_time g a [Source; u; Sink]) ->
  (w = true -> forall u, In u (custs g) ->
     exists T, tw_feasible (user_time g) (user_service g) (user_lower g) (user_upper g T) [Source; u; Sink]) ->
  (forall n q, sound_answer q (e_master (x_env X) n q)) ->
  (forall n tl h, sound_labelling h (e_label (x_env X) n tl h)) -> finds_paths (x_path X) ->
  (w = true -> opens_well g) ->
  (w = false -> forall D, time_limit a D -> forall u, user_service g u == 0) ->
  create g a w false false drop all per span tabu = Ok v -> solve X fuel fuel2 sa v = Ok (v', out) ->
  let s := out_solved out in
  exists ks, planned g a w false false drop all (sv_routes s) (fun i => dget Nat.eqb i (sv_types s)) (sv_dropped s) ks /\
    out_schedule out = None /\
    (span = false -> nobody_idle (sv_routes s) -> exists q, best_value s = Ok q /\ q == plan_cost g a drop ks (sv_routes s) (sv_dropped s)).
Proof.
  intros. destruct (good_single X fuel fuel2 sa g a drop all per span tabu w false false v v' out) as (ks & P1 & P2 & P3 & P4); auto; try discriminate; try congruence; try (rewrite ?orb_false_r; auto; discriminate).
  { rewrite orb_false_r, H0. apply orb_true_r. }
  exists ks. auto 10.
Qed.
