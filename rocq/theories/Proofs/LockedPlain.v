(** Preassigned complete routes on plain problems: the plan for the others. *)
From Verif.Base Require Import Prelude Graph.
From Verif.Spec Require Import Routes Network Inputs Feasible Prep LinProg MIP Timing Run Results Plans Variants Plain Locked.
From Verif.Model Require Import Args Reach Checks Preprocess ClarkeWright Greedy Initial Pricing
  GreedyPricing LPPricing Cspy Master Dive Hyper ColGen Post Schedule Solve.
From Verif.Proofs Require Import RouteLemmas ReachLemmas PreLemmas SolveProofs Certificate AnyPool AnyUser PlainUser LockedProofs LockedSolve LockedUser.

(** ** The figures of the rest *)
Lemma closing_node T g u : node_data (closing T g) u = match T with
  | None => node_data g u
  | Some t => option_map (fun r => if node_eqb u Sink then mkNR (r_demand r) (r_collect r) (r_service r) (r_lower r) (Some t) (r_freq r) (r_request r) (r_aux_depot r) else r) (node_data g u)
  end.
Proof.
  destruct T as [t|]; [|reflexivity]. unfold node_data, closing. cbn [gnodes]. induction (gnodes g) as [|(x & d) l IH]; [reflexivity|]. cbn [map assoc_node fst snd].
  destruct (node_eqb x u) eqn:E; [|exact IH]. cbn. apply node_eqb_eq in E. subst x. reflexivity.
Qed.
Lemma closing_figures T g : (forall u, user_demand (closing T g) u = user_demand g u) /\ (forall u, user_service (closing T g) u = user_service g u) /\
  (forall u, user_collect (closing T g) u = user_collect g u) /\ (forall u d, user_pair (closing T g) u d <-> user_pair g u d) /\
  (forall u w, user_time (closing T g) u w = user_time g u w) /\ (forall k u w, user_cost (closing T g) k u w = user_cost g k u w) /\
  custs (closing T g) = custs g.
Proof.
  assert (Cc : custs (closing T g) = custs g) by (unfold custs; rewrite closing_nodes; reflexivity).
  split; [|split; [|split; [|split; [|split; [|split]]]]].
  - intro u. unfold user_demand. rewrite closing_node. destruct T; [|reflexivity]. destruct (node_data g u); [|reflexivity]. cbn. destruct (node_eqb u Sink); reflexivity.
  - intro u. unfold user_service. rewrite closing_node. destruct T; [|reflexivity]. destruct (node_data g u); [|reflexivity]. cbn. destruct (node_eqb u Sink); reflexivity.
  - intro u. unfold user_collect. rewrite closing_node. destruct T; [|reflexivity]. destruct (node_data g u); [|reflexivity]. cbn. destruct (node_eqb u Sink); reflexivity.
  - intros u d. unfold user_pair. rewrite closing_node. destruct T; [|reflexivity]. destruct (node_data g u) as [r0|]; cbn; [|split; intros (r & Hr & _); discriminate].
    split; intros (r & Hr & Hd).
    + injection Hr as <-. exists r0. split; [reflexivity|]. destruct (node_eqb u Sink); exact Hd.
    + injection Hr as <-. eexists. split; [reflexivity|]. destruct (node_eqb u Sink); exact Hd.
  - intros u w. unfold user_time. rewrite closing_arc. reflexivity.
  - intros k u w. unfold user_cost. rewrite closing_arc. unfold depot_arcs. rewrite Cc. reflexivity.
  - exact Cc.
Qed.

Lemma respects_closing T g a pd both k r : respects (closing T g) a false pd both k r -> respects g a false pd both k r.
Proof.
  destruct (closing_figures T g) as (ED & ES & EC & EP & Et & _ & _). intros [Q1 Q2 Q3 Q4 Q5 Q6 Q7 Q8].
  assert (SD : forall l, node_sum (user_demand g) l == node_sum (user_demand (closing T g)) l) by (intro l; apply node_sum_ext; intros; rewrite ED; reflexivity).
  assert (SC : forall l, node_sum (user_collect g) l == node_sum (user_collect (closing T g)) l) by (intro l; apply node_sum_ext; intros; rewrite EC; reflexivity).
  constructor.
  - intros c Hc. rewrite SD. apply Q1. exact Hc.
  - exact Q2.
  - intros D HD. rewrite (path_sum_ext _ (user_time (closing T g))) by (intros; rewrite Et; reflexivity). rewrite (node_sum_ext _ (user_service (closing T g))) by (intros; rewrite ES; reflexivity).
    apply Q3. exact HD.
  - discriminate.
  - intros Hp u d Hd. apply Q5; [exact Hp|apply EP; exact Hd].
  - intros Hp u d Hd. apply Q6; [exact Hp|apply EP; exact Hd].
  - intros Hp c Hc. destruct (Q7 Hp c Hc) as (L1 & L2). split; [|rewrite SD; exact L2]. eapply loads_ext; [|exact L1]. intros; rewrite ED; reflexivity.
  - intros Hb c Hc c1 c2 Ec. rewrite SD, SC. apply (Q8 Hb c Hc c1 c2 Ec).
Qed.

Lemma planned_closing T g a pd both drop all routes types dropped ks :
  planned (closing T g) a false pd both drop all routes types dropped ks -> planned g a false pd both drop all routes types dropped ks.
Proof.
  destruct (closing_figures T g) as (_ & _ & _ & _ & _ & _ & Cc). intros [Q1 Q2 Q3 Q4 Q5 Q6 Q7 Q8]. rewrite Cc in *.
  assert (Dc : depot_arcs (closing T g) = depot_arcs g) by (unfold depot_arcs; rewrite Cc; reflexivity). rewrite closing_arcs, Dc in Q4.
  constructor; auto. clear - Q4. induction Q4 as [|k r ks rs (H1 & H2) Q4 IH]; constructor; [|exact IH]. split; [exact H1|]. intro N0. destruct (H2 N0) as (H3 & H4).
  split; [exact H3|]. exact (respects_closing T g a pd both k r H4).
Qed.

Lemma planned_types g a w pd both drop all routes ty ty' dropped ks : (forall i, (i <= List.length routes)%nat -> ty i = ty' i) ->
  planned g a w pd both drop all routes ty dropped ks -> planned g a w pd both drop all routes ty' dropped ks.
Proof.
  intros E [Q1 Q2 Q3 Q4 Q5 Q6 Q7 Q8]. constructor; auto. intros i k Hi. rewrite <- E; [exact (Q3 i k Hi)|].
  assert (i < List.length ks)%nat by (apply nth_error_Some; congruence). lia.
Qed.

Lemma others_figures L g : (forall u, ~ In u L -> node_data (others L g) u = node_data g u) /\ (forall u, In u L -> node_data (others L g) u = None) /\
  (forall u w e, arc_data (others L g) u w = Some e -> arc_data g u w = Some e /\ ~ In u L /\ ~ In w L) /\
  (forall u w, ~ In u L -> ~ In w L -> arc_data (others L g) u w = arc_data g u w) /\
  (forall u, In u (custs (others L g)) <-> In u (custs g) /\ ~ In u L).
Proof.
  change (others L g) with (remove_nodes L g). split; [|split; [|split; [|split]]].
  - intros u Hu. rewrite node_data_remove_nodes. apply mem_false in Hu. rewrite Hu. reflexivity.
  - intros u Hu. rewrite node_data_remove_nodes. apply mem_In in Hu. rewrite Hu. reflexivity.
  - intros u w e He. rewrite arc_data_remove_nodes in He. destruct (mem u L) eqn:Eu; [discriminate|]. destruct (mem w L) eqn:Ew; [discriminate|]. cbn in He.
    split; [exact He|]. split; apply mem_false; assumption.
  - intros u w Hu Hw. rewrite arc_data_remove_nodes. apply mem_false in Hu, Hw. rewrite Hu, Hw. reflexivity.
  - intro u. rewrite !in_custs, in_nodes_remove_nodes. tauto.
Qed.

(* ------------------------------------------------------------------ *)
(** ** solve() with preassigned routes on a plain problem *)
Lemma locked_plain X fuel fuel2 sa (g : rgraph) a drop all per span tabu v v' out :
  wf g -> a_mixed_fleet a = false -> no_empty_costs g -> nonneg_user_demands g ->
  (forall u r, node_data g u = Some r -> r_aux_depot r = false) ->
  truthy per = false -> all_complete (sa_pre sa) -> sa_initial sa = [] -> sa_dive sa = false -> sa_heuristic sa = false ->
  (exists u, In u (custs g) /\ ~ In u (riders (sa_pre sa))) -> clocked g ->
  sa_greedy sa = false \/ (forall D, ~ time_limit a D) ->
  (forall u, 0 <= user_service g u) -> (forall u x, 0 <= user_time g u x) -> fair_times g a ->
  (forall x l, Permutation l (x_perms X x l)) ->
  (forall n q, sound_answer q (e_master (x_env X) n q)) ->
  (sa_cspy sa = false -> (forall n tl q, sound_answer q (e_pricer (x_env X) n tl q)) /\ no_circles (x_env X)) ->
  (sa_cspy sa = true -> (forall n tl h, sound_labelling h (e_label (x_env X) n tl h)) /\
     (forall D, time_limit a D -> forall u, user_service g u == 0)) ->
  finds_paths (x_path X) ->
  create g a false false false drop all per span tabu = Ok v -> solve X fuel fuel2 sa v = Ok (v', out) ->
  let s := out_solved out in
  let rest := others (riders (sa_pre sa)) g in
  exists n ks,
    map snd (skipn n (sv_routes s)) = sa_pre sa /\
    map fst (sv_routes s) = seq 1 (n + List.length (sa_pre sa)) /\
    planned rest a false false false drop all (firstn n (sv_routes s)) (fun i => dget Nat.eqb i (sv_types s)) (sv_dropped s) ks /\
    (span = false -> nobody_idle (firstn n (sv_routes s)) -> (forall x y l, a_load_capacity a <> PList (x :: y :: l)) ->
     (forall r, In r (sa_pre sa) -> route_shape r /\ stops r <> [] /\ route_price g a r < inject_Z 10000000000 /\
        forall c, capacity_of a 0 c -> node_sum (user_demand g) (stops r) <= inject_Z c) ->
     exists q, best_value s = Ok q /\
       q == plan_cost rest a drop ks (firstn n (sv_routes s)) (sv_dropped s) + Qsum (map (route_price g a) (sa_pre sa))).
Proof.
  intros W Mx NE ND AX Per AC Ini Dv Hh Left Ck Gr SV TM FT PM SM SP SL FP Hc Hs s rest.
  set (L := riders (sa_pre sa)) in *. destruct (riders_custs (sa_pre sa)) as (LS & LT). fold L in LS, LT.
  destruct (others_figures L g) as (O1 & O2 & O3 & O4 & O5).
  destruct (locked_user X fuel fuel2 sa g a false false false drop all per span tabu v v' out W (fun _ => NE) AC Ck Left) as (T & v1 & v2 & out2 & Q1 & Q2 & Q3 & Q4 & Q5 & Q6 & Q7 & Q8 & Q9).
  { intros D HD. split; [exact TM|]. intros u Hu _. destruct (FT D HD) as (_ & _ & F3). specialize (F3 u Hu). pose proof (SV u). lra. }
  { discriminate. }
  { exact Hc. }
  { exact Hs. }
  fold L in Q2, Q3. fold rest in Q2. fold s in Q4, Q5, Q6, Q9. rewrite Hh in Q4.
  destruct (closing_figures T rest) as (ED & ES & EC & EP & Et & Ek & Ecu).
  assert (Dm : forall u, user_demand rest u = user_demand g u \/ user_demand rest u = 0).
  { intro u. unfold user_demand, rest. destruct (in_dec node_eq_dec u L) as [Hu|Hu]; [rewrite (O2 u Hu); right; reflexivity|rewrite (O1 u Hu); left; reflexivity]. }
  assert (Sv : forall u, user_service rest u = user_service g u \/ user_service rest u = 0).
  { intro u. unfold user_service, rest. destruct (in_dec node_eq_dec u L) as [Hu|Hu]; [rewrite (O2 u Hu); right; reflexivity|rewrite (O1 u Hu); left; reflexivity]. }
  assert (Sv' : forall u, ~ In u L -> user_service rest u = user_service g u) by (intros u Hu; unfold user_service, rest; rewrite (O1 u Hu); reflexivity).
  assert (Tm : forall u x, ~ In u L -> ~ In x L -> user_time rest u x = user_time g u x) by (intros u x Hu Hx; unfold user_time, rest; rewrite (O4 u x Hu Hx); reflexivity).
  assert (Wr : wf rest) by (apply wf_remove_nodes; exact W).
  destruct (plain_user X fuel fuel2 (without_pre sa) (closing T rest) a drop all per span tabu v1 v2 out2) as (ks & P1 & _ & _ & P4).
  { apply wf_closing. exact Wr. }
  { exact Mx. }
  { intros u x e He. rewrite closing_arc in He. destruct (O3 u x e He) as (He' & _). exact (NE u x e He'). }
  { intro u. rewrite ED. destruct (Dm u) as [-> | ->]; [apply ND|lra]. }
  { intros u r Hr. rewrite closing_node in Hr. assert (Ax : forall r0, node_data rest u = Some r0 -> r_aux_depot r0 = false).
    { intros r0 H0. destruct (in_dec node_eq_dec u L) as [Hu|Hu]; [unfold rest in H0; rewrite (O2 u Hu) in H0; discriminate|unfold rest in H0; rewrite (O1 u Hu) in H0; exact (AX u r0 H0)]. }
    destruct T as [t|]; [|exact (Ax r Hr)]. destruct (node_data rest u) as [r0|]; [|discriminate]. injection Hr as <-. destruct (node_eqb u Sink); cbn; apply (Ax r0 eq_refl). }
  { exact Per. }
  { reflexivity. }
  { exact Ini. }
  { exact Dv. }
  { exact Hh. }
  { exact Gr. }
  { rewrite ES, (Sv' Source LS). apply SV. }
  { intros D HD. destruct (FT D HD) as (F1 & F2 & F3). rewrite Ecu. split; [|split].
    - intros u Hu. apply O5 in Hu. destruct Hu as (Hu & Hl). rewrite !Et, !Tm by assumption. exact (F1 u Hu).
    - intros u x Hu Hx A1 A2. rewrite closing_arcs in A1, A2. apply O5 in Hu, Hx. destruct Hu as (Hu & Hl), Hx as (Hx & Hl2). rewrite !Et, !Tm by assumption.
      apply in_arcs_remove_nodes in A1, A2. exact (F2 u x Hu Hx (proj1 A1) (proj1 A2)).
    - intros u Hu. apply O5 in Hu. destruct Hu as (Hu & Hl). rewrite !Et, ES, !Tm, (Sv' u Hl) by assumption. exact (F3 u Hu). }
  { exact PM. }
  { exact SM. }
  { exact SP. }
  { intro E. destruct (SL E) as (S1 & S2). split; [exact S1|]. intros D HD u. rewrite ES. destruct (Sv u) as [-> | ->]; [exact (S2 D HD u)|reflexivity]. }
  { exact FP. }
  { exact Q2. }
  { exact Q3. }
  set (n := List.length (sv_routes (out_solved out2))) in *.
  assert (Fn : firstn n (sv_routes s) = sv_routes (out_solved out2)) by (rewrite Q4; unfold n; rewrite firstn_app, Nat.sub_diag, firstn_all, firstn_O, app_nil_r; reflexivity).
  assert (Sn : skipn n (sv_routes s) = combine (seq (S n) (List.length (sa_pre sa))) (sa_pre sa)) by (rewrite Q4; unfold n at 1; rewrite skipn_app, Nat.sub_diag, skipn_all; reflexivity).
  assert (Cs : forall (l : list (list node)) id, map snd (combine (seq id (List.length l)) l) = l /\ map fst (combine (seq id (List.length l)) l) = seq id (List.length l)).
  { induction l as [|r l IH]; intro id; [split; reflexivity|]. cbn. destruct (IH (S id)) as (-> & ->). split; reflexivity. }
  exists n, ks. split; [rewrite Sn; apply Cs|]. split; [|split].
  - rewrite Q4, map_app, (proj2 (Cs (sa_pre sa) (S n))), seq_app, (pl_names _ _ _ _ _ _ _ _ _ _ _ P1). reflexivity.
  - rewrite Fn, Q6. apply (planned_types _ _ _ _ _ _ _ _ (fun i => dget Nat.eqb i (sv_types (out_solved out2)))).
    + intros i Hi. symmetry. apply Q5. exact Hi.
    + apply (planned_closing T). exact P1.
  - intros Sp NI CL Hr. rewrite Fn in *. rewrite Q6. destruct (P4 Sp NI CL) as (q2 & B1 & B2). destruct (Q9 Mx Sp Hh (ND Source) (ND Sink) Hr q2 B1) as (q & B3 & B4).
    exists q. split; [exact B3|]. rewrite B4, B2. unfold left_price. apply Qplus_comp; [|reflexivity]. unfold plan_cost. apply Qplus_comp; [|reflexivity].
    unfold fleet_price. apply Qsum_ext. intros [k r] _. cbn [fst snd]. apply Qplus_comp; [|reflexivity]. apply path_sum_ext. intros; rewrite Ek; reflexivity.
Qed.

(** The routes that were not preassigned keep the limits. *)
Lemma locked_limits X fuel fuel2 sa (g : rgraph) a drop all per span tabu v v' out :
  wf g -> a_mixed_fleet a = false -> no_empty_costs g -> nonneg_user_demands g ->
  (forall u r, node_data g u = Some r -> r_aux_depot r = false) ->
  truthy per = false -> all_complete (sa_pre sa) -> sa_initial sa = [] -> sa_dive sa = false -> sa_heuristic sa = false ->
  (exists u, In u (custs g) /\ ~ In u (riders (sa_pre sa))) -> clocked g ->
  sa_greedy sa = false \/ (forall D, ~ time_limit a D) ->
  (forall u, 0 <= user_service g u) -> (forall u x, 0 <= user_time g u x) -> fair_times g a ->
  (forall x l, Permutation l (x_perms X x l)) ->
  (forall n q, sound_answer q (e_master (x_env X) n q)) ->
  (sa_cspy sa = false -> (forall n tl q, sound_answer q (e_pricer (x_env X) n tl q)) /\ no_circles (x_env X)) ->
  (sa_cspy sa = true -> (forall n tl h, sound_labelling h (e_label (x_env X) n tl h)) /\
     (forall D, time_limit a D -> forall u, user_service g u == 0)) ->
  finds_paths (x_path X) ->
  create g a false false false drop all per span tabu = Ok v -> solve X fuel fuel2 sa v = Ok (v', out) ->
  forall i r, In (i, r) (sv_routes (out_solved out)) -> stops r <> [] ->
    In r (sa_pre sa) \/
    (forall n, stop_limit a n -> (Z.of_nat (List.length (stops r)) <= n)%Z) /\ within_time g a r.
Proof.
  intros W Mx NE ND AX Per AC Ini Dv Hh Left Ck Gr SV TM FT PM SM SP SL FP Hc Hs i r Hir N0.
  destruct (locked_plain X fuel fuel2 sa g a drop all per span tabu v v' out W Mx NE ND AX Per AC Ini Dv Hh Left Ck Gr SV TM FT PM SM SP SL FP Hc Hs) as (n & ks & Q1 & _ & Q3 & _).
  rewrite <- (firstn_skipn n (sv_routes (out_solved out))) in Hir. apply in_app_or in Hir. destruct Hir as [Hir|Hir].
  2: { left. rewrite <- Q1. apply in_map_iff. exists (i, r). split; [reflexivity|exact Hir]. }
  right. pose proof (pl_routes _ _ _ _ _ _ _ _ _ _ _ Q3) as F. pose proof (pl_only _ _ _ _ _ _ _ _ _ _ _ Q3) as Vo.
  assert (Hr : In r (map snd (firstn n (sv_routes (out_solved out))))) by (apply in_map_iff; exists (i, r); split; [reflexivity|exact Hir]).
  set (L := riders (sa_pre sa)) in *. destruct (riders_custs (sa_pre sa)) as (LS & LT). fold L in LS, LT. destruct (others_figures L g) as (O1 & _ & _ & O4 & O5).
  assert (Fr : exists k, respects (others L g) a false false false k r /\ route_shape r).
  { clear - F Hr N0. induction F as [|k x ks rs (H1 & H2) F IH]; [destruct Hr|]. destruct Hr as [<-|Hr]; [exists k; split; [apply H2; exact N0|exact H1]|exact (IH Hr)]. }
  destruct Fr as (k & Rs & Sh).
  assert (In_r : forall u, In u r -> ~ In u L).
  { intros u Hu. destruct u as [| |z]; [exact LS|exact LT|]. apply O5. apply (Vo r (Cust z) Hr Hu); discriminate. }
  split; [exact (rs_stops _ _ _ _ _ _ _ Rs)|]. intros D HD. pose proof (rs_time _ _ _ _ _ _ _ Rs D HD) as T.
  rewrite (path_sum_ext (user_time g) (user_time (others L g))), (node_sum_ext (user_service g) (user_service (others L g))); [exact T| |].
  - intros u Hu. unfold user_service. rewrite (O1 u); [reflexivity|]. apply In_r. unfold stops in Hu. apply filter_In in Hu. apply Hu.
  - intros u x Hux. unfold user_time. apply arcs_in_nodes in Hux. rewrite (O4 u x); [reflexivity|apply In_r; apply Hux|apply In_r; apply Hux].
Qed.
