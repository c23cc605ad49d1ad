(** Preassigned complete routes in periodic problems: who is visited how often. *)
From Verif.Base Require Import Prelude Graph.
From Verif.Spec Require Import Routes Network Inputs Feasible Prep LinProg Pricing MIP Timing Run Results Plans Variants Plain Periodic Locked.
From Verif.Model Require Import Args Reach Checks Preprocess ClarkeWright Greedy Initial Pricing
  GreedyPricing LPPricing Cspy Master Dive Hyper ColGen Post Schedule Solve.
From Verif.Proofs Require Import RouteLemmas ReachLemmas PreLemmas SolveProofs Certificate AnyPool AnyUser PlainUser LockedProofs LockedSolve LockedUser LockedPlain
  PerUser.

Lemma visits_riders u pre : u <> Source -> u <> Sink -> ~ In u (riders pre) -> visits u pre = 0%nat.
Proof.
  intros US UT Hu. apply visits_zero. intros r Hr Hin. apply Hu. unfold riders. apply in_flat_map. exists r. split; [exact Hr|].
  unfold stops. apply filter_In. split; [exact Hin|]. destruct u; [congruence|congruence|reflexivity].
Qed.

Lemma closing_freq T g u : user_freq (closing T g) u = user_freq g u.
Proof.
  unfold user_freq. rewrite closing_node. destruct T; [|reflexivity]. destruct (node_data g u); [|reflexivity]. cbn. destruct (node_eqb u Sink); reflexivity.
Qed.

(** A route that avoids [L] is as good in the whole graph as in the rest. *)
Lemma respects_others L g a k r : (forall u, In u r -> ~ In u L) ->
  respects (others L g) a false false false k r <-> respects g a false false false k r.
Proof.
  intros Av. destruct (others_figures L g) as (O1 & _ & _ & O4 & _).
  assert (SD : node_sum (user_demand (others L g)) (stops r) == node_sum (user_demand g) (stops r)).
  { apply node_sum_ext. intros u Hu. unfold user_demand. rewrite (O1 u); [reflexivity|]. apply Av. unfold stops in Hu. apply filter_In in Hu. apply Hu. }
  assert (SS : node_sum (user_service (others L g)) (stops r) == node_sum (user_service g) (stops r)).
  { apply node_sum_ext. intros u Hu. unfold user_service. rewrite (O1 u); [reflexivity|]. apply Av. unfold stops in Hu. apply filter_In in Hu. apply Hu. }
  assert (ST : path_sum (user_time (others L g)) r == path_sum (user_time g) r).
  { apply path_sum_ext. intros u x Hux. unfold user_time. apply arcs_in_nodes in Hux. rewrite (O4 u x); [reflexivity|apply Av; apply Hux|apply Av; apply Hux]. }
  split; intros [Q1 Q2 Q3 _ _ _ _ _]; constructor; try discriminate.
  - intros c Hc. rewrite <- SD. exact (Q1 c Hc).
  - exact Q2.
  - intros D HD. rewrite <- ST, <- SS. exact (Q3 D HD).
  - intros c Hc. rewrite SD. exact (Q1 c Hc).
  - exact Q2.
  - intros D HD. rewrite ST, SS. exact (Q3 D HD).
Qed.
Lemma respects_closed T g a k r : respects g a false false false k r -> respects (closing T g) a false false false k r.
Proof.
  destruct (closing_figures T g) as (ED & ES & _ & _ & Et & _ & _). intros [Q1 Q2 Q3 _ _ _ _ _]. constructor; try discriminate.
  - intros c Hc. rewrite (node_sum_ext _ (user_demand g)) by (intros; rewrite ED; reflexivity). exact (Q1 c Hc).
  - exact Q2.
  - intros D HD. rewrite (path_sum_ext _ (user_time g)) by (intros; rewrite Et; reflexivity). rewrite (node_sum_ext _ (user_service g)) by (intros; rewrite ES; reflexivity). exact (Q3 D HD).
Qed.

Theorem locked_periodic X fuel fuel2 sa (g : rgraph) a drop all period span tabu v v' out :
  wf g -> (a_mixed_fleet a = false -> no_empty_costs g) -> nonneg_user_demands g ->
  (forall u r, node_data g u = Some r -> r_aux_depot r = false) ->
  period <> 0%Z -> truthyQ drop = false -> all_complete (sa_pre sa) -> sa_initial sa = [] ->
  sa_dive sa = false -> sa_heuristic sa = false -> sa_greedy sa = false ->
  (exists u, In u (custs g) /\ ~ In u (riders (sa_pre sa))) -> clocked g ->
  (forall u, 0 <= user_service g u) -> (forall u x, 0 <= user_time g u x) ->
  (forall u, In u (custs g) -> ~ In u (riders (sa_pre sa)) -> within_time g a [Source; u; Sink]) ->
  (forall n q, sound_answer q (e_master (x_env X) n q)) ->
  (sa_cspy sa = false -> (forall n tl q, sound_answer q (e_pricer (x_env X) n tl q)) /\ no_circles (x_env X)) ->
  (sa_cspy sa = true -> (forall n tl h, sound_labelling h (e_label (x_env X) n tl h)) /\
     (forall D, time_limit a D -> forall u, user_service g u == 0)) ->
  (forall q, sound_answer q (x_days X q)) -> finds_paths (x_path X) ->
  create g a false false false drop all (Some period) span tabu = Ok v -> solve X fuel fuel2 sa v = Ok (v', out) ->
  let s := out_solved out in
  let rs := map snd (sv_routes s) in
  exists n ks,
    skipn n rs = sa_pre sa /\ List.length ks = n /\ map fst (sv_routes s) = seq 1 (n + List.length (sa_pre sa)) /\
    (forall i k, nth_error ks i = Some k -> dget Nat.eqb (S i) (sv_types s) = Some k) /\
    Forall2 (fun k r => route_shape r /\ (stops r <> [] -> along (arc_list g ++ depot_arcs g) r /\ respects g a false false false k r))
      ks (firstn n rs) /\
    (forall u, In u (custs g) -> In u (riders (sa_pre sa)) -> visits u rs = visits u (sa_pre sa)) /\
    (forall u, In u (custs g) -> ~ In u (riders (sa_pre sa)) -> (Z.of_nat (visits u rs) <= user_freq g u)%Z /\
       ((user_freq g u <= 1)%Z -> Z.of_nat (visits u rs) = user_freq g u)) /\
    sv_dropped s = [].
Proof.
  intros W NE ND AX Per Dr AC Ini Dv Hh Gr Left Ck SV TM RT SM SP SL SDy FP Hc Hs s rs.
  set (L := riders (sa_pre sa)) in *. destruct (riders_custs (sa_pre sa)) as (LS & LT). fold L in LS, LT.
  destruct (others_figures L g) as (O1 & O2 & O3 & O4 & O5).
  destruct (locked_user X fuel fuel2 sa g a false false false drop all (Some period) span tabu v v' out W NE AC Ck Left) as (T & v1 & v2 & out2 & Q1 & Q2 & Q3 & Q4 & Q5 & Q6 & Q7 & Q8 & Q9).
  { intros D HD. split; [exact TM|]. intros u Hu Hl. specialize (RT u Hu Hl D HD). pose proof (SV u). destruct u as [| |z]; [apply in_custs in Hu; tauto|apply in_custs in Hu; tauto|].
    unfold path_sum, node_sum in RT. cbn in RT. lra. }
  { discriminate. }
  { exact Hc. }
  { exact Hs. }
  fold L in Q2, Q3. set (rest := others L g) in *. fold s in Q4, Q5, Q6, Q9. rewrite Hh in Q4.
  destruct (closing_figures T rest) as (ED & ES & EC & EP & Et & Ek & Ecu).
  assert (Dm : forall u, user_demand rest u = user_demand g u \/ user_demand rest u = 0).
  { intro u. unfold user_demand. destruct (in_dec node_eq_dec u L) as [Hu|Hu]; [rewrite (O2 u Hu); right; reflexivity|rewrite (O1 u Hu); left; reflexivity]. }
  assert (Nd : nonneg_user_demands (closing T rest)) by (intro u; rewrite ED; destruct (Dm u) as [-> | ->]; [apply ND|lra]).
  assert (Sv : forall u, user_service rest u = user_service g u \/ user_service rest u = 0).
  { intro u. unfold user_service. destruct (in_dec node_eq_dec u L) as [Hu|Hu]; [rewrite (O2 u Hu); right; reflexivity|rewrite (O1 u Hu); left; reflexivity]. }
  destruct (per_routes X fuel fuel2 (without_pre sa) (closing T rest) a false false false drop all period span tabu v1 v2 out2)
    as (ks & P1 & P2 & P3 & P4 & P5 & P6 & P7 & P8 & P9).
  { apply wf_closing. apply wf_remove_nodes. exact W. }
  { intro M. intros u x e He. rewrite closing_arc in He. destruct (O3 u x e He) as (He' & _). exact (NE M u x e He'). }
  { cbn [sa_initial without_pre]. rewrite Ini. intros r []. }
  { intros u r Hr. rewrite closing_node in Hr. assert (Ax : forall r0, node_data rest u = Some r0 -> r_aux_depot r0 = false).
    { intros r0 H0. destruct (in_dec node_eq_dec u L) as [Hu|Hu]; [rewrite (O2 u Hu) in H0; discriminate|rewrite (O1 u Hu) in H0; exact (AX u r0 H0)]. }
    destruct T as [t|]; [|exact (Ax r Hr)]. destruct (node_data rest u) as [r0|]; [|discriminate]. injection Hr as <-. destruct (node_eqb u Sink); cbn; apply (Ax r0 eq_refl). }
  { exact Per. }
  { exact Dr. }
  { reflexivity. }
  { exact Dv. }
  { exact Hh. }
  { left. exact Gr. }
  { apply Nd. }
  { apply Nd. }
  { rewrite ES. destruct (Sv Source) as [-> | ->]; [apply SV|lra]. }
  { intros _. exact Nd. }
  { discriminate. }
  { discriminate. }
  { cbn [sa_initial without_pre]. rewrite Ini. intros r k (u & Hu & ->) _ Cap St _. rewrite Ecu in Hu. apply O5 in Hu. destruct Hu as (Hu & Hl).
    apply respects_closed. apply respects_others.
    { intros x [<-|[<-|[<-|[]]]]; assumption. }
    assert (Av : forall x, In x [Source; u; Sink] -> ~ In x L) by (intros x [<-|[<-|[<-|[]]]]; assumption).
    constructor; try discriminate.
    - intros c Hcc. specialize (Cap c Hcc). eapply Qle_trans; [|exact Cap]. apply Qle_lteq. right. apply node_sum_ext. intros x Hx. rewrite ED. unfold user_demand. rewrite (O1 x); [reflexivity|].
      apply Av. unfold stops in Hx. apply filter_In in Hx. apply Hx.
    - intros n Hn. specialize (St n Hn). assert (List.length (stops [Source; u; Sink]) <= 1)%nat by (destruct u; cbn; lia). lia.
    - exact (RT u Hu Hl). }
  { exact SM. }
  { intro E. destruct (SP E) as (S1 & S2). split; [exact S1|]. intros _. left. exact S2. }
  { intro E. destruct (SL E) as (S1 & S2). split; [exact S1|]. split; [discriminate|]. intros _ D HD u. rewrite ES. destruct (Sv u) as [-> | ->]; [exact (S2 D HD u)|reflexivity]. }
  { exact SDy. }
  { exact FP. }
  { exact Q2. }
  { exact Q3. }
  set (rs2 := map snd (sv_routes (out_solved out2))) in *. set (n := List.length (sv_routes (out_solved out2))) in *.
  assert (Ln : List.length rs2 = n) by (unfold rs2, n; apply map_length).
  assert (Cs : forall (l : list (list node)) id, map snd (combine (seq id (List.length l)) l) = l /\ map fst (combine (seq id (List.length l)) l) = seq id (List.length l)).
  { induction l as [|r l IH]; intro id; [split; reflexivity|]. cbn. destruct (IH (S id)) as (-> & ->). split; reflexivity. }
  assert (Ers : rs = rs2 ++ sa_pre sa) by (unfold rs; rewrite Q4, map_app, (proj1 (Cs (sa_pre sa) (S n))); reflexivity).
  assert (Fn : firstn n rs = rs2) by (rewrite Ers, <- Ln, firstn_app, Nat.sub_diag, firstn_all, firstn_O, app_nil_r; reflexivity).
  assert (Av : forall r u, In r rs2 -> In u r -> ~ In u L).
  { intros r u Hr Hu. destruct u as [| |z]; [exact LS|exact LT|]. apply O5. rewrite <- Ecu. apply (P7 r (Cust z) Hr Hu); discriminate. }
  assert (CU : forall u, In u (custs g) -> u <> Source /\ u <> Sink) by (intros u Hu; apply in_custs in Hu; tauto).
  exists n, ks. rewrite Fn. split; [rewrite Ers, <- Ln, skipn_app, Nat.sub_diag, skipn_all; reflexivity|]. split; [rewrite P1; exact Ln|].
  split; [rewrite Q4, map_app, (proj2 (Cs (sa_pre sa) (S n))), seq_app, P2, Ln; reflexivity|]. split.
  { intros i k Hi. rewrite Q5; [exact (P3 i k Hi)|]. assert (i < List.length ks)%nat by (apply nth_error_Some; congruence). fold n. lia. }
  split; [|split; [|split]].
  - assert (Sub : forall e, In e (arc_list (closing T rest) ++ depot_arcs (closing T rest)) -> In e (arc_list g ++ depot_arcs g)).
    { intros e He. apply in_or_app. apply in_app_or in He. destruct He as [He|He].
      - left. rewrite closing_arcs in He. destruct e as (x & y). apply in_arcs_remove_nodes in He. apply He.
      - right. unfold depot_arcs in *. rewrite Ecu in He. apply in_flat_map in He. destruct He as (u & Hu & He). apply in_flat_map. exists u. split; [|exact He]. apply O5 in Hu. apply Hu. }
    clear - P4 Av Sub. induction P4 as [|k r ks rs0 (H1 & H2) P4 IH]; constructor.
    + split; [exact H1|]. intro N0. destruct (H2 N0) as (H3 & H4). split; [intros x y He; apply Sub; exact (H3 x y He)|].
      apply (respects_others L); [intros u Hu; exact (Av r u (or_introl eq_refl) Hu)|]. exact (respects_closing T _ a false false k r H4).
    + apply IH. intros r' u Hr'. apply Av. right. exact Hr'.
  - intros u Hu Hl. rewrite Ers, visits_app, (visits_zero u rs2); [reflexivity|]. intros r Hr Hin. exact (Av r u Hr Hin Hl).
  - intros u Hu Hl. destruct (CU u Hu) as (US & UT). rewrite Ers, visits_app, (visits_riders u (sa_pre sa) US UT Hl), Nat.add_0_r.
    assert (Fq : user_freq (closing T rest) u = user_freq g u) by (rewrite closing_freq; unfold user_freq; rewrite (O1 u Hl); reflexivity). rewrite <- Fq.
    apply P6. rewrite Ecu. apply O5. auto.
  - rewrite Q6. exact P8.
Qed.
