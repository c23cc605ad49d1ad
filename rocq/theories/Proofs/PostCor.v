(** The result properties in terms of the specification. *)
From Verif.Base Require Import Prelude Graph.
From Verif.Spec Require Import Routes Network Feasible Prep MIP Columns Results.
From Verif.Model Require Import Args Reach Checks Preprocess ClarkeWright Greedy Initial Pricing Post.
From Verif.Proofs Require Import RouteLemmas PreLemmas PruneProofs PostProofs TimesProofs.

(** ** Node lists *)
Theorem column_path sp c r : finds_paths sp -> route_shape r -> (forall a, In a (c_arcs c) <-> In a (arcs r)) ->
  sp (c_nodes c) (c_arcs c) = Some r.
Proof.
  intros F R S. assert (R' := R). destruct R as (cs & -> & _). apply path_found; assumption.
Qed.

Theorem node_lists_spec sp h caps K pre cs rts tys rs : finds_paths sp ->
  Forall2 (fun c r => route_shape r /\ forall a, In a (c_arcs c) <-> In a (arcs r)) cs rs ->
  node_lists sp h caps K pre cs = Ok (rts, tys) ->
  exists locked, keeps complete_route pre locked /\
    rts = combine (seq 1 (List.length (rs ++ locked))) (rs ++ locked) /\
    (forall i c, nth_error cs i = Some c -> dget Nat.eqb (S i) tys = Some (c_type c)).
Proof.
  intros F R H. apply node_lists_ok in H. destruct H as (paths & locked & H1 & H2 & H3 & H4 & H5 & _).
  assert (E : paths = rs).
  { clear - F R H3. revert rs R. induction H3 as [|c p cs paths H H3 IH]; intros rs R; inversion R as [|c' r cs' rs' [R1 R2] R3]; subst; [reflexivity|].
    rewrite (IH _ R3). rewrite (column_path sp c r F R1 R2) in H. congruence. }
  subst paths. exists locked. split; [exact H4|]. split; [|exact H5].
  clear - H1 H2. remember (rs ++ locked) as l. clear Heql. generalize dependent l. generalize 1%nat as n.
  induction rts as [|[i x] rts IH]; intros n [|y l] H1 H2; try discriminate; [reflexivity|]. cbn in *.
  injection H1 as -> H1. injection H2 as -> H2. f_equal. apply IH; assumption.
Qed.

Theorem locked_type_spec h caps K pre sp cs rts tys : node_lists sp h caps K pre cs = Ok (rts, tys) ->
  forall locked i r, keeps complete_route pre locked -> nth_error locked i = Some r ->
    In ((List.length cs + S i)%nat, r) rts /\
    ((exists j, (j < K)%nat /\ carries caps j (node_sum (demand_of h) r) /\ path_sum (cost_of h j) r < inject_Z 10000000000) ->
     exists k, dget Nat.eqb (List.length cs + S i)%nat tys = Some k /\ cheapest_type h caps K r k).
Proof.
  intros H locked i r KE Hr. apply node_lists_ok in H. destruct H as (paths & locked' & H1 & H2 & H3 & H4 & H5 & H6).
  assert (E : locked' = locked).
  { clear - KE H4. revert locked KE. induction H4 as [|x l l' P KE' IH|x l l' P KE' IH]; intros locked KE; inversion KE; subst; auto; try contradiction.
    f_equal. apply IH. assumption. }
  subst locked'. split.
  - assert (L : List.length paths = List.length cs) by (symmetry; exact (F2_length _ _ _ H3)).
    assert (N1 : nth_error (map snd rts) (List.length cs + i) = Some r).
    { rewrite H1, nth_error_app2 by lia. rewrite L. replace (List.length cs + i - List.length cs)%nat with i by lia. exact Hr. }
    assert (N2 : nth_error (map fst rts) (List.length cs + i) = Some (List.length cs + S i)%nat).
    { rewrite H2. assert (LT : (List.length cs + i < List.length (paths ++ locked))%nat).
      { rewrite app_length, L. assert (X := proj1 (nth_error_Some locked i) ltac:(congruence)). lia. }
      rewrite nth_error_nth' with (d := 0%nat) by (rewrite seq_length; exact LT). rewrite seq_nth by exact LT. f_equal. lia. }
    clear - N1 N2. revert N1 N2. generalize (List.length cs + i)%nat (List.length cs + S i)%nat. intros m n. revert m.
    induction rts as [|[a b] rts IH]; intros [|m] N1 N2; try discriminate; cbn in *; [left; congruence|right; eapply IH; eassumption].
  - intros (j & J1 & J2 & J3). specialize (H6 i r Hr). destruct (dget Nat.eqb (List.length cs + S i)%nat tys) as [k|].
    + exists k. split; [reflexivity|apply H6].
    + exfalso. apply (H6 j J1). split; assumption.
Qed.

(** ** node_load *)
Lemma running_at d : forall p1 a v p2, exists l, nth_error (running_loads d a (p1 ++ v :: p2)) (List.length p1) = Some l /\ l == a + node_sum d (p1 ++ [v]).
Proof.
  induction p1 as [|x p1 IH]; intros a v p2.
  - eexists. split; [reflexivity|]. unfold node_sum. cbn [app map]. rewrite Qsum_cons. change (Qsum []) with 0. lra.
  - cbn [app running_loads List.length nth_error]. destruct (IH (a + d x) v p2) as (l & L1 & L2). exists l. split; [exact L1|].
    rewrite L2, node_sum_cons. lra.
Qed.

Lemma F2_nth {A B} (P : A -> B -> Prop) l l' i b : Forall2 P l l' -> nth_error l' i = Some b -> exists a, nth_error l i = Some a /\ P a b.
Proof.
  intro F. revert i. induction F as [|x y l l' H F IH]; intros [|i] N; try discriminate; cbn in *; [injection N as <-; eauto|auto].
Qed.

Lemma nth_pair {A B} (l : list (A * B)) i a b : nth_error (map fst l) i = Some a -> nth_error (map snd l) i = Some b -> In (a, b) l.
Proof. revert i. induction l as [|[x y] l IH]; intros [|i] H1 H2; try discriminate; cbn in *; [left; congruence|right; eauto]. Qed.

Lemma node_sum_diff (f g : node -> Q) p : node_sum (fun v => f v - g v) p == node_sum f p - node_sum g p.
Proof. unfold node_sum. apply Qsum_map_minus. Qed.

Theorem node_load_plain s d : node_load s = Ok d -> sv_both s = false -> has_caps (sv_caps s) = true \/ sv_pickup s = true ->
  Forall2 (fun p q => fst q = fst p /\ (NoDup (snd p) -> map fst (snd q) = snd p /\
    forall p1 v p2, snd p = p1 ++ v :: p2 -> exists l, In (v, l) (snd q) /\ l == node_sum (demand_of (sv_copy s)) (p1 ++ [v]))) (sv_routes s) d.
Proof.
  intros H B C. apply node_load_ok in H. destruct H as [_ H]. assert (C' : has_caps (sv_caps s) = true \/ sv_pickup s = true \/ sv_both s = true) by tauto.
  specialize (H C'). eapply Forall2_weaken; [|exact H]. intros [i r] [j q] _ [H1 H2]. cbn [fst snd] in *. split; [exact H1|]. intro N.
  destruct (H2 N) as (H3 & a & Ha & H4). split; [exact H3|]. intros p1 v p2 E. unfold start_amount in Ha. rewrite B in Ha.
  rewrite E in H3, H4. destruct (running_at (adds s) p1 a v p2) as (l & L1 & L2). destruct (F2_nth _ _ _ _ _ H4 L1) as (l' & L3 & L4).
  exists l'. split.
  - apply (nth_pair q (List.length p1)); [|exact L3]. rewrite H3. rewrite nth_error_app2, Nat.sub_diag by lia. reflexivity.
  - rewrite L4, L2, Ha. assert (X : node_sum (adds s) (p1 ++ [v]) == node_sum (demand_of (sv_copy s)) (p1 ++ [v])).
    { apply node_sum_ext. intros w _. unfold adds. rewrite B. reflexivity. }
    rewrite X. lra.
Qed.

Theorem node_load_both s d : node_load s = Ok d -> sv_both s = true ->
  Forall2 (fun p q => fst q = fst p /\ (NoDup (snd p) -> map fst (snd q) = snd p /\
    exists k caps c, dget Nat.eqb (fst p) (sv_types s) = Some k /\ sv_caps s = Some caps /\ nth_error caps k = Some c /\
    forall p1 v p2, snd p = p1 ++ v :: p2 -> exists l, In (v, l) (snd q) /\
      l == load_between (sv_copy s) (p1 ++ [v]) p2 + (inject_Z c - node_sum (demand_of (sv_copy s)) (snd p)))) (sv_routes s) d.
Proof.
  intros H B. apply node_load_ok in H. destruct H as [_ H]. specialize (H (or_intror (or_intror B))). eapply Forall2_weaken; [|exact H].
  intros [i r] [j q] _ [H1 H2]. cbn [fst snd] in *. split; [exact H1|]. intro N. destruct (H2 N) as (H3 & a & Ha & H4). split; [exact H3|].
  unfold start_amount in Ha. rewrite B in Ha. destruct Ha as (k & caps & c & A1 & A2 & A3 & A4). exists k, caps, c. repeat (split; [assumption|]).
  intros p1 v p2 E. rewrite E in H3, H4 |- *. destruct (running_at (adds s) p1 a v p2) as (l & L1 & L2). destruct (F2_nth _ _ _ _ _ H4 L1) as (l' & L3 & L4).
  exists l'. split.
  - apply (nth_pair q (List.length p1)); [|exact L3]. rewrite H3. rewrite nth_error_app2, Nat.sub_diag by lia. reflexivity.
  - rewrite L4, L2, A4. assert (X : node_sum (adds s) (p1 ++ [v]) == node_sum (fun w => collect_of (sv_copy s) w - demand_of (sv_copy s) w) (p1 ++ [v])).
    { apply node_sum_ext. intros w _. unfold adds. rewrite B. reflexivity. }
    rewrite X, node_sum_diff. unfold load_between. change (v :: p2) with ([v] ++ p2). rewrite app_assoc.
    rewrite (node_sum_app (demand_of (sv_copy s)) (p1 ++ [v]) p2). lra.
Qed.

(** ** Arrival times *)
Theorem arrival_spec s d : arrival_time s = Ok d ->
  (no_times s = true -> d = []) /\
  (no_times s = false -> Forall2 (fun p q => fst q = fst p /\ (route_shape (snd p) ->
     map fst (snd q) = snd p /\ earliest_times (sv_copy s) (snd p) (map snd (snd q)) /\
     hd_error (snd q) = Some (Source, lower_of (sv_copy s) Source))) (sv_routes s) d).
Proof.
  intro H. apply arrival_ok in H. destruct H as [H1 H2]. split; [exact H1|]. intro C. specialize (H2 C). eapply Forall2_weaken; [|exact H2].
  intros [i r] [j q] _ [E H]. cbn [fst snd] in *. split; [exact E|]. intro R. assert (N := route_shape_NoDup _ R). destruct R as (cs & -> & _).
  rewrite (H _ eq_refl N). split; [apply arrival_dict_keys|]. split; [apply arrival_dict_earliest; discriminate|]. reflexivity.
Qed.

Theorem departure_spec s d : departure_time s = Ok d -> NoDup (map fst (sv_routes s)) ->
  (forall i r, In (i, r) (sv_routes s) -> route_shape r) ->
  exists a, arrival_time s = Ok a /\
    Forall2 (fun x y => fst y = fst x /\ map fst (snd y) = map fst (snd x) /\
      forall v t, In (v, t) (snd y) -> exists t', In (v, t') (snd x) /\ t = (if node_eqb v Source then t' else t' + service_of (sv_copy s) v)) a d.
Proof.
  intros H NR SH. assert (D := H). unfold departure_time in H. apply bind_ok in H. destruct H as (a & HA & _). exists a. split; [exact HA|].
  assert (SH' : forall i r, In (i, r) (sv_routes s) -> NoDup r /\ exists cs, r = Source :: cs).
  { intros i r Hir. split; [apply route_shape_NoDup; eapply SH; exact Hir|]. destruct (SH i r Hir) as (cs & -> & _). eauto. }
  destruct (departure_ok s d D NR SH') as [D1 D2]. destruct (arrival_ok s a HA) as [A1 A2].
  destruct (no_times s) eqn:C; [rewrite (D1 eq_refl), (A1 eq_refl); constructor|]. specialize (D2 eq_refl). specialize (A2 eq_refl).
  clear - A2 D2 SH'. revert d D2. induction A2 as [|[i r] [j x] l a [E1 E2] A2 IH]; intros d D2; inversion D2 as [|p [j' y] l' d' (F1 & F2 & F3) D3]; subst; constructor.
  - cbn [fst snd] in *. destruct (SH' i r (or_introl eq_refl)) as (N & cs & ->). specialize (E2 cs eq_refl N). split; [congruence|].
    rewrite E2, arrival_dict_keys. split; [exact F2|]. exact F3.
  - apply IH; [intros; eapply SH'; right; eassumption|exact D3].
Qed.

(** ** The checks *)
Lemma F2_combine {A B} (P : A -> B -> Prop) l l' : List.length l = List.length l' -> (forall a b, In (a, b) (combine l l') -> P a b) -> Forall2 P l l'.
Proof.
  revert l'. induction l as [|a l IH]; intros [|b l'] L H; try discriminate; constructor; [apply H; left; reflexivity|].
  apply IH; [cbn in L; lia|]. intros; apply H; right; assumption.
Qed.
Lemma F2_combine_in {A B} (P : A -> B -> Prop) l l' a b : Forall2 P l l' -> In (a, b) (combine l l') -> P a b.
Proof. intro F. induction F as [|x y l l' H F IH]; cbn; [intros []|]. intros [E|E]; [injection E as <- <-; exact H|auto]. Qed.

(** general form: the earliest times are compared with the windows of the graph *)
Theorem check_arrival_spec s d : arrival_time s = Ok d -> no_times s = false -> (forall i r, In (i, r) (sv_routes s) -> route_shape r) ->
  (check_arrival_time s = Ok tt <->
   forall i r, In (i, r) (sv_routes s) -> (forall v, In v r -> In v (nodes (sv_graph s))) /\
     exists T, earliest_times (sv_copy s) r T /\
       Forall2 (fun v t => lower_of (sv_graph s) v <= t /\ t <= upper_of (sv_graph s) v) r T).
Proof.
  intros H C SH. rewrite (check_arrival_iff s d H). apply arrival_ok in H. destruct H as [_ H]. specialize (H C).
  assert (X : forall i r, In (i, r) (sv_routes s) -> r <> [] /\ In (i, arrival_dict (sv_copy s) r) d).
  { intros i r Hir. assert (R := SH i r Hir). destruct (F2_in_l _ _ _ _ H Hir) as ([j q] & Hq & E & E2). cbn [fst snd] in *. subst j.
    assert (N := route_shape_NoDup _ R). destruct R as (cs & -> & _). rewrite (E2 _ eq_refl N) in Hq. split; [discriminate|exact Hq]. }
  split.
  - intros P i r Hir. destruct (X i r Hir) as [NE Hd]. split.
    + intros v Hv. rewrite <- (arrival_dict_keys (sv_copy s) r) in Hv. apply in_map_iff in Hv. destruct Hv as ([v' t] & <- & Hv).
      destruct (P _ _ _ _ Hd Hv) as (n & Hn & _). apply node_data_In. exists n. exact Hn.
    + exists (map snd (arrival_dict (sv_copy s) r)). split; [apply arrival_dict_earliest; exact NE|].
      destruct r as [|u p]; [congruence|]. apply F2_combine; [rewrite arrival_dict_values; cbn; rewrite arrivals_length; reflexivity|].
      intros v t Hvt. rewrite arrival_dict_values in Hvt. destruct (P _ _ _ _ Hd Hvt) as (n & Hn & A & B). apply nd_data in Hn. unfold lower_of, upper_of. rewrite Hn. auto.
  - intros P i a v t Hi Ha. destruct (F2_in _ _ _ _ H Hi) as ([i' r] & Hir & E & E2). cbn [fst snd] in *. subst i'.
    assert (R := SH i r Hir). assert (N := route_shape_NoDup _ R). destruct (P i r Hir) as [P1 (T & T1 & T2)].
    destruct R as (cs & -> & R). rewrite (E2 _ eq_refl N) in Ha.
    assert (V : In v (Source :: cs ++ [Sink])). { apply (in_map fst) in Ha. rewrite arrival_dict_keys in Ha. exact Ha. }
    destruct (proj2 (node_data_In (sv_graph s) v) (P1 v V)) as (n & Hn). exists n. split; [exact Hn|].
    assert (ET := arrivals_earliest (sv_copy s) Source (cs ++ [Sink])).
    assert (Q1 := proj2 ET T (proj1 T1)). assert (Q2 := proj2 T1 _ (proj1 ET)).
    change (In (v, t) (combine (Source :: cs ++ [Sink]) (lower_of (sv_copy s) Source :: arrivals (sv_copy s) Source (lower_of (sv_copy s) Source) (cs ++ [Sink])))) in Ha.
    revert Q1 Q2 Ha T2. generalize (lower_of (sv_copy s) Source :: arrivals (sv_copy s) Source (lower_of (sv_copy s) Source) (cs ++ [Sink])). generalize (Source :: cs ++ [Sink]).
    intros p T0 Q1 Q2 Ha T2. assert (Z : exists t', In (v, t') (combine p T) /\ t == t').
    { clear - Q1 Q2 Ha T2. revert T0 Q1 Q2 Ha. induction T2 as [|x y p T H T2 IH]; intros T0 Q1 Q2 Ha; [destruct T0; destruct Ha|].
      inversion Q1 as [|a b l l' Q1a Q1b]; subst. inversion Q2; subst. destruct Ha as [Ha|Ha].
      - injection Ha as <- <-. exists y. split; [left; reflexivity|lra].
      - destruct (IH l Q1b ltac:(assumption) Ha) as (t' & Z1 & Z2). exists t'. split; [right; exact Z1|exact Z2]. }
    destruct Z as (t' & Z1 & Z2). assert (Z3 := F2_combine_in _ _ _ _ _ T2 Z1). cbv beta in Z3. apply nd_data in Hn.
    unfold lower_of, upper_of in Z3. rewrite Hn in Z3. lra.
Qed.

(** with the user's windows *)
Theorem check_arrival_plain s d : arrival_time s = Ok d -> no_times s = false ->
  (forall i r, In (i, r) (sv_routes s) -> route_shape r /\
     forall v, In v r -> In v (nodes (sv_graph s)) /\ lower_of (sv_graph s) v = lower_of (sv_copy s) v /\ upper_of (sv_graph s) v = upper_of (sv_copy s) v) ->
  (check_arrival_time s = Ok tt <-> forall i r, In (i, r) (sv_routes s) -> windows_ok (sv_copy s) r).
Proof.
  intros H C SH. rewrite (check_arrival_spec s d H C) by (intros i r Hir; apply (SH i r Hir)). split.
  - intros P i r Hir. destruct (P i r Hir) as [_ (T & T1 & T2)]. unfold windows_ok. apply (earliest_feasible _ _ _ _ T1).
    apply F2_combine; [exact (F2_length _ _ _ T2)|]. intros v t Hvt. assert (Z := F2_combine_in _ _ _ _ _ T2 Hvt). cbv beta in Z.
    destruct (SH i r Hir) as [_ W]. destruct (W v (in_combine_l _ _ _ _ Hvt)) as (_ & _ & <-). tauto.
  - intros P i r Hir. destruct (SH i r Hir) as [R W]. split; [intros v Hv; apply W; exact Hv|].
    assert (NE : r <> []) by (destruct R as (cs & -> & _); discriminate).
    exists (map snd (arrival_dict (sv_copy s) r)). assert (ET := arrival_dict_earliest (sv_copy s) r NE). split; [exact ET|].
    assert (U := proj1 (earliest_feasible _ _ _ _ ET) (P i r Hir)). assert (L := unhurried_lower _ _ _ _ _ (proj1 ET)).
    apply F2_combine; [exact (F2_length _ _ _ U)|]. intros v t Hvt. destruct (W v (in_combine_l _ _ _ _ Hvt)) as (_ & -> & ->).
    split; [exact (F2_combine_in _ _ _ _ _ L Hvt)|exact (F2_combine_in _ _ _ _ _ U Hvt)].
Qed.

(** with the windows tightened by preprocessing *)
Theorem check_arrival_tight s d : arrival_time s = Ok d -> no_times s = false ->
  direct_is_fastest (sv_copy s) -> nonneg_services (sv_copy s) ->
  (forall i r, In (i, r) (sv_routes s) -> route_shape r /\ along (arc_list (sv_copy s)) r /\
     forall v, In v r -> In v (nodes (sv_graph s)) /\
       lower_of (sv_graph s) v = tight_lower (sv_copy s) v /\ upper_of (sv_graph s) v = tight_upper (sv_copy s) v) ->
  (check_arrival_time s = Ok tt <-> forall i r, In (i, r) (sv_routes s) -> windows_ok (sv_copy s) r).
Proof.
  intros H C D NS SH. rewrite (check_arrival_spec s d H C) by (intros i r Hir; apply (SH i r Hir)). split.
  - intros P i r Hir. destruct (P i r Hir) as [_ (T & T1 & T2)]. unfold windows_ok. apply (earliest_feasible _ _ _ _ T1).
    apply F2_combine; [exact (F2_length _ _ _ T2)|]. intros v t Hvt. assert (Z := F2_combine_in _ _ _ _ _ T2 Hvt). cbv beta in Z.
    destruct (SH i r Hir) as (_ & _ & W). destruct (W v (in_combine_l _ _ _ _ Hvt)) as (_ & _ & E). rewrite E in Z. unfold tight_upper in Z.
    destruct (is_depot v); [tauto|]. destruct (pymin2_spec (upper_of (sv_copy s) v) (upper_of (sv_copy s) Sink - time_of (sv_copy s) v Sink)) as (M & _). lra.
  - intros P i r Hir. destruct (SH i r Hir) as (R & A & W). split; [intros v Hv; apply W; exact Hv|].
    assert (NE : r <> []) by (destruct R as (cs & -> & _); discriminate).
    exists (map snd (arrival_dict (sv_copy s) r)). assert (ET := arrival_dict_earliest (sv_copy s) r NE). split; [exact ET|].
    assert (U := proj1 (earliest_feasible _ _ _ _ ET) (P i r Hir)).
    assert (TT : timetable (time_of (sv_copy s)) (service_of (sv_copy s)) (lower_of (sv_copy s)) (upper_of (sv_copy s)) r (map snd (arrival_dict (sv_copy s) r))).
    { apply timetable_unhurried. split; [apply ET|exact U]. }
    apply (timetable_tight _ D NS r _ R A) in TT. apply timetable_unhurried in TT. destruct TT as [TT1 TT2]. apply unhurried_lower in TT1.
    apply F2_combine; [exact (F2_length _ _ _ U)|]. intros v t Hvt. destruct (W v (in_combine_l _ _ _ _ Hvt)) as (_ & -> & ->).
    split; [exact (F2_combine_in _ _ _ _ _ TT1 Hvt)|exact (F2_combine_in _ _ _ _ _ TT2 Hvt)].
Qed.
