(** Lemmas restated without the tests of the model. *)
From Verif.Base Require Import Prelude Graph.
From Verif.Spec Require Import Routes Network LinProg Inputs Feasible Prep Pricing MIP Columns Timing Results.
From Verif.Model Require Import Args Reach Checks Preprocess ClarkeWright Greedy Initial Pricing Cspy Post.
From Verif.Proofs Require Import HeurCor CspyProofs PricingCor PostProofs PostCor PostEnd TimesProofs.

Lemma limited_iff caps : has_caps caps = true <-> limited caps.
Proof.
  unfold limited. destruct caps as [[|c l]|]; cbn; split; intro H; try discriminate; try reflexivity.
  - destruct H as (? & ? & H). discriminate.
  - eauto.
  - destruct H as (? & ? & H). discriminate.
Qed.
Lemma unlimited_iff caps : has_caps caps = false <-> ~ limited caps.
Proof. rewrite <- limited_iff. destruct (has_caps caps); split; intro H; congruence. Qed.
Lemma timed_iff s : no_times s = false <-> timed (sv_windows s) (sv_duration s).
Proof.
  unfold no_times, timed. destruct (sv_windows s); cbn [negb]; [rewrite andb_false_r; split; auto|].
  rewrite andb_true_r, negb_false_iff. unfold truthy. destruct (sv_duration s) as [D|].
  - rewrite negb_true_iff, Z.eqb_neq. split; [intro H; right; eauto|]. intros [H|(D' & H & H')]; congruence.
  - split; [discriminate|]. intros [H|(D' & H & H')]; discriminate.
Qed.
Lemma untimed_iff s : no_times s = true <-> ~ timed (sv_windows s) (sv_duration s).
Proof. rewrite <- timed_iff. destruct (no_times s); split; intro H; congruence. Qed.
Lemma custom_iff o : custom_ref o = true <->
  o_time_windows o = true \/ o_distribution_collection o = true \/ o_pickup_delivery o = true.
Proof. unfold custom_ref. rewrite !orb_true_iff. tauto. Qed.

Theorem read_loads s d : best_routes_load s = Ok d ->
  (~ limited (sv_caps s) \/ sv_both s = true \/ sv_pickup s = true -> d = []) /\
  (limited (sv_caps s) -> sv_both s = false -> sv_pickup s = false ->
     reports (fun _ r q => q == node_sum (demand_of (sv_copy s)) r) (sv_routes s) d).
Proof. rewrite <- unlimited_iff, <- limited_iff. apply load_ok. Qed.
Theorem read_durations s d : best_routes_duration s = Ok d ->
  (~ timed (sv_windows s) (sv_duration s) -> d = []) /\
  (timed (sv_windows s) (sv_duration s) ->
     reports (fun _ r q => q == path_sum (time_of (sv_copy s)) r + node_sum (service_of (sv_copy s)) r)
       (sv_routes s) d).
Proof. rewrite <- untimed_iff, <- timed_iff. apply duration_ok. Qed.
Theorem read_arrivals s d : arrival_time s = Ok d ->
  (~ timed (sv_windows s) (sv_duration s) -> d = []) /\
  (timed (sv_windows s) (sv_duration s) -> Forall2 (fun p q => fst q = fst p /\ (route_shape (snd p) ->
     map fst (snd q) = snd p /\ earliest_times (sv_copy s) (snd p) (map snd (snd q)) /\
     hd_error (snd q) = Some (Source, lower_of (sv_copy s) Source))) (sv_routes s) d).
Proof. rewrite <- untimed_iff, <- timed_iff. apply arrival_spec. Qed.
Theorem read_check c o (g : rgraph) p s d :
  wf g -> In Source (nodes g) -> In Sink (nodes g) ->
  (forall u, ~ In (u, Source) (arc_list g)) -> (forall v, ~ In (Sink, v) (arc_list g)) ->
  cost_lists (cf_vehicle_types c) g ->
  (forall v, In v (custs g) -> In (Source, v) (arc_list g) /\ In (v, Sink) (arc_list g)) ->
  pre_solve c o g = Ok p ->
  sv_graph s = pr_graph p -> sv_copy s = pr_copy p -> sv_windows s = o_time_windows o ->
  (o_time_windows o = true -> direct_is_fastest (pr_copy p) /\ nonneg_services (pr_copy p)) ->
  timed (sv_windows s) (sv_duration s) -> arrival_time s = Ok d ->
  (forall i r, In (i, r) (sv_routes s) -> route_shape r /\ along (arc_list (pr_graph p)) r) ->
  (check_arrival_time s = Ok tt <-> forall i r, In (i, r) (sv_routes s) -> windows_ok (pr_copy p) r).
Proof. rewrite <- timed_iff. apply check_arrival_presolve. Qed.
Theorem read_node_load s d : node_load s = Ok d -> sv_both s = false ->
  limited (sv_caps s) \/ sv_pickup s = true ->
  Forall2 (fun p q => fst q = fst p /\ (NoDup (snd p) -> map fst (snd q) = snd p /\
    forall p1 v p2, snd p = p1 ++ v :: p2 ->
      exists l, In (v, l) (snd q) /\ l == node_sum (demand_of (sv_copy s)) (p1 ++ [v]))) (sv_routes s) d.
Proof. rewrite <- limited_iff. apply node_load_plain. Qed.

(** No loads are reported when there is nothing to report. *)
Theorem read_no_load s d : node_load s = Ok d ->
  ~ limited (sv_caps s) -> sv_both s = false -> sv_pickup s = false -> d = [].
Proof.
  rewrite <- unlimited_iff. intros H C B P. unfold node_load in H. rewrite C, B, P in H. cbn in H. congruence.
Qed.

Theorem read_custom h K o k caps ns dur m :
  network K h -> limits h o k caps ns dur = Ok m -> demand_of h Sink == 0 ->
  forall cs, o_time_windows o = true \/ o_distribution_collection o = true \/ o_pickup_delivery o = true ->
  resource_feasible h m (extension h o caps dur) (trip cs) ->
  within_stops ns cs /\ within_load h caps k cs /\ within_duration h dur cs /\
  (o_time_windows o = true -> depot_ready h -> cs <> [] -> (forall v, In v cs -> v <> Source /\ v <> Sink) ->
   within_windows h cs) /\
  (o_distribution_collection o = true ->
   forall l c, caps = Some l -> nth_error l k = Some c -> both_fit h (inject_Z c) cs).
Proof. intros N L D cs H. apply custom_iff in H. revert H. revert cs. exact (custom_sound h K o k caps ns dur m N L D). Qed.
Theorem read_custom_duration h K o k caps ns dur m :
  network K h -> limits h o k caps ns dur = Ok m -> demand_of h Sink == 0 ->
  forall cs, o_time_windows o = true \/ o_distribution_collection o = true \/ o_pickup_delivery o = true ->
  resource_feasible h m (extension h o caps dur) (trip cs) -> within_duration h dur cs.
Proof. intros N L D cs H. apply custom_iff in H. revert H. revert cs. exact (labelling_duration h K o k caps ns dur m N L D). Qed.
Theorem read_default h K o k caps ns dur m :
  network K h -> limits h o k caps ns dur = Ok m ->
  forall cs, o_time_windows o = false -> o_distribution_collection o = false -> o_pickup_delivery o = false ->
  resource_feasible h m (extension h o caps dur) (trip cs) ->
  within_stops ns cs /\ within_load h caps k cs /\
  (forall D, dur = Some D -> D <> 0%Z -> path_sum (time_of h) (trip cs) <= inject_Z D).
Proof.
  intros N L cs H1 H2 H3. apply (default_sound h K o k caps ns dur m N L). unfold custom_ref. rewrite H1, H2, H3. reflexivity.
Qed.
Theorem read_fallback o mixed caps dur st perms g :
  o_time_windows o = true \/ o_distribution_collection o = true \/ mixed = true \/
  (exists z, o_periodic o = Some z /\ z <> 0%Z) -> o_pickup_delivery o = false ->
  get_initial_solution o mixed caps dur st perms g = Ok (round_trip_routes g).
Proof.
  intros H P. apply round_trip_used; [|exact P]. unfold plain, truthy. rewrite P.
  destruct H as [-> |[-> |[-> |(z & -> & Z)]]]; try reflexivity;
    destruct (o_time_windows o), (o_distribution_collection o); try reflexivity; destruct mixed; try reflexivity.
  apply Z.eqb_neq in Z. rewrite Z. reflexivity.
Qed.

(** If the arrival times pass their check and nobody is served in negative time, the departure times do. *)
Theorem checks_together s d : departure_time s = Ok d -> NoDup (map fst (sv_routes s)) ->
  (forall i r, In (i, r) (sv_routes s) -> route_shape r) -> nonneg_services (sv_copy s) ->
  check_arrival_time s = Ok tt -> check_departure_time s = Ok tt.
Proof.
  intros H N Sh NS C. destruct (departure_spec s d H N Sh) as (a & Ha & F). rewrite (check_arrival_iff s a Ha) in C. apply (check_departure_iff s d H).
  intros i y v t Hi Hv. assert (E : exists x, In x a /\ fst x = i /\ exists t', In (v, t') (snd x) /\ t = (if node_eqb v Source then t' else t' + service_of (sv_copy s) v)).
  { clear - F Hi Hv. induction F as [|x z l l' (F1 & _ & F3) F IH]; [destruct Hi|]. destruct Hi as [->|Hi].
    - exists x. split; [left; reflexivity|]. split; [symmetry; exact F1|]. exact (F3 v t Hv).
    - destruct (IH Hi) as (x0 & X1 & X2). exists x0. split; [right; exact X1|exact X2]. }
  destruct E as ((j & x) & X1 & X2 & t' & X3 & X4). cbn [fst snd] in *. destruct (C j x v t' X1 X3) as (n & Hn & L1 & L2). exists n. split; [exact Hn|].
  rewrite X4. destruct (node_eqb v Source); [exact L1|]. pose proof (NS v). lra.
Qed.

Theorem read_departures s d : departure_time s = Ok d ->
  (check_departure_time s = Ok tt <->
   forall i a v t, In (i, a) d -> In (v, t) a -> In v (nodes (sv_graph s)) /\ lower_of (sv_graph s) v <= t).
Proof.
  intro H. rewrite (check_departure_iff s d H). split; intros C i a v t Hi Ha.
  - destruct (C i a v t Hi Ha) as (n & Hn & L). split; [apply node_data_In; exists n; exact Hn|]. unfold lower_of. apply nd_data in Hn. rewrite Hn. exact L.
  - destruct (C i a v t Hi Ha) as (Hv & L). destruct (proj2 (node_data_In (sv_graph s) v) Hv) as (n & Hn). exists n. split; [exact Hn|].
    unfold lower_of in L. apply nd_data in Hn. rewrite Hn in L. exact L.
Qed.
