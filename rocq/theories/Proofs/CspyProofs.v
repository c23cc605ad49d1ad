(** The resources of the labelling algorithm. *)
From Verif.Base Require Import Prelude Graph.
From Verif.Spec Require Import Routes Network LinProg Pricing MIP Columns Timing.
From Verif.Model Require Import Args Reach Checks Preprocess ClarkeWright Greedy Initial Pricing Cspy.
From Verif.Proofs Require Import RouteLemmas ReachLemmas PreLemmas CWProofs GreedyProofs PricingProofs InitialProofs LPProofs
  LPColumn.

Lemma pymax2_Qmax a b : pymax2 a b == Qmax a b.
Proof.
  destruct (pymax2_spec a b) as (H1 & H2 & [H3|H3]).
  - rewrite H3 in *. symmetry. apply Q.max_l. auto.
  - rewrite H3 in *. symmetry. apply Q.max_r. auto.
Qed.

Lemma list_snoc {A} (l : list A) : l = [] \/ exists p x, l = p ++ [x].
Proof.
  destruct l as [|a l]; auto. right. exists (removelast (a :: l)), (last (a :: l) a).
  apply app_removelast_last. discriminate.
Qed.

Definition last_arrival (h : vgraph) (q : list node) : Q :=
  last (arrivals (time_of h) (service_of h) (lower_of h) 0 Source q) 0.

Lemma arrivals_snoc time service lower t u q v :
  arrivals time service lower t u (q ++ [v]) =
  arrivals time service lower t u q ++
  [Qmax (last (arrivals time service lower t u q) t + service (last q u) + time (last q u) v) (lower v)].
Proof.
  revert t u. induction q as [|x q IH]; intros t u; [reflexivity|].
  cbn [app arrivals]. rewrite IH. cbn [app]. f_equal. f_equal. f_equal.
  assert (E1 : last (x :: q) u = last q x).
  { destruct q as [|y q]; [reflexivity|]. cbn [last]. apply (last_indep y q u x). }
  rewrite E1.
  assert (E2 : forall (a : Q) l d, last (a :: l) d = last l a).
  { intros a [|b l] d; [reflexivity|]. cbn [last]. apply (last_indep b l d a). }
  rewrite E2. reflexivity.
Qed.
Lemma arrivals_length time service lower t u q :
  List.length (arrivals time service lower t u q) = List.length q.
Proof. revert t u. induction q as [|x q IH]; intros; simpl; auto. Qed.

Lemma peak_snoc demand collect q L v L1 :
  peak demand collect q L -> L1 == Qmax (L + demand v) (node_sum collect q + collect v) ->
  peak demand collect (q ++ [v]) L1.
Proof.
  intros ((c1 & c2 & E & EL) & HL) HE. split.
  - destruct (Q.max_spec (L + demand v) (node_sum collect q + collect v)) as [(H1 & H2)|(H1 & H2)].
    + exists (q ++ [v]), []. rewrite app_nil_r. split; auto.
      rewrite HE, H2, node_sum_app, node_sum_cons, !node_sum_nil. lra.
    + exists c1, (c2 ++ [v]). rewrite app_assoc, <- E. split; auto.
      rewrite HE, H2, node_sum_app, node_sum_cons, node_sum_nil. lra.
  - intros d1 d2 Ed. rewrite HE.
    assert (M1 := Q.le_max_l (L + demand v) (node_sum collect q + collect v)).
    assert (M2 := Q.le_max_r (L + demand v) (node_sum collect q + collect v)).
    destruct (list_snoc d2) as [->|(d3 & x & ->)].
    + rewrite app_nil_r in Ed. subst d1. rewrite node_sum_app, node_sum_cons, !node_sum_nil. lra.
    + rewrite app_assoc in Ed. apply app_inj_tail in Ed. destruct Ed as (Ed & <-).
      specialize (HL _ _ Ed). rewrite node_sum_app, node_sum_cons, node_sum_nil. lra.
Qed.

Section Labels.
  Variable h : vgraph.
  Hypothesis W : wf h.

  Lemma path_label_snoc ref q v :
    path_label ref (Source :: q ++ [v]) =
    (let* l := path_label ref (Source :: q) in ref l (last q Source, v)).
  Proof.
    unfold path_label. destruct (list_snoc q) as [->|(p & x & ->)].
    - cbn [app arcs foldM last bind]. destruct (ref zero_label (Source, v)); reflexivity.
    - rewrite <- app_assoc. cbn [app]. rewrite last_app_single.
      change (Source :: p ++ [x; v]) with ((Source :: p) ++ [x; v]).
      rewrite arcs_snoc, foldM_app. cbn [app].
      destruct (foldM ref (arcs (Source :: p ++ [x])) zero_label) as [l|e]; [|reflexivity].
      cbn [bind foldM]. destruct (ref l (x, v)); reflexivity.
  Qed.

  Lemma along_prefix q v : along (arc_list h) (Source :: q ++ [v]) ->
    along (arc_list h) (Source :: q) /\ In (last q Source, v) (arc_list h).
  Proof.
    intro H. destruct (list_snoc q) as [->|(p & x & ->)].
    - cbn [app last] in *. apply along_cons2 in H. split; [intros a b []|tauto].
    - rewrite <- app_assoc in H. cbn [app] in H. change (Source :: p ++ [x; v]) with ((Source :: p) ++ [x; v]) in H.
      apply along_snoc in H. rewrite last_app_single. exact H.
  Qed.

  Theorem fwd_measures tw sdc q : along (arc_list h) (Source :: q) ->
    exists l, path_label (ref_fwd h tw sdc) (Source :: q) = Ok l /\ measures h tw sdc q l.
  Proof.
    induction q as [|v q IH] using rev_ind; intro HA.
    - exists zero_label. split; [reflexivity|]. constructor; cbn; try reflexivity; try congruence; try (split; reflexivity).
      intros _. split; [reflexivity|]. split.
      + exists [], []. split; reflexivity.
      + intros c1 c2 E. symmetry in E. apply app_eq_nil in E. destruct E as (-> & ->). cbn. lra.
    - apply along_prefix in HA. destruct HA as (HA & Hv). destruct (IH HA) as (l & El & M).
      rewrite path_label_snoc, El. cbn [bind]. unfold ref_fwd.
      destruct (wf_ends _ W _ _ Hv) as (Hu & Hw).
      rewrite (get_node_total h v Hw). cbn [bind]. rewrite (get_node_total h _ Hu). cbn [bind].
      destruct (get_arc_ok h _ _ Hv) as (e & -> & Ee). cbn [bind].
      assert (Et : etime e = time_of h (last q Source) v) by (unfold time_of; rewrite Ee; reflexivity).
      rewrite Et. eexists. split; [reflexivity|].
      assert (ET : pymax2 (l_time l + service (nd h (last q Source)) + time_of h (last q Source) v) (lower (nd h v))
               == last (arrivals (time_of h) (service_of h) (lower_of h) 0 Source (q ++ [v])) 0).
      { rewrite arrivals_snoc, last_app_single, pymax2_Qmax, (me_time _ _ _ _ _ M). reflexivity. }
      constructor; cbn [l_stops l_load l_time l_window l_collect l_deliver].
      + rewrite (me_stops _ _ _ _ _ M), app_length. cbn [List.length].
        rewrite Nat.add_1_r, Nat2Z.inj_succ. unfold Z.succ. rewrite inject_Z_plus. reflexivity.
      + rewrite (me_load _ _ _ _ _ M), node_sum_app, node_sum_cons, node_sum_nil. unfold demand_of. lra.
      + exact ET.
      + intros Htw _. rewrite Htw. cbn [negb orb]. rewrite last_app_single, <- ET.
        change (upper_of h v) with (upper (nd h v)).
        match goal with |- context [Qle_bool ?a ?b] => destruct (Qle_bool a b) eqn:E end.
        * apply Qle_bool_iff in E. split; [auto|lra].
        * apply Qle_bool_false in E. split; [lra|]. intro C. exfalso. lra.
      + intros Htw. rewrite Htw. reflexivity.
      + intros Hs. rewrite Hs. destruct (me_both _ _ _ _ _ M Hs) as (M1 & M2). split.
        * rewrite M1, node_sum_app, node_sum_cons, node_sum_nil. unfold collect_of. lra.
        * apply (peak_snoc _ _ _ _ _ _ M2). rewrite pymax2_Qmax, M1. reflexivity.
      + intros Hs. rewrite Hs. apply (me_one _ _ _ _ _ M Hs).
  Qed.

  Theorem default_measures caps dur q : along (arc_list h) (Source :: q) ->
    exists l, path_label (ref_default h caps dur) (Source :: q) = Ok l /\
      l_stops l == inject_Z (Z.of_nat (List.length q)) /\
      l_load l == (match caps with Some (_ :: _) => node_sum (demand_of h) q | _ => 0 end) /\
      l_time l == (if truthy dur then path_sum (time_of h) (Source :: q) else 0) /\
      l_window l == 0 /\ l_collect l == 0 /\ l_deliver l == 0.
  Proof.
    induction q as [|v q IH] using rev_ind; intro HA.
    - exists zero_label. split; [reflexivity|]. cbn. repeat split; try reflexivity.
      + destruct caps as [[|]|]; reflexivity.
      + destruct (truthy dur); reflexivity.
    - apply along_prefix in HA. destruct HA as (HA & Hv). destruct (IH HA) as (l & El & M1 & M2 & M3 & M4 & M5 & M6).
      rewrite path_label_snoc, El. cbn [bind]. unfold ref_default.
      destruct (wf_ends _ W _ _ Hv) as (Hu & Hw).
      rewrite (get_node_total h v Hw). cbn [bind].
      destruct (get_arc_ok h _ _ Hv) as (e & -> & Ee). cbn [bind].
      assert (Et : etime e = time_of h (last q Source) v) by (unfold time_of; rewrite Ee; reflexivity).
      rewrite Et. eexists. split; [reflexivity|]. cbn [l_stops l_load l_time l_window l_collect l_deliver].
      split; [|split; [|split; [|auto]]].
      + rewrite M1, app_length. cbn [List.length].
        rewrite Nat.add_1_r, Nat2Z.inj_succ. unfold Z.succ. rewrite inject_Z_plus. reflexivity.
      + rewrite M2. destruct caps as [[|]|]; [reflexivity| |reflexivity].
        rewrite node_sum_app, node_sum_cons, node_sum_nil. unfold demand_of. lra.
      + rewrite M3. destruct (truthy dur); [|reflexivity].
        destruct (list_snoc q) as [->|(p & x & ->)].
        * cbn [app last]. rewrite path_sum_cons2, !path_sum_one. lra.
        * rewrite <- app_assoc. cbn [app]. rewrite last_app_single.
          change (Source :: p ++ [x; v]) with ((Source :: p) ++ [x; v]). rewrite path_sum_snoc. reflexivity.
  Qed.

  (** ** the clock *)
  Lemma arrivals_late lower t u q :
    t + path_sum (time_of h) (u :: q) + node_sum (service_of h) (removelast (u :: q))
    <= last (arrivals (time_of h) (service_of h) lower t u q) t.
  Proof.
    revert t u. induction q as [|v q IH]; intros t u.
    - cbn [arrivals last removelast]. rewrite path_sum_one, node_sum_nil. lra.
    - cbn [arrivals]. set (t1 := Qmax _ _).
      assert (E : last (t1 :: arrivals (time_of h) (service_of h) lower t1 v q) t
                  = last (arrivals (time_of h) (service_of h) lower t1 v q) t1).
      { destruct (arrivals (time_of h) (service_of h) lower t1 v q) as [|b l]; [reflexivity|]. cbn [last]. apply (last_indep b l t t1). }
      rewrite E. specialize (IH t1 v). rewrite path_sum_cons2.
      change (removelast (u :: v :: q)) with (u :: removelast (v :: q)). rewrite node_sum_cons.
      assert (M := Q.le_max_l (t + service_of h u + time_of h u v) (lower v)). fold t1 in M. lra.
  Qed.

  (** without waiting *)
  Lemma arrivals_exact lower t u q : (forall v, In v q -> lower v <= 0) -> 0 <= t ->
    along (arc_list h) (u :: q) ->
    (forall u v, In (u, v) (arc_list h) -> 0 <= time_of h u v) ->
    (forall v, In v (u :: q) -> 0 <= service_of h v) ->
    last (arrivals (time_of h) (service_of h) lower t u q) t ==
    t + path_sum (time_of h) (u :: q) + node_sum (service_of h) (removelast (u :: q)).
  Proof.
    revert t u. induction q as [|v q IH]; intros t u Hlow Ht HA Htime Hserv.
    - cbn [arrivals last removelast]. rewrite path_sum_one, node_sum_nil. lra.
    - cbn [arrivals]. set (t1 := Qmax _ _). apply along_cons2 in HA. destruct HA as (HA1 & HA2).
      assert (Et : t1 == t + service_of h u + time_of h u v).
      { unfold t1. apply Q.max_l. assert (H1 := Hlow v (or_introl eq_refl)). assert (H2 := Htime _ _ HA1).
        assert (H3 := Hserv u (or_introl eq_refl)). lra. }
      assert (E : last (t1 :: arrivals (time_of h) (service_of h) lower t1 v q) t
                  = last (arrivals (time_of h) (service_of h) lower t1 v q) t1).
      { destruct (arrivals (time_of h) (service_of h) lower t1 v q) as [|b l]; [reflexivity|]. cbn [last]. apply (last_indep b l t t1). }
      rewrite E, IH; auto.
      + rewrite path_sum_cons2. change (removelast (u :: v :: q)) with (u :: removelast (v :: q)).
        rewrite node_sum_cons. lra.
      + intros; apply Hlow; simpl; auto.
      + assert (H2 := Htime _ _ HA1). assert (H3 := Hserv u (or_introl eq_refl)). lra.
      + intros; apply Hserv; simpl in *; tauto.
  Qed.

  (** a timetable is never earlier than the earliest arrivals *)
  Lemma arrivals_first lower upper T : forall t u q t0,
    timetable (time_of h) (service_of h) lower upper (u :: q) (t0 :: T) -> t <= t0 ->
    Forall2 Qle (arrivals (time_of h) (service_of h) lower t u q) T.
  Proof.
    induction T as [|t1 T IH]; intros t u q t0 HT Ht; destruct q as [|v q]; cbn [arrivals timetable] in *; try tauto.
    - constructor.
    - destruct HT as (_ & _ & H1 & H2).
      assert (Hl : lower v <= t1).
      { destruct q, T; cbn [timetable] in H2; try tauto. }
      assert (Hm : Qmax (t + service_of h u + time_of h u v) (lower v) <= t1).
      { apply Q.max_lub; auto. lra. }
      constructor; auto. apply (IH _ _ _ t1); auto.
  Qed.

  (** earliest arrivals that are in time are a timetable *)
  Lemma arrivals_timetable lower upper : forall q t u,
    lower u <= t -> t <= upper u ->
    Forall2 (fun v a => a <= upper v) q (arrivals (time_of h) (service_of h) lower t u q) ->
    timetable (time_of h) (service_of h) lower upper (u :: q)
      (t :: arrivals (time_of h) (service_of h) lower t u q).
  Proof.
    induction q as [|v q IH]; intros t u H1 H2 HF; cbn [arrivals timetable] in *; [auto|].
    inversion HF; subst. set (t1 := Qmax _ _) in *.
    split; auto. split; auto. split; [apply Q.le_max_l|].
    apply IH; auto. apply Q.le_max_r.
  Qed.

  (** arrivals at the nodes of a path are those of its prefixes *)
  Lemma arrivals_in_time lower upper : forall q,
    (forall q1 q2, q = q1 ++ q2 -> q1 <> [] ->
       last (arrivals (time_of h) (service_of h) lower 0 Source q1) 0 <= upper (last q1 Source)) <->
    Forall2 (fun v a => a <= upper v) q (arrivals (time_of h) (service_of h) lower 0 Source q).
  Proof.
    induction q as [|v q IH] using rev_ind.
    - split; [constructor|]. intros _ q1 q2 E. symmetry in E. apply app_eq_nil in E. tauto.
    - rewrite arrivals_snoc. split.
      + intro H. apply Forall2_app.
        * apply IH. intros q1 q2 E Hne. apply (H q1 (q2 ++ [v])); auto. rewrite E, app_assoc. reflexivity.
        * constructor; [|constructor]. specialize (H (q ++ [v]) []). rewrite app_nil_r in H.
          rewrite arrivals_snoc, !last_app_single in H. apply H; auto. destruct q; discriminate.
      + intros HF q1 q2 E Hne.
        apply Forall2_app_inv_l in HF. destruct HF as (l1 & l2 & HF1 & HF2 & El).
        assert (Ex : exists x, l2 = [x]).
        { inversion HF2 as [|? x ? l3 _ HF3]; subst. inversion HF3; subst. eauto. }
        destruct Ex as (x & ->). apply app_inj_tail in El. destruct El as (El & Ex). subst l1 x.
        destruct (list_snoc q2) as [->|(q3 & y & ->)].
        * rewrite app_nil_r in E. subst q1. rewrite arrivals_snoc, !last_app_single.
          inversion HF2; auto.
        * rewrite app_assoc in E. apply app_inj_tail in E. destruct E as (E & <-).
          apply (proj2 IH HF1 q1 q3); auto.
  Qed.
End Labels.

(** ** the limits *)
Lemma limits_inv h o k caps ns dur m : limits h o k caps ns dur = Ok m ->
  o_pickup_delivery o = false /\
  l_stops m = (match ns with
               | Some n => if (n =? 0)%Z then l_stops (initial_limits h) else inject_Z n + 1
               | None => l_stops (initial_limits h)
               end) /\
  (forall l, caps = Some l -> l <> [] -> exists c, nth_error l k = Some c /\ l_load m = inject_Z c /\
     (o_distribution_collection o = true -> l_collect m = inject_Z c /\ l_deliver m = inject_Z c)) /\
  ((forall l, caps = Some l -> l = []) -> l_load m = l_load (initial_limits h)) /\
  (o_time_windows o = true -> l_window m = 0 /\
     (truthy dur = false -> l_time m = 1 + upper_of h Sink)) /\
  (forall D, dur = Some D -> D <> 0%Z -> l_time m = inject_Z D) /\
  (o_time_windows o = false -> l_window m = 1 /\ (truthy dur = false -> l_time m = l_time (initial_limits h))) /\
  (o_distribution_collection o = false ->
     l_collect m = l_collect (initial_limits h) /\ l_deliver m = l_deliver (initial_limits h)).
Proof.
  unfold limits. intro H.
  apply bind_ok in H. destruct H as (load & H1 & H).
  apply bind_ok in H. destruct H as (tw & H2 & H).
  apply bind_ok in H. destruct H as (both & H3 & H).
  apply bind_ok in H. destruct H as (u & H4 & H). apply raise_if_ok in H4. injection H as <-.
  cbn [l_stops l_load l_time l_window l_collect l_deliver]. split; auto. split; auto.
  split.
  { intros l El Hl. subst caps. destruct l as [|c0 l]; [congruence|].
    apply bind_ok in H1. destruct H1 as (c & Hc & H1).
    destruct (nth_error (c0 :: l) k) as [c1|] eqn:Ec; [|discriminate]. injection Hc as ->. injection H1 as <-.
    exists c. split; auto. split; auto. intro Hs. rewrite Hs in H3. cbn [of_opt bind] in H3. injection H3 as <-. auto. }
  split.
  { intro Hl. destruct caps as [[|c0 l]|].
    - injection H1 as <-. reflexivity.
    - specialize (Hl _ eq_refl). discriminate.
    - injection H1 as <-. reflexivity. }
  split.
  { intro Htw. rewrite Htw in H2. apply bind_ok in H2. destruct H2 as (s & Hs & H2).
    apply bind_ok in H2. destruct H2 as (_ & _ & H2). apply bind_ok in H2. destruct H2 as (_ & _ & H2).
    injection H2 as <-. cbn [fst snd]. split; auto. intro Hd. rewrite Hd.
    unfold get_node in Hs. destruct (node_data h Sink) as [d|] eqn:E; [|discriminate]. injection Hs as ->.
    unfold upper_of, nd. rewrite E. reflexivity. }
  split.
  { intros D -> HD. apply Z.eqb_neq in HD.
    destruct (o_time_windows o).
    - apply bind_ok in H2. destruct H2 as (s & Hs & H2).
      apply bind_ok in H2. destruct H2 as (_ & _ & H2). apply bind_ok in H2. destruct H2 as (_ & _ & H2).
      injection H2 as <-. cbn [fst snd truthy]. rewrite HD. reflexivity.
    - injection H2 as <-. cbn [fst]. rewrite HD. reflexivity. }
  split.
  { intro Htw. rewrite Htw in H2. injection H2 as <-. cbn [fst snd]. split; auto.
    intro Hd. destruct dur as [D|]; auto. cbn [truthy] in Hd. apply negb_false_iff in Hd. rewrite Hd. reflexivity. }
  intro Hs. rewrite Hs in H3. destruct caps as [[|c0 l]|]; injection H3 as <-; auto.
Qed.

(** simple paths from Source to Sink *)
Lemma simple_trip (h : vgraph) p : walk (arc_list h) Source Sink p -> NoDup p ->
  exists cs, p = trip cs /\ NoDup cs /\ (forall v, In v cs -> v <> Source /\ v <> Sink) /\
             along (arc_list h) (trip cs).
Proof.
  intros Hw Hnd. destruct (simple_walk_route h p Hw Hnd) as (cs & -> & H1 & H2).
  exists cs. split; auto. split; auto. split; auto. apply (walk_along _ _ _ _ Hw).
Qed.

Lemma trip_walk A cs : along A (trip cs) -> walk A Source Sink (trip cs).
Proof.
  intro H. assert (Hl : last (trip cs) Source = Sink).
  { unfold trip. change (Source :: cs ++ [Sink]) with ((Source :: cs) ++ [Sink]). apply last_app_single. }
  rewrite <- Hl. apply walk_intro with (cs ++ [Sink]); auto.
Qed.

Section Accept.
  Variable h : vgraph.
  Variable K : nat.
  Variables (o : options) (k : nat) (caps : option (list Z)) (ns dur : option Z).
  Variable m : label.
  Hypothesis HN : network K h.
  Hypothesis HL : limits h o k caps ns dur = Ok m.
  Hypothesis Hsink : demand_of h Sink == 0.

  Let W := net_wf _ _ HN.

  Lemma prefix_along cs q1 q2 : along (arc_list h) (trip cs) -> cs ++ [Sink] = q1 ++ q2 ->
    along (arc_list h) (Source :: q1).
  Proof.
    intros HA E u v Huv. apply HA. unfold trip. rewrite E.
    apply arcs_in in Huv. destruct Huv as (p1 & p2 & E2). apply arcs_in.
    exists p1, (p2 ++ q2). change (Source :: q1 ++ q2) with ((Source :: q1) ++ q2). rewrite E2, <- app_assoc. reflexivity.
  Qed.

  (** what the custom functions guarantee *)
  Lemma custom_sound cs : custom_ref o = true ->
    resource_feasible h m (extension h o caps dur) (trip cs) ->
    within_stops ns cs /\ within_load h caps k cs /\ within_duration h dur cs /\
    (o_time_windows o = true -> depot_ready h -> cs <> [] -> (forall v, In v cs -> v <> Source /\ v <> Sink) ->
     within_windows h cs) /\
    (o_distribution_collection o = true ->
     forall l c, caps = Some l -> nth_error l k = Some c -> both_fit h (inject_Z c) cs).
  Proof.
    intros Hc R. unfold extension in R. rewrite Hc in R.
    destruct (limits_inv _ _ _ _ _ _ _ HL) as (_ & L1 & L2 & _ & L4 & L5 & _ & _).
    assert (HA := walk_along _ _ _ _ (rf_walk _ _ _ _ R)).
    assert (HB : forall q1 q2, cs ++ [Sink] = q1 ++ q2 ->
              exists l, measures h (o_time_windows o) (o_distribution_collection o) q1 l /\ label_le l m).
    { intros q1 q2 E. assert (HA1 := prefix_along cs q1 q2 HA E).
      destruct (fwd_measures h W (o_time_windows o) (o_distribution_collection o) q1 HA1) as (l & El & M).
      exists l. split; auto. apply (rf_max _ _ _ _ R (Source :: q1) q2); auto; [|discriminate].
      unfold trip. rewrite E. reflexivity. }
    destruct (HB (cs ++ [Sink]) []) as (l & M & LE); [rewrite app_nil_r; reflexivity|].
    split.
    { intros n Hn Hz. rewrite Hn in L1. apply Z.eqb_neq in Hz. rewrite Hz in L1.
      assert (H1 := ll_stops _ _ LE). rewrite L1, (me_stops _ _ _ _ _ M), app_length in H1.
      change (1) with (inject_Z 1) in H1. rewrite <- inject_Z_plus, <- Zle_Qle in H1. simpl in H1. lia. }
    split.
    { intros lc c Hl Hn. assert (Hne : lc <> []) by (intro C; subst lc; destruct k; discriminate).
      destruct (L2 lc Hl Hne) as (c' & E1 & E2 & _). rewrite E1 in Hn. injection Hn as ->.
      assert (H1 := ll_load _ _ LE). rewrite E2, (me_load _ _ _ _ _ M) in H1. exact H1. }
    split.
    { intros D HD Hz. assert (H1 := ll_time _ _ LE). rewrite (L5 D HD Hz), (me_time _ _ _ _ _ M) in H1.
      assert (H2 := arrivals_late h (lower_of h) 0 Source (cs ++ [Sink])).
      change (Source :: cs ++ [Sink]) with ((Source :: cs) ++ [Sink]) in H2. rewrite removelast_last in H2.
      unfold trip. change (Source :: cs ++ [Sink]) with ((Source :: cs) ++ [Sink]). lra. }
    split.
    { intros Htw (HR1 & HR2) Hne Hcu. destruct cs as [|v cs]; [congruence|]. clear Hne.
      assert (HF : Forall2 (fun v a => a <= upper_of h v) ((v :: cs) ++ [Sink])
                (arrivals (time_of h) (service_of h) (lower_of h) 0 Source ((v :: cs) ++ [Sink]))).
      { apply arrivals_in_time. intros q1 q2 E Hq. destruct (HB q1 q2 E) as (l1 & M1 & LE1).
        apply (me_window _ _ _ _ _ M1 Htw Hq). assert (H1 := ll_window _ _ LE1).
        destruct (L4 Htw) as (Lw & _). rewrite Lw in H1. exact H1. }
      cbn [app arrivals] in HF. set (t1 := Qmax (0 + service_of h Source + time_of h Source v) (lower_of h v)) in *.
      inversion HF as [|? ? ? ? HF1 HF2]; subst.
      exists (lower_of h Source :: t1 :: arrivals (time_of h) (service_of h) (lower_of h) t1 v (cs ++ [Sink])).
      unfold trip. cbn [app timetable]. split; [lra|]. split; auto. split.
      - assert (M1 := Q.le_max_l (0 + service_of h Source + time_of h Source v) (lower_of h v)).
        assert (M2 := Q.le_max_r (0 + service_of h Source + time_of h Source v) (lower_of h v)). fold t1 in M1, M2.
        destruct (HR2 v) as [H1|H1]; [apply HA; simpl; auto| |lra|lra].
        apply Hcu; simpl; auto.
      - apply arrivals_timetable; auto. apply Q.le_max_r. }
    intros Hs lc c Hl Hn c1 c2 E. assert (Hne : lc <> []) by (intro C; subst lc; destruct k; discriminate).
    destruct (L2 lc Hl Hne) as (c' & E1 & _ & E2). rewrite E1 in Hn. injection Hn as ->.
    destruct (E2 Hs) as (_ & E3). assert (H1 := ll_deliver _ _ LE). rewrite E3 in H1.
    destruct (me_both _ _ _ _ _ M Hs) as (_ & _ & HP). specialize (HP c1 (c2 ++ [Sink])).
    rewrite node_sum_app, node_sum_cons, node_sum_nil, Hsink in HP.
    assert (HP1 := HP ltac:(rewrite E, <- app_assoc; reflexivity)). lra.
  Qed.

  (** what the default functions guarantee *)
  Lemma default_sound cs : custom_ref o = false ->
    resource_feasible h m (extension h o caps dur) (trip cs) ->
    within_stops ns cs /\ within_load h caps k cs /\
    (forall D, dur = Some D -> D <> 0%Z -> path_sum (time_of h) (trip cs) <= inject_Z D).
  Proof.
    intros Hc R. unfold extension in R. rewrite Hc in R.
    destruct (limits_inv _ _ _ _ _ _ _ HL) as (_ & L1 & L2 & _ & L4 & L5 & _ & _).
    assert (HA := walk_along _ _ _ _ (rf_walk _ _ _ _ R)).
    destruct (default_measures h W caps dur (cs ++ [Sink]) HA) as (l & El & M1 & M2 & M3 & _).
    assert (LE : label_le l m).
    { apply (rf_max _ _ _ _ R (trip cs) []); auto; [rewrite app_nil_r; auto|discriminate]. }
    split.
    { intros n Hn Hz. rewrite Hn in L1. apply Z.eqb_neq in Hz. rewrite Hz in L1.
      assert (H1 := ll_stops _ _ LE). rewrite L1, M1, app_length in H1.
      change (1) with (inject_Z 1) in H1. rewrite <- inject_Z_plus, <- Zle_Qle in H1. simpl in H1. lia. }
    split.
    { intros lc c Hl Hn. assert (Hne : lc <> []) by (intro C; subst lc; destruct k; discriminate).
      destruct (L2 lc Hl Hne) as (c' & E1 & E2 & _). rewrite E1 in Hn. injection Hn as ->.
      assert (H1 := ll_load _ _ LE). rewrite Hl in M2. destruct lc as [|c0 lc]; [congruence|].
      rewrite E2, M2 in H1. exact H1. }
    intros D HD Hz. assert (H1 := ll_time _ _ LE). rewrite (L5 D HD Hz), M3 in H1.
    rewrite HD in H1. cbn [truthy] in H1. apply Z.eqb_neq in Hz. rewrite Hz in H1. exact H1.
  Qed.
End Accept.

(** sums over part of a list *)
Lemma sum_part {A} (f : A -> Q) l big : NoDup l -> incl l big -> (forall x, In x big -> 0 <= f x) ->
  Qsum (map f l) <= Qsum (map f big).
Proof.
  revert big. induction l as [|a l IH]; intros big Hnd Hi Hf.
  - apply Qsum_nonneg. intros x Hx. apply in_map_iff in Hx. destruct Hx as (y & <- & Hy). auto.
  - inversion Hnd as [|? ? Ha Hnd']; subst. destruct (in_split a big) as (b1 & b2 & ->); [apply Hi; simpl; auto|].
    assert (H := IH (b1 ++ b2) Hnd'). rewrite map_app in H. rewrite map_app.
    rewrite Qsum_app in *. cbn [map]. rewrite !Qsum_cons.
    assert (H1 : Qsum (map f l) <= Qsum (map f b1) + Qsum (map f b2)); [|lra]. apply H.
    + intros x Hx. assert (Hx2 := Hi x (or_intror Hx)). apply in_app_iff in Hx2. apply in_app_iff.
      destruct Hx2 as [|[->|]]; auto. contradiction.
    + intros x Hx. apply Hf. apply in_app_iff in Hx. apply in_app_iff. simpl. tauto.
Qed.

Lemma node_sum_prefix f (q1 q2 : list node) : (forall v, In v q2 -> 0 <= f v) ->
  node_sum f q1 <= node_sum f (q1 ++ q2).
Proof. intro H. rewrite node_sum_app. assert (H1 := node_sum_nonneg f q2 H). lra. Qed.

Lemma path_sum_prefix w u (q1 q2 : list node) : (forall a b, In (a, b) (arcs (u :: q1 ++ q2)) -> 0 <= w a b) ->
  path_sum w (u :: q1) <= path_sum w (u :: q1 ++ q2).
Proof.
  intro H. destruct (list_snoc q1) as [->|(p & x & ->)].
  - rewrite path_sum_one. apply path_sum_nonneg. exact H.
  - rewrite <- app_assoc in *. cbn [app] in *. change (u :: p ++ x :: q2) with ((u :: p) ++ x :: q2) in *.
    rewrite path_sum_app_mid. change (u :: p ++ [x]) with ((u :: p) ++ [x]).
    assert (H1 : 0 <= path_sum w (x :: q2)); [|lra]. apply path_sum_nonneg. intros a b Hab. apply H.
    rewrite arcs_app_mid. apply in_or_app. auto.
Qed.

Section Complete.
  Variable h : vgraph.
  Variable K : nat.
  Variables (o : options) (k : nat) (caps : option (list Z)) (ns dur : option Z).
  Variable m : label.
  Hypothesis HN : network K h.
  Hypothesis HL : limits h o k caps ns dur = Ok m.
  Hypothesis LD : labelling_data h o caps ns dur.
  Variable cs : list node.
  Hypothesis HD : drivable h o caps k ns dur cs.

  Let W := net_wf _ _ HN.
  Let HA := er_along _ _ (dr_route _ _ _ _ _ _ _ HD).
  Let Hserv := proj1 (proj2 (ld_times _ _ _ _ _ LD)).
  Let Htime := proj1 (ld_times _ _ _ _ _ LD).

  Lemma c_trip_NoDup : NoDup (trip cs).
  Proof. apply route_shape_NoDup. exists cs. split; [reflexivity|]. destruct (dr_route _ _ _ _ _ _ _ HD). auto. Qed.

  Lemma c_nodes_in v : In v (cs ++ [Sink]) -> In v (nodes h).
  Proof.
    intro Hv. assert (Hin : In v (map snd (arcs (trip cs)))) by (unfold trip; rewrite arcs_map_snd; auto).
    apply in_map_iff in Hin. destruct Hin as ([a b] & Eb & Hab). simpl in Eb. subst b.
    apply HA, (wf_ends _ W) in Hab. tauto.
  Qed.

  Section Prefix.
    Variables q1 q2 : list node.
    Hypothesis E : cs ++ [Sink] = q1 ++ q2.

    Lemma c_in1 v : In v q1 -> In v (nodes h).
    Proof. intro Hv. apply c_nodes_in. rewrite E. apply in_or_app. auto. Qed.
    Lemma c_in2 v : In v q2 -> In v (nodes h).
    Proof. intro Hv. apply c_nodes_in. rewrite E. apply in_or_app. auto. Qed.
    Lemma c_NoDup1 : NoDup q1.
    Proof.
      assert (H := c_trip_NoDup). unfold trip in H. inversion H as [|? ? _ H1]; subst. rewrite E in H1.
      apply NoDup_app_inv in H1. tauto.
    Qed.

    Lemma c_length : (List.length q1 <= S (List.length cs))%nat.
    Proof. assert (H := f_equal (@List.length node) E). rewrite !app_length in H. simpl in H. lia. Qed.

    Lemma c_stops_le : inject_Z (Z.of_nat (List.length q1)) <= l_stops m.
    Proof.
      destruct (limits_inv _ _ _ _ _ _ _ HL) as (_ & L1 & _).
      destruct (ld_stops _ _ _ _ _ LD) as (n & Hn & Hz). rewrite L1, Hn.
      assert (Hz2 := Hz). apply Z.eqb_neq in Hz2. rewrite Hz2.
      assert (H1 := dr_stops _ _ _ _ _ _ _ HD n Hn Hz). assert (H2 := c_length).
      change (1) with (inject_Z 1). rewrite <- inject_Z_plus, <- Zle_Qle. lia.
    Qed.

    Lemma c_load_le : node_sum (demand_of h) q1 <= l_load m /\ 0 <= l_load m.
    Proof.
      destruct (limits_inv _ _ _ _ _ _ _ HL) as (_ & _ & L2 & L3 & _).
      assert (H0 : 0 <= node_sum (demand_of h) q1).
      { apply node_sum_nonneg. intros v Hv. apply (ld_goods _ _ _ _ _ LD). apply c_in1; auto. }
      assert (H1 : node_sum (demand_of h) q1 <= l_load m); [|split; lra].
      assert (Ht : l_load (initial_limits h) == Qsum (map (demand_of h) (nodes h))).
      { cbn [initial_limits l_load]. rewrite pysum_Qsum. unfold nodes. rewrite map_map.
        apply Qsum_map_ext. intros [v d] Hv. cbn [fst snd].
        unfold demand_of, nd. unfold node_data. rewrite (assoc_node_NoDup v d); auto; [reflexivity|apply W]. }
      assert (Hbig : node_sum (demand_of h) q1 <= l_load (initial_limits h)).
      { rewrite Ht. apply sum_part; [apply c_NoDup1|intros v Hv; apply c_in1; auto|].
        intros v Hv. apply (ld_goods _ _ _ _ _ LD); auto. }
      case_eq caps; [intros l Hl|intro Hl].
      - destruct l as [|c0 l]; [rewrite L3; auto; intros l' El'; congruence|].
        destruct (L2 _ Hl) as (c & E1 & E2 & _); [discriminate|]. rewrite E2.
        apply Qle_trans with (node_sum (demand_of h) (cs ++ [Sink])).
        + rewrite E. apply node_sum_prefix. intros v Hv. apply (ld_goods _ _ _ _ _ LD). apply c_in2; auto.
        + apply (dr_load _ _ _ _ _ _ _ HD _ _ Hl E1).
      - rewrite L3; auto. intros l' El'. congruence.
    Qed.

    Lemma c_arcs_sub a b : In (a, b) (arcs (Source :: q1)) -> In (a, b) (arcs (trip cs)).
    Proof.
      intro Hab. apply arcs_in in Hab. destruct Hab as (p1 & p2 & E2). unfold trip. rewrite E. apply arcs_in.
      exists p1, (p2 ++ q2). change (Source :: q1 ++ q2) with ((Source :: q1) ++ q2).
      rewrite E2, <- app_assoc. reflexivity.
    Qed.

    Lemma c_path_le : path_sum (time_of h) (Source :: q1) <= path_sum (time_of h) (trip cs).
    Proof.
      unfold trip. rewrite E. apply path_sum_prefix. rewrite <- E. intros a b Hab. apply Htime, HA. exact Hab.
    Qed.

    Lemma c_all_times : path_sum (time_of h) (Source :: q1) <= l_time (initial_limits h) /\ 0 <= l_time (initial_limits h).
    Proof.
      assert (Hpos : forall a, In a (edges h) -> 0 <= time_of h (fst a) (snd a)).
      { intros [a b] Hab. apply in_edges in Hab; auto. }
      cbn [initial_limits l_time]. rewrite pysum_Qsum. split.
      - apply (sum_part (fun a : arc => time_of h (fst a) (snd a))); auto.
        + apply arcs_NoDup. constructor; [|apply c_NoDup1].
          assert (H := c_trip_NoDup). unfold trip in H. inversion H as [|? ? Hs _]; subst. rewrite E in Hs.
          intro C. apply Hs, in_or_app. auto.
        + intros [a b] Hab. apply in_edges; auto. apply HA, c_arcs_sub. auto.
      - apply Qsum_nonneg. intros x Hx. apply in_map_iff in Hx. destruct Hx as (a & <- & Ha). auto.
    Qed.

    Lemma c_duration D : dur = Some D -> D <> 0%Z ->
      path_sum (time_of h) (Source :: q1) + node_sum (service_of h) (removelast (Source :: q1)) <= inject_Z D.
    Proof.
      intros H1 H2. assert (H3 := dr_duration _ _ _ _ _ _ _ HD D H1 H2). assert (H4 := c_path_le).
      assert (H5 : node_sum (service_of h) (removelast (Source :: q1)) <= node_sum (service_of h) (Source :: cs)).
      { assert (Er : exists r, Source :: cs = removelast (Source :: q1) ++ r /\ forall v, In v r -> In v (nodes h)).
        { destruct (list_snoc q2) as [Hq|(q3 & x & Hq)].
          - exists []. rewrite app_nil_r. assert (E' := E). rewrite Hq, app_nil_r in E'. split; [|intros ? []].
            rewrite <- E'. change (Source :: cs ++ [Sink]) with ((Source :: cs) ++ [Sink]). rewrite removelast_last. reflexivity.
          - assert (E' := E). rewrite Hq, app_assoc in E'. apply app_inj_tail in E'. destruct E' as (Ec & _).
            exists (last (Source :: q1) Source :: q3). split.
            + change (last (Source :: q1) Source :: q3) with ([last (Source :: q1) Source] ++ q3).
              rewrite app_assoc. rewrite <- app_removelast_last by discriminate. rewrite Ec. reflexivity.
            + intros v [Hv|Hv].
              * assert (Hin : In v (Source :: q1)).
                { rewrite (app_removelast_last Source (l := Source :: q1)) by discriminate. apply in_or_app. simpl. auto. }
                destruct Hin as [Hin|Hin]; [rewrite <- Hin; apply (net_source _ _ HN)|apply c_in1; auto].
              * apply c_in2. rewrite Hq. apply in_or_app. auto. }
        destruct Er as (r & Er & Hr). rewrite Er. apply node_sum_prefix. intros v Hv. apply Hserv, Hr. auto. }
      lra.
    Qed.
  End Prefix.

  Lemma c_demand_total : 0 <= l_collect (initial_limits h) /\ 0 <= l_deliver (initial_limits h).
  Proof.
    assert (H : 0 <= pysum (map (fun p => demand (snd p)) (gnodes h))).
    { rewrite pysum_Qsum. apply Qsum_nonneg. intros x Hx. apply in_map_iff in Hx. destruct Hx as ([v d] & <- & Hv).
      cbn [snd]. assert (Hn : In v (nodes h)) by (unfold nodes; apply in_map_iff; exists (v, d); auto).
      assert (H1 := proj1 (ld_goods _ _ _ _ _ LD v Hn)). unfold demand_of, nd, node_data in H1.
      rewrite (assoc_node_NoDup v d) in H1; auto. apply W. }
    cbn [initial_limits l_collect l_deliver]. auto.
  Qed.

  (** earliest arrivals do not decrease along the route *)
  Lemma last_mono lower t u q1 q2 : along (arc_list h) (u :: q1 ++ q2) ->
    (forall v, In v (u :: q1 ++ q2) -> In v (nodes h)) ->
    last (arrivals (time_of h) (service_of h) lower t u q1) t <=
    last (arrivals (time_of h) (service_of h) lower t u (q1 ++ q2)) t.
  Proof.
    induction q2 as [|v q2 IH] using rev_ind; intros Ha Hin.
    - rewrite app_nil_r. apply Qle_refl.
    - rewrite app_assoc in *. rewrite arrivals_snoc, last_app_single.
      assert (Hl : In (last (q1 ++ q2) u, v) (arc_list h) /\ along (arc_list h) (u :: q1 ++ q2)).
      { destruct (list_snoc (q1 ++ q2)) as [Ez|(p & x & Ep)].
        - rewrite Ez in *. cbn [app last] in *. apply along_cons2 in Ha. split; [tauto|]. intros a b [].
        - rewrite Ep in *. rewrite <- app_assoc in Ha. cbn [app] in Ha.
          change (u :: p ++ [x; v]) with ((u :: p) ++ [x; v]) in Ha. apply along_snoc in Ha.
          rewrite last_app_single. split; tauto. }
      destruct Hl as (Hl & Ha2).
      assert (Hin2 : forall w, In w (u :: q1 ++ q2) -> In w (nodes h)).
      { intros w Hw. apply Hin. change (u :: (q1 ++ q2) ++ [v]) with ((u :: q1 ++ q2) ++ [v]). apply in_or_app. auto. }
      specialize (IH Ha2 Hin2).
      eapply Qle_trans; [apply IH|]. eapply Qle_trans; [|apply Q.le_max_l].
      assert (H1 := Htime _ _ Hl).
      assert (H2 : 0 <= service_of h (last (q1 ++ q2) u)).
      { apply Hserv. apply (wf_ends _ W) in Hl. tauto. }
      lra.
  Qed.

  Lemma c_arrivals : o_time_windows o = true ->
    Forall2 (fun v a => a <= upper_of h v) (cs ++ [Sink])
      (arrivals (time_of h) (service_of h) (lower_of h) 0 Source (cs ++ [Sink])).
  Proof.
    intro Htw. destruct (dr_windows _ _ _ _ _ _ _ HD Htw) as (T & HT). unfold trip in HT.
    destruct T as [|t0 T]; [revert HT; generalize (cs ++ [Sink]); intros [|? ?] HT; destruct HT|].
    assert (Ht0 : 0 <= t0).
    { assert (H0 := proj2 (proj2 (ld_times _ _ _ _ _ LD))). revert HT. generalize (cs ++ [Sink]).
      intros [|v c] HT; cbn [timetable] in HT; destruct T; try tauto; destruct HT as (H1 & _); lra. }
    assert (HF := arrivals_first h (lower_of h) (upper_of h) T 0 Source (cs ++ [Sink]) t0 HT Ht0).
    assert (HU : Forall2 (fun v t => t <= upper_of h v) (cs ++ [Sink]) T).
    { clear HF Ht0. revert t0 T HT. generalize Source at 1 as u. generalize (cs ++ [Sink]) as q.
      induction q as [|v q IH]; intros u t0 T HT; destruct T as [|t1 T]; cbn [timetable] in HT; try tauto; [constructor|].
      destruct HT as (_ & _ & _ & HT). constructor; [|apply (IH v t1); auto].
      destruct q, T; cbn [timetable] in HT; tauto. }
    revert HF HU. generalize (arrivals (time_of h) (service_of h) (lower_of h) 0 Source (cs ++ [Sink])) as l.
    generalize (cs ++ [Sink]) as q. clear. intros q l HF. revert q.
    induction HF as [|a t l T Hat HF IH]; intros q HU; inversion HU; subst; constructor; auto. lra.
  Qed.

  Theorem labelling_complete : resource_feasible h m (extension h o caps dur) (trip cs).
  Proof.
    destruct (limits_inv _ _ _ _ _ _ _ HL) as (L0 & L1 & L2 & L3 & L4 & L5 & L6 & L7).
    destruct c_demand_total as (T1 & T2).
    assert (Hall : forall v, In v (trip cs) -> In v (nodes h)).
    { intros v [<-|Hv]; [apply (net_source _ _ HN)|apply c_nodes_in; auto]. }
    assert (Hpre : forall q1 q2 l, cs ++ [Sink] = q1 ++ q2 -> path_label (extension h o caps dur) (Source :: q1) = Ok l ->
              label_le l m /\ label_le zero_label l).
    { intros q1 q2 l E El. assert (HA1 := prefix_along h cs q1 q2 HA E).
      destruct (c_load_le q1 q2 E) as (B1 & B2). assert (B3 := c_stops_le q1 q2 E).
      assert (Hn0 : 0 <= inject_Z (Z.of_nat (List.length q1))).
      { change 0 with (inject_Z 0). rewrite <- Zle_Qle. lia. }
      assert (Hd0 : 0 <= node_sum (demand_of h) q1).
      { apply node_sum_nonneg. intros v Hv. apply (ld_goods _ _ _ _ _ LD). apply (c_in1 q1 q2 E v Hv). }
      unfold extension in El. revert El. case_eq (custom_ref o); intros Hc El.
      - destruct (fwd_measures h W (o_time_windows o) (o_distribution_collection o) q1 HA1) as (l' & El' & M).
        rewrite El in El'. injection El' as <-.
        assert (Hser1 : forall v, In v (Source :: q1) -> 0 <= service_of h v).
        { intros v [<-|Hv]; [apply Hserv, (net_source _ _ HN)|apply Hserv, (c_in1 q1 q2 E v Hv)]. }
        assert (Hlate := arrivals_late h (lower_of h) 0 Source q1).
        assert (Hlate0 : 0 <= last (arrivals (time_of h) (service_of h) (lower_of h) 0 Source q1) 0).
        { assert (P1 : 0 <= path_sum (time_of h) (Source :: q1)).
          { apply path_sum_nonneg. intros a b Hab. apply Htime, HA1. auto. }
          assert (P2 : 0 <= node_sum (service_of h) (removelast (Source :: q1))).
          { apply node_sum_nonneg. intros v Hv. apply Hser1.
            rewrite (app_removelast_last Source (l := Source :: q1)) by discriminate. apply in_or_app. auto. }
          lra. }
        assert (Htim : l_time l <= l_time m).
        { rewrite (me_time _ _ _ _ _ M). case_eq (o_time_windows o); intro Htw.
          - destruct (L4 Htw) as (_ & L4b). rewrite (L4b (ld_windows _ _ _ _ _ LD Htw)).
            assert (HM := last_mono (lower_of h) 0 Source q1 q2). rewrite <- E in HM.
            specialize (HM HA Hall). assert (HF := c_arrivals Htw).
            apply (arrivals_in_time h (lower_of h) (upper_of h)) with (q1 := cs ++ [Sink]) (q2 := []) in HF.
            + rewrite last_app_single in HF. lra.
            + rewrite app_nil_r. reflexivity.
            + destruct cs; discriminate.
          - destruct (ld_clock _ _ _ _ _ LD Htw Hc) as (C1 & C2).
            rewrite (arrivals_exact h (lower_of h) 0 Source q1); auto; try lra.
            2:{ intros v Hv. apply C1. apply (c_in1 q1 q2 E v Hv). }
            case_eq (truthy dur); intro Hd.
            + assert (HD2 : exists D, dur = Some D /\ D <> 0%Z).
              { revert Hd. case_eq dur; [|discriminate]. intros D _ Hd. exists D. split; auto.
                cbn [truthy] in Hd. apply negb_true_iff, Z.eqb_neq in Hd. auto. }
              destruct HD2 as (D & HD2 & HD3). rewrite (L5 D HD2 HD3).
              assert (H1 := c_duration q1 q2 E D HD2 HD3). lra.
            + destruct C2 as [C2|C2]; [congruence|]. destruct (L6 Htw) as (_ & L6b). rewrite (L6b Hd).
              destruct (c_all_times q1 q2 E) as (P1 & _).
              assert (P2 : node_sum (service_of h) (removelast (Source :: q1)) == 0).
              { unfold node_sum. apply Qsum_map_zero. intros v Hv. apply C2.
                assert (Hin : In v (Source :: q1)).
                { rewrite (app_removelast_last Source (l := Source :: q1)) by discriminate. apply in_or_app. auto. }
                destruct Hin as [<-|Hin]; [apply (net_source _ _ HN)|apply (c_in1 q1 q2 E v Hin)]. }
              lra. }
        assert (Hwin : l_window l <= l_window m /\ 0 <= l_window l).
        { case_eq (o_time_windows o); intro Htw.
          - assert (Hl01 : 0 <= l_window l).
            { destruct (list_snoc q1) as [Ez|(p & x & Ep)].
              - rewrite Ez in El. injection El as <-. apply Qle_refl.
              - rewrite Ep in El. rewrite path_label_snoc in El. apply bind_ok in El. destruct El as (l0 & _ & El).
                unfold ref_fwd in El.
                apply bind_ok in El. destruct El as (x1 & _ & El). apply bind_ok in El. destruct El as (x2 & _ & El).
                apply bind_ok in El. destruct El as (x3 & _ & El). injection El as <-. cbn [l_window].
                match goal with |- 0 <= if ?b then _ else _ => destruct b; lra end. }
            split; auto. destruct (L4 Htw) as (L4a & _). rewrite L4a.
            destruct (list_snoc q1) as [Ez|(p & x & Ep)].
            + rewrite Ez in El. injection El as <-. apply Qle_refl.
            + assert (Hq : q1 <> []) by (rewrite Ep; destruct p; discriminate).
              apply (me_window _ _ _ _ _ M Htw Hq). assert (HF := c_arrivals Htw).
              apply (arrivals_in_time h (lower_of h) (upper_of h)) with (q1 := q1) (q2 := q2) in HF; auto.
          - destruct (L6 Htw) as (L6a & _). rewrite L6a. rewrite (me_no_window _ _ _ _ _ M Htw). split; lra. }
        assert (Hboth : (l_collect l <= l_collect m /\ 0 <= l_collect l) /\ (l_deliver l <= l_deliver m /\ 0 <= l_deliver l)).
        { case_eq (o_distribution_collection o); intro Hs.
          - destruct (me_both _ _ _ _ _ M Hs) as (M1 & (d1 & d2 & Ed & M2) & _).
            destruct (ld_both _ _ _ _ _ LD Hs) as (c0 & lc & Hl).
            destruct (L2 _ Hl) as (c & E1 & _ & E2); [discriminate|]. destruct (E2 Hs) as (-> & ->).
            assert (HB := dr_both _ _ _ _ _ _ _ HD Hs _ _ Hl E1).
            assert (G : forall v, In v q1 -> 0 <= demand_of h v /\ 0 <= collect_of h v).
            { intros v Hv. apply (ld_goods _ _ _ _ _ LD). apply (c_in1 q1 q2 E v Hv). }
            assert (G2 : forall v, In v q2 -> 0 <= demand_of h v /\ 0 <= collect_of h v).
            { intros v Hv. apply (ld_goods _ _ _ _ _ LD). apply (c_in2 q1 q2 E v Hv). }
            (* any split of a prefix fits *)
            assert (Hsplit : forall e1 e2, q1 = e1 ++ e2 ->
                      node_sum (collect_of h) e1 + node_sum (demand_of h) e2 <= inject_Z c).
            { intros e1 e2 Ee. destruct (ld_sink _ _ _ _ _ LD) as (S1 & S2).
              destruct (list_snoc q2) as [Hq|(q3 & x & Hq)].
              - rewrite Hq, app_nil_r in E. rewrite Ee in E.
                destruct (list_snoc e2) as [Hz|(e3 & y & Hz)].
                + rewrite Hz in E |- *. rewrite app_nil_r in E. rewrite <- E, node_sum_app, node_sum_cons, !node_sum_nil, S2.
                  assert (H1 := HB cs []). rewrite app_nil_r, node_sum_nil in H1. specialize (H1 eq_refl). lra.
                + rewrite Hz in E |- *. rewrite app_assoc in E. apply app_inj_tail in E. destruct E as (Ec & <-).
                  assert (H1 := HB e1 e3 Ec). rewrite node_sum_app, node_sum_cons, node_sum_nil, S1. lra.
              - rewrite Hq, app_assoc in E. apply app_inj_tail in E. destruct E as (Ec & _).
                rewrite Ee, <- app_assoc in Ec. assert (H1 := HB e1 (e2 ++ q3) Ec).
                assert (H2 := node_sum_prefix (demand_of h) e2 q3).
                assert (H3 : node_sum (demand_of h) e2 <= node_sum (demand_of h) (e2 ++ q3)); [|lra].
                apply H2. intros v Hv. apply G2. rewrite Hq. apply in_or_app. auto. }
            assert (H1 : node_sum (collect_of h) q1 <= inject_Z c).
            { specialize (Hsplit q1 []). rewrite node_sum_nil, app_nil_r in Hsplit. specialize (Hsplit eq_refl). lra. }
            assert (H2 := Hsplit d1 d2 Ed).
            assert (P1 : 0 <= node_sum (collect_of h) q1) by (apply node_sum_nonneg; intros v Hv; apply G; auto).
            assert (P2 : 0 <= node_sum (collect_of h) d1).
            { apply node_sum_nonneg. intros v Hv. apply G. rewrite Ed. apply in_or_app. auto. }
            assert (P3 : 0 <= node_sum (demand_of h) d2).
            { apply node_sum_nonneg. intros v Hv. apply G. rewrite Ed. apply in_or_app. auto. }
            repeat split; lra.
          - destruct (me_one _ _ _ _ _ M Hs) as (M1 & M2). destruct (L7 Hs) as (-> & ->).
            repeat split; lra. }
        assert (M3 := me_stops _ _ _ _ _ M). assert (M4 := me_load _ _ _ _ _ M). assert (M5 := me_time _ _ _ _ _ M).
        split; constructor; cbn [zero_label l_stops l_load l_time l_window l_collect l_deliver]; try lra; try tauto.
      - destruct (default_measures h W caps dur q1 HA1) as (l' & El' & M1 & M2 & M3 & M4 & M5 & M6).
        rewrite El in El'. injection El' as <-.
        assert (Htw : o_time_windows o = false).
        { unfold custom_ref in Hc. destruct (o_time_windows o); [discriminate|auto]. }
        assert (Hs : o_distribution_collection o = false).
        { unfold custom_ref in Hc. rewrite Htw in Hc. destruct (o_distribution_collection o); [discriminate|auto]. }
        destruct (L6 Htw) as (L6a & L6b). destruct (L7 Hs) as (L7a & L7b).
        assert (Hld : 0 <= l_load l /\ l_load l <= l_load m).
        { rewrite M2. destruct caps as [[|]|]; split; lra. }
        assert (Htm : 0 <= l_time l /\ l_time l <= l_time m).
        { rewrite M3. case_eq (truthy dur); intro Hd.
          - assert (HD2 : exists D, dur = Some D /\ D <> 0%Z).
            { revert Hd. case_eq dur; [|discriminate]. intros D _ Hd. exists D. split; auto.
              cbn [truthy] in Hd. apply negb_true_iff, Z.eqb_neq in Hd. auto. }
            destruct HD2 as (D & HD2 & HD3). rewrite (L5 D HD2 HD3).
            assert (H1 := c_duration q1 q2 E D HD2 HD3).
            assert (P1 : 0 <= path_sum (time_of h) (Source :: q1)).
            { apply path_sum_nonneg. intros a b Hab. apply Htime, HA1. auto. }
            assert (P2 : 0 <= node_sum (service_of h) (removelast (Source :: q1))).
            { apply node_sum_nonneg. intros v Hv.
              assert (Hin : In v (Source :: q1)).
              { rewrite (app_removelast_last Source (l := Source :: q1)) by discriminate. apply in_or_app. auto. }
              apply Hserv. destruct Hin as [<-|Hin]; [apply (net_source _ _ HN)|apply (c_in1 q1 q2 E v Hin)]. }
            split; lra.
          - rewrite (L6b Hd). destruct (c_all_times q1 q2 E) as (_ & P1). split; lra. }
        split; constructor; cbn [zero_label l_stops l_load l_time l_window l_collect l_deliver];
          try rewrite L7a; try rewrite L7b; try rewrite L6a; lra. }
    constructor.
    - apply trip_walk. exact HA.
    - intros p1 p2 l E Hp El. destruct p1 as [|x q1]; [congruence|].
      unfold trip in E. cbn [app] in E. injection E as <- E. apply (Hpre q1 p2 l E El).
    - intros l El. apply (Hpre (cs ++ [Sink]) [] l); auto. rewrite app_nil_r. reflexivity.
  Qed.
End Complete.

Lemma no_repeat_NoDup p : no_repeat p = true <-> NoDup p.
Proof.
  induction p as [|v p IH]; cbn [no_repeat]; [split; [constructor|auto]|].
  rewrite andb_true_iff, IH, negb_true_iff, mem_false. split.
  - intros (H1 & H2). constructor; auto.
  - intro H. inversion H; auto.
Qed.

Lemma arcs_eqb_eq l1 l2 : arcs_eqb l1 l2 = true <-> l1 = l2.
Proof.
  revert l2. induction l1 as [|a l1 IH]; intros [|b l2]; cbn [arcs_eqb]; try (split; [discriminate|discriminate]); [tauto|].
  rewrite andb_true_iff, IH, arc_eqb_eq. split; [intros (-> & ->); auto|intro H; injection H; auto].
Qed.

Section CspyRun.
  Variables (g h : vgraph) (K k : nat) (caps : option (list Z)) (o : options) (ns dur : option Z).
  Variable alg : label -> (label -> arc -> res label) -> bool -> option Q -> option (Q * list node).
  Variable keys : list node.
  Hypothesis HN : network K h.
  Hypothesis Hk : (k < K)%nat.
  Hypothesis Hkeys : forall v, In v (custs h) -> In v keys.
  Hypothesis Halg : sound_labelling h alg.

  (** the column of a path *)
  Record path_column (n : nat) (p : list node) (c : column) : Prop := {
    pc_path : c_path c = Some p;
    pc_type : c_type c = k;
    pc_arcs : NoDup (c_arcs c) /\ forall a, In a (c_arcs c) <-> In a (arcs p);
    pc_cost : c_cost c == Qsum (map (fun a => cost_of h k (fst a) (snd a)) (c_arcs c));
    pc_elem : NoDup p -> c_name c = CElem n /\
      exists cs, p = trip cs /\ NoDup cs /\ (forall v, In v cs -> v <> Source /\ v <> Sink) /\
                 along (arc_list h) (trip cs) /\ is_column h k cs c;
    pc_nonelem : ~ NoDup p -> c_name c = CNonElem n
  }.

  Lemma cspy_new_route_ok routes p : walk (arc_list h) Source Sink p ->
    exists c, cspy_new_route h k keys routes p = Ok c /\ path_column (S (List.length routes)) p c.
  Proof.
    intro Hw. unfold cspy_new_route.
    destruct (digraph_of (arcs p)) as [nl el] eqn:ED.
    assert (Hel : forall a, In a el <-> In a (arcs p)).
    { intro a. assert (E := digraph_snd (arcs p) a). rewrite ED in E. exact E. }
    assert (Hnd : NoDup el) by (assert (E := digraph_snd_NoDup (arcs p)); rewrite ED in E; exact E).
    assert (Hin : forall a, In a el -> In a (arc_list h)).
    { intros [u v] Ha. apply (walk_along _ _ _ _ Hw), Hel. auto. }
    destruct (cost_fold h K k keys el 0 HN Hk Hin) as (q & -> & Eq).
    { intros [u v] Ha Hs. cbn [fst] in *. apply Hkeys. specialize (Hin _ Ha).
      apply in_custs. split; [|split; auto].
      - apply (wf_ends _ (net_wf _ _ HN) u v); auto.
      - intro C. subst. apply (net_no_out _ _ HN v). auto. }
    cbn [bind]. eexists. split; [reflexivity|].
    constructor; cbn [c_path c_type c_arcs c_cost c_name]; auto.
    - rewrite Eq. lra.
    - intro Hp. assert (E := proj2 (no_repeat_NoDup p) Hp). rewrite E. split; auto.
      destruct (simple_trip h p Hw Hp) as (cs & Ep & C1 & C2 & C3). exists cs. split; auto. split; auto. split; auto.
      split; auto. rewrite Ep in Hp, ED, Hel.
      destruct (digraph_trip _ _ Hp (Permutation_refl _)) as (D1 & D2). rewrite ED in D1, D2. cbn [fst snd] in D1, D2.
      constructor; cbn [c_nodes c_arcs c_cost c_type]; auto.
      rewrite Eq, (Qsum_perm _ _ (Permutation_map _ D2)).
      change (Qsum (map (fun a => cost_of h k (fst a) (snd a)) (arcs (trip cs)))) with (path_sum (cost_of h k) (trip cs)).
      lra.
    - intro Hp. destruct (no_repeat p) eqn:E; auto. apply no_repeat_NoDup in E. contradiction.
  Qed.

  Lemma cspy_loop_ok m routes s : edges g <> [] ->
    exists r, cspy_loop g h k caps o dur alg keys m routes s = Ok r /\
      (r = (routes, false) \/
       exists e p c, In e s /\ r = (routes ++ [c], true) /\ (e = true -> NoDup p) /\
         resource_feasible h m (extension h o caps dur) p /\
         path_sum (weight_of h) p < - (1 # 1000) /\
         path_column (S (List.length routes)) p c /\
         forall c', In c' routes -> column_edges c' <> column_edges c).
  Proof.
    intro Hg. induction s as [|e s IH]; cbn [cspy_loop]; [eauto|].
    assert (Hthr : exists thr, (if e then let* q := pymin (map (fun a => weight_of g (fst a) (snd a)) (edges g)) in Ok (Some q)
                     else Ok None) = Ok thr).
    { destruct e; [|eauto]. destruct (edges g) as [|a l]; [congruence|]. cbn [map pymin bind]. eauto. }
    destruct Hthr as (thr & ->). cbn [bind].
    destruct (alg m (extension h o caps dur) e thr) as [[cost path]|] eqn:Ea; [|eauto].
    destruct (Halg _ _ _ _ _ _ Ea) as (R & Ec & Hel).
    destruct (Qltb cost (- (1 # 1000))) eqn:Eq; [|eauto].
    destruct (cspy_new_route_ok routes path (rf_walk _ _ _ _ R)) as (c & -> & PC). cbn [bind].
    destruct (existsb _ routes) eqn:Ex.
    - destruct IH as (r & -> & [->|(e1 & p1 & c1 & H1 & H2)]); eexists; (split; [reflexivity|]); auto.
      right. exists e1, p1, c1. split; [right; auto|auto].
    - eexists. split; [reflexivity|]. right. exists e, path, c. split; [left; auto|]. split; auto. split; auto.
      split; auto. split; [rewrite <- Ec; apply Qltb_lt; auto|]. split; auto.
      intros c' Hc' E. assert (C : existsb (fun r => arcs_eqb (column_edges c) (column_edges r)) routes = true); [|congruence].
      apply existsb_exists. exists c'. split; auto. apply arcs_eqb_eq. auto.
  Qed.

  Theorem cspy_solve_ok run elementary m routes : edges g <> [] -> limits h o k caps ns dur = Ok m ->
    exists r, cspy_solve g h k caps o ns dur alg keys run elementary routes = Ok r /\
      (r = (routes, false) \/
       exists p c, run = true /\ r = (routes ++ [c], true) /\
         (elementary = true \/ o_distribution_collection o = true -> NoDup p) /\
         resource_feasible h m (extension h o caps dur) p /\
         path_sum (weight_of h) p < - (1 # 1000) /\
         path_column (S (List.length routes)) p c /\
         forall c', In c' routes -> column_edges c' <> column_edges c).
  Proof.
    intros Hg Hl. unfold cspy_solve. destruct run; cbn [negb]; [|eauto]. rewrite Hl. cbn [bind].
    destruct (cspy_loop_ok m routes (passes o elementary) Hg) as (r & -> & [->|(e & p & c & H1 & H2 & H3 & H4)]);
      eexists; (split; [reflexivity|]); auto.
    right. exists p, c. split; auto. split; auto. split; auto. intro He. apply H3.
    unfold passes in H1. destruct (o_distribution_collection o); cbn [negb andb] in H1.
    - destruct H1 as [<-|[]]. auto.
    - destruct elementary; [|intuition discriminate]. destruct H1 as [<-|[]]. auto.
  Qed.
End CspyRun.

(** limits are computed without error *)
Lemma limits_total h o k caps ns dur K : network K h -> round_trips h ->
  (o_time_windows o = true -> custs h <> []) ->
  (forall l, caps = Some l -> l <> [] -> (k < List.length l)%nat) -> o_pickup_delivery o = false ->
  exists m, limits h o k caps ns dur = Ok m.
Proof.
  intros HN HR Hcu Hc Hp. unfold limits. rewrite Hp.
  assert (E1 : exists load, match caps with
                 | Some ((_ :: _) as l) => let* c := of_opt IndexError (nth_error l k) in Ok (inject_Z c)
                 | _ => Ok (l_load (initial_limits h))
                 end = Ok load).
  { destruct caps as [[|c l]|]; eauto. assert (H := Hc _ eq_refl ltac:(discriminate)).
    apply nth_error_Some in H. destruct (nth_error (c :: l) k); [cbn [of_opt bind]; eauto|congruence]. }
  destruct E1 as (load & ->). cbn [bind].
  set (time1 := match dur with Some D => _ | None => _ end).
  assert (E2 : exists tw, (if o_time_windows o then
                  let* s := get_node h Sink in
                  let* _ := mapM (fun v => let* d := get_node h v in
                                           let* e := get_arc h v Sink in
                                           Ok (upper d + service d + etime e)) (preds h Sink) in
                  let* _ := raise_if (negb (nonempty (preds h Sink))) ValueError in
                  Ok (if truthy dur then time1 else 1 + upper s, 0)
                else Ok (time1, l_window (initial_limits h))) = Ok tw).
  { destruct (o_time_windows o); [|eauto].
    rewrite (get_node_total h Sink (net_sink _ _ HN)). cbn [bind].
    rewrite (mapM_pure _ (fun v => upper (nd h v) + service (nd h v) + time_of h v Sink)).
    2:{ intros v Hv. apply in_preds in Hv. destruct (wf_ends _ (net_wf _ _ HN) _ _ Hv) as (Hv1 & _).
        rewrite (get_node_total h v Hv1). cbn [bind]. destruct (get_arc_ok h _ _ Hv) as (e & -> & Ee). cbn [bind].
        unfold time_of. rewrite Ee. reflexivity. }
    cbn [bind]. destruct (preds h Sink) as [|x l] eqn:Ep; [|cbn; eauto].
    exfalso. destruct (custs h) as [|v cs] eqn:Ev; [apply Hcu; auto|].
    destruct (HR v) as (_ & H); [rewrite Ev; simpl; auto|]. apply in_preds in H. rewrite Ep in H. destruct H. }
  destruct E2 as (tw & ->). cbn [bind].
  assert (E3 : exists both, match caps with
                 | Some ((_ :: _) as l) =>
                     if o_distribution_collection o
                     then let* c := of_opt IndexError (nth_error l k) in Ok (inject_Z c, inject_Z c)
                     else Ok (l_collect (initial_limits h), l_deliver (initial_limits h))
                 | _ => Ok (l_collect (initial_limits h), l_deliver (initial_limits h))
                 end = Ok both).
  { destruct caps as [[|c l]|]; eauto. destruct (o_distribution_collection o); eauto.
    assert (H := Hc _ eq_refl ltac:(discriminate)).
    apply nth_error_Some in H. destruct (nth_error (c :: l) k); [cbn [of_opt bind]; eauto|congruence]. }
  destruct E3 as (both & ->). cbn [bind raise_if]. eauto.
Qed.
