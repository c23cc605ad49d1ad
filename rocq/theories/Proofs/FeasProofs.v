(** Proofs about check_feasibility, check_initial_routes and the option checks. *)
From Verif.Base Require Import Prelude Graph.
From Verif.Spec Require Import Routes Network Inputs Feasible.
From Verif.Model Require Import Args Reach Checks.
From Verif.Proofs Require Import RouteLemmas ReachLemmas ChecksProofs.

Lemma time_arcs_keys g : map fst (time_arcs g) = arc_list g.
Proof. unfold time_arcs, arc_list. rewrite map_map. reflexivity. Qed.

Lemma time_arcs_wt g u v : wt (time_arcs g) u v = time_of g u v.
Proof.
  unfold wt, time_of, arc_data, time_arcs.
  induction (gedges g) as [|[a e] l IH]; simpl; auto.
  destruct (arc_eqb a (u, v)); auto.
Qed.

Lemma path_sum_wt g p : path_sum (wt (time_arcs g)) p = path_sum (time_of g) p.
Proof. unfold path_sum. f_equal. apply map_ext. intros [u v]. simpl. apply time_arcs_wt. Qed.

Section SPL.
  Variable g : vgraph.
  Hypothesis W : wf g.
  Hypothesis T : nonneg_times g.

  Lemma spl_ok s t p : In s (nodes g) -> In t (nodes g) -> walk (arc_list g) s t p ->
    exists q, shortest_path_length (nodes g) (time_arcs g) s t = Ok q /\
      (exists p', walk (arc_list g) s t p' /\ path_sum (time_of g) p' == q) /\
      (forall p', walk (arc_list g) s t p' -> q <= path_sum (time_of g) p').
  Proof.
    intros Hs Ht Hw.
    assert (E : forall x y, In (x, y) (map fst (time_arcs g)) -> In x (nodes g) /\ In y (nodes g)).
    { rewrite time_arcs_keys. apply W. }
    assert (ND : NoDup (map fst (time_arcs g))) by (rewrite time_arcs_keys; apply W).
    assert (P : forall u v, 0 <= wt (time_arcs g) u v) by (intros; rewrite time_arcs_wt; apply T).
    rewrite <- time_arcs_keys in Hw.
    destruct (spl_le (nodes g) (time_arcs g) s (wf_nodes g W) ND E t p Hs Ht P Hw) as (q & Hq & _).
    exists q. split; auto. split.
    - destruct (spl_sound (nodes g) (time_arcs g) s (wf_nodes g W) ND E t q Ht Hq) as (p' & Hp & Hsum).
      exists p'. rewrite time_arcs_keys in Hp. rewrite path_sum_wt in Hsum. auto.
    - intros p' Hp'. rewrite <- time_arcs_keys in Hp'.
      destruct (spl_le (nodes g) (time_arcs g) s (wf_nodes g W) ND E t p' Hs Ht P Hp') as (q' & Hq' & Hle).
      rewrite path_sum_wt in Hle. congruence.
  Qed.
End SPL.

Definition feas_demand (load_capacity : option (list Z)) (g : vgraph) : res unit :=
  match load_capacity with
  | Some (c :: l) =>
      iterM (fun p =>
        let* m := zmax (c :: l) in
        raise_if (Qltb (inject_Z m) (demand (snd p))) ValueError) (gnodes g)
  | _ => Ok tt
  end.

Definition feas_node (duration : option Z) (g : vgraph) (v : node) : res unit :=
  if is_depot v then Ok tt else
  let* d1 := shortest_path_length (nodes g) (time_arcs g) Source v in
  let* d2 := shortest_path_length (nodes g) (time_arcs g) v Sink in
  raise_if (match duration with Some D => Qltb (inject_Z D) (d2 + d1) | None => false end) ValueError.

Lemma check_feasibility_unfold caps dur g :
  check_feasibility caps dur g =
  (let* _ := feas_demand caps g in
   if truthy dur then iterM (feas_node dur g) (nodes g) else Ok tt).
Proof. destruct caps as [[|c l]|]; reflexivity. Qed.

Lemma demand_of_node g v d : wf g -> node_data g v = Some d -> demand_of g v = demand d.
Proof. intros W H. unfold demand_of, nd. rewrite H. auto. Qed.

Lemma gnodes_data {N E} (g : graph N E) v d : wf g -> In (v, d) (gnodes g) -> node_data g v = Some d.
Proof. intros W H. unfold node_data. apply assoc_node_NoDup; auto. apply W. Qed.

Lemma node_data_gnodes {N E} (g : graph N E) v d : node_data g v = Some d -> In (v, d) (gnodes g).
Proof. unfold node_data. apply assoc_node_In. Qed.

Lemma feas_demand_ok caps g u : wf g ->
  (feas_demand caps g = Ok u <-> forall v, In v (nodes g) -> fits_some caps (demand_of g v)).
Proof.
  intro W. destruct u. unfold feas_demand, fits_some. destruct caps as [[|c l]|].
  1: { split; [|auto]. intros _ v Hv c' l' E. discriminate. }
  2: { split; [|auto]. intros _ v Hv c' l' E. discriminate. }
  rewrite iterM_ok. destruct (zmax (c :: l)) as [m|e] eqn:Em.
  2:{ exfalso. simpl in Em. discriminate. }
  pose proof (zmax_ok (c :: l) m Em) as (Hin & Hmax). split.
  - intros H v Hv c' l' E. inversion E; subst c' l'.
    apply node_data_In in Hv. destruct Hv as (d & Hd).
    specialize (H (v, d) (node_data_gnodes _ _ _ Hd)). cbn [bind snd] in H.
    apply raise_if_ok in H. rewrite (demand_of_node g v d W Hd).
    exists m. split; auto. apply Qltb_ge; auto.
  - intros H [v d] Hp. cbn [bind snd]. apply raise_if_ok. apply Qltb_ge.
    pose proof (gnodes_data g v d W Hp) as Hd. rewrite <- (demand_of_node g v d W Hd).
    destruct (H v ltac:(apply node_data_In; eauto) c l eq_refl) as (x & Hx & Hle).
    eapply Qle_trans; [exact Hle|]. rewrite <- Zle_Qle. auto.
Qed.

Lemma feas_demand_err caps g e : wf g -> feas_demand caps g = Err e ->
  e = ValueError /\ exists v, In v (nodes g) /\ ~ fits_some caps (demand_of g v).
Proof.
  intros W H. unfold feas_demand in H. destruct caps as [[|c l]|]; try discriminate.
  destruct (zmax (c :: l)) as [m|e'] eqn:Em; [|simpl in Em; discriminate].
  pose proof (zmax_ok (c :: l) m Em) as (Hin & Hmax).
  apply iterM_err in H. destruct H as ([v d] & Hp & H). cbn [bind snd] in H.
  apply raise_if_err in H. destruct H as (H & ->). split; auto.
  exists v. pose proof (gnodes_data g v d W Hp) as Hd. split; [apply node_data_In; eauto|].
  rewrite (demand_of_node g v d W Hd). intro F. destruct (F c l eq_refl) as (x & Hx & Hle).
  apply Qltb_lt in H. specialize (Hmax x Hx). rewrite Zle_Qle in Hmax. lra.
Qed.

Lemma check_feasibility_node g D v : wf g -> nonneg_times g -> In Source (nodes g) -> In Sink (nodes g) ->
  In v (nodes g) -> In (Source, v) (arc_list g) -> In (v, Sink) (arc_list g) -> is_depot v = false ->
  (feas_node (Some D) g v = Ok tt /\ reachable_within g v (inject_Z D)) \/
  (feas_node (Some D) g v = Err ValueError /\ ~ reachable_within g v (inject_Z D)).
Proof.
  intros W T HS HT Hv H1 H2 Hd. unfold feas_node. rewrite Hd.
  assert (W1 : walk (arc_list g) Source v [Source; v]) by (repeat econstructor; auto).
  assert (W2 : walk (arc_list g) v Sink [v; Sink]) by (repeat econstructor; auto).
  destruct (spl_ok g W T Source v _ HS Hv W1) as (q1 & E1 & (p1 & Hp1 & S1) & M1).
  destruct (spl_ok g W T v Sink _ Hv HT W2) as (q2 & E2 & (p2 & Hp2 & S2) & M2).
  rewrite E1, E2. cbn [bind].
  destruct (Qltb (inject_Z D) (q2 + q1)) eqn:C.
  - right. split; auto. apply Qltb_lt in C. intros (x1 & x2 & Hx1 & Hx2 & Hle).
    specialize (M1 _ Hx1). specialize (M2 _ Hx2). lra.
  - left. split; auto. apply Qltb_ge in C. exists p1, p2. repeat split; auto.
    rewrite S1, S2. lra.
Qed.

Lemma check_feasibility_ok K caps dur g :
  network K g -> round_trips g -> nonneg_times g ->
  (check_feasibility caps dur g = Ok tt <->
   (forall v, In v (nodes g) -> fits_some caps (demand_of g v)) /\
   (forall D v, limit dur D -> In v (custs g) -> reachable_within g v (inject_Z D))).
Proof.
  intros N R T. destruct N as [W HS HT _ _ _]. rewrite check_feasibility_unfold. split.
  - intro H. apply bind_ok in H. destruct H as ([] & Hd & H).
    split; [apply (feas_demand_ok caps g tt W); auto|].
    intros D v (-> & HD) Hv.
    assert (Ht : truthy (Some D) = true) by (apply truthy_Some; auto).
    rewrite Ht in H. rewrite iterM_ok in H.
    pose proof Hv as Hc. apply in_custs in Hc. destruct Hc as (Hn & Hcu).
    assert (Hdp : is_depot v = false) by (apply is_depot_false; auto).
    destruct (R v Hv) as (R1 & R2).
    destruct (check_feasibility_node g D v W T HS HT Hn R1 R2 Hdp) as [(_ & F)|(E & _)]; auto.
    specialize (H v Hn). congruence.
  - intros (Hd & HD). apply (feas_demand_ok caps g tt W) in Hd. rewrite Hd. cbn [bind].
    destruct dur as [D|]; [|reflexivity]. destruct (truthy (Some D)) eqn:Ht; auto.
    apply truthy_Some in Ht. apply iterM_ok. intros v Hv.
    destruct (is_depot v) eqn:Hdp; [unfold feas_node; rewrite Hdp; auto|].
    assert (Hc : In v (custs g)).
    { apply in_custs. split; auto. apply is_depot_false; auto. }
    destruct (R v Hc) as (R1 & R2).
    destruct (check_feasibility_node g D v W T HS HT Hv R1 R2 Hdp) as [(E & _)|(_ & F)]; auto.
    exfalso. apply F. apply HD; auto. split; auto.
Qed.

(** the part about demands does not depend on travel times *)
Lemma check_feasibility_demands caps dur g : wf g -> check_feasibility caps dur g = Ok tt ->
  forall v, In v (nodes g) -> fits_some caps (demand_of g v).
Proof.
  intros W H. rewrite check_feasibility_unfold in H. apply bind_ok in H. destruct H as ([] & Hd & _).
  apply (feas_demand_ok caps g tt W). exact Hd.
Qed.

Lemma check_feasibility_err K caps dur g e :
  network K g -> round_trips g -> nonneg_times g ->
  check_feasibility caps dur g = Err e ->
  e = ValueError /\
  ((exists v, In v (nodes g) /\ ~ fits_some caps (demand_of g v)) \/
   (exists D v, limit dur D /\ In v (custs g) /\ ~ reachable_within g v (inject_Z D))).
Proof.
  intros N R T. destruct N as [W HS HT _ _ _]. rewrite check_feasibility_unfold. intro H.
  destruct (feas_demand caps g) as [[]|e'] eqn:Ed; cbn [bind] in H.
  2:{ inversion H; subst. apply feas_demand_err in Ed; auto. destruct Ed as (-> & Hx). auto. }
  destruct dur as [D|]; [|discriminate]. destruct (truthy (Some D)) eqn:Ht; [|discriminate].
  apply truthy_Some in Ht. apply iterM_err in H. destruct H as (v & Hv & H).
  destruct (is_depot v) eqn:Hdp; [unfold feas_node in H; rewrite Hdp in H; discriminate|].
  assert (Hc : In v (custs g)).
  { apply in_custs. split; auto. apply is_depot_false; auto. }
  destruct (R v Hc) as (R1 & R2).
  destruct (check_feasibility_node g D v W T HS HT Hv R1 R2 Hdp) as [(E & _)|(E & F)]; [congruence|].
  split; [congruence|]. right. exists D, v. split; [split; auto|auto].
Qed.

(** A route through [v] splits into a walk to [v] and a walk from [v]. *)
Lemma route_split_at g r v : route_shape r -> along (arc_list g) r -> In v r ->
  exists p1 p2, walk (arc_list g) Source v p1 /\ walk (arc_list g) v Sink p2 /\
    path_sum (time_of g) r == path_sum (time_of g) p1 + path_sum (time_of g) p2.
Proof.
  intros (cs & Er & _ & _) Ha Hv.
  apply in_split in Hv. destruct Hv as (a & b & E).
  assert (L : last (v :: b) v = Sink).
  { assert (L1 : last r v = Sink).
    { rewrite Er. change (Source :: cs ++ [Sink]) with ((Source :: cs) ++ [Sink]). apply last_app_single. }
    rewrite E in L1. clear -L1. induction a as [|x a IH]; [exact L1|].
    apply IH. rewrite <- L1. simpl. destruct a; reflexivity. }
  exists (a ++ [v]), (v :: b). rewrite E in Ha. apply along_app_mid in Ha. destruct Ha as (Ha & Hb).
  split; [|split].
  - assert (H0 : exists q, a ++ [v] = Source :: q).
    { rewrite Er in E. destruct a as [|x a]; simpl in *; inversion E; subst; eauto. }
    destruct H0 as (q & Hq). pose proof (walk_intro (arc_list g) (a ++ [v]) Source q Hq Ha) as Hw.
    rewrite last_app_single in Hw. exact Hw.
  - pose proof (walk_intro (arc_list g) (v :: b) v b eq_refl Hb) as Hw. rewrite L in Hw. exact Hw.
  - rewrite E. apply path_sum_app_mid.
Qed.

Lemma node_sum_ge w p v : (forall x, 0 <= w x) -> In v p -> w v <= node_sum w p.
Proof.
  intros H. induction p as [|x p IH]; [intros []|]. intros [->|Hv]; rewrite node_sum_cons.
  - pose proof (node_sum_nonneg w p (fun x _ => H x)). lra.
  - specialize (IH Hv). specialize (H x). lra.
Qed.

Lemma check_feasibility_no_false_alarm K caps dur g e :
  network K g -> round_trips g -> nonneg_times g -> nonneg_services g -> nonneg_demands g ->
  check_feasibility caps dur g = Err e ->
  e = ValueError /\ exists v, In v (nodes g) /\
    forall r, route_shape r -> along (arc_list g) r -> In v r ->
      ~ fits_some caps (node_sum (demand_of g) r) \/
      exists D, limit dur D /\ inject_Z D < duration_of (time_of g) (service_of g) r.
Proof.
  intros N R T S P H. destruct (check_feasibility_err K caps dur g e N R T H) as (-> & [(v & Hv & F)|(D & v & HD & Hv & F)]).
  - split; auto. exists v. split; auto. intros r Hr Ha Hin. left. intro G. apply F.
    intros c l E. destruct (G c l E) as (x & Hx & Hle). exists x. split; auto.
    pose proof (node_sum_ge (demand_of g) r v P Hin). lra.
  - split; auto. exists v. split; [apply in_custs in Hv; tauto|].
    intros r Hr Ha Hin. right. exists D. split; auto.
    destruct (route_split_at g r v Hr Ha Hin) as (p1 & p2 & H1 & H2 & E).
    unfold duration_of. rewrite E.
    pose proof (node_sum_nonneg (service_of g) r (fun x _ => S x)).
    destruct (Qlt_le_dec (inject_Z D) (path_sum (time_of g) p1 + path_sum (time_of g) p2)) as [L|L]; [lra|].
    exfalso. apply F. exists p1, p2. auto.
Qed.

(* ------------------------------------------------------------------ *)
(** * Initial routes and options *)

Lemma first_last_check r :
  (let* f := first_node r in
      if negb (node_eqb f Source) then Err ValueError else
      let* l := last_node r in
      raise_if (negb (node_eqb l Sink)) ValueError) = Ok tt
  <-> exists p, r = Source :: p /\ last r Source = Sink.
Proof.
  destruct r as [|x p]; simpl.
  - split; [discriminate|intros (q & E & _); discriminate].
  - destruct (node_eqb x Source) eqn:E; simpl.
    + apply node_eqb_eq in E. subst. rewrite raise_if_ok, negb_false_iff, node_eqb_eq.
      split; intro H; [exists p; split; auto|destruct H as (q & _ & H); auto].
    + split; [discriminate|]. intros (q & Eq & _). inversion Eq; subst.
      rewrite node_eqb_refl in E. discriminate.
Qed.

Lemma first_last_err r e :
  (let* f := first_node r in
      if negb (node_eqb f Source) then Err ValueError else
      let* l := last_node r in
      raise_if (negb (node_eqb l Sink)) ValueError) = Err e ->
  (e = IndexError /\ r = []) \/ (e = ValueError /\ r <> [] /\ ~ (exists p, r = Source :: p /\ last r Source = Sink)).
Proof.
  intro H. assert (N : ~ (exists p, r = Source :: p /\ last r Source = Sink)).
  { intro C. apply first_last_check in C. congruence. }
  destruct r as [|x p]; simpl in *.
  - inversion H; auto.
  - right. split; [|split; [discriminate|auto]].
    destruct (negb (node_eqb x Source)); [inversion H; auto|].
    apply raise_if_err in H. tauto.
Qed.

(** [r] runs from Source to Sink ([Source; Sink] at least). *)
Lemma ends_shape (r : list node) :
  (exists p, r = Source :: p /\ last r Source = Sink) <-> exists p, r = Source :: p ++ [Sink].
Proof.
  split.
  - intros (p & -> & H). destruct p as [|x p] using rev_ind.
    + discriminate.
    + change (Source :: p ++ [x]) with ((Source :: p) ++ [x]) in H. rewrite last_app_single in H. subst. eauto.
  - intros (p & ->). exists (p ++ [Sink]). split; auto.
    change (Source :: p ++ [Sink]) with ((Source :: p) ++ [Sink]). apply last_app_single.
Qed.

Lemma arcs_check_ok (g : vgraph) x (p : list node) :
  iterM (fun a : arc => raise_if (negb (has_arc g (fst a) (snd a))) x) (arcs p) = Ok tt <-> along (arc_list g) p.
Proof.
  rewrite iterM_ok. unfold along. split.
  - intros H u v Huv. specialize (H (u, v) Huv). simpl in H.
    apply raise_if_ok, negb_false_iff, has_arc_In in H. auto.
  - intros H [u v] Huv. simpl. apply raise_if_ok, negb_false_iff, has_arc_In. auto.
Qed.

Lemma arcs_check_err (g : vgraph) x e (p : list node) :
  iterM (fun a : arc => raise_if (negb (has_arc g (fst a) (snd a))) x) (arcs p) = Err e ->
  e = x /\ ~ along (arc_list g) p.
Proof.
  intro H. split.
  - apply iterM_err in H. destruct H as (a & _ & H). apply raise_if_err in H. tauto.
  - intro C. apply (arcs_check_ok g x) in C. congruence.
Qed.

Lemma check_initial_routes_ok routes (g : vgraph) :
  check_initial_routes routes g = Ok tt <->
  (forall r, In r routes -> exists p, r = Source :: p ++ [Sink]) /\
  (forall v, In v (custs g) -> exists r, In r routes /\ In v r) /\
  (forall r, In r routes -> along (arc_list g) r).
Proof.
  unfold check_initial_routes. split.
  - intro H. apply bind_ok in H. destruct H as ([] & H1 & H).
    apply bind_ok in H. destruct H as ([] & H2 & H3).
    rewrite iterM_ok in H1. rewrite iterM_ok in H2. rewrite iterM_ok in H3. split; [|split].
    + intros r Hr. apply ends_shape, first_last_check, H1, Hr.
    + intros v Hv. apply in_custs in Hv. destruct Hv as (Hn & Hc). specialize (H2 v Hn).
      assert (Hd : is_depot v = false) by (apply is_depot_false; auto).
      rewrite Hd in H2. apply raise_if_ok, negb_false_iff, existsb_exists in H2.
      destruct H2 as (r & Hr & Hm). exists r. split; auto. apply mem_In; auto.
    + intros r Hr. apply (arcs_check_ok g KeyError), H3, Hr.
  - intros (H1 & H2 & H3).
    match goal with |- bind ?X _ = _ => assert (E1 : X = Ok tt) end.
    { apply iterM_ok. intros r Hr. apply first_last_check, ends_shape, H1, Hr. }
    rewrite E1. cbn [bind].
    match goal with |- bind ?X _ = _ => assert (E2 : X = Ok tt) end.
    { apply iterM_ok. intros v Hv. destruct (is_depot v) eqn:Hd; auto.
      apply raise_if_ok, negb_false_iff, existsb_exists.
      assert (Hc : In v (custs g)) by (apply in_custs; split; auto; apply is_depot_false; auto).
      destruct (H2 v Hc) as (r & Hr & Hm). exists r. split; auto. apply mem_In; auto. }
    rewrite E2. cbn [bind]. apply iterM_ok. intros r Hr. apply arcs_check_ok, H3, Hr.
Qed.

Lemma check_initial_routes_err routes (g : vgraph) e :
  check_initial_routes routes g = Err e ->
  (e = IndexError /\ In [] routes) \/
  (e = ValueError /\ exists r, In r routes /\ r <> [] /\ ~ (exists p, r = Source :: p ++ [Sink])) \/
  (e = KeyError /\ ((exists v, In v (custs g) /\ forall r, In r routes -> ~ In v r) \/
                   (exists r, In r routes /\ ~ along (arc_list g) r))).
Proof.
  unfold check_initial_routes. intro H.
  match type of H with bind ?X _ = _ => destruct X as [[]|e1] eqn:E1 end; cbn [bind] in H.
  2:{ inversion H; subst. apply iterM_err in E1. destruct E1 as (r & Hr & E1).
      apply first_last_err in E1. destruct E1 as [(-> & ->)|(-> & Hne & Hno)]; auto.
      right. left. split; auto. exists r. rewrite ends_shape in Hno. auto. }
  match type of H with bind ?X _ = _ => destruct X as [[]|e2] eqn:E2 end; cbn [bind] in H.
  2:{ inversion H; subst. apply iterM_err in E2. destruct E2 as (v & Hv & E2).
      destruct (is_depot v) eqn:Hd; [discriminate|]. apply raise_if_err in E2. destruct E2 as (E2 & ->).
      right. right. split; auto. left. exists v.
      split; [apply in_custs; split; auto; apply is_depot_false; auto|].
      intros r Hr Hin. apply negb_true_iff in E2. apply mem_In in Hin.
      assert (C : existsb (mem v) routes = true) by (apply existsb_exists; eauto). congruence. }
  apply iterM_err in H. destruct H as (r & Hr & H). apply arcs_check_err in H. destruct H as (-> & Hn).
  right. right. split; auto. right. exists r; auto.
Qed.

Lemma check_preassignments_ok routes (g : vgraph) :
  check_preassignments routes g = Ok tt <-> forall r, In r routes -> along (arc_list g) r.
Proof.
  unfold check_preassignments. rewrite iterM_ok. split; intros H r Hr.
  - apply (arcs_check_ok g ValueError), H, Hr.
  - apply arcs_check_ok, H, Hr.
Qed.

Lemma check_preassignments_err routes (g : vgraph) e :
  check_preassignments routes g = Err e -> e = ValueError.
Proof.
  unfold check_preassignments. intro H. apply iterM_err in H. destruct H as (r & _ & H).
  apply arcs_check_err in H. tauto.
Qed.

Lemma check_compat_ok tw pd sdc mixed periodic :
  check_clarke_wright_compatibility tw pd sdc mixed periodic = Ok tt <->
  tw = false /\ pd = false /\ sdc = false /\ mixed = false /\ (periodic = None \/ periodic = Some 0%Z).
Proof.
  unfold check_clarke_wright_compatibility. rewrite raise_if_ok, !orb_false_iff.
  assert (P : truthy periodic = false <-> periodic = None \/ periodic = Some 0%Z).
  { destruct periodic as [z|]; simpl; [|tauto]. rewrite negb_false_iff, Z.eqb_eq.
    split; [intros ->; auto|intros [H|H]; inversion H; auto]. }
  tauto.
Qed.

Lemma check_compat_err tw pd sdc mixed periodic e :
  check_clarke_wright_compatibility tw pd sdc mixed periodic = Err e -> e = ValueError.
Proof. unfold check_clarke_wright_compatibility. intro H. apply raise_if_err in H. tauto. Qed.

Lemma check_consistency_ok cspy pd (g : vgraph) : wf g ->
  (check_consistency cspy pd g = Ok tt <->
   (pd = true -> cspy = false /\ exists v d w, node_data g v = Some d /\ request d = Some w)).
Proof.
  intro W. unfold check_consistency. destruct pd.
  - destruct cspy; simpl.
    + split; [discriminate|]. intro H. destruct (H eq_refl); discriminate.
    + rewrite raise_if_ok, negb_false_iff, existsb_exists. split.
      * intros ([v d] & Hin & Hr) _. split; auto. simpl in Hr. destruct (request d) as [w|] eqn:E; [|discriminate].
        exists v, d, w. split; auto. apply gnodes_data; auto.
      * intro H. destruct (H eq_refl) as (_ & v & d & w & Hd & Hr).
        exists (v, d). split; [apply node_data_gnodes; auto|]. simpl. rewrite Hr. auto.
  - rewrite andb_false_r. simpl. split; [discriminate|auto].
Qed.

Lemma check_consistency_err cspy pd (g : vgraph) e : check_consistency cspy pd g = Err e ->
  pd = true /\ ((e = NotImplementedError /\ cspy = true) \/ (e = KeyError /\ cspy = false)).
Proof.
  unfold check_consistency. destruct cspy, pd; simpl; intro H; try discriminate.
  - inversion H; auto.
  - apply raise_if_err in H. tauto.
Qed.

Lemma check_periodic_both P nv : P <> 0%Z -> nv <> [] ->
  check_periodic_num_vehicles (Some P) nv = ([], nv).
Proof.
  intros HP Hn. unfold check_periodic_num_vehicles. rewrite (proj2 (truthy_Some P)) by auto.
  destruct nv; [congruence|reflexivity].
Qed.

Lemma check_periodic_one P nv : P = None \/ P = Some 0%Z \/ nv = [] ->
  check_periodic_num_vehicles P nv = (nv, []).
Proof.
  intro H. unfold check_periodic_num_vehicles. destruct H as [->|[->| ->]]; simpl; auto.
  rewrite andb_false_r. auto.
Qed.

Lemma check_pdtw_ok (g : vgraph) es :
  check_pickup_delivery_time_windows g es = Ok tt <-> forall u v, In (u, v) es -> In (u, v) (arc_list g).
Proof.
  unfold check_pickup_delivery_time_windows. rewrite iterM_ok. split.
  - intros H u v Huv. specialize (H (u, v) Huv). simpl in H.
    apply raise_if_ok, negb_false_iff, has_arc_In in H. auto.
  - intros H [u v] Huv. simpl. apply raise_if_ok, negb_false_iff, has_arc_In. auto.
Qed.
