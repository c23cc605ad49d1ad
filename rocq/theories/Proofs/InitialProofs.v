(** The initial solution and its columns. *)
From Verif.Base Require Import Prelude Graph.
From Verif.Spec Require Import Routes Network Feasible Prep Heuristics.
From Verif.Model Require Import Args Reach Checks Preprocess ClarkeWright Greedy Initial.
From Verif.Proofs Require Import RouteLemmas ReachLemmas FeasProofs PreLemmas PruneProofs CWProofs GreedyProofs.

(* ------------------------------------------------------------------ *)
(** ** Graphs of paths *)
Lemma add_node1_in v l x : In x (add_node1 v l) <-> x = v \/ In x l.
Proof.
  unfold add_node1. destruct (mem v l) eqn:E.
  - apply mem_In in E. split; auto. intros [->|H]; auto.
  - rewrite in_app_iff. simpl. intuition.
Qed.
Lemma add_node1_mem v l : In v l -> add_node1 v l = l.
Proof. intro H. unfold add_node1. apply mem_In in H. rewrite H. auto. Qed.
Lemma add_node1_new v l : ~ In v l -> add_node1 v l = l ++ [v].
Proof. intro H. unfold add_node1. apply mem_false in H. rewrite H. auto. Qed.
Lemma add_node1_NoDup v l : NoDup l -> NoDup (add_node1 v l).
Proof.
  intro H. unfold add_node1. destruct (mem v l) eqn:E; auto. apply mem_false in E.
  apply NoDup_app_intro; auto.
  - constructor; [intros []|constructor].
  - intros x Hx [<-|[]]. auto.
Qed.

Lemma digraph_gen l : forall s,
  (forall v, In v (fst (fold_left add_edge2 l s)) <-> In v (fst s) \/ exists a, In a l /\ (v = fst a \/ v = snd a)) /\
  (forall a, In a (snd (fold_left add_edge2 l s)) <-> In a (snd s) \/ In a l) /\
  (NoDup (fst s) -> NoDup (fst (fold_left add_edge2 l s))).
Proof.
  induction l as [|a l IH]; intro s; cbn [fold_left].
  - split; [|split]; auto.
    + intro v. split; auto. intros [H|(x & [] & _)]; auto.
    + intro v. simpl. tauto.
  - destruct (IH (add_edge2 s a)) as (H1 & H2 & H3). split; [|split].
    + intro v. rewrite H1. unfold add_edge2 at 1. cbn [fst snd]. rewrite !add_node1_in. split.
      * intros [[->|[->|H]]|(b & Hb & H)]; auto.
        -- right. exists a. simpl. auto.
        -- right. exists a. simpl. auto.
        -- right. exists b. simpl. auto.
      * intros [H|(b & [->|Hb] & H)]; auto.
        -- destruct H as [->| ->]; auto.
        -- right. eauto.
    + intro b. rewrite H2. unfold add_edge2 at 1. cbn [fst snd].
      destruct (mem_arc a (snd s)) eqn:E.
      * apply mem_arc_In in E. simpl. split; [tauto|]. intros [H|[<-|H]]; auto.
      * rewrite in_app_iff. simpl. tauto.
    + intro H. apply H3. unfold add_edge2. cbn [fst]. apply add_node1_NoDup, add_node1_NoDup. auto.
Qed.

Lemma digraph_nodes r v : (2 <= List.length r)%nat -> In v (fst (digraph_of (arcs r))) <-> In v r.
Proof.
  intro L. unfold digraph_of. destruct (digraph_gen (arcs r) ([], [])) as (H & _). rewrite H. simpl. clear H.
  split.
  - intros [[]|(a & Ha & H)]. destruct a as [x y]. apply arcs_in in Ha. destruct Ha as (p1 & p2 & ->). simpl in H.
    destruct H as [->| ->]; apply in_or_app; simpl; auto.
  - intro H. right. destruct r as [|a r]; [destruct H|]. destruct r as [|b r]; [simpl in L; lia|].
    clear L. revert a b H. induction r as [|c r IH]; intros a b H.
    + exists (a, b). simpl. destruct H as [->|[->|[]]]; auto.
    + destruct H as [->|H].
      * exists (v, b). simpl. auto.
      * destruct (IH b c H) as (x & Hx & Hv). exists x. split; auto. right. exact Hx.
Qed.

Lemma digraph_arcs r a : In a (snd (digraph_of (arcs r))) <-> In a (arcs r).
Proof.
  unfold digraph_of. destruct (digraph_gen (arcs r) ([], [])) as (_ & H & _). rewrite H. simpl. tauto.
Qed.

Lemma digraph_NoDup r : NoDup (fst (digraph_of (arcs r))).
Proof. unfold digraph_of. apply (digraph_gen (arcs r) ([], [])). constructor. Qed.

Lemma digraph_path_gen t : forall pre u es,
  NoDup (pre ++ u :: t) -> (forall a, In a es -> In (snd a) (pre ++ [u])) ->
  fold_left add_edge2 (arcs (u :: t)) (pre ++ [u], es) = (pre ++ u :: t, es ++ arcs (u :: t)).
Proof.
  induction t as [|v t IH]; intros pre u es Hn He.
  - simpl. rewrite app_nil_r. auto.
  - change (arcs (u :: v :: t)) with ((u, v) :: arcs (v :: t)). cbn [fold_left]. unfold add_edge2 at 2. cbn [fst snd].
    rewrite (add_node1_mem u) by (apply in_or_app; simpl; auto).
    assert (Hv : ~ In v (pre ++ [u])).
    { intro H. replace (pre ++ u :: v :: t) with ((pre ++ [u]) ++ v :: t) in Hn by (rewrite <- app_assoc; auto).
      apply NoDup_app_inv in Hn. destruct Hn as (_ & _ & D). apply (D v); simpl; auto. }
    rewrite (add_node1_new v) by auto.
    destruct (mem_arc (u, v) es) eqn:E.
    { apply mem_arc_In in E. apply He in E. contradiction. }
    etransitivity; [apply (IH (pre ++ [u]) v (es ++ [(u, v)]))|].
    + rewrite <- app_assoc. exact Hn.
    + intros a Ha. apply in_or_app. apply in_app_or in Ha. destruct Ha as [Ha|[<-|[]]]; simpl; auto.
    + rewrite <- !app_assoc. reflexivity.
Qed.

Lemma digraph_path p : NoDup p -> (2 <= List.length p)%nat -> digraph_of (arcs p) = (p, arcs p).
Proof.
  destruct p as [|u [|v t]]; simpl List.length; intros Hn L; try lia.
  change (arcs (u :: v :: t)) with ((u, v) :: arcs (v :: t)). unfold digraph_of. cbn [fold_left].
  unfold add_edge2 at 2. cbn [fst snd mem_arc existsb]. simpl (add_node1 u []).
  inversion Hn as [|? ? Hu Hn']; subst.
  rewrite (add_node1_new v) by (intros [->|[]]; apply Hu; simpl; auto).
  cbn [app]. apply (digraph_path_gen t [u] v [(u, v)]); auto.
  intros a [<-|[]]. simpl. auto.
Qed.

(* ------------------------------------------------------------------ *)
(** ** Columns of initial routes *)
Section Convert.
  Variable g : vgraph.
  Variable K : nat.
  Hypothesis N : network K g.
  Hypothesis HK : (1 <= K)%nat.

  Lemma initial_cost_ok r : along (arc_list g) r ->
    exists q, initial_cost g r = Ok q /\ q == path_sum (cost_of g 0) r.
  Proof.
    intro A. unfold initial_cost, path_sum.
    assert (G : forall l q, (forall a, In a l -> In a (arc_list g)) ->
       exists q', foldM (fun q a => let* c := scost g (fst a) (snd a) in Ok (q + c)) l q = Ok q' /\
                  q' == q + Qsum (map (fun a => cost_of g 0 (fst a) (snd a)) l)).
    { induction l as [|[u v] l IH]; intros q H; cbn [foldM].
      - exists q. split; auto. simpl. lra.
      - cbn [fst snd]. rewrite (scost_total g K u v N) by (auto; apply H; simpl; auto). cbn [bind fst snd].
        destruct (IH (q + cost_of g 0 u v)) as (q' & H1 & H2); [intros; apply H; simpl; auto|].
        exists q'. split; auto. cbn [map fst snd]. rewrite Qsum_cons, H2. lra. }
    destruct (G (arcs r) 0) as (q & H1 & H2).
    - intros [u v] H. apply A. auto.
    - exists q. split; auto. rewrite H2. lra.
  Qed.

  Lemma demands_ok r : (forall v, In v r -> In v (nodes g)) ->
    mapM (fun v => let* d := get_node g v in Ok (demand d)) r = Ok (map (demand_of g) r).
  Proof.
    intro H. apply mapM_pure. intros v Hv. rewrite (get_node_total g v (H v Hv)). reflexivity.
  Qed.

  Lemma first_type_spec r : (forall v, In v r -> In v (nodes g)) ->
    forall caps k,
    (exists j, first_type_from g r k caps = Ok (Some (k + j)%nat) /\
       (exists c, nth_error caps j = Some c /\ node_sum (demand_of g) r <= inject_Z c) /\
       forall i c, (i < j)%nat -> nth_error caps i = Some c -> inject_Z c < node_sum (demand_of g) r) \/
    (first_type_from g r k caps = Ok None /\ forall c, In c caps -> inject_Z c < node_sum (demand_of g) r).
  Proof.
    intro H. induction caps as [|c caps IH]; intro k; cbn [first_type_from].
    - right. split; auto. intros c [].
    - rewrite (demands_ok r H). cbn [bind].
      assert (E : pysum (map (demand_of g) r) == node_sum (demand_of g) r).
      { unfold pysum. rewrite fold_left_Qplus. unfold node_sum. lra. }
      destruct (Qle_bool (pysum (map (demand_of g) r)) (inject_Z c)) eqn:Eb.
      + apply Qle_bool_iff in Eb. left. exists 0%nat. rewrite Nat.add_0_r. split; auto. split.
        * exists c. split; auto. rewrite <- E. auto.
        * intros i x Hi. lia.
      + apply Qle_bool_false in Eb. rewrite E in Eb. destruct (IH (S k)) as [(j & H1 & H2 & H3)|(H1 & H2)].
        * left. exists (S j). rewrite H1. split; [f_equal; f_equal; lia|]. split; auto.
          intros [|i] x Hi Hx.
          -- simpl in Hx. inversion Hx; subst. auto.
          -- simpl in Hx. apply (H3 i); auto. lia.
        * right. split; auto. intros x [->|Hx]; auto.
  Qed.

  Lemma initial_type_ok caps r : (forall v, In v r -> In v (nodes g)) ->
    (exists k, initial_type g caps r = Ok k /\ first_fitting caps (node_sum (demand_of g) r) k) \/
    (initial_type g caps r = Err ValueError /\ none_fits caps (node_sum (demand_of g) r)).
  Proof.
    intro H. unfold initial_type. destruct caps as [[|c l]|].
    - left. exists 0%nat. simpl. auto.
    - destruct (first_type_spec r H (c :: l) 0) as [(j & H1 & H2 & H3)|(H1 & H2)]; rewrite H1; cbn [bind of_opt].
      + left. exists j. split; auto. split; auto.
      + right. split; auto. exists c, l. auto.
    - left. exists 0%nat. simpl. auto.
  Qed.

  Definition column_of (caps : option (list Z)) (id : nat) (r : list node) (c : column) : Prop :=
    c_name c = CNat id /\
    (forall v, In v (c_nodes c) <-> In v r) /\ NoDup (c_nodes c) /\
    (forall a, In a (c_arcs c) <-> In a (arcs r)) /\
    (NoDup r -> c_nodes c = r /\ c_arcs c = arcs r) /\
    c_path c = None /\
    c_cost c == path_sum (cost_of g 0) r /\
    first_fitting caps (node_sum (demand_of g) r) (c_type c).

  Lemma initial_column_ok caps id r :
    along (arc_list g) r -> (2 <= List.length r)%nat ->
    (exists c, initial_column g caps id r = Ok c /\ column_of caps id r c) \/
    (initial_column g caps id r = Err ValueError /\ none_fits caps (node_sum (demand_of g) r)).
  Proof.
    intros A L. unfold initial_column.
    destruct (initial_cost_ok r A) as (q & H1 & H2). rewrite H1. cbn [bind].
    assert (Hn : forall v, In v r -> In v (nodes g)).
    { intros v Hv. apply (digraph_nodes r v L) in Hv. unfold digraph_of in Hv.
      destruct (digraph_gen (arcs r) ([], [])) as (G & _). apply G in Hv. destruct Hv as [[]|([x y] & Ha & Hv)].
      apply A in Ha. apply (wf_ends g (net_wf _ _ N)) in Ha. simpl in Hv. destruct Hv as [->| ->]; tauto. }
    destruct (initial_type_ok caps r Hn) as [(k & E1 & E2)|(E1 & E2)]; rewrite E1; cbn [bind].
    - left. pose proof (digraph_nodes r) as Dn. pose proof (digraph_arcs r) as Da.
      pose proof (digraph_NoDup r) as Dd. pose proof (digraph_path r) as Dp.
      destruct (digraph_of (arcs r)) as (ns, es). cbn [fst snd] in *.
      eexists. split; [reflexivity|]. unfold column_of. simpl.
      split; auto. split; [intro v; apply Dn; auto|]. split; auto. split; auto.
      split; auto. intro Hr. specialize (Dp Hr L). inversion Dp; auto.
    - right. auto.
  Qed.

  Lemma convert_from_ok caps rs : forall id,
    (forall r, In r rs -> along (arc_list g) r /\ (2 <= List.length r)%nat) ->
    (exists cs, convert_from g caps id rs = Ok cs /\ List.length cs = List.length rs /\
       forall i r, nth_error rs i = Some r -> exists c, nth_error cs i = Some c /\ column_of caps (id + i) r c) \/
    (convert_from g caps id rs = Err ValueError /\
       exists r, In r rs /\ none_fits caps (node_sum (demand_of g) r)).
  Proof.
    induction rs as [|r rs IH]; intros id H; cbn [convert_from].
    - left. exists []. split; auto. split; auto. intros [|i] r; discriminate.
    - destruct (H r (or_introl eq_refl)) as (A & L).
      destruct (initial_column_ok caps id r A L) as [(c & E1 & E2)|(E1 & E2)]; rewrite E1; cbn [bind].
      + destruct (IH (S id)) as [(cs & F1 & F2 & F3)|(F1 & x & F2 & F3)].
        * intros x Hx. apply H. simpl; auto.
        * rewrite F1. cbn [bind]. left. exists (c :: cs). split; auto. split; [simpl; lia|].
          intros [|i] x Hx; simpl in Hx.
          -- inversion Hx; subst. exists c. rewrite Nat.add_0_r. auto.
          -- destruct (F3 i x Hx) as (c' & G1 & G2). exists c'. rewrite Nat.add_succ_r. auto.
        * rewrite F1. cbn [bind]. right. split; auto. exists x. simpl; auto.
      + right. split; auto. exists r. simpl; auto.
  Qed.
End Convert.

(* ------------------------------------------------------------------ *)
(** ** Round trips *)
Lemma round_trips_map g : round_trip_routes g = map (fun v => [Source; v; Sink]) (custs g).
Proof.
  unfold round_trip_routes, custs. induction (nodes g) as [|v l IH]; auto.
  cbn [flat_map filter]. rewrite IH. destruct v; reflexivity.
Qed.

Lemma visits_trips v l : v <> Source -> v <> Sink ->
  visits v (map (fun x => [Source; x; Sink]) l) = count_occ node_eq_dec l v.
Proof.
  intros H1 H2. pose proof (visits_full v (map (fun x => [x]) l) H1 H2) as E.
  rewrite map_map in E. unfold full in E. cbn [app] in E. rewrite E. f_equal.
  clear. induction l as [|x l IH]; cbn [map List.concat app]; congruence.
Qed.

(* ------------------------------------------------------------------ *)
(** ** The initial solution *)
Section InitialSolution.
  Variable g : vgraph.
  Variable K : nat.
  Hypothesis N : network K g.
  Hypothesis HK : (1 <= K)%nat.
  Hypothesis RT : round_trips g.
  Hypothesis SS : In (Source, Sink) (arc_list g).
  Variables (caps : option (list Z)) (dur st : option Z).
  Hypothesis HC : caps <> Some [].
  Variable perms : nat -> list nat -> list nat.
  Hypothesis HP : forall x l, Permutation l (perms x l).

  (** one route of the automatically built solution *)
  Definition plain_route (p : list node) : Prop :=
    route_shape p /\ along (arc_list g) p /\
    (forall v, In v (stops p) -> In v (custs g)) /\
    (forall c l, caps = Some (c :: l) -> c <> 0%Z ->
       (forall v, In v (custs g) -> demand_of g v <= inject_Z c) ->
       0 <= inject_Z c -> node_sum (demand_of g) (stops p) <= inject_Z c) /\
    (forall n, st = Some n -> (1 <= n)%Z -> (Z.of_nat (List.length (stops p)) <= n)%Z) /\
    (forall D, limit dur D -> symmetric_times g ->
       (forall v, In v (custs g) ->
          path_sum (time_of g) [Source; v; Sink] + service_of g v <= inject_Z D) ->
       stops p <> [] -> path_sum (time_of g) p + node_sum (service_of g) (stops p) <= inject_Z D).

  Lemma stops_in_custs p rs : only_visits (custs g) rs -> In p rs ->
    forall v, In v (stops p) -> In v (custs g).
  Proof.
    intros O Hp v Hv. unfold stops in Hv. apply filter_In in Hv. destruct Hv as (Hv & Hc).
    apply (O p); auto; intros ->; discriminate.
  Qed.

  Lemma cw_runs_ok : exists rs, cw_runs g caps dur st perms = Ok rs /\
    (forall p, In p rs -> plain_route p) /\ (forall v, In v (custs g) -> visits v rs = 19%nat).
  Proof.
    unfold cw_runs.
    assert (G : forall l acc, exists rs,
      foldM (fun acc x => let* r := clarke_wright g caps dur st (Z.of_nat x # 10) (perms x) in Ok (acc ++ fst r)) l acc
        = Ok (acc ++ rs) /\ (forall p, In p rs -> plain_route p) /\
      (forall v, In v (custs g) -> visits v rs = List.length l)).
    { induction l as [|x l IH]; intro acc; cbn [foldM].
      - exists []. rewrite app_nil_r. split; auto. split; [intros p []|auto].
      - destruct (cw_spec g K caps dur st (Z.of_nat x # 10) (perms x) N HK RT HC (HP x))
          as (rs & q & H & _ & _ & He & Ho & Hp).
        rewrite H. cbn [bind fst]. destruct (IH (acc ++ rs)) as (rs' & H1 & H2 & H3).
        exists (rs ++ rs'). rewrite H1, app_assoc. split; auto. split.
        + intros p Hin. apply in_app_or in Hin. destruct Hin as [Hin|Hin]; auto.
          destruct (Hp p Hin) as (P1 & P2 & P3 & P4 & P5 & P6).
          split; auto. split; auto. split; [apply (stops_in_custs p rs); auto|].
          split; [intros; eapply P4; eauto|]. split; auto.
        + intros v Hv. rewrite visits_app, (H3 v Hv), (He v Hv). reflexivity. }
    destruct (G (seq 1 19) []) as (rs & H1 & H2 & H3). exists rs. split; auto.
  Qed.

  Lemma plain_initial_ok o mixed : plain o mixed = true ->
    exists rs, get_initial_solution o mixed caps dur st perms g = Ok rs /\
      (forall p, In p rs -> plain_route p) /\ (forall v, In v (custs g) -> In v (covered rs)).
  Proof.
    intro Pl. unfold get_initial_solution. rewrite Pl.
    destruct cw_runs_ok as (rs & H1 & H2 & H3). rewrite H1. cbn [bind].
    destruct (greedy_spec g K caps dur st N HK RT SS HC) as (gs & q & H & _ & _ & Ho & _ & _ & Hp & _).
    rewrite H. cbn [bind fst]. exists (rs ++ gs). split; auto. 
    assert (Hall : forall p, In p (rs ++ gs) -> plain_route p).
    { intros p Hin. apply in_app_or in Hin. destruct Hin as [Hin|Hin]; auto.
      destruct (Hp p Hin) as (P1 & P2 & P3 & P4).
      assert (Hc : stops p = [] \/ stops p <> []) by (destruct (stops p); [left|right]; auto; discriminate).
      split; auto. split; auto. split; [apply (stops_in_custs p gs); auto|].
      split; [|split; auto].
      - intros c l Hcap Hc0 _ Hpos. destruct Hc as [->|Hc].
        + unfold node_sum. simpl. exact Hpos.
        + destruct (P3 Hc) as (F1 & _). apply F1; auto. simpl. rewrite Hcap. auto.
      - intros D (HD & HD0) _ _ Hne. destruct (P3 Hne) as (_ & F2).
        destruct P1 as (cs & -> & Hnd & Hcs).
        fold (full cs) in *. rewrite (full_stops cs Hcs) in *. apply F2; auto. }
    split; auto.
    intros v Hv. unfold covered. apply in_flat_map.
    assert (Hex : exists p, In p rs /\ In v p).
    { specialize (H3 v Hv). destruct (existsb (mem v) rs) eqn:E.
      - apply existsb_exists in E. destruct E as (p & E1 & E2). apply mem_In in E2. eauto.
      - exfalso. rewrite visits_zero in H3; [discriminate|]. intros p Hin Hvp.
        assert (existsb (mem v) rs = true) by (apply existsb_exists; exists p; rewrite mem_In; auto). congruence. }
    destruct Hex as (p & Hp1 & Hp2). exists p. split; [apply in_or_app; auto|].
    destruct (H2 p Hp1) as ((cs & -> & _) & _). unfold inner. simpl tl. rewrite removelast_last.
    pose proof (cust_ne g v Hv) as (X1 & X2). destruct Hp2 as [Hx|Hp2]; [congruence|].
    apply in_app_or in Hp2. destruct Hp2 as [?|[?|[]]]; congruence || auto.
  Qed.
End InitialSolution.

(** pickup and delivery *)
Lemma pickup_routes_ok g tw rs : pickup_routes g tw = Ok rs ->
  rs = flat_map (fun p => match request (snd p) with Some d => [[Source; fst p; d; Sink]] | None => [] end) (gnodes g) /\
  (tw = true -> forall r, In r rs -> along (arc_list g) r).
Proof.
  unfold pickup_routes.
  assert (G : forall l acc rs,
    foldM (fun acc p => match request (snd p) with
           | None => Ok acc
           | Some d =>
               let r := [Source; fst p; d; Sink] in
               let* _ := (if tw then check_pickup_delivery_time_windows g (arcs r) else Ok tt) in
               Ok (acc ++ [r])
           end) l acc = Ok rs ->
    rs = acc ++ flat_map (fun p => match request (snd p) with Some d => [[Source; fst p; d; Sink]] | None => [] end) l /\
    (tw = true -> (forall r, In r acc -> along (arc_list g) r) -> forall r, In r rs -> along (arc_list g) r)).
  { induction l as [|[v d] l IH]; intros acc out; cbn [foldM flat_map fst snd].
    - intro H. inversion H; subst. rewrite app_nil_r. auto.
    - destruct (request d) as [w|].
      + cbv zeta. intro H. apply bind_ok in H. destruct H as (acc' & H1 & H).
        apply bind_ok in H1. destruct H1 as ([] & H1 & H2). inversion H2; subst acc'.
        apply IH in H. destruct H as (-> & H3). split; [rewrite <- app_assoc; auto|].
        intros T Ha. apply H3; auto. intros r Hr. apply in_app_or in Hr. destruct Hr as [Hr|[<-|[]]]; auto.
        rewrite T in H1. unfold check_pickup_delivery_time_windows in H1.
        intros x y Hxy. pose proof (proj1 (iterM_ok _ _ _) H1 _ Hxy) as X. apply raise_if_ok in X.
        apply negb_false_iff, has_arc_In in X. auto.
      + cbn [bind app]. apply IH. }
  intro H. apply G in H. destruct H as (-> & H). split; auto. intros T r. apply H; auto. intros x [].
Qed.
