(** What the initial solution is, exactly. *)
From Verif.Base Require Import Prelude Graph.
From Verif.Spec Require Import Routes Network Feasible Prep Heuristics.
From Verif.Model Require Import Args Reach Checks Preprocess ClarkeWright Greedy Initial.
From Verif.Proofs Require Import RouteLemmas ReachLemmas FeasProofs PreLemmas PruneProofs
  CWProofs GreedyProofs InitialProofs HeurCor.

Lemma frame_length r : (exists p, r = Source :: p ++ [Sink]) -> (2 <= List.length r)%nat.
Proof. intros (p & ->). cbn [List.length]. rewrite app_length. simpl. lia. Qed.

(** initial routes given by the user *)
Lemma initialize_given (g : vgraph) K o mixed caps dur st perms given :
  network K g -> (1 <= K)%nat -> given <> [] ->
  (forall rs cs, initialize o mixed caps dur st perms given g = Ok (rs, cs) -> rs = given) /\
  ((exists out, initialize o mixed caps dur st perms given g = Ok out) <->
   (forall r, In r given -> exists p, r = Source :: p ++ [Sink]) /\
   (forall v, In v (custs g) -> exists r, In r given /\ In v r) /\
   (forall r, In r given -> along (arc_list g) r) /\
   (forall r, In r given -> ~ none_fits caps (node_sum (demand_of g) r))).
Proof.
  intros N HK G. unfold initialize. destruct given as [|r0 l]; [congruence|]. cbn [nonempty].
  set (given := r0 :: l). split.
  - intros rs cs H. apply bind_ok in H. destruct H as (rs' & H1 & H2). apply bind_ok in H1.
    destruct H1 as (u & _ & H1). apply bind_ok in H2. destruct H2 as (cs' & _ & H2).
    inversion H1; subst rs'. inversion H2. reflexivity.
  - split.
    + intros (out & H). apply bind_ok in H. destruct H as (rs' & H1 & H2). apply bind_ok in H1.
      destruct H1 as ([] & C & H1). injection H1 as <-.
      apply check_initial_routes_ok in C. destruct C as (C1 & C2 & C3). split; [exact C1|]. split; [exact C2|].
      split; [exact C3|]. apply bind_ok in H2. destruct H2 as (cs & H2 & _).
      intros r Hr F.
      assert (E : convert_initial_routes g caps given = Err ValueError).
      { apply (convert_raises g K caps given N HK); [|eauto]. intros x Hx. split; [auto|]. apply frame_length; auto. }
      congruence.
    + intros (C1 & C2 & C3 & C4).
      assert (C : check_initial_routes given g = Ok tt) by (apply check_initial_routes_ok; auto).
      rewrite C. cbn [bind].
      destruct (convert_ok g K caps given N HK) as [(cs & H & _)|(_ & r & Hr & F)].
      * intros x Hx. split; [auto|]. apply frame_length; auto.
      * rewrite H. cbn [bind]. eauto.
      * exfalso. exact (C4 r Hr F).
Qed.

Lemma initialize_parts o mixed caps dur st perms given g rs cs :
  initialize o mixed caps dur st perms given g = Ok (rs, cs) ->
  convert_initial_routes g caps rs = Ok cs /\
  (given = [] -> get_initial_solution o mixed caps dur st perms g = Ok rs).
Proof.
  unfold initialize. intro H. apply bind_ok in H. destruct H as (rs' & H1 & H2). apply bind_ok in H2.
  destruct H2 as (cs' & H2 & H3). inversion H3; subst rs' cs'. split; [exact H2|].
  intros ->. exact H1.
Qed.

(** the columns are those of the routes *)
Lemma initialize_columns (g : vgraph) K o mixed caps dur st perms given rs cs :
  network K g -> (1 <= K)%nat ->
  initialize o mixed caps dur st perms given g = Ok (rs, cs) ->
  (forall r, In r rs -> along (arc_list g) r /\ (2 <= List.length r)%nat) ->
  List.length cs = List.length rs /\
  forall i r, nth_error rs i = Some r -> exists c, nth_error cs i = Some c /\
    c_name c = CNat (S i) /\
    (forall v, In v (c_nodes c) <-> In v r) /\ NoDup (c_nodes c) /\
    (forall a, In a (c_arcs c) <-> In a (arcs r)) /\
    c_cost c == path_sum (cost_of g 0) r /\
    first_fitting caps (node_sum (demand_of g) r) (c_type c).
Proof.
  intros N HK H A. apply initialize_parts in H. destruct H as (H & _).
  destruct (convert_ok g K caps rs N HK A) as [(cs' & H1 & H2 & H3)|(H1 & _)]; [|congruence].
  rewrite H in H1. injection H1 as <-. auto.
Qed.

(** plain problems *)
Lemma cw_runs_exact g caps dur st perms rs : cw_runs g caps dur st perms = Ok rs ->
  exists f, (forall x, (1 <= x <= 19)%nat ->
               exists q, clarke_wright g caps dur st (Z.of_nat x # 10) (perms x) = Ok (f x, q)) /\
    rs = List.concat (map f (seq 1 19)).
Proof.
  unfold cw_runs.
  assert (G : forall l acc rs, NoDup l ->
    foldM (fun acc x => let* r := clarke_wright g caps dur st (Z.of_nat x # 10) (perms x) in
           Ok (acc ++ fst r)) l acc = Ok rs ->
    exists f, (forall x, In x l -> exists q, clarke_wright g caps dur st (Z.of_nat x # 10) (perms x) = Ok (f x, q)) /\
      rs = acc ++ List.concat (map f l)).
  { induction l as [|x l IH]; intros acc out ND; cbn [foldM].
    - intro H. injection H as <-. exists (fun _ => []). split; [intros x []|]. simpl. rewrite app_nil_r. auto.
    - intro H. apply bind_ok in H. destruct H as (acc' & H1 & H). apply bind_ok in H1.
      destruct H1 as ([r q] & H1 & H2). cbn [fst] in H2. injection H2 as <-.
      inversion ND as [|? ? Hx ND']; subst.
      apply IH in H; [|exact ND']. destruct H as (f & F1 & ->).
      exists (fun y => if Nat.eqb y x then r else f y). split.
      + intros y [<-|Hy].
        * rewrite Nat.eqb_refl. eauto.
        * destruct (Nat.eqb_spec y x) as [->|Hn]; [contradiction|]. auto.
      + cbn [map List.concat]. rewrite Nat.eqb_refl, <- app_assoc. f_equal. f_equal. f_equal.
        apply map_ext_in. intros y Hy. destruct (Nat.eqb_spec y x) as [->|Hn]; [contradiction|]. reflexivity. }
  intro H. apply G in H; [|apply seq_NoDup]. destruct H as (f & F1 & ->). exists f. split; [|reflexivity].
  intros x Hx. apply F1. apply in_seq. lia.
Qed.

Lemma initial_plain o mixed caps dur st perms g rs :
  o_time_windows o = false -> o_pickup_delivery o = false -> o_distribution_collection o = false ->
  mixed = false -> o_periodic o = None \/ o_periodic o = Some 0%Z ->
  get_initial_solution o mixed caps dur st perms g = Ok rs ->
  exists f last q,
    (forall x, (1 <= x <= 19)%nat ->
       exists q, clarke_wright g caps dur st (Z.of_nat x # 10) (perms x) = Ok (f x, q)) /\
    greedy_heuristic g caps st dur = Ok (last, q) /\
    rs = List.concat (map f (seq 1 19)) ++ last.
Proof.
  intros E1 E2 E3 E4 E5. unfold get_initial_solution.
  assert (Pl : plain o mixed = true).
  { unfold plain. rewrite E1, E2, E3, E4. destruct E5 as [-> | ->]; reflexivity. }
  rewrite Pl. intro H. apply bind_ok in H. destruct H as (r1 & H1 & H). apply bind_ok in H.
  destruct H as ([r2 q] & H2 & H). cbn [fst] in H. injection H as <-.
  apply cw_runs_exact in H1. destruct H1 as (f & F & ->). exists f, r2, q. auto.
Qed.

(** pickup and delivery *)
Lemma pickup_total g tw :
  (forall v dat d, In (v, dat) (gnodes g) -> request dat = Some d ->
     tw = true -> along (arc_list g) [Source; v; d; Sink]) ->
  exists rs, pickup_routes g tw = Ok rs.
Proof.
  unfold pickup_routes. intro A.
  assert (G : forall l acc, incl l (gnodes g) -> exists rs,
    foldM (fun acc p => match request (snd p) with
           | None => Ok acc
           | Some d =>
               let r := [Source; fst p; d; Sink] in
               let* _ := (if tw then check_pickup_delivery_time_windows g (arcs r) else Ok tt) in
               Ok (acc ++ [r])
           end) l acc = Ok rs).
  { induction l as [|[v dat] l IH]; intros acc I; cbn [foldM fst snd].
    - eauto.
    - assert (I' : incl l (gnodes g)) by (intros x Hx; apply I; simpl; auto).
      destruct (request dat) as [d|] eqn:E; cbn [bind]; [|apply IH, I'].
      cbv zeta. assert (C : (if tw then check_pickup_delivery_time_windows g (arcs [Source; v; d; Sink]) else Ok tt) = Ok tt).
      { destruct tw; [|reflexivity]. unfold check_pickup_delivery_time_windows. apply iterM_ok.
        intros [x y] Hxy. cbn [fst snd]. apply raise_if_ok, negb_false_iff, has_arc_In.
        apply (A v dat d); auto. apply I. simpl; auto. }
      rewrite C. cbn [bind]. apply IH, I'. }
  apply G. apply incl_refl.
Qed.

Lemma initial_pickups o mixed caps dur st perms g :
  wf g -> o_pickup_delivery o = true ->
  (forall rs, get_initial_solution o mixed caps dur st perms g = Ok rs ->
     NoDup rs /\
     forall r, In r rs <-> exists v dat d, node_data g v = Some dat /\ request dat = Some d /\ r = [Source; v; d; Sink]) /\
  ((exists rs, get_initial_solution o mixed caps dur st perms g = Ok rs) <->
   (o_time_windows o = true -> forall v dat d, node_data g v = Some dat -> request dat = Some d ->
      In (Source, v) (arc_list g) /\ In (v, d) (arc_list g) /\ In (d, Sink) (arc_list g))).
Proof.
  intros W P.
  assert (E : get_initial_solution o mixed caps dur st perms g = pickup_routes g (o_time_windows o)).
  { unfold get_initial_solution, plain. rewrite P, andb_false_r. reflexivity. }
  rewrite E. clear E.
  assert (R : forall rs, pickup_routes g (o_time_windows o) = Ok rs ->
     forall r, In r rs <-> exists v dat d, node_data g v = Some dat /\ request dat = Some d /\ r = [Source; v; d; Sink]).
  { intros rs H r. apply pickup_routes_ok in H. destruct H as (-> & _). rewrite in_flat_map. split.
    - intros ([v dat] & H1 & H2). cbn [fst snd] in H2. destruct (request dat) as [d|] eqn:Ed; [|destruct H2].
      destruct H2 as [<-|[]]. exists v, dat, d. split; [apply gnodes_data; auto|]. auto.
    - intros (v & dat & d & H1 & H2 & ->). exists (v, dat). split; [apply node_data_gnodes; auto|].
      cbn [fst snd]. rewrite H2. simpl. auto. }
  split.
  - intros rs H. split; [|apply R; exact H]. apply pickup_routes_ok in H. destruct H as (-> & _).
    assert (ND : NoDup (map fst (gnodes g))) by apply W. revert ND.
    generalize (gnodes g). induction l as [|[v dat] l IH]; cbn [flat_map map fst snd]; intro ND; [constructor|].
    inversion ND as [|? ? Hv ND']; subst. destruct (request dat) as [d|]; [|apply IH; auto].
    cbn [app]. constructor; [|apply IH; auto]. intro X. apply in_flat_map in X. destruct X as ([v' dat'] & X1 & X2).
    cbn [fst snd] in X2. destruct (request dat'); [|destruct X2]. destruct X2 as [X2|[]]. injection X2 as <- _.
    apply Hv. apply in_map_iff. exists (v', dat'). auto.
  - split.
    + intros (rs & H) T v dat d H1 H2. pose proof (pickup_routes_ok _ _ _ H) as (_ & A). specialize (A T [Source; v; d; Sink]).
      assert (I : In [Source; v; d; Sink] rs) by (apply (R rs H); eauto 8).
      specialize (A I). unfold along in A. simpl in A. split; [|split]; apply A; auto.
    + intro A. apply pickup_total. intros v dat d Hv Hd T.
      destruct (A T v dat d (gnodes_data _ _ _ W Hv) Hd) as (A1 & A2 & A3).
      intros x y. simpl. intros [H|[H|[H|[]]]]; injection H as <- <-; auto.
Qed.

(** the heuristic alone *)
Lemma clarke_wright_only (g : vgraph) o mixed caps dur st perm :
  (forall rs types, solve_with_clarke_wright o mixed caps dur st perm g = Ok (rs, types) ->
     exists l q, clarke_wright g caps dur st 1 perm = Ok (l, q) /\
       List.length rs = List.length l /\ List.length types = List.length l /\
       forall i p, nth_error l i = Some p -> nth_error rs i = Some (i, p) /\ nth_error types i = Some (i, 0%nat)) /\
  (~ (o_time_windows o = false /\ o_pickup_delivery o = false /\ o_distribution_collection o = false /\
      mixed = false /\ (o_periodic o = None \/ o_periodic o = Some 0%Z)) ->
   solve_with_clarke_wright o mixed caps dur st perm g = Err ValueError).
Proof.
  unfold solve_with_clarke_wright. split.
  - intros rs types H. apply bind_ok in H. destruct H as (u & _ & H). apply bind_ok in H.
    destruct H as ([l q] & H1 & H). cbn [fst] in H. injection H as <- <-. exists l, q. split; [exact H1|].
    rewrite combine_length, map_length, !seq_length. split; [lia|]. split; [reflexivity|].
    intros i p Hi. assert (Li : (i < List.length l)%nat) by (apply nth_error_Some; congruence).
    assert (S0 : nth_error (seq 0 (List.length l)) i = Some i).
    { rewrite (nth_error_nth' _ 0%nat) by (rewrite seq_length; auto). rewrite seq_nth; auto. }
    split.
    + assert (G : forall (a : list nat) (b : list (list node)) i x y, nth_error a i = Some x -> nth_error b i = Some y ->
        nth_error (combine a b) i = Some (x, y)).
      { clear. induction a as [|x0 a IH]; intros [|y0 b] [|i] x y Hx Hy; simpl in *; try discriminate.
        - congruence. - eauto. }
      apply G; auto.
    + rewrite (map_nth_error (fun k => (k, 0%nat)) _ _ S0). reflexivity.
  - intro H. destruct (check_clarke_wright_compatibility (o_time_windows o) (o_pickup_delivery o)
      (o_distribution_collection o) mixed (o_periodic o)) as [[]|e] eqn:E.
    + apply check_compat_ok in E. contradiction.
    + apply check_compat_err in E. subst. reflexivity.
Qed.
