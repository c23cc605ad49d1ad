(** Consequences of the savings procedure: what can be said about the final trips. *)
From Verif.Base Require Import Prelude Graph.
From Verif.Spec Require Import Routes Network Feasible Heuristics Savings.
From Verif.Model Require Import Args Reach Checks Preprocess ClarkeWright.
From Verif.Proofs Require Import RouteLemmas CWProofs HeurCor SavingsProofs.

(* ------------------------------------------------------------------ *)
(** ** The procedure on two graphs with the same data *)
Section Same.
  Variables (g h : vgraph) (w : vehicle).
  Hypothesis Ga : arc_list h = arc_list g.
  Hypothesis En : forall v, nd h v = nd g v.
  Hypothesis Et : forall u v, time_of h u v = time_of g u v.

  Lemma fits_same cs : fits h w cs <-> fits g w cs.
  Proof.
    assert (E1 : node_sum (demand_of h) cs == node_sum (demand_of g) cs).
    { apply node_sum_ext. intros u _. unfold demand_of. rewrite En. reflexivity. }
    assert (E2 : node_sum (service_of h) cs == node_sum (service_of g) cs).
    { apply node_sum_ext. intros u _. unfold service_of. rewrite En. reflexivity. }
    assert (E3 : path_sum (time_of h) (Source :: cs ++ [Sink]) == path_sum (time_of g) (Source :: cs ++ [Sink])).
    { apply path_sum_ext. intros u v _. rewrite Et. reflexivity. }
    unfold fits, trip_fits. split; intros ((H1 & H2) & H3); (split; [split|]); auto; intros x X Y;
      [specialize (H1 x X Y)|specialize (H2 x X Y)|specialize (H1 x X Y)|specialize (H2 x X Y)]; lra.
  Qed.

  Lemma merge_step_same a R R2 : merge_step h w a R R2 -> merge_step g w a R R2.
  Proof.
    assert (A : forall R i j, appendable g w R i j -> appendable h w R i j).
    { intros R0 i j (b & R' & P & F). exists b, R'. split; auto. apply fits_same. auto. }
    assert (B : forall R i j, prependable g w R i j -> prependable h w R i j).
    { intros R0 i j (X & b & R' & P & F). rewrite <- Ga in X. split; auto. exists b, R'. split; auto. apply fits_same. auto. }
    intro H. inversion H; subst.
    - eapply ms_append; eauto. apply fits_same; auto.
    - eapply ms_prepend; eauto; [rewrite <- Ga; auto|apply fits_same; auto].
    - apply ms_skip; auto.
  Qed.

  Lemma merge_run_same l R R2 : merge_run h w l R R2 -> merge_run g w l R R2.
  Proof. induction 1; [constructor; auto|]. econstructor; [apply merge_step_same|]; eauto. Qed.
End Same.

Lemma cw_is_savings (g : vgraph) K caps dur st alpha perm :
  network K g -> (1 <= K)%nat -> round_trips g -> caps <> Some [] ->
  (forall D, limit dur D -> symmetric_times g) ->
  (forall l, Permutation l (perm l)) ->
  exists rs q l R, clarke_wright g caps dur st alpha perm = Ok (rs, q) /\
    by_saving g alpha l /\ merge_run g (first_vehicle caps dur st) l (round_trips_only g) R /\
    Permutation rs (map (fun cs => Source :: cs ++ [Sink]) R).
Proof.
  intros N HK RT Hc Sym HP. unfold clarke_wright.
  destruct (first_costs_ok g K N HK) as (g1 & E1 & Gn & Ga & N1 & En & Ec & Et).
  rewrite E1. cbn [bind].
  assert (Hcap : first_capacity caps = Ok (v_cap (first_vehicle caps dur st))).
  { destruct caps as [[|z l]|]; simpl; congruence. }
  rewrite Hcap. cbn [bind].
  pose proof (custs_same g g1 Gn) as Ecu.
  assert (RT1 : round_trips g1) by (unfold round_trips; rewrite Ecu, Ga; exact RT).
  assert (Sym1 : truthy dur = true -> symmetric_times g1).
  { intro T. apply truthy_some in T. destruct T as (D & HD & HD0).
    destruct (Sym D (conj HD HD0)) as (S1 & S2). split.
    - intros v Hv. rewrite Ecu in Hv. rewrite !Et. apply S1; auto.
    - intros u v Hu Hv. rewrite Ecu in *. rewrite Ga, !Et. apply S2; auto. }
  destruct (run_is_savings g1 (mkLimits (v_cap (first_vehicle caps dur st)) dur st) N1 RT1 Sym1 alpha perm HP)
    as (rs & q & l & R & H & Hl & Hm & HR).
  exists rs, q, l, R. split; [exact H|]. split; [|split; auto].
  - destruct Hl as (L1 & L2 & L3). split; auto. split.
    + intros i j. rewrite L2, Ga, Ecu. tauto.
    + intros l1 a l2 b l3 E. specialize (L3 l1 a l2 b l3 E). unfold saved in *. rewrite !Ec in L3. exact L3.
  - apply (merge_run_same g g1); auto. unfold round_trips_only in *. rewrite Ecu in Hm. exact Hm.
Qed.

(* ------------------------------------------------------------------ *)
(** ** What is true at the end of the procedure *)
Section End.
  Variables (g : vgraph) (w : vehicle).

  Lemma step_concat a R R2 : merge_step g w a R R2 -> Permutation (List.concat R) (List.concat R2).
  Proof.
    assert (CP : forall X Y : list (list node), Permutation X Y -> Permutation (List.concat X) (List.concat Y)).
    { intros X Y P.  induction P; cbn.
      - constructor.
      - apply Permutation_app_head. auto.
      - rewrite !app_assoc. apply Permutation_app_tail, Permutation_app_comm.
      - eapply Permutation_trans; eauto. }
    intro H. inversion H; subst.
    - rewrite (CP _ _ H0), (CP _ _ H2). cbn. rewrite <- !app_assoc. cbn.
      change (j :: a0 ++ i :: List.concat R') with ([j] ++ (a0 ++ i :: List.concat R')).
      rewrite (Permutation_app_comm [j]). rewrite <- app_assoc. cbn. apply Permutation_app_head.
      apply perm_skip. symmetry. apply Permutation_cons_append.
    - rewrite (CP _ _ H2), (CP _ _ H4). cbn. auto.
    - apply CP; auto.
  Qed.

  Lemma run_concat l R R2 : merge_run g w l R R2 -> Permutation (List.concat R) (List.concat R2).
  Proof.
    assert (CP : forall X Y : list (list node), Permutation X Y -> Permutation (List.concat X) (List.concat Y)).
    { intros X Y P. induction P; cbn.
      - constructor.
      - apply Permutation_app_head. auto.
      - rewrite !app_assoc. apply Permutation_app_tail, Permutation_app_comm.
      - eapply Permutation_trans; eauto. }
    induction 1; [auto|]. eapply Permutation_trans; [eapply step_concat; eauto|auto].
  Qed.

  (** trips only grow at their ends *)
  Lemma step_grow a R R2 x : merge_step g w a R R2 -> In x R -> exists p q, In (p ++ x ++ q) R2.
  Proof.
    intros H Hx. inversion H; subst.
    - apply (Permutation_in _ H0) in Hx. destruct Hx as [<-|[<-|Hx]].
      + exists (a0 ++ [i]), []. apply (Permutation_in _ (Permutation_sym H2)). left. rewrite <- app_assoc. auto.
      + exists [], [j]. apply (Permutation_in _ (Permutation_sym H2)). left. cbn. rewrite <- app_assoc. auto.
      + exists [], []. cbn. rewrite app_nil_r. apply (Permutation_in _ (Permutation_sym H2)). right. auto.
    - apply (Permutation_in _ H2) in Hx. destruct Hx as [<-|[<-|Hx]].
      + exists [], (j :: a0). apply (Permutation_in _ (Permutation_sym H4)). left. auto.
      + exists [i], []. apply (Permutation_in _ (Permutation_sym H4)). left. cbn. rewrite app_nil_r. auto.
      + exists [], []. cbn. rewrite app_nil_r. apply (Permutation_in _ (Permutation_sym H4)). right. auto.
    - exists [], []. cbn. rewrite app_nil_r. apply (Permutation_in _ H2); auto.
  Qed.

  Lemma run_grow l R R2 x : merge_run g w l R R2 -> In x R -> exists p q, In (p ++ x ++ q) R2.
  Proof.
    intro H. revert x. induction H as [R R2 P|a l R R1 R2 S1 S2 IH]; intros x Hx.
    - exists [], []. cbn. rewrite app_nil_r. apply (Permutation_in _ P); auto.
    - destruct (step_grow a R R1 x S1 Hx) as (p & q & H). destruct (IH _ H) as (p' & q' & H').
      exists (p' ++ p), (q ++ q'). rewrite <- !app_assoc in *. exact H'.
  Qed.

  Lemma run_at l1 a l2 : forall R R2, merge_run g w (l1 ++ a :: l2) R R2 ->
    exists R3 R4, merge_run g w l1 R R3 /\ merge_step g w a R3 R4 /\ merge_run g w l2 R4 R2.
  Proof.
    induction l1 as [|b l1 IH]; cbn; intros R R2 H; inversion H; subst.
    - exists R, R1. split; [constructor; auto|]. auto.
    - destruct (IH _ _ H5) as (R3 & R4 & A1 & A2 & A3). exists R3, R4. split; auto. econstructor; eauto.
  Qed.

  Lemma in_concat_trip (R : list (list node)) v : In v (List.concat R) -> exists x, In x R /\ In v x.
  Proof. intro H. apply in_concat in H. exact H. Qed.

  Lemma unique_trip (R : list (list node)) x y v : NoDup (List.concat R) -> In x R -> In y R -> In v x -> In v y -> x = y.
  Proof.
    induction R as [|z R IH]; cbn; [tauto|]. intros Nd Hx Hy Vx Vy.
    apply NoDup_app_inv in Nd. destruct Nd as (N1 & N2 & N3).
    assert (In' : forall u, In u R -> In v u -> In v (List.concat R)) by (intros; apply in_concat; eauto).
    destruct Hx as [<-|Hx], Hy as [<-|Hy]; auto.
    - exfalso. apply (N3 v Vx). eauto.
    - exfalso. apply (N3 v Vy). eauto.
  Qed.

  Lemma two_entries (R : list (list node)) x y : In x R -> In y R -> x <> y ->
    exists R', Permutation R (x :: y :: R').
  Proof.
    intros Hx Hy Hne. apply in_split in Hx. destruct Hx as (A & B & ->).
    assert (P : Permutation (A ++ x :: B) (x :: A ++ B)) by (symmetry; apply Permutation_middle).
    apply (Permutation_in _ P) in Hy. destruct Hy as [Hy|Hy]; [congruence|].
    apply in_split in Hy. destruct Hy as (A' & B' & E). exists (A' ++ B').
    rewrite P, E. apply perm_skip. symmetry. apply Permutation_middle.
  Qed.

  Lemma tip_last (p x q a : list node) i : NoDup (a ++ [i]) -> p ++ x ++ q = a ++ [i] -> In i x ->
    q = [] /\ exists a', x = a' ++ [i] /\ a = p ++ a'.
  Proof.
    intros Nd E Hi.
    assert (Hq : q = []).
    { destruct q as [|y q] using rev_ind; auto. exfalso. rewrite !app_assoc in E. apply app_inj_tail in E.
      destruct E as (E & ->). rewrite <- E in Nd. apply NoDup_app_inv in Nd. destruct Nd as (_ & _ & Nd).
      apply (Nd i); [|simpl; auto]. rewrite !in_app_iff. auto. }
    subst q. split; auto. rewrite app_nil_r in E.
    destruct x as [|y x] using rev_ind; [destruct Hi|]. rewrite app_assoc in E. apply app_inj_tail in E.
    destruct E as (E & ->). exists x. auto.
  Qed.

  Lemma tip_first (p x q a : list node) j : NoDup (j :: a) -> p ++ x ++ q = j :: a -> In j x ->
    p = [] /\ exists a', x = j :: a' /\ a = a' ++ q.
  Proof.
    intros Nd E Hj.
    assert (Hp : p = []).
    { destruct p as [|y p]; auto. exfalso. cbn in E. inversion E; subst. inversion Nd; subst. apply H1.
      rewrite !in_app_iff. auto. }
    subst p. split; auto. destruct x as [|y x]; [destruct Hj|]. cbn in E. inversion E; subst. eauto.
  Qed.

  Variables (l : list arc) (R2 : list (list node)).
  Hypothesis Run : merge_run g w l (round_trips_only g) R2.
  Hypothesis Nd0 : NoDup (custs g).

  Lemma start_concat : List.concat (round_trips_only g) = custs g.
  Proof. unfold round_trips_only. induction (custs g) as [|v t IH]; cbn; [auto|]. f_equal. apply IH. inversion Nd0; auto. Qed.

  (** no customer left alone could be appended when their arc was looked at *)
  Lemma not_appended i j a : In (i, j) l -> In [j] R2 -> In (a ++ [i]) R2 -> i <> j ->
    exists p a', a = p ++ a' /\ ~ fits g w (a' ++ [i; j]).
  Proof.
    intros Hl Hj Hi Hne. apply in_split in Hl. destruct Hl as (l1 & l2 & ->).
    destruct (run_at l1 (i, j) l2 _ _ Run) as (R3 & R4 & A1 & A2 & A3).
    pose proof (run_concat _ _ _ A1) as P3. pose proof (run_concat _ _ _ Run) as P2.
    rewrite start_concat in *.
    assert (N3 : NoDup (List.concat R3)) by (apply (Permutation_NoDup P3); auto).
    assert (N2 : NoDup (List.concat R2)) by (apply (Permutation_NoDup P2); auto).
    assert (To3 : forall v, In v (List.concat R2) -> In v (List.concat R3)).
    { intros v H. apply (Permutation_in _ P3). apply (Permutation_in _ (Permutation_sym P2)). auto. }
    assert (G : forall x, In x R3 -> exists p q, In (p ++ x ++ q) R2).
    { intros x Hx. apply (run_grow ((i, j) :: l2) R3); auto. econstructor; eauto. }
    assert (Nai : NoDup (a ++ [i])).
    { clear - N2 Hi. apply in_split in Hi. destruct Hi as (X & Y & ->). rewrite concat_app in N2. cbn in N2.
      apply NoDup_app_inv in N2. destruct N2 as (_ & N2 & _). apply NoDup_app_inv in N2. tauto. }
    (* j alone at that time *)
    destruct (in_concat_trip R3 j) as (xj & Xj & Vj).
    { apply To3. apply in_concat. exists [j]. simpl; auto. }
    destruct (G xj Xj) as (p & q & Hpq).
    assert (E : p ++ xj ++ q = [j]).
    { apply (unique_trip R2 _ _ j N2 Hpq Hj); [rewrite !in_app_iff; auto|simpl; auto]. }
    assert (Exj : xj = [j]).
    { destruct (tip_first p xj q [] j) as (_ & a' & E1 & E2); auto; [repeat constructor; intros []|].
      symmetry in E2. apply app_eq_nil in E2. destruct E2 as (-> & _). auto. }
    (* the trip of i at that time *)
    destruct (in_concat_trip R3 i) as (xi & Xi & Vi).
    { apply To3. apply in_concat. exists (a ++ [i]). rewrite in_app_iff. simpl; auto. }
    destruct (G xi Xi) as (p' & q' & Hpq').
    assert (E' : p' ++ xi ++ q' = a ++ [i]).
    { apply (unique_trip R2 _ _ i N2 Hpq' Hi); rewrite !in_app_iff; simpl; auto. }
    destruct (tip_last p' xi q' a i Nai E' Vi) as (_ & a' & E1 & E2). exists p', a'. split; auto.
    intro F. subst xj xi.
    assert (Ap : appendable g w R3 i j).
    { destruct (two_entries R3 [j] (a' ++ [i]) Xj Xi) as (R' & P).
      - intro X. destruct a' as [|y [|? ?]]; cbn in X; congruence.
      - exists a', R'. auto. }
    inversion A2; subst; try contradiction.
    assert (Hin : In (a0 ++ [i; j]) R4) by (apply (Permutation_in _ (Permutation_sym H5)); simpl; auto).
    destruct (run_grow _ _ _ _ A3 Hin) as (p2 & q2 & Hg).
    assert (E3 : p2 ++ (a0 ++ [i; j]) ++ q2 = [j]).
    { apply (unique_trip R2 _ _ j N2 Hg Hj); [rewrite !in_app_iff; simpl; auto|simpl; auto]. }
    apply (f_equal (@List.length node)) in E3. rewrite !app_length in E3. cbn in E3. lia.
  Qed.

  Lemma not_prepended i j a : In (i, j) l -> In (j, i) (arc_list g) -> In [i] R2 -> In (j :: a) R2 -> i <> j ->
    exists a' q, a = a' ++ q /\ ~ fits g w (i :: j :: a').
  Proof.
    intros Hl Hji Hi Hj Hne. apply in_split in Hl. destruct Hl as (l1 & l2 & ->).
    destruct (run_at l1 (i, j) l2 _ _ Run) as (R3 & R4 & A1 & A2 & A3).
    pose proof (run_concat _ _ _ A1) as P3. pose proof (run_concat _ _ _ Run) as P2.
    rewrite start_concat in *.
    assert (N3 : NoDup (List.concat R3)) by (apply (Permutation_NoDup P3); auto).
    assert (N2 : NoDup (List.concat R2)) by (apply (Permutation_NoDup P2); auto).
    assert (To3 : forall v, In v (List.concat R2) -> In v (List.concat R3)).
    { intros v H. apply (Permutation_in _ P3). apply (Permutation_in _ (Permutation_sym P2)). auto. }
    assert (G : forall x, In x R3 -> exists p q, In (p ++ x ++ q) R2).
    { intros x Hx. apply (run_grow ((i, j) :: l2) R3); auto. econstructor; eauto. }
    assert (Nja : NoDup (j :: a)).
    { clear - N2 Hj. apply in_split in Hj. destruct Hj as (X & Y & ->). rewrite concat_app in N2. cbn [List.concat] in N2.
      apply NoDup_app_inv in N2. destruct N2 as (_ & N2 & _). apply NoDup_app_inv in N2. tauto. }
    destruct (in_concat_trip R3 i) as (xi & Xi & Vi).
    { apply To3. apply in_concat. exists [i]. simpl; auto. }
    destruct (G xi Xi) as (p & q & Hpq).
    assert (E : p ++ xi ++ q = [i]).
    { apply (unique_trip R2 _ _ i N2 Hpq Hi); [rewrite !in_app_iff; auto|simpl; auto]. }
    assert (Exi : xi = [i]).
    { destruct (tip_first p xi q [] i) as (_ & a' & E1 & E2); auto; [repeat constructor; intros []|].
      symmetry in E2. apply app_eq_nil in E2. destruct E2 as (-> & _). auto. }
    destruct (in_concat_trip R3 j) as (xj & Xj & Vj).
    { apply To3. apply in_concat. exists (j :: a). simpl; auto. }
    destruct (G xj Xj) as (p' & q' & Hpq').
    assert (E' : p' ++ xj ++ q' = j :: a).
    { apply (unique_trip R2 _ _ j N2 Hpq' Hj); [rewrite !in_app_iff; auto|simpl; auto]. }
    destruct (tip_first p' xj q' a j Nja E' Vj) as (_ & a' & E1 & E2). exists a', q'. split; auto.
    intro F. subst xj xi.
    assert (No : forall c b, In c R4 -> In i c -> c = i :: j :: b \/ (exists a0, c = a0 ++ [i; j]) -> False).
    { intros c b Hin Hic Sh. destruct (run_grow _ _ _ _ A3 Hin) as (p2 & q2 & Hg).
      assert (E3 : p2 ++ c ++ q2 = [i]).
      { apply (unique_trip R2 _ _ i N2 Hg Hi); [rewrite !in_app_iff; simpl; auto|simpl; auto]. }
      apply (f_equal (@List.length node)) in E3. rewrite !app_length in E3.
      destruct Sh as [->|(a0 & ->)]; rewrite ?app_length in E3; cbn in E3; lia. }
    assert (Pp : prependable g w R3 i j).
    { split; auto. destruct (two_entries R3 [i] (j :: a') Xi Xj) as (R' & P); [congruence|]. exists a', R'. auto. }
    inversion A2; subst; try contradiction.
    - apply (No (a0 ++ [i; j]) []).
      + apply (Permutation_in _ (Permutation_sym H5)); simpl; auto.
      + rewrite in_app_iff; simpl; auto.
      + right. eauto.
    - apply (No (i :: j :: a0) a0).
      + apply (Permutation_in _ (Permutation_sym H7)); simpl; auto.
      + simpl; auto.
      + left. auto.
  Qed.

  (** leaving out customers at either end *)
  Hypothesis D0 : forall v, In v (custs g) -> 0 <= demand_of g v.
  Hypothesis SW : forall D, v_dur w = Some D -> D <> 0%Z -> shorter_without g.

  Lemma fits_tail u v m : In (u, v) (arc_list g) -> In u (custs g) -> In v (custs g) ->
    fits g w (u :: v :: m) -> fits g w (v :: m).
  Proof.
    intros Huv Hu Hv ((F1 & F2) & F3). split; [split|].
    - intros c Hc Hc0. specialize (F1 c Hc Hc0). specialize (D0 u Hu). unfold node_sum in *. cbn [map] in *.
      rewrite Qsum_cons in F1. lra.
    - intros D HD HD0. specialize (F2 D HD HD0). destruct (SW D HD HD0 u v Huv Hu Hv) as (S1 & _).
      unfold node_sum, path_sum in *. cbn [map] in *. rewrite Qsum_cons in F2.
      change (arcs (Source :: (u :: v :: m) ++ [Sink])) with ((Source, u) :: (u, v) :: arcs ((v :: m) ++ [Sink])) in F2.
      change (arcs (Source :: (v :: m) ++ [Sink])) with ((Source, v) :: arcs ((v :: m) ++ [Sink])).
      cbn [map] in *. rewrite !Qsum_cons in *. cbn [fst snd] in *. lra.
    - intros n Hn Hn0. specialize (F3 n Hn Hn0). cbn [List.length] in *. lia.
  Qed.

  Lemma fits_drop_front p : forall x m, along (arc_list g) (p ++ x :: m) ->
    (forall v, In v (p ++ x :: m) -> In v (custs g)) -> fits g w (p ++ x :: m) -> fits g w (x :: m).
  Proof.
    induction p as [|u p IH]; cbn [app]; intros x m Al Cu F; auto.
    apply IH.
    - intros y z H. apply Al. destruct (p ++ x :: m); [destruct H|]. right; auto.
    - intros v Hv. apply Cu. simpl; auto.
    - destruct (p ++ x :: m) as [|v t] eqn:E; [destruct p; discriminate|].
      apply (fits_tail u v t); auto; [apply Al; left; auto|apply Cu; simpl; auto|apply Cu; simpl; auto].
  Qed.

  Lemma fits_init m u v : In (u, v) (arc_list g) -> In u (custs g) -> In v (custs g) ->
    fits g w (m ++ [u; v]) -> fits g w (m ++ [u]).
  Proof.
    intros Huv Hu Hv ((F1 & F2) & F3).
    assert (EN : forall f, node_sum f (m ++ [u; v]) == node_sum f (m ++ [u]) + f v).
    { intro f. change (m ++ [u; v]) with (m ++ [u] ++ [v]). rewrite app_assoc, (node_sum_app f (m ++ [u])).
      unfold node_sum. simpl. lra. }
    split; [split|].
    - intros c Hc Hc0. specialize (F1 c Hc Hc0). specialize (D0 v Hv). rewrite EN in F1. lra.
    - intros D HD HD0. specialize (F2 D HD HD0). destruct (SW D HD HD0 u v Huv Hu Hv) as (_ & S2).
      rewrite EN in F2. fold (full (m ++ [u; v])) in F2. fold (full (m ++ [u])).
      unfold path_sum in *. rewrite arcs_full_snoc2, map_app, Qsum_app in F2. rewrite arcs_full_snoc, map_app, Qsum_app.
      cbn [map] in *. rewrite !Qsum_cons in *. cbn [fst snd Qsum] in *. unfold Qsum in *. cbn [fold_right] in *. lra.
    - intros n Hn Hn0. specialize (F3 n Hn Hn0). rewrite app_length in *. cbn [List.length] in *. lia.
  Qed.

  Lemma fits_drop_back q : forall m x, along (arc_list g) (m ++ x :: q) ->
    (forall v, In v (m ++ x :: q) -> In v (custs g)) -> fits g w (m ++ x :: q) -> fits g w (m ++ [x]).
  Proof.
    induction q as [|y q IH] using rev_ind; intros m x Al Cu F; auto.
    apply IH.
    - intros a b H. apply Al. rewrite app_comm_cons, app_assoc. apply arcs_in in H.
      destruct H as (p1 & p2 & H). apply arcs_in. exists p1, (p2 ++ [y]). rewrite H, <- app_assoc. auto.
    - intros v Hv. apply Cu. rewrite app_comm_cons, app_assoc. apply in_or_app. auto.
    - assert (Sp : exists t u, m ++ x :: q = t ++ [u]).
      { destruct q as [|z q] using rev_ind; [exists m, x; auto|]. exists (m ++ x :: q), z.
        rewrite <- app_assoc. auto. }
      destruct Sp as (t & u & E). rewrite E.
      rewrite app_comm_cons, app_assoc, E in F, Al, Cu. rewrite <- app_assoc in F, Al, Cu. cbn [app] in F, Al, Cu.
      apply (fits_init t u y); auto.
      + apply Al. apply arcs_in. exists t, []. auto.
      + apply Cu. apply in_or_app. simpl; auto.
      + apply Cu. apply in_or_app. simpl; auto.
  Qed.
End End.

Lemma cw_maximal (g : vgraph) K caps dur st alpha perm rs q :
  network K g -> (1 <= K)%nat -> round_trips g -> caps <> Some [] ->
  (forall D, limit dur D -> symmetric_times g /\ shorter_without g) ->
  (forall v, In v (custs g) -> 0 <= demand_of g v) ->
  (forall l, Permutation l (perm l)) ->
  clarke_wright g caps dur st alpha perm = Ok (rs, q) ->
  forall i j a, In (i, j) (arc_list g) -> i <> j ->
    (In [Source; j; Sink] rs -> In (Source :: (a ++ [i]) ++ [Sink]) rs ->
       ~ fits g (first_vehicle caps dur st) (a ++ [i; j])) /\
    (In (j, i) (arc_list g) -> In [Source; i; Sink] rs -> In (Source :: (j :: a) ++ [Sink]) rs ->
       ~ fits g (first_vehicle caps dur st) (i :: j :: a)).
Proof.
  intros N HK RT Hc Du D0 HP H i j a Hij Hne.
  destruct (cw_is_savings g K caps dur st alpha perm N HK RT Hc (fun D HD => proj1 (Du D HD)) HP)
    as (rs' & q' & l & R & H' & (_ & L2 & _) & Hm & HR).
  rewrite H in H'. inversion H'; subst rs' q'. clear H'.
  destruct (cw_spec g K caps dur st alpha perm N HK RT Hc HP) as (rs' & q' & H' & _ & _ & EO & OV & PR).
  rewrite H in H'. inversion H'; subst rs' q'. clear H'.
  set (w := first_vehicle caps dur st) in *.
  assert (SW : forall D, v_dur w = Some D -> D <> 0%Z -> shorter_without g).
  { intros D HD HD0. apply (Du D). split; auto. }
  assert (Nd : NoDup (custs g)).
  { unfold custs. apply NoDup_filter. apply (net_wf _ _ N). }
  assert (Inj : forall cs, In (Source :: cs ++ [Sink]) rs -> In cs R).
  { intros cs Hcs. apply (Permutation_in _ HR) in Hcs. apply in_map_iff in Hcs. destruct Hcs as (cs' & E & Hin).
    inversion E as [E']. apply app_inj_tail in E'. destruct E' as (-> & _). auto. }
  assert (Trip : forall cs, In (Source :: cs ++ [Sink]) rs ->
     along (arc_list g) (Source :: cs ++ [Sink]) /\ forall v, In v cs -> In v (custs g)).
  { intros cs Hcs. destruct (PR _ Hcs) as ((cs' & E & Nd' & Ne) & Al & _). split; auto.
    inversion E as [E']. apply app_inj_tail in E'. destruct E' as (-> & _).
    intros v Hv. destruct (Ne v Hv) as (N1 & N2). apply (OV _ v Hcs); auto.
    right. apply in_or_app. auto. }
  assert (Sub : forall cs, along (arc_list g) (Source :: cs ++ [Sink]) -> along (arc_list g) cs).
  { intros cs Al u v Huv. apply Al. apply arcs_in in Huv. destruct Huv as (p1 & p2 & ->).
    apply arcs_in. exists (Source :: p1), (p2 ++ [Sink]). cbn. rewrite <- app_assoc. auto. }
  split.
  - intros Hj Hi F. pose proof (Inj [j] Hj) as Rj. pose proof (Inj (a ++ [i]) Hi) as Ri.
    destruct (Trip [j] Hj) as (_ & Cj). destruct (Trip (a ++ [i]) Hi) as (Ai & Ci).
    assert (Hl : In (i, j) l).
    { apply L2. split; auto. split; [apply Ci; apply in_or_app; simpl; auto|apply Cj; simpl; auto]. }
    destruct (not_appended g w l R Hm Nd i j a Hl Rj Ri Hne) as (p & a' & -> & NF). apply NF.
    assert (E : (p ++ a') ++ [i; j] = p ++ (a' ++ [i; j])) by (rewrite app_assoc; auto).
    assert (Al : along (arc_list g) ((p ++ a') ++ [i; j])).
    { intros u v Huv. rewrite arcs_snoc in Huv. apply in_app_or in Huv. destruct Huv as [Huv|[Huv|[]]].
      - apply (Sub _ Ai). auto.
      - inversion Huv; subst; auto. }
    assert (Cu : forall v, In v ((p ++ a') ++ [i; j]) -> In v (custs g)).
    { intros v Hv. apply in_app_or in Hv. destruct Hv as [Hv|[<-|[<-|[]]]].
      - apply Ci. apply in_or_app. auto.
      - apply Ci. apply in_or_app. simpl; auto.
      - apply Cj. simpl; auto. }
    rewrite E in Al, Cu, F. destruct (a' ++ [i; j]) as [|x m] eqn:Ea; [destruct a'; discriminate|].
    apply (fits_drop_front g w D0 SW p x m Al Cu F).
  - intros Hji Hi Hj F. pose proof (Inj [i] Hi) as Ri. pose proof (Inj (j :: a) Hj) as Rj.
    destruct (Trip [i] Hi) as (_ & Ci). destruct (Trip (j :: a) Hj) as (Aj & Cj).
    assert (Hl : In (i, j) l).
    { apply L2. split; auto. split; [apply Ci; simpl; auto|apply Cj; simpl; auto]. }
    destruct (not_prepended g w l R Hm Nd i j a Hl Hji Ri Rj Hne) as (a' & p & -> & NF). apply NF.
    assert (Al : along (arc_list g) (i :: j :: a' ++ p)).
    { intros u v [Huv|Huv]; [inversion Huv; subst; auto|]. apply (Sub _ Aj). auto. }
    assert (Cu : forall v, In v (i :: j :: a' ++ p) -> In v (custs g)).
    { intros v [<-|Hv]; [apply Ci; simpl; auto|apply Cj; auto]. }
    destruct a' as [|x m] using rev_ind.
    + apply (fits_drop_back g w D0 SW p [i] j); auto.
    + assert (E : i :: j :: (m ++ [x]) ++ p = (i :: j :: m) ++ x :: p) by (cbn; rewrite <- app_assoc; auto).
      rewrite E in *. apply (fits_drop_back g w D0 SW p (i :: j :: m) x); auto.
Qed.
