(** Proofs about the bound on the number of stops. *)
From Verif.Base Require Import Prelude Graph.
From Verif.Spec Require Import Routes Network Inputs Feasible Prep.
From Verif.Model Require Import Args Preprocess.
From Verif.Proofs Require Import RouteLemmas PreLemmas PruneProofs.

(** Largest number of items of [l] fitting in [j]. *)
Fixpoint opt (l : list Z) (j : Z) : Z :=
  match l with
  | [] => 0
  | w :: t => if (j <? w)%Z then opt t j
              else if (opt t j <? 1 + opt t (j - w))%Z then 1 + opt t (j - w) else opt t j
  end.

Lemma chosen_nonneg l c : chosen l c -> (forall w, In w l -> (0 <= w)%Z) -> (0 <= zsum c)%Z.
Proof.
  induction 1 as [|w l c H IH|w l c H IH]; intro P; simpl; [lia| |].
  - apply IH. intros; apply P; right; auto.
  - assert (0 <= w)%Z by (apply P; left; auto).
    assert (0 <= zsum c)%Z by (apply IH; intros; apply P; right; auto). lia.
Qed.

Lemma opt_max l : (forall w, In w l -> (0 <= w)%Z) -> forall j, (0 <= j)%Z -> max_items l j (opt l j).
Proof.
  induction l as [|w l IH]; intros P j Hj.
  - split.
    + exists []. split; [constructor|]. simpl. auto.
    + intros c Hc _. inversion Hc; subst. simpl. lia.
  - assert (P' : forall w, In w l -> (0 <= w)%Z) by (intros; apply P; right; auto).
    assert (Pw : (0 <= w)%Z) by (apply P; left; auto).
    destruct (IH P' j Hj) as ((c0 & C0 & S0 & L0) & M0). cbn [opt].
    destruct (j <? w)%Z eqn:E.
    + apply Z.ltb_lt in E. split.
      * exists c0. split; [constructor; auto|auto].
      * intros c Hc Hs. inversion Hc; subst; auto.
        exfalso. simpl in Hs. assert (0 <= zsum c1)%Z; [|lia].
        eapply chosen_nonneg; eauto.
    + apply Z.ltb_ge in E. destruct (IH P' (j - w)%Z ltac:(lia)) as ((c1 & C1 & S1 & L1) & M1).
      assert (U : forall c, chosen (w :: l) c -> (zsum c <= j)%Z ->
                (Z.of_nat (List.length c) <= opt l j)%Z \/ (Z.of_nat (List.length c) <= 1 + opt l (j - w))%Z).
      { intros c Hc Hs. inversion Hc; subst; [left; auto|right]. simpl in Hs. simpl List.length.
        match goal with K : chosen l ?c |- _ => pose proof (M1 c K ltac:(lia)) end. lia. }
      destruct (opt l j <? 1 + opt l (j - w))%Z eqn:E2.
      * apply Z.ltb_lt in E2. split.
        -- exists (w :: c1). split; [apply chosen_take; auto|]. simpl zsum. simpl List.length. split; lia.
        -- intros c Hc Hs. destruct (U c Hc Hs); lia.
      * apply Z.ltb_ge in E2. split.
        -- exists c0. split; [constructor; auto|auto].
        -- intros c Hc Hs. destruct (U c Hc Hs); lia.
Qed.

Lemma chosen_app l c l' c' : chosen l c -> chosen l' c' -> chosen (l ++ l') (c ++ c').
Proof. induction 1; intro; simpl; auto; [apply chosen_skip|apply chosen_take]; auto. Qed.

Lemma chosen_rev l c : chosen l c -> chosen (rev l) (rev c).
Proof.
  induction 1; simpl; [constructor| |].
  - rewrite <- (app_nil_r (rev c)). apply chosen_app; auto. constructor. constructor.
  - apply chosen_app; auto. apply chosen_take. constructor.
Qed.

Lemma zsum_app l l' : zsum (l ++ l') = (zsum l + zsum l')%Z.
Proof. induction l as [|x l IH]; simpl; auto. rewrite IH. lia. Qed.
Lemma zsum_rev l : zsum (rev l) = zsum l.
Proof. induction l as [|x l IH]; simpl; auto. rewrite zsum_app, IH. simpl. lia. Qed.

Lemma max_items_rev l j m : max_items (rev l) j m -> max_items l j m.
Proof.
  intros ((c & C & S & L) & M). split.
  - exists (rev c). rewrite <- (rev_involutive l). split; [apply chosen_rev; auto|].
    rewrite zsum_rev, rev_length. auto.
  - intros c' C' S'. rewrite <- (rev_length c'). apply M; [apply chosen_rev; auto|]. rewrite zsum_rev. auto.
Qed.

(* ------------------------------------------------------------------ *)
(** The table *)

Section Table.
  Variable C : nat.

  Definition row_is (sol : tab) (i : nat) (f : nat -> Z) : Prop :=
    exists row, nth_error sol i = Some row /\ List.length row = S C /\
                forall j, (j <= C)%nat -> nth_error row j = Some (f j).

  Lemma py_get_nat {A} (l : list A) i : (i < List.length l)%nat ->
    py_get l (Z.of_nat i) = of_opt IndexError (nth_error l i).
  Proof.
    intro H. unfold py_get. assert ((0 <=? Z.of_nat i)%Z = true) as -> by (apply Z.leb_le; lia).
    assert ((Z.of_nat i <? Z.of_nat (List.length l))%Z = true) as -> by (apply Z.ltb_lt; lia).
    simpl. rewrite Nat2Z.id. auto.
  Qed.

  Lemma py_get_neg {A} (l : list A) : (0 < List.length l)%nat ->
    py_get l (-1) = of_opt IndexError (nth_error l (List.length l - 1)).
  Proof.
    intro H. unfold py_get. simpl.
    assert ((- Z.of_nat (List.length l) <=? -1)%Z = true) as -> by (apply Z.leb_le; lia).
    replace (Z.to_nat (Z.of_nat (List.length l) + -1)) with (List.length l - 1)%nat by lia. auto.
  Qed.

  (** index of the previous row *)
  Definition prev (n i : nat) : nat := match i with O => (n - 1)%nat | S k => k end.

  Lemma tab_get_prev (sol : tab) n i f (j : Z) : List.length sol = n -> (i < n)%nat ->
    row_is sol (prev n i) f -> (0 <= j <= Z.of_nat C)%Z ->
    tab_get sol (Z.of_nat i - 1) j = Ok (f (Z.to_nat j)).
  Proof.
    intros Hn Hi (row & Hr & Hl & Hf) Hj. unfold tab_get.
    assert (E : py_get sol (Z.of_nat i - 1) = Ok row).
    { destruct i as [|k]; simpl prev in Hr.
      - change (Z.of_nat 0 - 1)%Z with (-1)%Z. rewrite py_get_neg by lia. rewrite Hn, Hr. auto.
      - replace (Z.of_nat (S k) - 1)%Z with (Z.of_nat k) by lia. rewrite py_get_nat by lia. rewrite Hr. auto. }
    rewrite E. cbn [bind]. rewrite <- (Z2Nat.id j) by lia. rewrite py_get_nat by lia.
    rewrite Hf by lia. simpl. rewrite Nat2Z.id. auto.
  Qed.

  (** value written at column [j] *)
  Definition next (f : nat -> Z) (w : Z) (j : nat) : Z :=
    if (Z.of_nat j <? w)%Z then f j
    else if (f j <? 1 + f (Z.to_nat (Z.of_nat j - w)))%Z then 1 + f (Z.to_nat (Z.of_nat j - w)) else f j.

  Lemma knap_step_ok (sol : tab) n i f w j : List.length sol = n -> (i < n)%nat -> (0 <= w)%Z ->
    row_is sol (prev n i) f -> (j <= C)%nat -> knap_step w i sol j = Ok (tab_set sol i j (next f w j)).
  Proof.
    intros Hn Hi Hw Hp Hj. unfold knap_step, next. destruct (Z.of_nat j <? w)%Z eqn:E.
    - rewrite (tab_get_prev sol n i f) by (auto; lia). cbn [bind]. rewrite Nat2Z.id. auto.
    - apply Z.ltb_ge in E. rewrite !(tab_get_prev sol n i f) by (auto; lia). cbn [bind]. rewrite Nat2Z.id.
      destruct (f j <? 1 + f (Z.to_nat (Z.of_nat j - w)))%Z; auto.
  Qed.

  Lemma knap_row_ok n i f w : (i < n)%nat -> prev n i <> i -> (0 <= w)%Z ->
    forall m s sol row, List.length sol = n -> row_is sol (prev n i) f -> (s + m <= S C)%nat ->
    nth_error sol i = Some row -> List.length row = S C ->
    exists sol' row', foldM (knap_step w i) (seq s m) sol = Ok sol' /\ List.length sol' = n /\
      (forall i', i' <> i -> nth_error sol' i' = nth_error sol i') /\
      nth_error sol' i = Some row' /\ List.length row' = S C /\
      forall j, (j <= C)%nat -> nth_error row' j =
        if (Nat.leb s j && Nat.ltb j (s + m))%bool then Some (next f w j) else nth_error row j.
  Proof.
    intros Hi Hp Hw. induction m as [|m IH]; intros s sol row Hn Hf Hs Hr Hl; cbn [seq foldM].
    - exists sol, row. split; auto. split; auto. split; auto. split; auto. split; auto.
      intros j Hj. destruct (Nat.leb s j) eqn:E1; simpl; auto. destruct (Nat.ltb j (s + 0)) eqn:E2; auto.
      apply Nat.leb_le in E1. apply Nat.ltb_lt in E2. lia.
    - rewrite (knap_step_ok sol n i f w s) by (auto; lia). cbn [bind]. unfold tab_set. rewrite Hr.
      set (row1 := set_nth s (next f w s) row). set (sol1 := set_nth i row1 sol).
      assert (L1 : List.length sol1 = n) by (unfold sol1; rewrite set_nth_length; auto).
      assert (Oth : forall i', i' <> i -> nth_error sol1 i' = nth_error sol i').
      { intros i' Hne. unfold sol1. rewrite nth_error_set_nth. destruct (Nat.eqb i i') eqn:E; auto.
        apply Nat.eqb_eq in E. congruence. }
      assert (R1 : nth_error sol1 i = Some row1).
      { unfold sol1. rewrite nth_error_set_nth, Nat.eqb_refl. rewrite Hn. destruct (Nat.ltb i n) eqn:E; auto.
        apply Nat.ltb_ge in E. lia. }
      destruct (IH (S s) sol1 row1) as (sol' & row' & F1 & F2 & F3 & F4 & F5 & F6); auto.
      + destruct Hf as (pr & P1 & P2). exists pr. split; auto. rewrite Oth; auto.
      + lia.
      + unfold row1. rewrite set_nth_length. auto.
      + exists sol', row'. split; auto. split; auto. split.
        { intros i' Hne. rewrite F3, Oth by auto. auto. }
        split; auto. split; auto. intros j Hj. rewrite F6 by auto. unfold row1. rewrite nth_error_set_nth.
        assert (Hlt : Nat.ltb s (List.length row) = true) by (apply Nat.ltb_lt; lia). rewrite Hlt.
        destruct (Nat.eqb s j) eqn:E.
        * apply Nat.eqb_eq in E. subst j.
          assert (Nat.leb (S s) s = false) as -> by (apply Nat.leb_gt; lia).
          assert (Nat.leb s s = true) as -> by (apply Nat.leb_le; lia).
          assert (Nat.ltb s (s + S m) = true) as -> by (apply Nat.ltb_lt; lia). auto.
        * apply Nat.eqb_neq in E. replace (s + S m)%nat with (S s + m)%nat by lia.
          destruct (Nat.leb s j) eqn:E1; destruct (Nat.leb (S s) j) eqn:E2; auto.
          -- apply Nat.leb_le in E1. apply Nat.leb_gt in E2. lia.
          -- apply Nat.leb_gt in E1. apply Nat.leb_le in E2. lia.
  Qed.

  Definition opt_row (l : list Z) (j : nat) : Z := opt l (Z.of_nat j).

  Lemma next_opt l w j : (j <= C)%nat -> (0 <= w)%Z -> next (opt_row l) w j = opt_row (w :: l) j.
  Proof.
    intros Hj Hw. unfold next, opt_row. cbn [opt]. destruct (Z.of_nat j <? w)%Z eqn:E; auto.
    apply Z.ltb_ge in E. rewrite Z2Nat.id by lia. auto.
  Qed.

  Definition sol0 (n : nat) : tab := repeat (repeat 0%Z (S C)) n.

  Lemma nth_error_repeat {A} (x : A) n i : (i < n)%nat -> nth_error (repeat x n) i = Some x.
  Proof. revert i. induction n as [|n IH]; intros [|i] H; simpl; auto; try lia. apply IH. lia. Qed.

  Lemma knap_loop ws : (2 <= List.length ws)%nat -> (forall w, In w ws -> (0 <= w)%Z) ->
    forall i, (i <= List.length ws)%nat -> exists sol,
      foldM (fun sol i => let* w := of_opt IndexError (nth_error ws i) in
                          foldM (knap_step w i) (seq 0 (S C)) sol) (seq 0 i) (sol0 (List.length ws)) = Ok sol /\
      List.length sol = List.length ws /\
      (forall k, (i <= k < List.length ws)%nat -> nth_error sol k = Some (repeat 0%Z (S C))) /\
      (forall k, (k < i)%nat -> row_is sol k (opt_row (rev (firstn (S k) ws)))).
  Proof.
    intros Hn P. set (n := List.length ws) in *. induction i as [|i IH]; intro Hi.
    - exists (sol0 n). split; [reflexivity|]. unfold sol0. split; [apply repeat_length|]. split.
      + intros k Hk. apply nth_error_repeat. lia.
      + intros k Hk. lia.
    - destruct IH as (sol & F & L & Z0 & R); [lia|].
      destruct (nth_error ws i) as [w|] eqn:Ew; [|apply nth_error_None in Ew; lia].
      assert (Hw : (0 <= w)%Z) by (apply P; eapply nth_error_In; eauto).
      set (f := match i with O => fun _ : nat => 0%Z | S k => opt_row (rev (firstn (S k) ws)) end).
      assert (Hp : row_is sol (prev n i) f).
      { destruct i as [|k]; unfold prev, f.
        - exists (repeat 0%Z (S C)). split; [apply Z0; lia|]. split; [apply repeat_length|].
          intros j Hj. apply nth_error_repeat. lia.
        - apply R. lia. }
      assert (Ni : prev n i <> i) by (destruct i; simpl; lia).
      destruct (knap_row_ok n i f w ltac:(lia) Ni Hw (S C) 0 sol (repeat 0%Z (S C)) L Hp ltac:(lia))
        as (sol' & row' & F1 & F2 & F3 & F4 & F5 & F6).
      { apply Z0. lia. }
      { apply repeat_length. }
      exists sol'. split.
      { rewrite (seq_S i 0), foldM_app, F. cbn [bind plus foldM]. rewrite Ew. cbn [of_opt bind].
        match goal with |- bind ?X _ = _ => change X with (foldM (knap_step w i) (seq 0 (S C)) sol) end.
        rewrite F1. reflexivity. }
      split; auto. split.
      { intros k Hk. rewrite F3 by lia. apply Z0. lia. }
      intros k Hk. destruct (Nat.eq_dec k i) as [->|Hne].
      + exists row'. split; auto. split; auto. intros j Hj. rewrite F6 by auto.
        assert (Nat.ltb j (0 + S C) = true) as -> by (apply Nat.ltb_lt; lia). simpl andb. cbn match.
        assert (E : firstn (S i) ws = firstn i ws ++ [w]).
        { clear - Ew. revert i Ew. induction ws as [|x l IHl]; intros [|i] H; simpl in *; try discriminate.
          - congruence.
          - f_equal. apply IHl. auto. }
        rewrite E, rev_app_distr. simpl app. rewrite <- next_opt by auto. f_equal.
        assert (Ef : forall j, f j = opt_row (rev (firstn i ws)) j).
        { intro x. unfold f. destruct i; auto. }
        unfold next. rewrite !Ef. auto.
      + destruct (R k ltac:(lia)) as (row & R1 & R2). exists row. rewrite F3 by auto. auto.
  Qed.

  Lemma knapsack_opt ws : (2 <= List.length ws)%nat -> (forall w, In w ws -> (0 <= w)%Z) ->
    knapsack ws C = Ok (opt (rev ws) (Z.of_nat C)).
  Proof.
    intros Hn P. unfold knapsack. destruct (knap_loop ws Hn P (List.length ws) (Nat.le_refl _)) as (sol & F & L & _ & R).
    unfold sol0 in F. rewrite F. cbn [bind]. unfold tab_get.
    replace (Z.of_nat (List.length ws) - 1)%Z with (Z.of_nat (List.length ws - 1)) by lia.
    rewrite py_get_nat by lia. destruct (R (List.length ws - 1)%nat ltac:(lia)) as (row & R1 & R2 & R3).
    rewrite R1. cbn [of_opt bind]. rewrite py_get_nat by lia. rewrite R3 by lia. cbn [of_opt]. unfold opt_row.
    replace (S (List.length ws - 1)) with (List.length ws) by lia. rewrite firstn_all. auto.
  Qed.
End Table.

Lemma knapsack_exact ws C : (2 <= List.length ws)%nat -> (forall w, In w ws -> (0 <= w)%Z) ->
  exists m, knapsack ws C = Ok m /\ max_items ws (Z.of_nat C) m.
Proof.
  intros Hn P. eexists. split; [apply knapsack_opt; auto|]. apply max_items_rev, opt_max; [|lia].
  intros w Hw. apply P. apply in_rev; auto.
Qed.

(* ------------------------------------------------------------------ *)
(** The bound never excludes a route that fits. *)

Lemma chosen_filter {A} (f : A -> Z) (P : A -> bool) l : chosen (map f l) (map f (filter P l)).
Proof. induction l as [|a l IH]; simpl; [constructor|]. destruct (P a); simpl; [apply chosen_take|apply chosen_skip]; auto. Qed.

Lemma zsum_qsum {A} (f : A -> Q) l : (forall a, In a l -> 0 <= f a) ->
  inject_Z (zsum (map (fun a => qtrunc (f a)) l)) <= Qsum (map f l).
Proof.
  induction l as [|a l IH]; intro P; simpl.
  - unfold Qle; simpl; lia.
  - rewrite inject_Z_plus, ?Qsum_cons. destruct (qtrunc_nonneg (f a)) as (_ & H); [apply P; left; auto|].
    assert (IH' := IH (fun x Hx => P x (or_intror Hx))). unfold Qsum in *. simpl in *. lra.
Qed.

Lemma nodes_two (g : vgraph) : wf g -> In Source (nodes g) -> In Sink (nodes g) -> (2 <= List.length (gnodes g))%nat.
Proof.
  intros W HS HT. assert (incl [Source; Sink] (nodes g)) by (intros x [<-|[<-|[]]]; auto).
  assert (NoDup [Source; Sink]) by (repeat constructor; simpl; intuition discriminate).
  pose proof (NoDup_incl_length H0 H). unfold nodes in H1. rewrite map_length in H1. auto.
Qed.

Lemma fits_count (g : vgraph) (att : ndata -> Q) cs cap m : wf g ->
  (forall v, 0 <= att (nd g v)) -> NoDup cs -> (forall v, In v cs -> In v (nodes g)) ->
  node_sum (fun v => att (nd g v)) cs <= inject_Z cap ->
  max_items (map (fun p => qtrunc (att (snd p))) (gnodes g)) cap m ->
  (Z.of_nat (List.length cs) <= m)%Z.
Proof.
  intros W P ND Hin Hs (_ & M).
  set (sel := filter (fun p : node * ndata => mem (fst p) cs) (gnodes g)).
  assert (Perm : Permutation (map fst sel) cs).
  { apply NoDup_Permutation; auto.
    - unfold sel. rewrite (filter_fst_map (fun v => mem v cs)). apply NoDup_filter. apply W.
    - intro v. unfold sel. rewrite (filter_fst_map (fun v => mem v cs)), filter_In, mem_In.
      split; [tauto|]. intro H. split; auto. }
  replace (List.length cs) with (List.length (map (fun p : node * ndata => qtrunc (att (snd p))) sel)).
  2:{ rewrite map_length. rewrite <- (Permutation_length Perm), map_length. auto. }
  apply M.
  - unfold sel. apply chosen_filter.
  - assert (E : forall p, In p sel -> snd p = nd g (fst p)).
    { intros [v d] Hp. unfold sel in Hp. apply filter_In in Hp. destruct Hp as (Hp & _).
      unfold nd. simpl. rewrite (FeasProofs.gnodes_data g v d W Hp). auto. }
    assert (X := zsum_qsum (fun p : node * ndata => att (snd p)) sel).
    assert (Y : Qsum (map (fun p : node * ndata => att (snd p)) sel) == node_sum (fun v => att (nd g v)) cs).
    { rewrite <- (node_sum_perm _ _ _ Perm). unfold node_sum. rewrite map_map.
      rewrite (map_ext_in _ (fun p => att (nd g (fst p)))); [reflexivity|].
      intros p Hp. rewrite E; auto. }
    rewrite Zle_Qle. rewrite Y in X. eapply Qle_trans; [apply X|exact Hs].
    intros p Hp. rewrite E by auto. apply P.
Qed.

Lemma weights_nonneg (g : vgraph) (att : ndata -> Q) : wf g -> (forall v, 0 <= att (nd g v)) ->
  forall w, In w (map (fun p : node * ndata => qtrunc (att (snd p))) (gnodes g)) -> (0 <= w)%Z.
Proof.
  intros W P w Hw. apply in_map_iff in Hw. destruct Hw as ([v d] & <- & Hp). simpl.
  apply qtrunc_nonneg. specialize (P v). unfold nd in P. rewrite (FeasProofs.gnodes_data g v d W Hp) in P. auto.
Qed.

Lemma stop_bound_exact (g : vgraph) cap ns sdc : wf g -> In Source (nodes g) -> In Sink (nodes g) ->
  nonneg_demands g -> (sdc = true -> nonneg_collects g) -> (0 <= cap)%Z ->
  exists m b, num_stops_upper_bound g cap ns sdc = Ok b /\
    max_items (map (fun p => qtrunc (demand (snd p))) (gnodes g)) cap m /\
    exists m', (if sdc then exists mc, max_items (map (fun p => qtrunc (collect (snd p))) (gnodes g)) cap mc /\
                                       m' = Z.min m mc else m' = m) /\
    b = match ns with Some s => if (s =? 0)%Z then m' else Z.min m' s | None => m' end.
Proof.
  intros W HS HT PD PC Hc. unfold num_stops_upper_bound.
  assert (L2 := nodes_two g W HS HT).
  destruct (knapsack_exact (map (fun p => qtrunc (demand (snd p))) (gnodes g)) (Z.to_nat cap)) as (m1 & K1 & M1).
  { rewrite map_length; auto. }
  { apply weights_nonneg; auto. }
  rewrite Z2Nat.id in M1 by auto. rewrite K1. cbn [bind]. exists m1.
  destruct sdc.
  - destruct (knapsack_exact (map (fun p => qtrunc (collect (snd p))) (gnodes g)) (Z.to_nat cap)) as (m2 & K2 & M2).
    { rewrite map_length; auto. }
    { apply weights_nonneg; auto. apply PC; auto. }
    rewrite Z2Nat.id in M2 by auto. rewrite K2. cbn [bind].
    destruct ns as [s|]; [destruct (s =? 0)%Z eqn:E|]; eexists; (split; [reflexivity|]); (split; [auto|]);
      eexists; (split; [exists m2; split; [auto|reflexivity]|]); auto.
  - cbn [bind]. destruct ns as [s|]; [destruct (s =? 0)%Z eqn:E|]; eexists; (split; [reflexivity|]); (split; [auto|]);
      eexists; (split; [reflexivity|]); auto.
Qed.

Lemma stop_bound_keeps (g : vgraph) cap ns sdc b r : wf g -> In Source (nodes g) -> In Sink (nodes g) ->
  nonneg_demands g -> (sdc = true -> nonneg_collects g) -> (0 <= cap)%Z ->
  num_stops_upper_bound g cap ns sdc = Ok b ->
  route_shape r -> (forall v, In v r -> In v (nodes g)) ->
  node_sum (demand_of g) (stops r) <= inject_Z cap ->
  (sdc = true -> node_sum (collect_of g) (stops r) <= inject_Z cap) ->
  (forall s, limit ns s -> (Z.of_nat (List.length (stops r)) <= s)%Z) ->
  (Z.of_nat (List.length (stops r)) <= b)%Z.
Proof.
  intros W HS HT PD PC Hc H Hr Hin Hd Hco Hn.
  destruct (stop_bound_exact g cap ns sdc W HS HT PD PC Hc) as (m & b' & H' & M & m' & S & Eb).
  assert (b' = b) by congruence. subst b'. clear H'.
  assert (ND : NoDup (stops r)) by (apply NoDup_filter, route_shape_NoDup; auto).
  assert (Hi : forall v, In v (stops r) -> In v (nodes g)).
  { intros v Hv. apply filter_In in Hv. apply Hin, Hv. }
  assert (B1 := fits_count g demand (stops r) cap m W PD ND Hi Hd M).
  assert (B2 : (Z.of_nat (List.length (stops r)) <= m')%Z).
  { destruct sdc; [|subst; auto]. destruct S as (mc & Mc & ->).
    assert (B2 := fits_count g collect (stops r) cap mc W (PC eq_refl) ND Hi (Hco eq_refl) Mc). lia. }
  destruct ns as [s|]; [|subst; auto]. destruct (s =? 0)%Z eqn:E; [subst; auto|].
  apply Z.eqb_neq in E. specialize (Hn s (conj eq_refl E)). lia.
Qed.
