(** A column that already has enough twins does not change the value of the relaxed master problem. *)
From Verif.Base Require Import Prelude Graph.
From Verif.Spec Require Import Routes Network LinProg Master Run.
From Verif.Model Require Import Args Initial Pricing Master ColGen.
From Verif.Proofs Require Import ColGenProofs.

(** Two columns that mean the same to the master problem. *)
Definition twin (c c' : column) : Prop :=
  c_type c = c_type c' /\ c_cost c == c_cost c' /\ forall v, times v c = times v c'.
Definition twinb (c c' : column) : bool :=
  (c_type c =? c_type c')%nat && Qeq_bool (c_cost c) (c_cost c') &&
  forallb (fun v => (times v c =? times v c')%nat) (served c ++ served c').
Lemma times_out v c : ~ In v (served c) -> times v c = 0%nat.
Proof. intro H. unfold times. apply count_occ_not_In. exact H. Qed.
Lemma twinb_iff c c' : twinb c c' = true <-> twin c c'.
Proof.
  unfold twinb, twin. rewrite !andb_true_iff, Nat.eqb_eq, Qeq_bool_iff, forallb_forall. split.
  - intros [[A B] F]. split; [exact A|]. split; [exact B|]. intro v.
    destruct (in_dec node_eq_dec v (served c ++ served c')) as [I|I]; [apply Nat.eqb_eq, F, I|].
    rewrite !times_out; [reflexivity| |]; intro J; apply I, in_or_app; auto.
  - intros (A & B & F). split; [split; assumption|]. intros v _. apply Nat.eqb_eq, F.
Qed.
Lemma twin_sym c c' : twin c c' -> twin c' c.
Proof. intros (A & B & F). split; [auto|]. split; [symmetry; exact B|]. intro v. symmetry. apply F. Qed.
Lemma twin_trans a b c : twin a b -> twin b c -> twin a c.
Proof. intros (A & B & F) (A1 & B1 & F1). split; [congruence|]. split; [rewrite B; exact B1|]. intro v. rewrite F. apply F1. Qed.

(** The best value of the relaxation. *)
Definition best (g : vgraph) (o : moptions) (cs : list column) (q : Q) : Prop :=
  (exists x, solution g o cs false x /\ total_cost g o cs x == q) /\
  forall x, solution g o cs false x -> q <= total_cost g o cs x.

Lemma sum_app {A} (l l' : list A) f : Qsum_over (l ++ l') f == Qsum_over l f + Qsum_over l' f.
Proof. unfold Qsum_over. rewrite map_app. apply Qsum_app. Qed.
Lemma sum_one {A} (c : A) f : Qsum_over [c] f == f c.
Proof. unfold Qsum_over. cbn. lra. Qed.
Lemma sum_ext {A} (l : list A) f f' : (forall c, In c l -> f c == f' c) -> Qsum_over l f == Qsum_over l f'.
Proof. intro H. unfold Qsum_over. apply Qsum_map_ext. exact H. Qed.
Lemma sum_le {A} (l : list A) f f' : (forall c, In c l -> f c <= f' c) -> Qsum_over l f <= Qsum_over l f'.
Proof.
  unfold Qsum_over. induction l as [|c l IH]; intro H; cbn [map]; [lra|]. rewrite !Qsum_cons.
  assert (X := H c (or_introl eq_refl)). assert (Y := IH (fun d Hd => H d (or_intror Hd))). lra.
Qed.
Lemma count_type_sum cs x k : count_type cs x k == Qsum_over cs (fun c => (if (c_type c =? k)%nat then 1 else 0) * x (Y (c_name c))).
Proof.
  unfold count_type, Qsum_over. induction cs as [|c cs IH]; cbn [filter map]; [reflexivity|]. destruct (c_type c =? k)%nat; cbn [map]; rewrite ?Qsum_cons, IH; lra.
Qed.

Section One.
  Variables (g : vgraph) (o : moptions) (cs : list column) (c : column) (N : nat).
  Hypothesis NSP : mo_span o = false.
  Hypothesis ND : NoDup (map c_name (cs ++ [c])).

  Lemma fresh_name t : In t cs -> c_name t <> c_name c.
  Proof.
    intros H E. rewrite map_app in ND. apply NoDup_app_inv in ND. destruct ND as (_ & _ & D).
    apply (D (c_name c)); [rewrite <- E; apply in_map; exact H|left; reflexivity].
  Qed.
  Lemma name_inj s t : In s cs -> In t cs -> c_name s = c_name t -> s = t.
  Proof.
    intros H1 H2 E. rewrite map_app in ND. apply NoDup_app_inv in ND. destruct ND as (D & _ & _). clear - D H1 H2 E.
    induction cs as [|a l IH]; [destruct H1|]. cbn in D. inversion D as [|? ? D1 D2]; subst.
    destruct H1 as [->|H1], H2 as [->|H2]; auto.
    - exfalso. apply D1. rewrite E. apply in_map. exact H2.
    - exfalso. apply D1. rewrite <- E. apply in_map. exact H1.
  Qed.

  (** *** More columns *)
  Definition zeroed (x : mvar -> Q) (v : mvar) : Q :=
    match v with Y n => if cname_eqb n (c_name c) then 0 else x v | _ => x v end.
  Lemma zeroed_old x t : In t cs -> zeroed x (Y (c_name t)) = x (Y (c_name t)).
  Proof.
    intro H. cbn. destruct (cname_eqb _ _) eqn:E; [|reflexivity]. apply cname_eqb_eq in E. exfalso. exact (fresh_name t H E).
  Qed.
  Lemma zeroed_new x : zeroed x (Y (c_name c)) = 0.
  Proof. cbn. assert (cname_eqb (c_name c) (c_name c) = true) as -> by (apply cname_eqb_eq; reflexivity). reflexivity. Qed.
  Lemma zeroed_sum x w : Qsum_over (cs ++ [c]) (fun t => w t * zeroed x (Y (c_name t))) == Qsum_over cs (fun t => w t * x (Y (c_name t))).
  Proof.
    rewrite sum_app, sum_one, zeroed_new. rewrite (sum_ext cs _ (fun t => w t * x (Y (c_name t)))); [lra|].
    intros t H. rewrite (zeroed_old x t H). reflexivity.
  Qed.
  Lemma more_columns x : solution g o cs false x ->
    solution g o (cs ++ [c]) false (zeroed x) /\ total_cost g o (cs ++ [c]) (zeroed x) == total_cost g o cs x.
  Proof.
    intro S. split.
    - constructor.
      + intros v d Hc. destruct (so_visits _ _ _ _ _ S v d Hc) as [V _]. split; [|discriminate].
        unfold count_visits in *. rewrite (zeroed_sum x (fun t => inject_Z (Z.of_nat (times v t)))). exact V.
      + intros l F k n Hn. destruct (so_fleet _ _ _ _ _ S l F k n Hn) as [V W].
        assert (X : count_type (cs ++ [c]) (zeroed x) k == count_type cs x k).
        { rewrite !count_type_sum. apply zeroed_sum. }
        change (zeroed x (Extra k)) with (x (Extra k)). split; [rewrite X; exact V|]. intro M. rewrite X. exact (W M).
      + intro; congruence.
      + intros t H. apply in_app_or in H. destruct H as [H|[<-|[]]].
        * rewrite (zeroed_old x t H). destruct (so_routes _ _ _ _ _ S t H) as (R1 & R2 & _). split; [exact R1|]. split; [exact R2|].
          split; [intros [Q|Q]; congruence|discriminate].
        * rewrite zeroed_new. split; [lra|]. split; [lra|]. split; [intros [Q|Q]; congruence|discriminate].
      + exact (so_drop _ _ _ _ _ S).
      + exact (so_dummy _ _ _ _ _ S).
      + exact (so_extra _ _ _ _ _ S).
      + exact (so_makespan _ _ _ _ _ S).
    - unfold total_cost. rewrite NSP. rewrite (zeroed_sum x c_cost). cbn [zeroed]. reflexivity.
  Qed.

  (** *** Fewer columns *)
  Hypothesis N1 : (1 <= N)%nat.
  Definition NQ : Q := inject_Z (Z.of_nat N).
  Hypothesis NV : forall v d, customer g v d -> required o d <= NQ.
  Hypothesis NF : forall l k n, fleet_bound o l -> nth_error l k = Some n -> n <= NQ.
  Hypothesis TW : (N <= List.length (filter (twinb c) cs))%nat.
  Hypothesis POS : 0 <= c_cost c.

  Definition share_ (l : list column) (x : mvar -> Q) : Q := Qsum_over (filter (twinb c) l) (fun t => x (Y (c_name t))).
  Definition size_ (l : list column) : Q := inject_Z (Z.of_nat (List.length (filter (twinb c) l))).

  Lemma spread_sum (w : column -> Q) (x : mvar -> Q) y (W : forall t, twin c t -> w t == w c) l :
    Qsum_over l (fun t => w t * (if twinb c t then y else x (Y (c_name t)))) ==
    Qsum_over l (fun t => w t * x (Y (c_name t))) + w c * (size_ l * y - share_ l x).
  Proof.
    unfold size_, share_, Qsum_over. induction l as [|t l IH]; cbn [filter map]; [cbn [List.length]; change (inject_Z (Z.of_nat 0)) with 0; change (Qsum []) with 0; ring|]. rewrite !Qsum_cons, IH.
    destruct (twinb c t) eqn:E; [|ring]. assert (E1 := W t (proj1 (twinb_iff _ _) E)). cbn [map List.length]. rewrite Qsum_cons.
    rewrite Nat2Z.inj_succ. unfold Z.succ. rewrite inject_Z_plus. change (inject_Z 1) with 1. rewrite E1. ring.
  Qed.

  Section Solution.
    Variable x : mvar -> Q.
    Hypothesis S : solution g o (cs ++ [c]) false x.
    Definition total_ : Q := share_ cs x + x (Y (c_name c)).
    Definition level : Q := Qmin 1 (total_ / size_ cs).
    Definition lost : Q := total_ - size_ cs * level.
    Definition adjusted (k : nat) : bool :=
      mo_all o && negb (mo_periodic o) && (k =? c_type c)%nat &&
      match mo_fleet o with Some l => (k <? List.length l)%nat | None => false end.
    Definition merged (v : mvar) : Q :=
      match v with
      | Y n => if existsb (fun t => twinb c t && cname_eqb (c_name t) n) cs then level else x v
      | Extra k => if adjusted k then x v - lost else x v
      | _ => x v
      end.

    Lemma size_NQ : NQ <= size_ cs.
    Proof. unfold NQ, size_. rewrite <- Zle_Qle. lia. Qed.
    Lemma NQ1 : 1 <= NQ.
    Proof. unfold NQ. change 1 with (inject_Z 1). rewrite <- Zle_Qle. lia. Qed.
    Lemma x_range t : In t (cs ++ [c]) -> 0 <= x (Y (c_name t)) /\ x (Y (c_name t)) <= 1.
    Proof. intro H. destruct (so_routes _ _ _ _ _ S t H) as (A & B & _). auto. Qed.
    Lemma total_nonneg : 0 <= total_.
    Proof.
      unfold total_, share_. assert (A := proj1 (x_range c (in_or_app cs [c] c (or_intror (or_introl eq_refl))))).
      assert (B : 0 <= Qsum_over (filter (twinb c) cs) (fun t => x (Y (c_name t)))).
      { unfold Qsum_over. apply Qsum_nonneg. intros q Hq. apply in_map_iff in Hq. destruct Hq as (t & <- & Ht).
        apply filter_In in Ht. apply x_range, in_or_app. tauto. }
      lra.
    Qed.
    Lemma level_range : 0 <= level /\ level <= 1.
    Proof.
      unfold level. split; [|apply Q.le_min_l]. apply Q.min_glb; [lra|].
      assert (A := size_NQ). assert (B := NQ1). assert (T := total_nonneg).
      apply Qle_shift_div_l; lra.
    Qed.
    Lemma lost_cases : (lost == 0) \/ (0 < lost /\ level == 1).
    Proof.
      assert (A := size_NQ). assert (B := NQ1). assert (T := total_nonneg). unfold lost, level.
      destruct (Q.min_spec 1 (total_ / size_ cs)) as [[L ->]|[L ->]].
      - right. split; [|reflexivity]. assert (X : 1 * size_ cs < total_).
        { apply (Qmult_lt_r _ _ (size_ cs)) in L; [|lra]. unfold Qdiv in L. rewrite <- Qmult_assoc, (Qmult_comm (/ _)), Qmult_inv_r in L; lra. }
        lra.
      - left. rewrite Qmult_div_r; lra.
    Qed.

    Lemma merged_Y t : In t cs -> merged (Y (c_name t)) = if twinb c t then level else x (Y (c_name t)).
    Proof.
      intro H. cbn [merged]. destruct (existsb _ cs) eqn:E.
      - apply existsb_exists in E. destruct E as (s & Hs & E). apply andb_true_iff in E. destruct E as [E1 E2]. apply cname_eqb_eq in E2.
        rewrite <- (name_inj s t Hs H E2), E1. reflexivity.
      - destruct (twinb c t) eqn:F; [|reflexivity]. exfalso. assert (existsb (fun s => twinb c s && cname_eqb (c_name s) (c_name t)) cs = true); [|congruence].
        apply existsb_exists. exists t. split; [exact H|]. rewrite F. apply cname_eqb_eq. reflexivity.
    Qed.
    Lemma merged_sum w : (forall t, twin c t -> w t == w c) ->
      Qsum_over cs (fun t => w t * merged (Y (c_name t))) == Qsum_over (cs ++ [c]) (fun t => w t * x (Y (c_name t))) - w c * lost.
    Proof.
      intro W. rewrite (sum_ext cs _ (fun t => w t * (if twinb c t then level else x (Y (c_name t))))).
      2:{ intros t H. rewrite (merged_Y t H). reflexivity. }
      rewrite (spread_sum w x level W cs). rewrite sum_app, sum_one. unfold lost, total_. ring.
    Qed.
    (** when something is lost, what remains is enough *)
    Lemma merged_enough w : (forall t, twin c t -> w t == w c) -> (forall t, In t cs -> 0 <= w t) -> 1 <= w c -> level == 1 ->
      NQ <= Qsum_over cs (fun t => w t * merged (Y (c_name t))).
    Proof.
      intros W P C1 L. assert (A := size_NQ). apply (Qle_trans _ (size_ cs)); [exact A|].
      rewrite (sum_ext cs _ (fun t => w t * (if twinb c t then level else x (Y (c_name t))))).
      2:{ intros t H. rewrite (merged_Y t H). reflexivity. }
      assert (X : forall l, incl l cs -> size_ l <= Qsum_over l (fun t => w t * (if twinb c t then level else x (Y (c_name t))))).
      { intro l. unfold size_, Qsum_over. induction l as [|t l IH]; intro I; cbn [filter map]; [apply Qle_refl|]. rewrite Qsum_cons.
        assert (IH1 := IH (fun s Hs => I s (or_intror Hs))). assert (It := I t (or_introl eq_refl)).
        destruct (twinb c t) eqn:E.
        - cbn [List.length]. rewrite Nat2Z.inj_succ. unfold Z.succ. rewrite inject_Z_plus. change (inject_Z 1) with 1.
          rewrite (W t (proj1 (twinb_iff _ _) E)), L. lra.
        - assert (Z := P t It). assert (Z2 := proj1 (x_range t (in_or_app _ _ _ (or_introl It)))).
          assert (0 <= w t * x (Y (c_name t))) by (apply Qmult_le_0_compat; assumption). lra. }
      apply X, incl_refl.
    Qed.

    Lemma fewer_columns : solution g o cs false merged /\ total_cost g o cs merged <= total_cost g o (cs ++ [c]) x.
    Proof.
      assert (LR := level_range). assert (LC := lost_cases). assert (L0 : 0 <= lost) by (destruct LC as [X|[X _]]; lra).
      assert (AD : forall k, adjusted k = true -> exists l n, fleet_bound o l /\ nth_error l k = Some n /\ mo_all o = true /\ k = c_type c).
      { intros k A. unfold adjusted in A. rewrite !andb_true_iff in A. destruct A as [[[A1 A2] A3] A4].
        destruct (mo_fleet o) as [l|] eqn:F; [|discriminate]. apply Nat.ltb_lt in A4.
        destruct (nth_error l k) as [n|] eqn:Hn; [|apply nth_error_None in Hn; lia]. exists l, n.
        split; [split; [exact F|]; split; [destruct l; [cbn in A4; lia|discriminate]|apply negb_true_iff; exact A2]|].
        split; [exact Hn|]. split; [exact A1|apply Nat.eqb_eq; exact A3]. }
      assert (TYPE : forall k, count_type cs merged k == count_type (cs ++ [c]) x k - (if (c_type c =? k)%nat then 1 else 0) * lost).
      { intro k. rewrite !count_type_sum. apply (merged_sum (fun t => if (c_type t =? k)%nat then 1 else 0)).
        intros t (T & _). rewrite T. reflexivity. }
      assert (ENOUGH : forall l k n, fleet_bound o l -> nth_error l k = Some n -> c_type c = k -> 0 < lost -> n <= count_type cs merged k).
      { intros l k n F Hn K L. apply (Qle_trans _ NQ); [eapply NF; eassumption|]. rewrite count_type_sum.
        apply (merged_enough (fun t => if (c_type t =? k)%nat then 1 else 0)).
        - intros t (T & _). rewrite T. reflexivity.
        - intros t _. destruct (_ =? _)%nat; lra.
        - rewrite K, Nat.eqb_refl. lra.
        - destruct LC as [X|[_ X]]; [lra|exact X]. }
      split.
      - constructor.
        + intros v d Hc. destruct (so_visits _ _ _ _ _ S v d Hc) as [V _]. split; [|discriminate].
          assert (M := merged_sum (fun t => inject_Z (Z.of_nat (times v t)))). unfold count_visits in *.
          assert (W : forall t, twin c t -> inject_Z (Z.of_nat (times v t)) == inject_Z (Z.of_nat (times v c))).
          { intros t (_ & _ & T). rewrite T. reflexivity. }
          specialize (M W). cbv beta in M. change (merged (Drop v)) with (x (Drop v)). change (merged (Dummy v)) with (x (Dummy v)).
          destruct LC as [L|[L L1]].
          { rewrite L in M. lra. }
          destruct (times v c) as [|m] eqn:Tm.
          { change (inject_Z (Z.of_nat 0)) with 0 in M. lra. }
          assert (En : NQ <= Qsum_over cs (fun t => inject_Z (Z.of_nat (times v t)) * merged (Y (c_name t)))).
          { apply merged_enough; [intros t Ht; rewrite Tm; apply W; exact Ht| | |exact L1].
            - intros t _. change 0 with (inject_Z 0). rewrite <- Zle_Qle. lia.
            - rewrite Tm. change 1 with (inject_Z 1). rewrite <- Zle_Qle. lia. }
          assert (R := NV v d Hc).
          assert (D0 : 0 <= (if truthyQ (mo_drop o) then x (Drop v) else 0)).
          { destruct (mo_drop o) as [p|] eqn:Ed; [|cbn; lra]. destruct (truthyQ (Some p)) eqn:Tp; [|lra].
            apply (so_drop _ _ _ _ _ S p).
            - split; [exact Ed|]. intro Z. cbn in Tp. apply negb_true_iff in Tp. apply Qeq_bool_neq in Tp. contradiction.
            - destruct Hc as (Hin & Hs & Ht & _). apply in_custs. split; [apply (in_map fst) in Hin; exact Hin|auto]. }
          assert (D1 : 0 <= (if mo_periodic o && (1 <? freq d)%Z then x (Dummy v) else 0)).
          { destruct (mo_periodic o) eqn:Ep; [|cbn; lra]. destruct (1 <? freq d)%Z eqn:Ef; [|cbn; lra]. cbn [andb].
            destruct Hc as (Hin & Hs & Ht & _). apply (so_dummy _ _ _ _ _ S Ep v d Hin Hs). apply Z.ltb_lt. exact Ef. }
          lra.
        + intros l F k n Hn. destruct (so_fleet _ _ _ _ _ S l F k n Hn) as [V W]. assert (T := TYPE k). change (merged (Extra k)) with (if adjusted k then x (Extra k) - lost else x (Extra k)).
          destruct (adjusted k) eqn:A.
          * destruct (AD k A) as (l' & n' & _ & _ & MA & K). rewrite <- K, Nat.eqb_refl in T. specialize (W MA). split; [lra|intros _; lra].
          * split.
            { destruct (c_type c =? k)%nat; lra. }
            intro MA. specialize (W MA). destruct (c_type c =? k)%nat eqn:K; [|lra].
            exfalso. unfold adjusted in A. destruct F as (F1 & F2 & F3). rewrite MA, F3, F1 in A. rewrite Nat.eqb_sym, K in A. cbn in A.
            apply Nat.ltb_ge in A. assert (nth_error l k <> None) by congruence. apply nth_error_Some in H. lia.
        + intro; congruence.
        + intros t H. rewrite (merged_Y t H). split; [|split; [|split; [intros [Q|Q]; congruence|discriminate]]].
          * destruct (twinb c t); [apply LR|apply x_range, in_or_app; auto].
          * destruct (twinb c t); [apply LR|apply x_range, in_or_app; auto].
        + exact (so_drop _ _ _ _ _ S).
        + exact (so_dummy _ _ _ _ _ S).
        + intros l F k Hk. destruct (so_extra _ _ _ _ _ S l F k Hk) as [X _]. split; [|discriminate]. change (merged (Extra k)) with (if adjusted k then x (Extra k) - lost else x (Extra k)).
          destruct (adjusted k) eqn:A; [|exact X]. destruct (AD k A) as (l' & n & FB & Hn & MA & K).
          destruct LC as [L|[L L1]]; [lra|]. assert (En := ENOUGH l' k n FB Hn (eq_sym K) L).
          destruct (so_fleet _ _ _ _ _ S l' FB k n Hn) as [_ W]. specialize (W MA). assert (T := TYPE k). rewrite <- K, Nat.eqb_refl in T. lra.
        + exact (so_makespan _ _ _ _ _ S).
      - unfold total_cost. rewrite NSP. rewrite (merged_sum c_cost) by (intros t (_ & T & _); symmetry; exact T).
        assert (P : 0 <= c_cost c * lost) by (apply Qmult_le_0_compat; assumption).
        assert (X : Qsum_over (seq 0 (match mo_fleet o with Some l => List.length l | None => 0 end)) (fun k => merged (Extra k))
                    <= Qsum_over (seq 0 (match mo_fleet o with Some l => List.length l | None => 0 end)) (fun k => x (Extra k))).
        { apply sum_le. intros k _. cbn [merged]. destruct (adjusted k); lra. }
        assert (Y : (10000000000 # 1) * Qsum_over (seq 0 (match mo_fleet o with Some l => List.length l | None => 0 end)) (fun k => merged (Extra k))
                    <= (10000000000 # 1) * Qsum_over (seq 0 (match mo_fleet o with Some l => List.length l | None => 0 end)) (fun k => x (Extra k))).
        { apply Qmult_le_l; [reflexivity|exact X]. }
        cbn [merged]. cbn [merged] in Y. lra.
    Qed.
  End Solution.

  Lemma best_one q q1 : best g o cs q -> best g o (cs ++ [c]) q1 -> q == q1.
  Proof.
    intros [(x & S1 & E1) B1] [(x1 & S2 & E2) B2].
    destruct (more_columns x S1) as [M1 M2]. destruct (fewer_columns x1 S2) as [F1 F2].
    assert (A := B2 _ M1). assert (B := B1 _ F1). lra.
  Qed.
  Lemma best_more q : best g o cs q -> best g o (cs ++ [c]) q.
  Proof.
    intros [(x & S1 & E1) B1]. split.
    - destruct (more_columns x S1) as [M1 M2]. exists (zeroed x). split; [exact M1|lra].
    - intros x1 S2. destruct (fewer_columns x1 S2) as [F1 F2]. assert (B := B1 _ F1). lra.
  Qed.
End One.
