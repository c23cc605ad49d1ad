(** The diving heuristic. *)
From Verif.Base Require Import Prelude Graph.
From Verif.Spec Require Import Routes Network LinProg Pool Master Run.
From Verif.Model Require Import Args Reach Checks Preprocess ClarkeWright Greedy Initial Pricing
  GreedyPricing LPPricing Cspy Master Dive Hyper ColGen.
From Verif.Proofs Require Import ColGenProofs RunProofs HyperProofs.
From Coq Require Qround Qabs.

Lemma mvar_eqb_eq a b : mvar_eqb a b = true <-> a = b.
Proof.
  destruct a, b; cbn; split; intro H; try discriminate; try reflexivity.
  - apply cname_eqb_eq in H. congruence.
  - injection H as ->. apply cname_eqb_eq. reflexivity.
  - apply node_eqb_eq in H. congruence.
  - injection H as ->. apply node_eqb_eq. reflexivity.
  - apply node_eqb_eq in H. congruence.
  - injection H as ->. apply node_eqb_eq. reflexivity.
  - apply Nat.eqb_eq in H. congruence.
  - injection H as ->. apply Nat.eqb_refl.
Qed.
Lemma mem_var_iff v l : mem_var v l = true <-> In v l.
Proof.
  unfold mem_var. rewrite existsb_exists. split.
  - intros (w & Hw & E). apply mvar_eqb_eq in E. subst w. exact Hw.
  - intro H. exists v. split; [exact H|]. apply mvar_eqb_eq. reflexivity.
Qed.

Lemma fractional_zero q : fractional q == 0 <-> whole q.
Proof.
  unfold fractional. set (f := q - inject_Z (Qround.Qfloor q)).
  assert (F1 := Qround.Qfloor_le q). assert (F2 := Qround.Qlt_floor q). rewrite inject_Z_plus in F2. change (inject_Z 1) with 1 in F2.
  destruct (Qle_bool f (1 - f)) eqn:X; split.
  - intro H. exists (Qround.Qfloor q). unfold f in H. lra.
  - intros (z & Hz). unfold f. assert (Z : Qround.Qfloor q = z) by (rewrite (Qround.Qfloor_comp _ _ Hz); apply Qround.Qfloor_Z). rewrite Z. lra.
  - intro H. unfold f in H. lra.
  - intros (z & Hz). exfalso. assert (Z : Qround.Qfloor q = z) by (rewrite (Qround.Qfloor_comp _ _ Hz); apply Qround.Qfloor_Z).
    assert (Hf : f == 0) by (unfold f; rewrite Z; lra). rewrite <- Bool.not_true_iff_false, Qle_bool_iff in X. apply X. lra.
Qed.

(** fractional is the distance to the nearest integer *)
Lemma fractional_dist q z : fractional q <= Qabs.Qabs (q - inject_Z z).
Proof.
  unfold fractional. set (f := q - inject_Z (Qround.Qfloor q)).
  assert (F1 := Qround.Qfloor_le q). assert (F2 := Qround.Qlt_floor q). rewrite inject_Z_plus in F2. change (inject_Z 1) with 1 in F2.
  assert (M : (if Qle_bool f (1 - f) then f else 1 - f) <= f /\ (if Qle_bool f (1 - f) then f else 1 - f) <= 1 - f).
  { destruct (Qle_bool f (1 - f)) eqn:X; [apply Qle_bool_iff in X; lra|].
    rewrite <- Bool.not_true_iff_false, Qle_bool_iff in X. lra. }
  destruct (Z_le_gt_dec z (Qround.Qfloor q)) as [L|G].
  - assert (Lq : inject_Z z <= inject_Z (Qround.Qfloor q)) by (rewrite <- Zle_Qle; exact L).
    eapply Qle_trans; [exact (proj1 M)|]. eapply Qle_trans; [|apply Qabs.Qle_Qabs]. unfold f. lra.
  - assert (Gq : inject_Z (Qround.Qfloor q + 1) <= inject_Z z) by (rewrite <- Zle_Qle; lia).
    rewrite inject_Z_plus in Gq. change (inject_Z 1) with 1 in Gq.
    eapply Qle_trans; [exact (proj2 M)|]. rewrite <- Qabs.Qabs_opp. eapply Qle_trans; [|apply Qabs.Qle_Qabs]. unfold f. lra.
Qed.

Lemma fractional_attained q : exists z, fractional q == Qabs.Qabs (q - inject_Z z).
Proof.
  unfold fractional. set (f := q - inject_Z (Qround.Qfloor q)).
  assert (F1 := Qround.Qfloor_le q). assert (F2 := Qround.Qlt_floor q). rewrite inject_Z_plus in F2. change (inject_Z 1) with 1 in F2.
  destruct (Qle_bool f (1 - f)).
  - exists (Qround.Qfloor q). rewrite Qabs.Qabs_pos; unfold f; lra.
  - exists (Qround.Qfloor q + 1)%Z. rewrite inject_Z_plus. change (inject_Z 1) with 1. rewrite Qabs.Qabs_neg; unfold f; lra.
Qed.
Lemma fractional_distance q d : distance_to_integers q d <-> d == fractional q.
Proof.
  split.
  - intros [(z & Hz) H]. assert (A := fractional_dist q z). destruct (fractional_attained q) as (z' & Hz'). assert (B := H z'). lra.
  - intro H. split; [destruct (fractional_attained q) as (z & Hz); exists z; lra|]. intro z. rewrite H. apply fractional_dist.
Qed.

Lemma least_spec key : forall l b, (In (least key b l) (b :: l)) /\ forall w, In w (b :: l) -> key (least key b l) <= key w.
Proof.
  induction l as [|v l IH]; intro b; cbn [least].
  - split; [left; reflexivity|]. intros w [<-|[]]. apply Qle_refl.
  - destruct (Qltb (key v) (key b)) eqn:X.
    + destruct (IH v) as [I1 I2]. apply Qltb_lt in X. split; [right; exact I1|]. intros w [<-|Hw].
      * eapply Qle_trans; [apply (I2 v); left; reflexivity|]. lra.
      * apply I2. exact Hw.
    + destruct (IH b) as [I1 I2]. apply Qltb_ge in X. split.
      * destruct I1 as [I1|I1]; [left; exact I1|right; right; exact I1].
      * intros w [<-|[<-|Hw]]; [apply I2; left; reflexivity| |apply I2; right; exact Hw].
        eapply Qle_trans; [apply (I2 b); left; reflexivity|exact X].
Qed.

(** ** Fixing variables *)
Theorem fixing_iff fixed p x : feasible x (fixing fixed p) <-> feasible x p /\ forall v, In v fixed -> x v == 1.
Proof.
  split.
  - intros [F1 F2]. cbn [fixing p_rows p_vars] in *. split; [constructor; [|exact F2]; intros r Hr; apply F1, in_or_app; auto|].
    intros v Hv. assert (H1 : holds x (mkRow [(1, v)] LE 1)).
    { apply F1, in_or_app. right. apply in_flat_map. exists v. split; [exact Hv|left; reflexivity]. }
    assert (H2 : holds x (mkRow [(1, v)] GE 1)).
    { apply F1, in_or_app. right. apply in_flat_map. exists v. split; [exact Hv|right; left; reflexivity]. }
    unfold holds, value in H1, H2. cbn in H1, H2. lra.
  - intros [[F1 F2] H]. constructor; [|exact F2]. cbn [fixing p_rows]. intros r Hr. apply in_app_or in Hr.
    destruct Hr as [Hr|Hr]; [apply F1; exact Hr|]. apply in_flat_map in Hr. destruct Hr as (v & Hv & Hr). assert (E := H v Hv).
    destruct Hr as [<-|[<-|[]]]; unfold holds, value; cbn; lra.
Qed.

(** ** One dive *)
Theorem run_dive_cases resolve p vars x d d1 added : run_dive resolve p vars x d = Ok (d1, added) ->
  ((max_depth < dv_depth d)%nat \/ (forall v, ~ candidate x vars (dv_tabu d) v)) /\ added = [] /\ d1 = d \/
  (dv_depth d <= max_depth)%nat /\ exists v, candidate x vars (dv_tabu d) v /\
    (forall w, candidate x vars (dv_tabu d) w -> fractional (x v) <= fractional (x w)) /\
    dv_depth d1 = S (dv_depth d) /\ dv_tabu d1 = dv_tabu d ++ [v] /\
    (a_status (resolve 0%nat (fixing [v] p)) = Optimal /\ added = [v] /\ dv_level d1 = S (dv_level d) \/
     a_status (resolve 0%nat (fixing [v] p)) <> Optimal /\ added = [] /\ dv_level d = S (dv_level d1)).
Proof.
  unfold run_dive, max_discrepancy. cbn [dive_loop]. intro H. apply bind_ok in H. destruct H as ([[d2 tabu] ad] & H1 & H). injection H as <- <-.
  destruct (dv_depth d <=? max_depth)%nat eqn:Dp.
  2:{ injection H1 as <- <- <-. left. apply Nat.leb_gt in Dp. split; [auto|]. split; [reflexivity|]. rewrite app_nil_r. destruct d; reflexivity. }
  apply Nat.leb_le in Dp.
  set (cands := filter (fun v => negb (mem_var v (dv_tabu d)) && negb (mem_var v []))
                  (filter (fun v => negb (Qeq_bool (fractional (x v)) 0)) vars)) in H1.
  assert (CI : forall v, In v cands <-> candidate x vars (dv_tabu d) v).
  { intro v. unfold cands. rewrite !filter_In. rewrite andb_true_iff. change (mem_var v []) with false. cbn [negb].
    rewrite (negb_true_iff (mem_var v (dv_tabu d))). split.
    - intros [[A1 A2] [A3 _]]. constructor; [exact A1| |].
      + intro W. apply fractional_zero, Qeq_bool_iff in W. rewrite W in A2. discriminate.
      + intro T. apply mem_var_iff in T. congruence.
    - intros [A1 A2 A3]. split; [split; [exact A1|]|split; [|reflexivity]].
      + destruct (Qeq_bool (fractional (x v)) 0) eqn:X; [|reflexivity]. exfalso. apply A2, fractional_zero, Qeq_bool_iff. exact X.
      + rewrite <- Bool.not_true_iff_false, mem_var_iff. exact A3. }
  destruct cands as [|v0 vs].
  { injection H1 as <- <- <-. left. split; [right; intros v Hv; apply CI in Hv; exact Hv|]. split; [reflexivity|].
    rewrite app_nil_r. destruct d; reflexivity. }
  right. split; [exact Dp|].
  destruct (least_spec (fun w => fractional (x w)) vs v0) as [L1 L2].
  set (v := least (fun w => fractional (x w)) v0 vs) in *. exists v. split; [apply CI; exact L1|].
  split; [intros w Hw; apply L2, CI; exact Hw|].
  cbn [dv_depth dv_level dv_tabu app] in H1.
  destruct (status_eqb (a_status (resolve 0%nat (fixing [v] p))) Optimal) eqn:X.
  - cbn [dive_loop] in H1. injection H1 as <- <- <-. cbn [dv_depth dv_level dv_tabu]. split; [reflexivity|]. split; [reflexivity|].
    left. split; [|auto]. destruct (a_status _); try discriminate; reflexivity.
  - destruct (dv_level d) as [|l] eqn:Lv; [discriminate|]. cbn [dive_loop] in H1. injection H1 as <- <- <-. cbn [dv_depth dv_level dv_tabu].
    split; [reflexivity|]. split; [reflexivity|]. right. split; [|auto]. intro Y. rewrite Y in X. discriminate.
Qed.

(** The only failure: the first variable ever fixed (or the first after as many steps back as
    forth) makes the relaxation infeasible. *)
Theorem run_dive_fails resolve p vars x d e : run_dive resolve p vars x d = Err e <->
  e = AttributeError /\ (dv_depth d <= max_depth)%nat /\ dv_level d = 0%nat /\
  exists v0 vs, filter (fun v => negb (mem_var v (dv_tabu d)) && negb (mem_var v []))
                  (filter (fun v => negb (Qeq_bool (fractional (x v)) 0)) vars) = v0 :: vs /\
    a_status (resolve 0%nat (fixing [least (fun w => fractional (x w)) v0 vs] p)) <> Optimal.
Proof.
  unfold run_dive, max_discrepancy. cbn [dive_loop].
  destruct (dv_depth d <=? max_depth)%nat eqn:Dp.
  2:{ cbn [bind]. apply Nat.leb_gt in Dp. split; [discriminate|]. intros (_ & X & _). lia. }
  apply Nat.leb_le in Dp.
  destruct (filter _ (filter _ vars)) as [|v0 vs].
  { cbn [bind]. split; [discriminate|]. intros (_ & _ & _ & v0 & vs & X & _). discriminate. }
  cbn [dv_depth dv_level dv_tabu app].
  destruct (status_eqb _ Optimal) eqn:X.
  - cbn [dive_loop bind]. split; [discriminate|]. intros (_ & _ & _ & a & b & Ab & N). injection Ab as <- <-. exfalso. apply N.
    destruct (a_status _); try discriminate; reflexivity.
  - destruct (dv_level d) as [|l].
    + cbn [bind]. split.
      * intro H. injection H as <-. split; [reflexivity|]. split; [exact Dp|]. split; [reflexivity|]. exists v0, vs. split; [reflexivity|].
        intro Y. rewrite Y in X. discriminate.
      * intros (-> & _). reflexivity.
    + cbn [dive_loop bind]. split; [discriminate|]. intros (_ & _ & Y & _). discriminate.
Qed.

(** ** All dives of a run *)
Record dive_inv (s : state) : Prop := {
  di_NoDup : NoDup (s_fixed s);
  di_tabu : incl (s_fixed s) (dv_tabu (s_diving s));
  di_count : (List.length (s_fixed s) <= dv_depth (s_diving s))%nat;
  di_depth : (dv_depth (s_diving s) <= S max_depth)%nat
}.

Section Dives.
  Variable E : env.
  Variable C : cgconfig.

  Lemma rest_keeps s s1 D q s' : solve_relaxed E C s = Ok (s1, D, q) -> find_columns E C s = Ok s' ->
    s_fixed s' = s_fixed s1 /\ s_diving s' = s_diving s1 /\ s_values s' = s_values s1.
  Proof.
    intros H1 H. unfold find_columns in H. rewrite H1 in H. cbn [bind] in H.
    apply bind_ok in H. destruct H as ([s2 p] & H2 & H). apply bind_ok in H. destruct H as (s3 & H3 & H4). cbn [fst snd] in H3.
    unfold progress in H4. apply bind_ok in H4. destruct H4 as (b & _ & H4). injection H4 as <-. cbn [s_fixed s_diving s_values set_progress].
    assert (X : s_values s2 = s_values s1 /\ s_fixed s2 = s_fixed s1 /\ s_diving s2 = s_diving s1).
    { unfold next_strategy in H2. destruct (_ =? _)%Z; [injection H2 as <- <-; auto|].
      destruct (cg_strategy C); [injection H2 as <- <-; auto|]. destruct (s_iter s1 =? 0)%nat.
      - apply bind_ok in H2. destruct H2 as (hh & _ & H2). injection H2 as <- <-. auto.
      - apply bind_ok in H2. destruct H2 as (t2 & Ht2 & H2). apply bind_ok in H2. destruct H2 as (hh & _ & H2).
        destruct (pick_heuristic _ hh) as [h1 p1]. injection H2 as <- <-. unfold update_hyper in Ht2.
        apply bind_ok in Ht2. destruct Ht2 as ([[pool counts] total] & _ & Ht2). apply bind_ok in Ht2. destruct Ht2 as (h2 & _ & Ht2).
        apply bind_ok in Ht2. destruct Ht2 as (h3 & _ & Ht2). apply bind_ok in Ht2. destruct Ht2 as (h4 & _ & Ht2). injection Ht2 as <-.
        auto. }
    assert (W : forall ks u u', (forall k, In k ks -> (k < cg_types C)%nat) -> vehicles E C p D ks u = Ok u' ->
      s_values u' = s_values u /\ s_fixed u' = s_fixed u /\ s_diving u' = s_diving u).
    { induction ks as [|k ks IH]; intros u u' Hks Hu; cbn [vehicles] in Hu; [injection Hu as <-; auto|].
      assert (Hk := Hks k (or_introl eq_refl)).
      apply bind_ok in Hu. destruct Hu as (u1 & Hu1 & Hu). cbv zeta in Hu. apply bind_ok in Hu. destruct Hu as ([u2 b2] & Hu2 & Hu).
      cbn [fst snd] in Hu.
      assert (Q1 : s_values u1 = s_values u /\ s_fixed u1 = s_fixed u /\ s_diving u1 = s_diving u).
      { unfold greedy_step in Hu1. destruct (greedy_applies C); [|injection Hu1 as <-; auto].
        apply bind_ok in Hu1. destruct Hu1 as (h & _ & Hu1). apply bind_ok in Hu1. destruct Hu1 as ([pool more] & _ & Hu1). cbn [fst snd] in Hu1.
        destruct more; [|injection Hu1 as <-; auto]. apply bind_ok in Hu1. destruct Hu1 as (m & _ & Hu1). injection Hu1 as <-. auto. }
      assert (L : looked E C (s_graph s) (set_more false u1) u2 b2).
      { destruct (mo_span (cg_master C)); [eapply per_route_looked|eapply solve_subproblem_looked]; eassumption. }
      assert (Lf := lk_frame _ _ _ _ _ _ L). destruct Lf as [_ F1 F2 F3 _ _ _ _ _ _ _]. cbn [s_values s_fixed s_diving set_more] in F1, F2, F3.
      destruct Q1 as (Q1 & Q2 & Q3). destruct b2.
      - unfold adopt in Hu. apply bind_ok in Hu. destruct Hu as (c & _ & Hu). apply bind_ok in Hu. destruct Hu as (m & _ & Hu).
        injection Hu as <-. cbn [s_values s_fixed s_diving set_master set_more]. repeat split; congruence.
      - apply bind_ok in Hu. destruct Hu as (u4 & Hu4 & Hu).
        destruct (IH u4 u') as (I1 & I2 & I3); [intros k' Hk'; apply Hks; right; exact Hk'|exact Hu|].
        assert (Y : s_values u4 = s_values u2 /\ s_fixed u4 = s_fixed u2 /\ s_diving u4 = s_diving u2).
        { destruct (cg_strategy C); [injection Hu4 as <-; auto|].
          apply bind_ok in Hu4. destruct Hu4 as (h & _ & Hu4). injection Hu4 as <-. auto. }
        destruct Y as (Y1 & Y2 & Y3). repeat split; congruence. }
    destruct X as (X1 & X2 & X3). destruct (W (seq 0 (cg_types C)) s2 s3) as (W1 & W2 & W3); [|exact H3|].
    { intros k Hk. apply in_seq in Hk. lia. }
    repeat split; congruence.
  Qed.

  (** One iteration while diving: at most one variable is fixed, a new one, and the values left
      behind answer the problem with all fixed variables at 1. *)
  Theorem dive_iteration s s' : s_dive s = true -> dive_inv s -> find_columns E C s = Ok s' ->
    dive_inv s' /\
    exists added, s_fixed s' = s_fixed s ++ added /\ (List.length added <= 1)%nat /\
      s_values s' = values_of (s_master s)
        (e_master E (S (S (s_tick s))) (fixing (s_fixed s') (program_of (s_master s)))).
  Proof.
    intros Dv [I1 I2 I3 I4] H.
    assert (HR : exists s1 D q, solve_relaxed E C s = Ok (s1, D, q)).
    { unfold find_columns in H. apply bind_ok in H. destruct H as ([[s1 D] q] & H1 & _). eauto. }
    destruct HR as (s1 & D & q & H1). destruct (rest_keeps _ _ _ _ _ H1 H) as (R1 & R2 & R3).
    unfold solve_relaxed in H1. cbn [s_dive tick] in H1. rewrite Dv in H1. apply bind_ok in H1.
    destruct H1 as ([[[d fx] D1] a] & Hd & H1). cbn [s_graph s_pool s_master s_fixed s_diving tick s_tick] in Hd.
    unfold solve_and_dive in Hd. apply bind_ok in Hd. destruct Hd as ([d1 added] & Hd & Hx). apply bind_ok in Hx.
    destruct Hx as (D2 & _ & Hx). injection Hx as <- <- <- <-.
    assert (S1 : s_fixed s1 = s_fixed s ++ added /\ s_diving s1 = d1 /\
      s_values s1 = values_of (s_master s) (e_master E (S (S (s_tick s))) (fixing (s_fixed s ++ added) (program_of (s_master s))))).
    { cbn [s_hyper set_solution tick] in H1. destruct (s_hyper s); injection H1 as <- <- <-; cbn; auto. }
    destruct S1 as (S1 & S2 & S3). rewrite S1 in R1. rewrite S2 in R2. rewrite S3 in R3.
    destruct (run_dive_cases _ _ _ _ _ _ _ Hd) as [(C1 & C2 & C3)|(Dp & v & C1 & C2 & C3 & C4 & C5)].
    - subst added. rewrite app_nil_r in *. rewrite C3 in R2. split.
      + constructor; rewrite ?R1, ?R2; assumption.
      + exists []. rewrite app_nil_r. split; [exact R1|]. split; [cbn; lia|]. rewrite R1. exact R3.
    - assert (Ad : added = [v] \/ added = []) by (destruct C5 as [(_ & X & _)|(_ & X & _)]; auto).
      split.
      + constructor; rewrite ?R1, ?R2.
        * destruct Ad as [-> | ->]; [|rewrite app_nil_r; exact I1].
          apply (Permutation_NoDup (l := v :: s_fixed s)); [apply Permutation_cons_append|]. constructor; [|exact I1].
          intro X. apply (cd_tabu _ _ _ _ C1). apply I2. exact X.
        * rewrite C4. intros w Hw. apply in_or_app. apply in_app_or in Hw. destruct Hw as [Hw|Hw]; [left; apply I2; exact Hw|right].
          destruct Ad as [-> | ->]; [exact Hw|destruct Hw].
        * rewrite C3, app_length. destruct Ad as [-> | ->]; cbn; lia.
        * rewrite C3. lia.
      + exists added. split; [exact R1|]. split; [destruct Ad as [-> | ->]; cbn; lia|]. rewrite R1. exact R3.
  Qed.

  Lemma nodive_iteration s s' : s_dive s = false -> dive_inv s -> find_columns E C s = Ok s' ->
    dive_inv s' /\ s_fixed s' = s_fixed s.
  Proof.
    intros Dv [I1 I2 I3 I4] H.
    assert (HR : exists s1 D q, solve_relaxed E C s = Ok (s1, D, q)).
    { unfold find_columns in H. apply bind_ok in H. destruct H as ([[s1 D] q] & H1 & _). eauto. }
    destruct HR as (s1 & D & q & H1). destruct (rest_keeps _ _ _ _ _ H1 H) as (R1 & R2 & R3).
    destruct (solve_relaxed_master E C s s1 D q Dv H1) as (_ & _ & S1 & S2).
    rewrite S1 in R1. rewrite S2 in R2. split; [constructor; rewrite ?R1, ?R2; assumption|exact R1].
  Qed.

  Lemma find_inv s s' : dive_inv s -> find_columns E C s = Ok s' -> dive_inv s'.
  Proof.
    intros I H. destruct (s_dive s) eqn:Dv; [apply (dive_iteration s s' Dv I H)|apply (nodive_iteration s s' Dv I H)].
  Qed.

  (** Over any number of dives at most four variables are fixed, no one twice. *)
  Theorem run_fixes n s s' : run E C n s s' -> dive_inv s -> dive_inv s'.
  Proof.
    intro R. induction R as [s M|s s1 M H L|n s s1 s2 M H T L R IH]; intro I.
    - exact I.
    - assert (I1 := find_inv _ _ I H). destruct I1. constructor; assumption.
    - apply IH. assert (I1 := find_inv _ _ I H). destruct I1. constructor; assumption.
  Qed.
  Lemma start_dive_inv s : dive_inv s -> dive_inv (start_dive s).
  Proof. intros []. constructor; assumption. Qed.
End Dives.
