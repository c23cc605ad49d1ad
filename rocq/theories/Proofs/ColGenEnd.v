(** What is concluded after column generation, with and without diving, and when the choice of a
    strategy fails. *)
From Coq Require Import Relations.
From Verif.Base Require Import Prelude Graph.
From Verif.Spec Require Import Routes Network LinProg Pricing MIP Columns Pool Master Duality Run.
From Verif.Model Require Import Args Reach Checks Preprocess ClarkeWright Greedy Initial Pricing
  GreedyPricing LPPricing Cspy Master Dive Hyper ColGen.
From Verif.Proofs Require Import RouteLemmas PricingProofs MasterProofs SelectProofs PoolProofs PoolQuality ColGenProofs RunProofs
  BoundProofs HyperProofs DiveProofs ColGenCor.

Section End.
  Variable E : env.
  Variable C : cgconfig.
  Variable g : vgraph.

  Lemma grown_extends a b : grown E C g a b -> exists new, map untag b = map untag a ++ new.
  Proof.
    intro H. induction H as [|p1 p2 H (new & IH) P|p1 p2 H (new & IH) P].
    - exists []. rewrite app_nil_r. reflexivity.
    - apply priced_step, step_good in P. destruct P as [(l & ->) _]. exists (new ++ map untag l).
      rewrite map_app, IH, app_assoc. reflexivity.
    - exists new. unfold same_columns in P. rewrite P. exact IH.
  Qed.
  Lemma grown_in a b c : grown E C g a b -> In c a -> exists c', In c' b /\ untag c' = untag c.
  Proof.
    intros H Hc. destruct (grown_extends a b H) as (new & Hn).
    assert (X : In (untag c) (map untag b)) by (rewrite Hn; apply in_or_app; left; apply in_map; exact Hc).
    apply in_map_iff in X. destruct X as (c' & E1 & E2). eauto.
  Qed.
  Lemma untag_times v c c' : untag c = untag c' -> times v c = times v c' /\ c_name c = c_name c'.
  Proof. destruct c, c'. unfold untag, times, served. cbn. intro H. injection H as -> -> -> -> -> ->. auto. Qed.

  Lemma fresh_fine s : fresh C g s -> fine (s_pool s).
  Proof.
    intros F. destruct (fs_pool _ _ _ F) as (mixed & perms & given & rs & H).
    exact (proj2 (pool_fine _ _ _ _ _ _ _ _ _ _ _ H (rt_refl _ _ _))).
  Qed.
  Lemma starts_fine s st : starts E C s st -> inv C g s -> fine (s_pool s) -> fine (s_pool st).
  Proof.
    intros H I F. induction H as [M|st s1 S IH H T L M]; [exact F|]. cbn [s_pool tick].
    assert (G := find_columns_ok E C g st s1 (starts_inv _ _ _ _ _ S I) H). destruct G as (_ & G & _).
    eapply grown_fine; eassumption.
  Qed.

  (** ** Without diving *)
  Theorem concluded_end f f2 s s' t sel dropped : fresh C g s ->
    solve_columns E C f f2 false s = Ok (s', Some (t, sel, dropped)) ->
    column_generation E C f s = Ok s' /\ grown E C g (s_pool s) (s_pool s') /\
    concluded g (cg_master C) (s_pool s') (e_master E (S (s_tick s'))) (e_master E (S (S (s_tick s')))) t sel dropped.
  Proof.
    intros F H. unfold solve_columns in H. apply bind_ok in H. destruct H as (s1 & H1 & H). apply bind_ok in H. destruct H as (r & H2 & H).
    injection H as -> ->. split; [exact H1|].
    apply generation_is_run in H1. destruct H1 as (n & _ & R). destruct (run_ok E C g n s s' R (fresh_inv _ _ _ F)) as (I & G & _).
    split; [exact G|]. unfold conclude in H2. destruct (2 <? _)%nat; [|discriminate].
    apply bind_ok in H2. destruct H2 as ([[m D] q] & H2 & H3). apply bind_ok in H3. destruct H3 as (u & H3 & H4). injection H4 as ->.
    cbn [fst] in H3. exists (s_master s'), m, (e_duals E (S (s_tick s'))), D, q. split; [exact (iv_built _ _ _ I)|]. split; [|exact H3].
    rewrite <- H2. apply solve_master_nodes. symmetry. exact (strip_nodes _ _ (iv_graph _ _ _ I)).
  Qed.

  (** ** With diving: everybody is visited, perhaps several times *)
  Theorem dive_covers f f2 s s' t sel dropped : fresh C g s -> wf g ->
    solve_columns E C f f2 true s = Ok (s', Some (t, sel, dropped)) ->
    mo_periodic (cg_master C) = false -> (forall p, ~ drops (cg_master C) p) ->
    exists st, iteration E C s st /\
      (let p := fixing (s_fixed s') (program_of (s_master st)) in
       let a := e_master E (S (S (s_tick st))) p in
       feasible (a_value a) p ->
       dropped = [] /\ NoDup sel /\ (forall c, In c sel -> In c (s_pool s')) /\
       (forall c, In (Y (c_name c)) (s_fixed s') -> In c (s_pool st) -> exists c', In c' sel /\ untag c' = untag c) /\
       forall v d, customer g v d -> exists c, In c sel /\ (0 < times v c)%nat).
  Proof.
    intros F W H PER ND. unfold solve_columns in H. apply bind_ok in H. destruct H as (s1 & H1 & H). apply bind_ok in H. destruct H as (r & H2 & H).
    injection H as -> ->.
    unfold generate_and_dive in H1. apply bind_ok in H1. destruct H1 as (s0 & H0 & H).
    assert (H0' := H0). apply generation_is_run in H0. destruct H0 as (n0 & _ & R0). apply generation_is_run in H. destruct H as (n & _ & R).
    destruct (run_ok E C g n0 s s0 R0 (fresh_inv _ _ _ F)) as (I0 & G0 & _).
    assert (DI := run_fixes E C n0 s s0 R0 (fresh_dive_inv _ _ _ F)). apply start_dive_inv in DI.
    destruct (run_ends E C n _ s' R eq_refl) as (st & sl & S1 & S2 & -> & _).
    assert (Ist := starts_inv _ _ _ _ _ S1 (inv_dive C g s0 I0)).
    assert (Dst : s_dive st = true) by (rewrite (starts_dive _ _ _ _ S1); reflexivity).
    assert (DIst : dive_inv st).
    { clear - S1 DI. induction S1 as [M|st s1 S IH H T L M]; [exact DI|]. assert (I1 := find_inv E C _ _ IH H).
      destruct I1. constructor; assumption. }
    destruct (dive_iteration E C st sl Dst DIst S2) as (_ & added & A1 & A2 & A3).
    destruct (find_columns_ok E C g st sl Ist S2) as (Isl & Gsl & _).
    assert (Fst : fine (s_pool st)).
    { eapply starts_fine; [exact S1|exact (inv_dive C g s0 I0)|]. cbn [s_pool start_dive]. eapply grown_fine; [exact G0|apply fresh_fine; exact F]. }
    assert (LAB : forall c, In c (s_pool st) -> labelled c) by (intros c Hc; apply (Fst c Hc)).
    assert (SH := built_shape _ _ _ _ (iv_built _ _ _ Ist)).
    exists st. split; [eapply it_dive; eassumption|]. cbv zeta. intro FE.
    cbn [s_fixed tick] in *. cbn [s_pool tick].
    unfold conclude in H2. apply bind_ok in H2. destruct H2 as (u & H2 & H3). injection H3 as ->.
    cbn [s_master s_values s_pool tick] in H2. apply selected in H2. destruct H2 as (-> & -> & _).
    assert (TD : truthyQ (mo_drop (cg_master C)) = false).
    { destruct (mo_drop (cg_master C)) as [p|] eqn:Ed; [|reflexivity]. destruct (Qeq_bool p 0) eqn:X.
      - unfold truthyQ. rewrite X. reflexivity.
      - exfalso. apply (ND p). split; [exact Ed|]. apply Qeq_bool_neq. exact X. }
    rewrite TD. split; [reflexivity|]. split.
    { apply NoDup_filter. apply (NoDup_map_inv (fun c => number (c_name c))). apply numbered_names. exact (iv_numbered _ _ _ Isl). }
    split; [intros c Hc; apply filter_In in Hc; tauto|].
    set (a := e_master E (S (S (s_tick st))) (fixing (s_fixed sl) (program_of (s_master st)))) in *.
    assert (VAL : forall c, In c (s_pool st) -> s_values sl (Y (c_name c)) = a_value a (Y (c_name c))).
    { intros c Hc. rewrite A3. unfold values_of.
      assert (HV := has_variables g (cg_master C) (s_pool st) (s_master st) LAB SH c Hc).
      assert (M : mem_var (Y (c_name c)) (map mc_var (ms_cols (s_master st))) = true).
      { unfold has_variable in HV. apply existsb_exists in HV. destruct HV as (y & Hy & Ey).
        apply mem_var_iff. destruct (mc_var y) as [nm| | | |] eqn:Ev; try discriminate. apply cname_eqb_eq in Ey. subst nm.
        rewrite <- Ev. apply in_map. exact Hy. }
      rewrite M. reflexivity. }
    assert (PICK : forall c, In c (s_pool st) -> 0 < a_value a (Y (c_name c)) -> exists c', In c' (chosen (s_values sl) (s_pool sl)) /\ untag c' = untag c).
    { intros c Hc Hp. destruct (grown_in _ _ c Gsl Hc) as (c' & C1 & C2). exists c'. split; [|exact C2].
      apply filter_In. split; [exact C1|]. apply Qltb_lt. destruct (untag_times Source c' c C2) as [_ ->]. rewrite (VAL c Hc). exact Hp. }
    apply fixing_iff in FE. destruct FE as [FE FX]. split.
    - intros c Hf Hc. apply PICK; [exact Hc|]. rewrite (FX _ Hf). reflexivity.
    - intros v d Hv. apply (feasible_iff g (cg_master C) (s_pool st) (s_master st) W LAB SH false) in FE.
      destruct (so_visits _ _ _ _ _ FE v d Hv) as [V _]. unfold count_visits, required in V. rewrite TD, PER in V. cbn [andb] in V.
      assert (EX : exists c, In c (s_pool st) /\ (0 < times v c)%nat /\ 0 < a_value a (Y (c_name c))).
      { assert (P0 : forall c, In c (s_pool st) -> 0 <= a_value a (Y (c_name c))) by (intros c Hc; apply (so_routes _ _ _ _ _ FE c Hc)).
        assert (V1 : 0 < Qsum_over (s_pool st) (fun c => inject_Z (Z.of_nat (times v c)) * a_value a (Y (c_name c)))) by lra.
        clear - V1 P0. unfold Qsum_over in V1. revert V1 P0. generalize (s_pool st). intro l. induction l as [|c l IH]; intros V P.
        - cbn in V. lra.
        - cbn [map] in V. rewrite Qsum_cons in V. destruct (times v c) as [|k] eqn:Et.
          + destruct IH as (c1 & C1 & C2 & C3); [change (inject_Z (Z.of_nat 0)) with 0 in V; lra|intros; apply P; right; assumption|].
            exists c1. split; [right; exact C1|auto].
          + destruct (Qltb 0 (a_value a (Y (c_name c)))) eqn:X.
            * apply Qltb_lt in X. exists c. split; [left; reflexivity|]. split; [lia|exact X].
            * apply Qltb_ge in X. assert (Z := P c (or_introl eq_refl)). assert (Z0 : a_value a (Y (c_name c)) == 0) by lra.
              rewrite Z0 in V. destruct IH as (c1 & C1 & C2 & C3); [lra|intros; apply P; right; assumption|].
              exists c1. split; [right; exact C1|auto]. }
      destruct EX as (c & C1 & C2 & C3). destruct (PICK c C1 C3) as (c' & P1 & P2). exists c'. split; [exact P1|].
      destruct (untag_times v c' c P2) as [-> _]. exact C2.
  Qed.
End End.
