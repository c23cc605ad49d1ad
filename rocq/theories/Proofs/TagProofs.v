(** Which strategy found a column. *)
From Verif.Base Require Import Prelude Graph.
From Verif.Spec Require Import Routes Network LinProg Pool Master Run History.
From Verif.Model Require Import Args Reach Checks Preprocess ClarkeWright Greedy Initial Pricing
  GreedyPricing LPPricing Cspy Master Dive Hyper ColGen.
From Verif.Proofs Require Import ColGenProofs RunProofs HyperProofs.

Section Greedy.
  Variables (h : vgraph) (caps : option (list Z)) (ns dur : option Z) (k : nat) (keys : list node).
  Lemma attempt_unmarked fw : forall picks s s', foldM (p_attempt h caps ns dur k keys fw) picks s = Ok s' ->
    exists new, fst s' = fst s ++ new /\ unmarked new.
  Proof.
    induction picks as [|pk picks IH]; intros s s' H; cbn [foldM] in H.
    - injection H as <-. exists []. rewrite app_nil_r. split; [reflexivity|constructor].
    - apply bind_ok in H. destruct H as (s1 & H1 & H). destruct (IH _ _ H) as (new & -> & N). unfold p_attempt in H1.
      apply bind_ok in H1. destruct H1 as (r & _ & H1). destruct (_ && _).
      + apply bind_ok in H1. destruct H1 as (routes & H2 & H1). injection H1 as <-. cbn [fst].
        unfold p_new_route in H2. destruct (digraph_of _) as [a b]. apply bind_ok in H2. destruct H2 as (q & _ & H2). injection H2 as <-.
        eexists. rewrite <- app_assoc. split; [reflexivity|]. apply Forall_app. split; [repeat constructor|exact N].
      + injection H1 as <-. eauto.
  Qed.
  Lemma greedy_unmarked routes n rnd pool more : greedy_pricing h caps ns dur k keys routes n rnd = Ok (pool, more) ->
    exists new, pool = routes ++ new /\ unmarked new.
  Proof.
    unfold greedy_pricing. intro H. apply bind_ok in H. destruct H as (s & H1 & H).
    destruct (attempt_unmarked _ _ _ _ H1) as (n1 & E1 & U1). destruct (attempt_unmarked _ _ _ _ H) as (n2 & E2 & U2).
    cbn [fst] in E1, E2. exists (n1 ++ n2). rewrite E2, E1, app_assoc. split; [reflexivity|]. apply Forall_app. auto.
  Qed.
End Greedy.

Section Tags.
  Variable E : env.
  Variable C : cgconfig.

  Lemma vehicles_tags p D : forall ks s s', (forall k, In k ks -> (k < cg_types C)%nat) -> s_more s = true ->
    vehicles E C p D ks s = Ok s' ->
    exists new, unmarked new /\
      (s_more s' = false /\ s_pool s' = s_pool s ++ new \/
       s_more s' = true /\ (ks = [] \/ exists c, s_pool s' = s_pool s ++ new ++ [c] /\ c_tag c = Some (mark p))).
  Proof.
    assert (X : forall ks s s', (forall k, In k ks -> (k < cg_types C)%nat) -> vehicles E C p D ks s = Ok s' ->
      exists new, unmarked new /\
      (s_more s' = (match ks with [] => s_more s | _ => false end) /\ s_pool s' = s_pool s ++ new \/
       s_more s' = true /\ exists c, s_pool s' = s_pool s ++ new ++ [c] /\ c_tag c = Some (mark p))).
    { induction ks as [|k ks IH]; intros s s' Hks H; cbn [vehicles] in H.
      { injection H as <-. exists []. split; [constructor|]. left. rewrite app_nil_r. auto. }
      assert (Hk := Hks k (or_introl eq_refl)).
      apply bind_ok in H. destruct H as (s1 & H1 & H). cbv zeta in H. apply bind_ok in H. destruct H as ([s2 b] & H2 & H). cbn [fst snd] in H.
      assert (G : exists n1, s_pool s1 = s_pool s ++ n1 /\ unmarked n1).
      { unfold greedy_step in H1. destruct (greedy_applies C); [|injection H1 as <-; exists []; rewrite app_nil_r; split; [reflexivity|constructor]].
        apply bind_ok in H1. destruct H1 as (h1 & _ & H1). apply bind_ok in H1. destruct H1 as ([pool more] & Hg & H1). cbn [fst snd] in H1.
        apply greedy_unmarked in Hg. destruct more; [apply bind_ok in H1; destruct H1 as (m & _ & H1)|]; injection H1 as <-; exact Hg. }
      destruct G as (n1 & G1 & U1).
      assert (L : looked E C (s_graph s) (set_more false s1) s2 b).
      { destruct (mo_span (cg_master C)); [eapply per_route_looked|eapply solve_subproblem_looked]; eassumption. }
      destruct b.
      - destruct (lk_some _ _ _ _ _ _ L eq_refl) as (c & Ec). cbn [s_pool set_more] in Ec.
        unfold adopt in H. cbn [s_pool set_more s_master] in H. rewrite Ec in H. rewrite tag_last_snoc in H.
        apply bind_ok in H. destruct H as (d & Hd & H). apply bind_ok in H. destruct H as (m & Hm & H). injection H as <-.
        exists n1. split; [exact U1|]. right. split; [reflexivity|]. exists (set_tag (mark p) c). cbn [s_pool set_master].
        rewrite G1, <- app_assoc. auto.
      - assert (Ec := lk_none _ _ _ _ _ _ L eq_refl). cbn [s_pool set_more] in Ec.
        apply bind_ok in H. destruct H as (s4 & H4 & H).
        assert (P4 : s_pool s4 = s_pool s ++ n1 /\ s_more s4 = false).
        { destruct (cg_strategy C); [injection H4 as <-|apply bind_ok in H4; destruct H4 as (hy & _ & H4); injection H4 as <-];
            (split; [cbn; congruence|reflexivity]). }
        destruct P4 as [P4 M4].
        destruct (IH s4 s' (fun k' Hk' => Hks k' (or_intror Hk')) H) as (n2 & U2 & [[R1 R2]|(R1 & c & R2 & R3)]).
        + exists (n1 ++ n2). split; [apply Forall_app; auto|]. left. split; [destruct ks; congruence|]. rewrite R2, P4, app_assoc. reflexivity.
        + exists (n1 ++ n2). split; [apply Forall_app; auto|]. right. split; [exact R1|]. exists c. rewrite R2, P4, !app_assoc. auto. }
    intros ks s s' Hks M H. destruct (X ks s s' Hks H) as (new & U & [[R1 R2]|(R1 & R2)]).
    - exists new. split; [exact U|]. destruct ks; [right; rewrite M in R1; auto|left; auto].
    - exists new. split; [exact U|]. right. auto.
  Qed.

  Lemma tag_other_remarked x pool : Forall2 (remarked x) pool (map (tag_other x) pool).
  Proof.
    induction pool as [|c pool IH]; [constructor|]. cbn [map]. constructor; [|exact IH]. unfold remarked, tag_other.
    destruct (active x c) eqn:A; [|auto]. destruct (c_tag c) eqn:T; [auto|]. split; [reflexivity|]. right. apply Qltb_lt in A. auto.
  Qed.
  Lemma remarked_refl x pool : Forall2 (remarked x) pool pool.
  Proof. induction pool as [|c pool IH]; constructor; [split; auto|exact IH]. Qed.

  Lemma next_tags q s s2 p : next_strategy E C q s = Ok (s2, p) -> Forall2 (remarked (s_values s)) (s_pool s) (s_pool s2) /\ s_more s2 = s_more s.
  Proof.
    intro H. unfold next_strategy in H. destruct (_ =? _)%Z; [injection H as <- <-; split; [apply remarked_refl|reflexivity]|].
    destruct (cg_strategy C); [injection H as <- <-; split; [apply remarked_refl|reflexivity]|].
    destruct (s_iter s =? 0)%nat.
    - apply bind_ok in H. destruct H as (h & Hh & H). injection H as <- <-. split; [apply remarked_refl|reflexivity].
    - apply bind_ok in H. destruct H as (s3 & H3 & H). apply bind_ok in H. destruct H as (h & Hh & H).
      destruct (pick_heuristic (e_choice E (s_tick s3)) h) as [h1 p1]. injection H as <- <-.
      unfold update_hyper in H3. apply bind_ok in H3. destruct H3 as ([[pool counts] total] & Hd & H3).
      apply bind_ok in H3. destruct H3 as (h' & Hh' & H3). apply bind_ok in H3. destruct H3 as (h4 & H4 & H3).
      apply bind_ok in H3. destruct H3 as (h5 & H5 & H3). injection H3 as <-.
      unfold heuristic_distribution in Hd. apply bind_ok in Hd. destruct Hd as (u & _ & Hd). injection Hd as <- <- <-.
      split; [apply tag_other_remarked|reflexivity].
  Qed.

  (** The column that ends an iteration is tagged with the strategy of the iteration. *)
  Theorem tags st s1 D q s2 p s' : (0 < cg_types C)%nat -> s_more st = true ->
    solve_relaxed E C st = Ok (s1, D, q) -> next_strategy E C q s1 = Ok (s2, p) -> find_columns E C st = Ok s' ->
    exists old new, Forall2 (remarked (s_values s1)) (s_pool st) old /\ unmarked new /\
      (s_more s' = false /\ s_pool s' = old ++ new \/
       s_more s' = true /\ exists c, s_pool s' = old ++ new ++ [c] /\ c_tag c = Some (mark p)).
  Proof.
    intros K M H1 H2 H. unfold find_columns in H. rewrite H1 in H. cbn [bind] in H. rewrite H2 in H. cbn [bind fst snd] in H.
    apply bind_ok in H. destruct H as (s3 & H3 & H4).
    destruct (solve_relaxed_ok E C _ _ _ _ H1) as (A1 & A2 & A3 & A4). destruct (next_tags _ _ _ _ H2) as [N1 N2].
    assert (PR : s_pool s' = s_pool s3 /\ s_more s' = s_more s3).
    { unfold progress in H4. apply bind_ok in H4. destruct H4 as (b & _ & H4). injection H4 as <-. auto. }
    destruct PR as [-> ->]. rewrite A2 in N1.
    destruct (vehicles_tags p D (seq 0 (cg_types C)) s2 s3) as (new & U & R); [intros k Hk; apply in_seq in Hk; lia| |exact H3|].
    { rewrite N2, (ss_more _ _ A1). exact M. }
    exists (s_pool s2), new. split; [exact N1|]. split; [exact U|]. destruct R as [R|(R1 & [R2|R2])]; [left; exact R| |right; auto].
    destruct (cg_types C); [lia|discriminate].
  Qed.
End Tags.
