(** The scores of the hyper-heuristic are those of the history. *)
From Verif.Base Require Import Prelude Graph.
From Verif.Spec Require Import Routes Network LinProg Pool Master Run History.
From Verif.Model Require Import Args Reach Checks Preprocess ClarkeWright Greedy Initial Pricing
  GreedyPricing LPPricing Cspy Master Dive Hyper ColGen.
From Verif.Proofs Require Import ColGenProofs RunProofs HyperProofs ColGenCor.

(** ** One measurement *)
Lemma strat_dec_eqb {A} (x y : strat) (a b : A) : (if strat_dec x y then a else b) = if strat_eqb x y then a else b.
Proof. destruct x, y; reflexivity. Qed.
Lemma uses_cons x e l : uses x (e :: l) = if strat_eqb (ev_strategy e) x then e :: uses x l else uses x l.
Proof. unfold uses. cbn [filter]. rewrite strat_dec_eqb. destruct (strat_eqb (ev_strategy e) x); reflexivity. Qed.

Lemma won_cons e l : won (e :: l) = (if Qltb 0 (ev_gain e) then ev_gain e else 0) + won l.
Proof. reflexivity. Qed.
Lemma won_nonneg l : 0 <= won l.
Proof.
  induction l as [|e l IH]; [apply Qle_refl|]. rewrite won_cons. destruct (Qltb 0 (ev_gain e)) eqn:X; [apply Qltb_lt in X|]; lra.
Qed.
Lemma won_uses x l : won (uses x l) <= won l.
Proof.
  induction l as [|e l IH]; [apply Qle_refl|]. rewrite uses_cons.
  assert (0 <= if Qltb 0 (ev_gain e) then ev_gain e else 0) by (destruct (Qltb 0 (ev_gain e)) eqn:X; [apply Qltb_lt in X|]; lra).
  destruct (strat_eqb (ev_strategy e) x); rewrite !won_cons; lra.
Qed.
Lemma pymax2_won q : pymax2 q 0 == if Qltb 0 q then q else 0.
Proof.
  unfold pymax2. destruct (Qltb q 0) eqn:A, (Qltb 0 q) eqn:B;
  try apply Qltb_lt in A; try apply Qltb_ge in A; try apply Qltb_lt in B; try apply Qltb_ge in B; lra.
Qed.

Lemma filter_rev_length {A} (f : A -> bool) l : List.length (filter f (rev l)) = List.length (filter f l).
Proof.
  induction l as [|a l IH]; [reflexivity|]. cbn [rev filter]. rewrite filter_app, app_length, IH. cbn [filter].
  destruct (f a); cbn [List.length]; lia.
Qed.
Lemma filter_map_length {A B} (f : B -> bool) (g : A -> B) l :
  List.length (filter f (map g l)) = List.length (filter (fun a => f (g a)) l).
Proof. induction l as [|a l IH]; [reflexivity|]. cbn [map filter]. destruct (f (g a)); cbn [List.length]; lia. Qed.
Lemma filter_negb_length {A} (f : A -> bool) l :
  (List.length l - List.length (filter f l) = List.length (filter (fun a => negb (f a)) l))%nat.
Proof.
  induction l as [|a l IH]; [reflexivity|]. assert (X := filter_length f l). cbn [filter]. destruct (f a); cbn [negb List.length] in *; lia.
Qed.
Lemma rank_slower l x : (List.length l - rank (rev (map ev_runtime l)) x)%nat = List.length (filter (fun f => Qltb x (ev_runtime f)) l).
Proof.
  unfold rank. rewrite filter_rev_length, filter_map_length, filter_negb_length. f_equal.
Qed.

Section Knows.
  Variable ucb : nat -> nat -> Q.

  (** The object [h] remembers the history [l]. *)
  Record knows (l : list event) (h : hyper) : Prop := {
    kn_theta : hy_theta h == intensity l;
    kn_iter : forall x, at_ (hy_iterations h) x = List.length (uses x l);
    kn_added : forall x, at_ (hy_added h) x = List.length (filter ev_column (uses x l));
    kn_dec : forall x, at_ (hy_decrease h) x == won (uses x l);
    kn_total : hy_total h == won l;
    kn_runs : hy_runtimes h = rev (map ev_runtime l);
    kn_last : forall x e t, uses x l = e :: t -> at_ (hy_last h) x = ev_runtime e;
    kn_exp : forall x, at_ (hy_exp h) x = curiosity ucb x l;
    kn_norm : forall x, at_ (hy_norm_decrease h) x == won (uses x l) / won l;
    kn_slower : forall x, at_ (hy_norm_runtime h) x == slower x l;
    kn_points : forall x, uses x l = [] -> at_ (hy_points h) x == 10000000000 # 1
  }.

  Lemma new_knows : knows [] new_hyper.
  Proof. constructor; try reflexivity; try (intro x; destruct x; reflexivity); try (intros x; destruct x; discriminate). Qed.
  Lemma init_knows l q t h : knows l h -> knows l (init q t h).
  Proof. intros []. constructor; assumption. Qed.
  Lemma set_end_knows l t h : knows l h -> knows l (set_end t h).
  Proof. intros []. constructor; assumption. Qed.
  Lemma set_current_knows l p h : knows l h -> knows l (set_current p h).
  Proof. intros []. constructor; assumption. Qed.

  Lemma length_uses l : (List.length (uses BestPaths l) + List.length (uses BestEdges1 l) +
    List.length (uses BestEdges2 l) + List.length (uses Exact l))%nat = List.length l.
  Proof.
    induction l as [|e l IH]; [reflexivity|]. rewrite !uses_cons. destruct (ev_strategy e); cbn [strat_eqb List.length]; lia.
  Qed.

  (** What is measured, before the scores are computed. *)
  Record measured (l : list event) (act : per nat) (n : nat) (h : hyper) : Prop := {
    me_iter : forall x, at_ (hy_iterations h) x = List.length (uses x l);
    me_added : forall x, at_ (hy_added h) x = List.length (filter ev_column (uses x l));
    me_dec : forall x, at_ (hy_decrease h) x == won (uses x l);
    me_total : hy_total h == won l;
    me_runs : hy_runtimes h = rev (map ev_runtime l);
    me_last : forall x e t, uses x l = e :: t -> at_ (hy_last h) x = ev_runtime e;
    me_exp : forall x, at_ (hy_exp h) x = curiosity ucb x l;
    me_norm : forall x, at_ (hy_norm_decrease h) x == won (uses x l) / won l;
    me_slower : forall x, at_ (hy_norm_runtime h) x == slower x l;
    me_points : forall x, uses x l = [] -> at_ (hy_points h) x == 10000000000 # 1;
    me_active : hy_active h = act;
    me_sum : hy_active_sum h = n;
    me_theta : new_theta h == intensity l
  }.

  Lemma performance_measured l q pr act n t h h1 : knows l h -> current_performance ucb q pr act n t h = Ok h1 ->
    exists cur t0 q0 q1, hy_current h = Some cur /\ hy_end h = Some t0 /\ hy_objective h = Some q0 /\ q = Some q1 /\
      hy_current h1 = Some cur /\ hy_objective h1 = Some q1 /\ hy_end h1 = Some t /\
      measured (mkEv cur (t - t0) (q0 - q1) pr :: l) act n h1.
  Proof.
    intros K H. unfold current_performance in H.
    destruct (hy_end h) as [t0|] eqn:E0; [|discriminate]. cbn [of_opt bind] in H.
    destruct (hy_current h) as [cur|] eqn:E1; [|discriminate]. cbn [of_opt bind] in H.
    destruct (hy_objective h) as [q0|] eqn:E2; [|discriminate]. cbn [of_opt bind] in H.
    destruct q as [q1|]; [|discriminate]. cbn [of_opt bind] in H. injection H as <-.
    exists cur, t0, q0, q1. repeat (split; [reflexivity|]).
    set (e := mkEv cur (t - t0) (q0 - q1) pr). set (l1 := e :: l).
    destruct K as [K1 K2 K3 K4 K5 K6 K7 K8 K9 K10 K11].
    assert (U : forall x, uses x l1 = if strat_eqb cur x then e :: uses x l else uses x l) by (intro x; apply uses_cons).
    assert (I : forall x, at_ (put (hy_iterations h) cur (S (at_ (hy_iterations h) cur))) x = List.length (uses x l1)).
    { intro x. rewrite at_put, U. destruct (strat_eqb cur x) eqn:X; [|apply K2]. apply strat_eqb_eq in X. subst x. cbn [List.length]. rewrite K2. reflexivity. }
    assert (Us : forall x, (0 <? at_ (put (hy_iterations h) cur (S (at_ (hy_iterations h) cur))) x)%nat = true <-> uses x l1 <> []).
    { intro x. rewrite I, Nat.ltb_lt. destruct (uses x l1); cbn [List.length]; split; intro; try lia; try congruence. }
    assert (Dc : forall x, at_ (put (hy_decrease h) cur (at_ (hy_decrease h) cur + pymax2 (q0 - q1) 0)) x == won (uses x l1)).
    { intro x. rewrite at_put, U. destruct (strat_eqb cur x) eqn:X; [|apply K4]. apply strat_eqb_eq in X. subst x.
      rewrite won_cons, pymax2_won. cbn [ev_gain e]. rewrite K4. ring. }
    assert (Tt : hy_total h + pymax2 (q0 - q1) 0 == won l1).
    { unfold l1. rewrite won_cons, pymax2_won. cbn [ev_gain e]. rewrite K5. ring. }
    assert (Rn : hy_runtimes h ++ [t - t0] = rev (map ev_runtime l1)).
    { unfold l1. cbn [map rev ev_runtime e]. rewrite K6. reflexivity. }
    assert (La : forall x e' u, uses x l1 = e' :: u -> at_ (put (hy_last h) cur (t - t0)) x = ev_runtime e').
    { intros x e' u. rewrite at_put, U. destruct (strat_eqb cur x); [intro Z; injection Z as <- <-; reflexivity|apply K7]. }
    constructor; cbn [hy_iterations hy_added hy_decrease hy_total hy_runtimes hy_last hy_exp hy_norm_decrease hy_norm_runtime hy_points hy_active hy_active_sum].
    - exact I.
    - intro x. rewrite U. destruct pr.
      + rewrite at_put. destruct (strat_eqb cur x) eqn:X; [|apply K3]. apply strat_eqb_eq in X. subst x. cbn [filter ev_column e List.length]. rewrite K3. reflexivity.
      + rewrite K3. destruct (strat_eqb cur x); reflexivity.
    - exact Dc.
    - exact Tt.
    - exact Rn.
    - exact La.
    - intro x. rewrite at_tab. unfold curiosity. destruct (0 <? _)%nat eqn:X.
      + apply Us in X. rewrite I. unfold total_iterations.
        change (of_paths ?p) with (at_ p BestPaths). change (of_edges1 ?p) with (at_ p BestEdges1).
        change (of_edges2 ?p) with (at_ p BestEdges2). change (of_exact ?p) with (at_ p Exact).
        rewrite !I, length_uses. destruct (uses x l1); [congruence|reflexivity].
      + assert (Z : uses x l1 = []). { destruct (uses x l1) eqn:Y; [reflexivity|]. assert (N : uses x l1 <> []) by congruence. apply Us in N. congruence. }
        rewrite Z. rewrite K8. unfold curiosity. rewrite U in Z. destruct (strat_eqb cur x); [discriminate|]. rewrite Z. reflexivity.
    - intro x. rewrite at_tab. destruct ((0 <? _)%nat && _) eqn:X.
      + rewrite Dc, Tt. reflexivity.
      + apply andb_false_iff in X. destruct X as [X|X].
        * assert (Z : uses x l1 = []). { destruct (uses x l1) eqn:Y; [reflexivity|]. assert (N : uses x l1 <> []) by congruence. apply Us in N. congruence. }
          rewrite Z. rewrite K9. rewrite U in Z. destruct (strat_eqb cur x); [discriminate|]. rewrite Z. change (won []) with 0. unfold Qdiv. ring.
        * apply Qltb_ge in X. rewrite Tt in X. assert (N := won_nonneg l1). assert (Z1 : won l1 == 0) by lra. assert (Z0 : won l == 0).
          { unfold l1 in Z1. rewrite won_cons in Z1. assert (N0 := won_nonneg l). destruct (Qltb 0 (ev_gain e)) eqn:Y; [apply Qltb_lt in Y|]; lra. }
          rewrite K9, Z1, Z0. change (/ 0) with 0. unfold Qdiv. change (/ 0) with 0. ring.
    - intro x. rewrite at_tab. destruct (0 <? _)%nat eqn:X.
      + apply Us in X. unfold slower. destruct (uses x l1) as [|e' u] eqn:Y; [congruence|].
        rewrite (La _ _ _ Y), Rn. unfold how_many. rewrite rev_length, map_length, rank_slower. reflexivity.
      + assert (Z : uses x l1 = []). { destruct (uses x l1) eqn:Y; [reflexivity|]. assert (N : uses x l1 <> []) by congruence. apply Us in N. congruence. }
        rewrite K10. unfold slower. rewrite Z. rewrite U in Z. destruct (strat_eqb cur x); [discriminate|]. rewrite Z. reflexivity.
    - intros x Z. apply K11. rewrite U in Z. destruct (strat_eqb cur x); [discriminate|exact Z].
    - reflexivity.
    - reflexivity.
    - unfold new_theta. cbn [hy_decreased hy_produced hy_theta]. unfold l1. cbn [intensity ev_gain ev_column e].
      destruct (Qltb 0 (q0 - q1) && pr); [reflexivity|]. unfold pymax2.
      destruct (Qltb (hy_theta h - _) _) eqn:A, (Qltb (intensity l - _) _) eqn:B;
      try apply Qltb_lt in A; try apply Qltb_ge in A; try apply Qltb_lt in B; try apply Qltb_ge in B; lra.
  Qed.

  Lemma spread_curiosity l act n h x : measured l act n h ->
    spread h x == curiosity ucb x l / (curiosity ucb BestPaths l + curiosity ucb BestEdges1 l + curiosity ucb BestEdges2 l + curiosity ucb Exact l).
  Proof.
    intro M. unfold spread, sum_exp.
    change (of_paths ?p) with (at_ p BestPaths). change (of_edges1 ?p) with (at_ p BestEdges1).
    change (of_edges2 ?p) with (at_ p BestEdges2). change (of_exact ?p) with (at_ p Exact).
    rewrite !(me_exp _ _ _ _ M). destruct (Qeq_bool _ 0) eqn:X; [|reflexivity]. apply Qeq_bool_iff in X. rewrite X. unfold Qdiv. change (/ 0) with 0. ring.
  Qed.

  Lemma update_knows l act n h h1 : measured l act n h -> update_parameters h = Ok h1 ->
    knows l h1 /\ (forall x, at_ (hy_points h1) x == score ucb l (at_ act x) n x) /\
    hy_current h1 = hy_current h /\ hy_objective h1 = hy_objective h /\ hy_end h1 = hy_end h.
  Proof.
    intros M H. unfold update_parameters in H. apply bind_ok in H. destruct H as (pts & Hf & H). injection H as <-.
    set (th := new_theta h) in *.
    set (val := fun s => th * ((5 # 10) * inject_Z (Z.of_nat (at_ (hy_active h) s)) / inject_Z (Z.of_nat (hy_active_sum h))
        + (1 # 10) * at_ (hy_norm_runtime h) s
        + (5 # 100) * at_ (hy_norm_decrease h) s
        + (5 # 100) * inject_Z (Z.of_nat (at_ (hy_active h) s)) / inject_Z (Z.of_nat (at_ (hy_added h) s)))
        + (3 # 10) * spread h s * (1 - th)).
    assert (G : forall ss p0 p1, foldM (fun p s => if (0 <? at_ (hy_iterations h) s)%nat then
        let* q := quality h s in Ok (put p s (th * q + (3 # 10) * spread h s * (1 - th))) else Ok p) ss p0 = Ok p1 ->
      forall s, (at_ (hy_iterations h) s = 0%nat -> at_ p1 s = at_ p0 s) /\
        ((0 < at_ (hy_iterations h) s)%nat -> In s ss \/ at_ p0 s = val s -> at_ p1 s = val s)).
    { induction ss as [|s0 ss IH]; intros p0 p1 Hl s; cbn [foldM] in Hl.
      - injection Hl as <-. split; [auto|]. intros _ [[]|X]; exact X.
      - apply bind_ok in Hl. destruct Hl as (p2 & H2 & Hl). destruct (IH _ _ Hl s) as [I1 I2].
        destruct (0 <? at_ (hy_iterations h) s0)%nat eqn:X.
        + apply bind_ok in H2. destruct H2 as (q & Hq & H2). injection H2 as <-. apply Nat.ltb_lt in X.
          assert (Vq : th * q + (3 # 10) * spread h s0 * (1 - th) = val s0).
          { unfold quality in Hq. apply bind_ok in Hq. destruct Hq as (u & _ & Hq). apply bind_ok in Hq. destruct Hq as (u2 & _ & Hq).
            injection Hq as <-. reflexivity. }
          rewrite Vq in *. split.
          * intro Z0. rewrite (I1 Z0), at_put. destruct (strat_eqb s0 s) eqn:Es; [|reflexivity]. apply strat_eqb_eq in Es. subst s0. lia.
          * intros Zp Hin. apply I2; [exact Zp|]. rewrite at_put. destruct (strat_eqb s0 s) eqn:Es.
            -- right. apply strat_eqb_eq in Es. subst s0. reflexivity.
            -- destruct Hin as [[Hs|Hs]|Hs]; [|auto|auto]. subst s0.
               assert (Y : strat_eqb s s = true) by (apply strat_eqb_eq; reflexivity). congruence.
        + injection H2 as <-. apply Nat.ltb_ge in X. split; [exact I1|]. intros Zp [[Hs|Hs]|Hs]; [subst s0; lia|apply I2; auto|apply I2; auto]. }
    assert (P : forall x, at_ pts x == score ucb l (at_ act x) n x).
    { intro x. destruct (G _ _ _ Hf x) as [G1 G2]. rewrite (me_iter _ _ _ _ M) in G1, G2. unfold score.
      destruct (uses x l) as [|e u] eqn:Y.
      - rewrite G1 by reflexivity. exact (me_points _ _ _ _ M x Y).
      - rewrite G2 by (cbn [List.length]; try lia; left; apply in_strats). unfold val.
        rewrite (me_active _ _ _ _ M), (me_sum _ _ _ _ M), (me_slower _ _ _ _ M), (me_norm _ _ _ _ M), (me_added _ _ _ _ M), (spread_curiosity _ _ _ _ x M).
        unfold th. rewrite (me_theta _ _ _ _ M), Y. unfold how_many.
        assert (A1 : 5 # 10 == 1 # 2) by reflexivity. assert (A2 : 5 # 100 == 1 # 20) by reflexivity. rewrite A1, A2. unfold Qdiv. ring. }
    split; [|split; [exact P|auto]].
    destruct M as [M1 M2 M3 M4 M5 M6 M7 M8 M9 M10 M11 M12 M13].
    constructor; try assumption. intros x Y. cbn [hy_points set_points]. rewrite P. unfold score. rewrite Y. reflexivity.
  Qed.
End Knows.

(** ** The columns in use *)
Lemma in_use_tagged x pool : filter (active x) (map (tag_other x) pool) = map (tag_other x) (in_use x pool).
Proof.
  unfold in_use. induction pool as [|c pool IH]; [reflexivity|]. cbn [map filter]. rewrite IH.
  assert (A : active x (tag_other x c) = Qltb 0 (x (Y (c_name c)))).
  { unfold tag_other. destruct (active x c); [|reflexivity]. destruct (c_tag c); reflexivity. }
  rewrite A. destruct (Qltb 0 (x (Y (c_name c)))); reflexivity.
Qed.
Lemma found_tagged x y l : List.length (filter (has_tag (tag_of y)) (map (tag_other x) l)) = List.length (found_by y l).
Proof.
  unfold found_by. induction l as [|c l IH]; [reflexivity|]. cbn [map filter].
  assert (A : has_tag (tag_of y) (tag_other x c) = match c_tag c with
                   | Some t => Nat.eqb t (mark y)
                   | None => false
                   end).
  { unfold has_tag, tag_other. destruct (active x c), (c_tag c) as [t|] eqn:T; cbn [c_tag set_tag]; rewrite ?T; try reflexivity. destruct y; reflexivity. }
  rewrite A. destruct (match c_tag c with Some _ => _ | None => _ end); cbn [List.length]; lia.
Qed.
Lemma distribution_counts m x pool pool1 counts total : heuristic_distribution m x pool = Ok (pool1, counts, total) ->
  (forall y, at_ counts y = List.length (found_by y (in_use x pool))) /\ total = List.length (in_use x pool).
Proof.
  unfold heuristic_distribution. intro H. apply bind_ok in H. destruct H as (u & _ & H). injection H as <- <- <-.
  rewrite in_use_tagged. split; [|apply map_length]. intro y. rewrite at_tab. apply found_tagged.
Qed.

(** ** Along a run *)
Section Run.
  Variable E : env.
  Variable C : cgconfig.
  Variable g : vgraph.
  Hypothesis hyper_used : cg_strategy C = None.

  (** The object after the pricing problems: only the moment may have changed. *)
  Lemma vehicles_moment p D : forall ks s s' h, (forall k, In k ks -> (k < cg_types C)%nat) ->
    vehicles E C p D ks s = Ok s' -> s_hyper s = Some h ->
    (s_tick s <= s_tick s')%nat /\
    (s_hyper s' = Some h \/ exists i, (s_tick s <= i <= s_tick s')%nat /\ s_hyper s' = Some (set_end (e_clock E i) h)) /\
    (List.length ks = 1%nat -> s_more s' = true -> s_hyper s' = Some h).
  Proof.
    induction ks as [|k ks IH]; intros s s' h Hks H Eh; cbn [vehicles] in H; [injection H as <-; cbn [List.length]; repeat split; auto; lia|].
    assert (Hk := Hks k (or_introl eq_refl)).
    apply bind_ok in H. destruct H as (s1 & H1 & H). cbv zeta in H. apply bind_ok in H. destruct H as ([s2 b] & H2 & H). cbn [fst snd] in H.
    assert (Hy1 : s_hyper s1 = s_hyper s /\ (s_tick s <= s_tick s1)%nat).
    { unfold greedy_step in H1. destruct (greedy_applies C); [|injection H1 as <-; auto].
      apply bind_ok in H1. destruct H1 as (h1 & _ & H1). apply bind_ok in H1. destruct H1 as ([pool more] & _ & H1). cbn [fst snd] in H1.
      destruct more; [|injection H1 as <-; cbn; auto]. apply bind_ok in H1. destruct H1 as (m & _ & H1). injection H1 as <-. cbn; auto. }
    destruct Hy1 as [Hy1 T1].
    assert (L : looked E C (s_graph s) (set_more false s1) s2 b).
    { destruct (mo_span (cg_master C)); [eapply per_route_looked|eapply solve_subproblem_looked]; eassumption. }
    assert (Hy2 := fr_hyper _ _ _ (lk_frame _ _ _ _ _ _ L)). assert (T2 := fr_tick _ _ _ (lk_frame _ _ _ _ _ _ L)).
    cbn [s_hyper s_tick set_more] in Hy2, T2. rewrite Hy1, Eh in Hy2.
    destruct b.
    - unfold adopt in H. apply bind_ok in H. destruct H as (c & _ & H). apply bind_ok in H. destruct H as (m & _ & H). injection H as <-.
      cbn [s_hyper s_tick set_more set_master s_more]. repeat split; auto; lia.
    - apply bind_ok in H. destruct H as (s4 & H4 & H). rewrite hyper_used in H4. cbn [s_hyper set_more] in H4. rewrite Hy2 in H4.
      cbn [of_opt bind] in H4. injection H4 as <-.
      destruct (IH _ s' (set_end (now E (set_more false s2)) h) (fun k' Hk' => Hks k' (or_intror Hk')) H eq_refl) as (A & B & _).
      cbn [s_tick tick set_hyper set_more] in A, B.
      split; [lia|]. split.
      + right. destruct B as [B|(i & Hi & B)].
        * exists (s_tick s2). split; [lia|exact B].
        * exists i. split; [lia|exact B].
      + intros Hl M. destruct ks; [|discriminate]. cbn [vehicles] in H. injection H as <-. discriminate M.
  Qed.

  (** The object in [st] when [last] is not noted yet. While diving it does not matter. *)
  Definition minded (st : state) (last : pending) (l : list event) (h : hyper) : Prop :=
    s_hyper st = Some h /\ knows (e_ucb E) l h /\
    match last with
    | None => l = [] /\ s_iter st = 0%nat /\ s_noimp st = 0%nat /\ s_dive st = false
    | Some (p, q, i) => hy_current h = Some p /\ hy_objective h = q /\ hy_end h = Some (e_clock E i) /\ (i <= s_tick st)%nat /\ (0 < s_iter st)%nat
    end.

  (** The object after the relaxation was solved. *)
  Lemma relaxed_minded st last l h s1 D q : minded st last l h -> (0 < s_iter st)%nat -> solve_relaxed E C st = Ok (s1, D, q) ->
    exists p0 q0 i0 h1, s_hyper s1 = Some h1 /\ knows (e_ucb E) l h1 /\ hy_current h1 = Some p0 /\ hy_objective h1 = q0 /\
      hy_end h1 = Some (e_clock E i0) /\ (i0 < s_tick s1)%nat /\
      (s_dive st = false /\ last = Some (p0, q0, i0) \/ s_dive st = true /\ p0 = BestPaths /\ q0 = q /\ s_tick s1 = S i0).
  Proof.
    intros (Eh & K & L) It H. unfold solve_relaxed in H. cbn [s_dive tick] in H. destruct (s_dive st) eqn:Dv.
    - apply bind_ok in H. destruct H as ([[[d fx] D1] a] & H1 & H). cbn [s_hyper set_solution tick] in H. rewrite Eh in H. injection H as <- <- <-.
      eexists BestPaths, (a_objective a), _, _. split; [reflexivity|]. split; [apply init_knows; exact K|]. split; [reflexivity|].
      split; [reflexivity|]. split; [reflexivity|]. split; [|right; repeat split]. cbn. lia.
    - apply bind_ok in H. destruct H as ([[m D1] q1] & _ & H). injection H as <- <- <-.
      destruct last as [[[p0 q0] i0]|]; [|destruct L as (_ & L & _); lia]. destruct L as (L1 & L2 & L3 & L4 & L5).
      exists p0, q0, i0, h. split; [exact Eh|]. split; [exact K|]. split; [exact L1|]. split; [exact L2|]. split; [exact L3|].
      split; [cbn; lia|]. left. auto.
  Qed.

  (** The strategy is chosen by the scores. *)
  Lemma choice_noted st last l h s1 D q s2 p : minded st last l h -> s_more st = true -> (0 < s_iter st)%nat -> ~ forced C st ->
    solve_relaxed E C st = Ok (s1, D, q) -> next_strategy E C q s1 = Ok (s2, p) ->
    exists v h2 e, q = Some v /\ note E st last s1 v e /\
      let used := in_use (s_values s1) (s_pool st) in
      s_hyper s2 = Some h2 /\ knows (e_ucb E) (e :: l) h2 /\ hy_current h2 = Some p /\ hy_objective h2 = Some v /\
      hy_end h2 = Some (e_clock E (s_tick s1)) /\ (s_tick s1 < s_tick s2)%nat /\
      forall x, score (e_ucb E) (e :: l) (List.length (found_by x used)) (List.length used) x <=
                score (e_ucb E) (e :: l) (List.length (found_by p used)) (List.length used) p.
  Proof.
    intros Mi M It Nf H1 H2.
    destruct (solve_relaxed_ok E C _ _ _ _ H1) as (A1 & A2 & A3 & A4).
    destruct (relaxed_minded st last l h s1 D q Mi It H1) as (p0 & q0 & i0 & h0 & Eh1 & K & Hc & Ho & He & Hi & Cs).
    assert (M1 : s_more s1 = true) by (rewrite (ss_more _ _ A1); exact M).
    unfold next_strategy in H2. rewrite A3 in H2. unfold forced in Nf. apply Z.eqb_neq in Nf. rewrite Nf, hyper_used in H2.
    rewrite (ss_iter _ _ A1) in H2. destruct (s_iter st =? 0)%nat eqn:Ei; [apply Nat.eqb_eq in Ei; lia|].
    apply bind_ok in H2. destruct H2 as (s3 & H3 & H2). apply bind_ok in H2. destruct H2 as (h3 & Hh & H2).
    destruct (pick_heuristic (e_choice E (s_tick s3)) h3) as [h1 p1] eqn:Ep. injection H2 as <- <-.
    unfold update_hyper in H3. apply bind_ok in H3. destruct H3 as ([[pool counts] total] & Hd & H3).
    apply bind_ok in H3. destruct H3 as (h' & Hh' & H3). apply bind_ok in H3. destruct H3 as (h4 & H4 & H3).
    apply bind_ok in H3. destruct H3 as (h5 & H5 & H3). injection H3 as <-. cbn [s_hyper set_noimp] in Hh'. rewrite Eh1 in Hh'. injection Hh' as <-.
    cbn [s_hyper set_hyper] in Hh. injection Hh as <-. cbn [s_more set_master set_noimp now s_tick] in H4. rewrite M1 in H4.
    cbn [s_master s_values s_pool set_noimp] in Hd. rewrite A2 in Hd. destruct (distribution_counts _ _ _ _ _ _ Hd) as [Cn Tn].
    destruct (performance_measured (e_ucb E) l q true counts total _ h0 h4 K H4) as (cur & t0 & v0 & v & B1 & B2 & B3 & B4 & B5 & B6 & B7 & Me).
    destruct (update_knows (e_ucb E) _ _ _ _ _ Me H5) as (K2 & P2 & U1 & U2 & U3).
    destruct (pick_best _ _ _ _ Ep) as [PB ->].
    rewrite Hc in B1. injection B1 as <-. rewrite He in B2. injection B2 as <-. rewrite Ho in B3.
    eexists v, (set_current p1 h5), _. split; [exact B4|]. split.
    { destruct Cs as [[Dv Ls]|(Dv & -> & Eq & Tk)].
      - apply nt_last; [exact Dv|]. rewrite Ls, B3. reflexivity.
      - rewrite Eq, B4 in B3. injection B3 as ->. change (now E (set_master pool (s_master (set_noimp (s_iter s1) s1)) (set_noimp (s_iter s1) s1))) with (e_clock E (s_tick s1)).
        rewrite Tk. apply nt_dive; assumption. }
    cbv zeta.
    split; [reflexivity|]. split; [apply set_current_knows; exact K2|]. split; [reflexivity|].
    split; [cbn [hy_objective set_current]; rewrite U2; exact B6|]. split; [cbn [hy_end set_current]; rewrite U3; exact B7|].
    split; [cbn [s_tick tick set_hyper set_master set_noimp]; lia|].
    intro x. rewrite <- !Cn, <- !Tn, <- !P2. apply PB.
  Qed.

  (** One iteration. *)
  Lemma iteration_noted st last l h s1 : cg_run_exact C <> 0%Z -> minded st last l h -> s_more st = true -> find_columns E C st = Ok s1 ->
    exists last1 l1 h1, noted E C st last l s1 last1 l1 /\ minded (tick (tick s1)) last1 l1 h1 /\ last1 <> None.
  Proof.
    intros Re Mi Mst H.
    unfold find_columns in H. apply bind_ok in H. destruct H as ([[sA D] q] & HA & H).
    apply bind_ok in H. destruct H as ([sB p] & HB & H). apply bind_ok in H. destruct H as (sC & HC & HP). cbn [fst snd] in HC.
    assert (PR : s_hyper s1 = s_hyper sC /\ s_tick s1 = s_tick sC /\ s_more s1 = s_more sC /\ (0 < s_iter s1)%nat).
    { unfold progress in HP. apply bind_ok in HP. destruct HP as (b & _ & HP). injection HP as <-. cbn. repeat split; auto. lia. }
    destruct PR as (PR1 & PR2 & PR3 & PR4).
    destruct (solve_relaxed_ok E C _ _ _ _ HA) as (A1 & A2 & A3 & A4).
    assert (Ks : forall k, In k (seq 0 (cg_types C)) -> (k < cg_types C)%nat) by (intros k Hk; apply in_seq in Hk; lia).
    (* the object before the pricing problems, and the moment noted in it *)
    assert (Fin : forall hB i0, s_hyper sB = Some hB -> hy_end hB = Some (e_clock E i0) -> (i0 <= s_tick sB)%nat ->
      exists i h1, s_hyper s1 = Some h1 /\ moment C i0 s1 i /\ hy_end h1 = Some (e_clock E i) /\
        hy_current h1 = hy_current hB /\ hy_objective h1 = hy_objective hB /\ (forall l0, knows (e_ucb E) l0 hB -> knows (e_ucb E) l0 h1)).
    { intros hB i0 EB EE Hl. destruct (vehicles_moment p D _ sB sC hB Ks HC EB) as (V1 & V2 & V3). rewrite seq_length in V3.
      unfold moment. rewrite PR1, PR2, PR3. destruct V2 as [V2|(i & Hi2 & V2)].
      - exists i0, hB. split; [exact V2|]. split; [split; [lia|reflexivity]|]. split; [exact EE|]. split; [reflexivity|]. split; [reflexivity|]. auto.
      - destruct (Nat.eq_dec (cg_types C) 1) as [E1|E1]; [destruct (s_more sC) eqn:Mo|].
        + exists i0, hB. split; [exact (V3 E1 eq_refl)|]. split; [split; [lia|reflexivity]|]. split; [exact EE|]. split; [reflexivity|]. split; [reflexivity|]. auto.
        + exists i, (set_end (e_clock E i) hB). split; [exact V2|]. split; [split; [lia|discriminate]|]. split; [reflexivity|]. split; [reflexivity|]. split; [reflexivity|].
          intros l0 K0. apply set_end_knows. exact K0.
        + exists i, (set_end (e_clock E i) hB). split; [exact V2|]. split; [split; [lia|intro; contradiction]|]. split; [reflexivity|]. split; [reflexivity|]. split; [reflexivity|].
          intros l0 K0. apply set_end_knows. exact K0. }
    assert (Mk : forall p1 q1 i l0 h1, s_hyper s1 = Some h1 -> knows (e_ucb E) l0 h1 -> hy_current h1 = Some p1 -> hy_objective h1 = q1 ->
      hy_end h1 = Some (e_clock E i) -> (i <= s_tick s1)%nat -> minded (tick (tick s1)) (Some (p1, q1, i)) l0 h1).
    { intros p1 q1 i l0 h1 X1 X2 X3 X4 X5 X6. split; [exact X1|]. split; [exact X2|]. split; [exact X3|]. split; [exact X4|]. split; [exact X5|].
      cbn [s_tick s_iter tick]. split; lia. }
    destruct (Z.eq_dec (Z.of_nat (s_noimp st)) (cg_run_exact C)) as [Fo|Nf].
    - assert (EB : sB = sA /\ p = Exact).
      { unfold next_strategy in HB. rewrite A3 in HB. assert (Fo' := Fo). apply Z.eqb_eq in Fo'. rewrite Fo' in HB. injection HB as <- <-. auto. }
      destruct EB as [-> ->].
      assert (It : (0 < s_iter st)%nat).
      { destruct Mi as (_ & _ & L). destruct last as [[[p0 q0] i0]|]; [tauto|]. destruct L as (_ & _ & L & _). rewrite L in Fo. cbn in Fo. congruence. }
      destruct (relaxed_minded st last l h sA D q Mi It HA) as (p0 & q0 & i0 & h0 & Eh1 & K & Hc & Ho & He & Hi & Cs).
      destruct (Fin h0 i0 Eh1 He ltac:(lia)) as (i & h1 & F1 & F2 & F3 & F4 & F5 & F6).
      exists (Some (p0, q0, i)), l, h1. split; [|split; [|discriminate]].
      + destruct Cs as [[Dv Ls]|(Dv & -> & -> & Tk)]; [eapply no_forced; eassumption|eapply no_forced_dive; eassumption].
      + apply Mk; auto; try congruence. destruct F2. lia.
    - destruct (Nat.eq_dec (s_iter st) 0) as [I0|I0].
      + assert (Dv : s_dive st = false).
        { destruct Mi as (_ & _ & L). destruct last as [[[p0 q0] i0]|]; [lia|tauto]. }
        assert (EhA : s_hyper sA = Some h).
        { destruct Mi as (Eh & _). unfold solve_relaxed in HA. cbn [s_dive tick] in HA. rewrite Dv in HA. apply bind_ok in HA. destruct HA as ([[m D1] q1] & _ & HA).
          injection HA as <- <- <-. exact Eh. }
        assert (EB : s_hyper sB = Some (init q (now E sA) h) /\ p = BestPaths /\ (s_tick sA < s_tick sB)%nat).
        { assert (HB' := HB). unfold next_strategy in HB'. rewrite A3 in HB'. apply Z.eqb_neq in Nf. rewrite Nf, hyper_used in HB'.
          rewrite (ss_iter _ _ A1), I0 in HB'. cbn [Nat.eqb] in HB'. apply bind_ok in HB'. destruct HB' as (h' & Hh' & HB'). injection HB' as <- <-.
          cbn [s_hyper set_noimp] in Hh'. rewrite EhA in Hh'. injection Hh' as <-. cbn. auto. }
        destruct EB as (EB & -> & Tk). destruct Mi as (_ & K & _).
        destruct (Fin _ (s_tick sA) EB eq_refl ltac:(lia)) as (i & h1 & F1 & F2 & F3 & F4 & F5 & F6).
        cbn [hy_current hy_objective init] in F4, F5.
        exists (Some (BestPaths, q, i)), l, h1. split; [eapply no_first; eassumption|]. split; [|discriminate].
        apply Mk; auto; [apply F6; apply init_knows; exact K|destruct F2; lia].
      + destruct (choice_noted st last l h sA D q sB p Mi Mst ltac:(lia) Nf HA HB) as (v & h2 & e & -> & Hn & X).
        cbv zeta in X. destruct X as (X1 & X2 & X3 & X4 & X5 & X6 & _).
        destruct (Fin h2 (s_tick sA) X1 X5 ltac:(lia)) as (i & h1 & F1 & F2 & F3 & F4 & F5 & F6).
        exists (Some (p, Some v, i)), (e :: l), h1. split; [eapply no_next; try eassumption; lia|]. split; [|discriminate].
        apply Mk; auto; try congruence. destruct F2. lia.
  Qed.

  Lemma starts_remembered s s0 st : cg_run_exact C <> 0%Z ->
    (exists last l h, history E C s s0 last l /\ minded s0 last l h) -> starts E C s0 st ->
    exists last l h, history E C s st last l /\ minded st last l h.
  Proof.
    intros Re H0 S. induction S as [M|st s1 S IH H T LL M]; [exact H0|].
    destruct IH as (last & l & h & Hi & Mi).
    destruct (iteration_noted st last l h s1 Re Mi (starts_more _ _ _ _ S) H) as (last1 & l1 & h1 & N1 & M1 & _).
    exists last1, l1, h1. split; [|exact M1]. eapply hi_next; eassumption.
  Qed.

  Lemma remembered s st : fresh C g s -> cg_run_exact C <> 0%Z -> iteration E C s st ->
    exists last l h, history E C s st last l /\ minded st last l h.
  Proof.
    intros F Re I.
    assert (B : exists last l h, history E C s s last l /\ minded s last l h).
    { exists None, [], new_hyper. split; [constructor; exact (fs_more _ _ _ F)|]. split; [rewrite (fs_hyper _ _ _ F), hyper_used; reflexivity|].
      split; [apply new_knows|]. destruct F. auto. }
    destruct I as [st S|f s1 st H S]; [exact (starts_remembered s s st Re B S)|].
    apply (starts_remembered s (start_dive s1) st Re); [|exact S].
    assert (H' := H). apply generation_is_run in H. destruct H as (n & _ & R).
    destruct (run_ends E C n s s1 R (fs_more _ _ _ F)) as (st0 & sl & S1 & S2 & -> & _).
    destruct (starts_remembered s s st0 Re B S1) as (last & l & h & Hi & Mi).
    destruct (iteration_noted st0 last l h sl Re Mi (starts_more _ _ _ _ S1) S2) as (last1 & l1 & h1 & N1 & M1 & NN).
    exists last1, l1, h1. split; [eapply hi_dive; eassumption|]. destruct M1 as (E1 & K1 & L1). split; [exact E1|]. split; [exact K1|].
    destruct last1 as [[[p0 q0] i0]|]; [exact L1|congruence].
  Qed.

  (** The choice follows the history. *)
  Theorem scored_choice s st s1 D q s2 p : fresh C g s -> cg_run_exact C <> 0%Z -> iteration E C s st ->
    (0 < s_iter st)%nat -> ~ forced C st ->
    solve_relaxed E C st = Ok (s1, D, q) -> next_strategy E C q s1 = Ok (s2, p) ->
    exists last l v e, history E C s st last l /\ q = Some v /\ note E st last s1 v e /\
      let used := in_use (s_values s1) (s_pool st) in
      forall x, score (e_ucb E) (e :: l) (List.length (found_by x used)) (List.length used) x <=
                score (e_ucb E) (e :: l) (List.length (found_by p used)) (List.length used) p.
  Proof.
    intros F Re I It Nf H1 H2. destruct (remembered s st F Re I) as (last & l & h & Hi & Mi).
    assert (Ms : s_more st = true) by (destruct I as [st S|f s0 st H S]; exact (starts_more _ _ _ _ S)).
    destruct (choice_noted st last l h s1 D q s2 p Mi Ms It Nf H1 H2) as (v & h2 & e & -> & Hn & X).
    exists last, l, v, e. split; [exact Hi|]. split; [reflexivity|]. split; [exact Hn|]. apply X.
  Qed.
End Run.

(** ** A run in which all strategies were tried before the choice *)
From Verif.Proofs Require Import Deciders Certificate PricingWitness MasterWitness Oracles ColGenWitness DiveWitness Stagnation.
Definition env_q : env :=
  quiet netm (fun n => inject_Z (Z.of_nat n))
    (fun n => answers (by_name [(1%nat, 1); (2%nat, 1); (3%nat, 1)]))
    (fun _ => by_node [(1%Z, 2000); (2%Z, 2200); (3%Z, 8000)]) [[Cust 3]; [Cust 1; Cust 2]].
Lemma history_case : exists st s1 D q s2 p, fresh (cg_s None 1) netm start_k /\ cg_run_exact (cg_s None 1) <> 0%Z /\
  iteration env_q (cg_s None 1) start_k st /\ s_iter st = 5%nat /\ ~ forced (cg_s None 1) st /\
  solve_relaxed env_q (cg_s None 1) st = Ok (s1, D, q) /\ next_strategy env_q (cg_s None 1) q s1 = Ok (s2, p) /\
  exists last l, history env_q (cg_s None 1) start_k st (Some last) l /\ List.length l = 4%nat.
Proof.
  destruct (seen_ok env_q (cg_s None 1) 5 start_k
              (fun st p => (s_iter st =? 5)%nat && negb (Z.of_nat (s_noimp st) =? 1)%Z &&
                 match s_hyper st with Some h => (total_iterations (hy_iterations h) =? 4)%nat | None => false end))
    as (st & s1 & D & q & s2 & p & H1 & H2 & H3 & H4); [vm_compute; reflexivity|].
  rewrite !andb_true_iff in H4. destruct H4 as [[H4 H5] H6]. apply Nat.eqb_eq in H4. apply negb_true_iff, Z.eqb_neq in H5.
  exists st, s1, D, q, s2, p. split; [apply fresh_h|]. split; [discriminate|]. split; [constructor; exact H1|]. split; [exact H4|].
  split; [exact H5|]. split; [exact H2|]. split; [exact H3|].
  destruct (remembered env_q (cg_s None 1) netm eq_refl start_k st (fresh_h 1) ltac:(discriminate) (it_generation _ _ _ _ H1)) as ([last|] & l & h & Hi & Mi).
  - exists last, l. split; [exact Hi|]. destruct Mi as (Eh & K & _). rewrite Eh in H6. apply Nat.eqb_eq in H6. unfold total_iterations in H6.
    change (of_paths ?p) with (at_ p BestPaths) in H6. change (of_edges1 ?p) with (at_ p BestEdges1) in H6.
    change (of_edges2 ?p) with (at_ p BestEdges2) in H6. change (of_exact ?p) with (at_ p Exact) in H6.
    rewrite !(kn_iter _ _ _ K) in H6. rewrite length_uses in H6. exact H6.
  - destruct Mi as (_ & _ & _ & X & _). rewrite X in H4. discriminate H4.
Qed.
