(** When the master problem raises exceptions, and what it makes of the global span. *)
From Verif.Base Require Import Prelude Graph.
From Verif.Spec Require Import Routes Network LinProg Master.
From Verif.Model Require Import Args Reach Checks Preprocess ClarkeWright Greedy Initial Pricing Master.
From Verif.Proofs Require Import RouteLemmas PreLemmas MasterProofs SelectProofs.

(* ------------------------------------------------------------------ *)
(** ** Exceptions *)

Lemma in_rows_span g o i : In (SpanOf i) (map fst (all_rows g o)) <-> mo_span o = true /\ (1 <= i <= 999)%nat.
Proof.
  unfold all_rows. rewrite !map_app, !in_app_iff. split.
  - intros [H|[H|H]].
    + exfalso. unfold covering_rows in H. rewrite map_map in H. apply in_map_iff in H. destruct H as (p & E & _). discriminate.
    + exfalso. unfold bound_rows in H. destruct (mo_fleet o) as [l|]; [|destruct H].
      destruct (nonempty l && negb (mo_periodic o)); [|destruct H].
      rewrite map_map in H. apply in_map_iff in H. destruct H as (p & E & _). discriminate.
    + unfold span_rows in H. destruct (mo_span o); [|destruct H]. split; [reflexivity|].
      rewrite map_map in H. apply in_map_iff in H. destruct H as (p & E & H). cbn [fst] in E. inversion E; subst.
      apply in_seq in H. change (Z.to_nat 999) with 999%nat in H. lia.
  - intros [H1 H2]. right. right. unfold span_rows. rewrite H1, map_map. apply in_map_iff.
    exists i. split; [reflexivity|]. apply in_seq. change (Z.to_nat 999) with 999%nat. lia.
Qed.

Lemma row_at_cases rows r : row_at rows r = Ok r \/ row_at rows r = Err KeyError.
Proof. unfold row_at. destruct (existsb _ rows); auto. Qed.

Lemma mapM_rows_in {A B} rows (key : A -> mrow) (f : A -> mrow -> B) l :
  (forall a, In a l -> In (key a) (map fst rows)) ->
  mapM (fun a => let* r := row_at rows (key a) in Ok (f a r)) l = Ok (map (fun a => f a (key a)) l).
Proof. intro H. apply mapM_pure. intros a Ha. rewrite (row_at_in rows (key a) (H a Ha)). reflexivity. Qed.

Lemma mapM_rows_cases {A B} rows (key : A -> mrow) (f : A -> mrow -> B) l :
  (exists bs, mapM (fun a => let* r := row_at rows (key a) in Ok (f a r)) l = Ok bs) \/
  mapM (fun a => let* r := row_at rows (key a) in Ok (f a r)) l = Err KeyError.
Proof.
  induction l as [|a l IH]; [left; eexists; reflexivity|]. cbn [mapM].
  destruct (row_at_cases rows (key a)) as [->| ->]; cbn [bind]; [|right; reflexivity].
  destruct IH as [(bs & ->)| ->]; cbn [bind]; [left; eexists; reflexivity|right; reflexivity].
Qed.

(** A fleet the master problem can work with. *)
Definition usable_fleet (o : moptions) : Prop :=
  exists l, mo_fleet o = Some l /\ (l <> [] -> mo_periodic o = false).

Lemma fleet_coefs_usable g o k : usable_fleet o -> exists l, fleet_coefs (all_rows g o) o k = Ok l.
Proof.
  intros (fl & E & P). unfold fleet_coefs, fleet_size. rewrite E. cbn [option_map of_opt bind].
  exists (map (fun j => (Fleet j, 1)) (filter (fun j => (k =? j)%nat) (seq 0 (List.length fl)))).
  apply (mapM_rows_in (all_rows g o) Fleet (fun _ r => (r, 1))).
  intros j Hj. apply filter_In in Hj. destruct Hj as [Hj _]. apply in_seq in Hj.
  apply in_rows_fleet. exists fl. split; [|lia].
  assert (NE : fl <> []) by (destruct fl; [simpl in Hj; lia|discriminate]).
  split; [exact E|]. split; [exact NE|exact (P NE)].
Qed.

Lemma new_variable_ok g o c : usable_fleet o ->
  ((exists y, new_variable (all_rows g o) o c = Ok y) <-> addable g o c) /\
  ((exists y, new_variable (all_rows g o) o c = Ok y) \/ new_variable (all_rows g o) o c = Err KeyError).
Proof.
  intro U. destruct (fleet_coefs_usable g o (c_type c) U) as (fl & FC).
  assert (VC : forall vs, (exists l, visit_coefs (all_rows g o) vs = Ok l) <->
                 forall v, In v vs -> v <> Source -> v <> Sink -> exists d, customer g v d).
  { intro vs. split.
    - intros (l & H) v Hv H1 H2. destruct (visit_coefs_ok _ _ _ H) as [_ Hin].
      apply in_rows_visit with (o := o). apply Hin. apply filter_In. split; [exact Hv|]. apply is_cust_true. auto.
    - intro H. eexists. apply (mapM_rows_in (all_rows g o) Visit (fun _ r => (r, 1))).
      intros v Hv. apply filter_In in Hv. destruct Hv as [Hv Hc]. apply is_cust_true in Hc. apply in_rows_visit.
      apply H; tauto. }
  assert (VK : forall vs, (exists l, visit_coefs (all_rows g o) vs = Ok l) \/ visit_coefs (all_rows g o) vs = Err KeyError).
  { intro vs. apply (mapM_rows_cases (all_rows g o) Visit (fun _ r => (r, 1))). }
  unfold new_variable. destruct (mo_span o) eqn:Es.
  - unfold span_route_variable.
    assert (SK : (exists r, span_row (all_rows g o) (c_name c) = Ok r) \/ span_row (all_rows g o) (c_name c) = Err KeyError).
    { destruct (c_name c) as [i|i|i]; cbn [span_row]; auto. destruct (row_at_cases (all_rows g o) (SpanOf i)) as [->| ->]; eauto. }
    assert (SN : (exists r, span_row (all_rows g o) (c_name c) = Ok r) <-> exists i, c_name c = CNat i /\ (1 <= i <= 999)%nat).
    { split.
      - intros (r & H). destruct (c_name c) as [i|i|i]; cbn [span_row] in H; try discriminate.
        apply row_at_ok in H. destruct H as [-> H]. apply in_rows_span in H. exists i. tauto.
      - intros (i & -> & Hi). cbn [span_row]. exists (SpanOf i). apply row_at_in. apply in_rows_span. auto. }
    split.
    + split.
      * intros (y & H). apply bind_ok in H. destruct H as (l & H1 & H). apply bind_ok in H. destruct H as (l2 & _ & H).
        apply bind_ok in H. destruct H as (r & H3 & _). constructor.
        -- rewrite Es. apply VC. eauto.
        -- intros _. apply SN. eauto.
      * intros [A1 A2]. rewrite Es in A1. destruct (proj2 (VC _) A1) as (l & ->). rewrite FC.
        destruct (proj2 SN (A2 Es)) as (r & ->). cbn [bind]. eauto.
    + destruct (VK (c_nodes c)) as [(l & ->)| ->]; cbn [bind]; [|auto]. rewrite FC. cbn [bind].
      destruct SK as [(r & ->)| ->]; cbn [bind]; [left; eauto|auto].
  - unfold route_variable. fold (served c). split.
    + split.
      * intros (y & H). apply bind_ok in H. destruct H as (l & H1 & H). constructor.
        -- rewrite Es. apply VC. eauto.
        -- congruence.
      * intros [A1 A2]. rewrite Es in A1. destruct (proj2 (VC _) A1) as (l & ->). rewrite FC. cbn [bind]. eauto.
    + destruct (VK (served c)) as [(l & ->)| ->]; cbn [bind]; [|auto]. rewrite FC. cbn [bind]. left; eauto.
Qed.

(** Building the problem succeeds exactly if all columns can be added, and the nodes that get
    extra variables have to be visited. *)
Definition plain_nodes (g : vgraph) (o : moptions) : Prop :=
  (forall p, drops o p -> forall v, In v (custs g) -> exists d, customer g v d) /\
  (mo_periodic o = true -> forall v d, In (v, d) (gnodes g) -> v <> Source -> (1 < freq d)%Z -> exists d', customer g v d').

Theorem formulate_ok g o cs :
  (exists m, formulate g o cs = Ok m) <->
  (forall c, In c cs -> addable g o c) /\ plain_nodes g o /\ usable_fleet o.
Proof.
  split.
  - intros (m & H). assert (SH := formulate_shape _ _ _ _ H). assert (U := sh_fleet _ _ _ _ SH).
    split; [|split; [split|exact U]].
    + intros c Hc. destruct (sh_cols _ _ _ _ SH) as (ys & F & _). destruct (Forall2_in_l _ _ _ _ F Hc) as (y & _ & Hy).
      apply (proj1 (new_variable_ok g o c U)). eauto.
    + intros p D. apply (sh_drop _ _ _ _ SH). apply truthy_drops. eauto.
    + exact (sh_dummy _ _ _ _ SH).
  - intros (A & [P1 P2] & U).
    assert (U' := U). destruct U as (fl & Ef & PF). unfold formulate.
    assert (Y : exists ys, mapM (new_variable (all_rows g o) o) cs = Ok ys).
    { clear - A U'. induction cs as [|c cs IH]; [eexists; reflexivity|]. cbn [mapM].
      destruct (proj2 (proj1 (new_variable_ok g o c U')) (A c (or_introl eq_refl))) as (y & ->).
      destruct IH as (ys & ->); [intros c' Hc'; apply A; right; exact Hc'|]. cbn [bind]. eauto. }
    destruct Y as (ys & ->). cbn [bind].
    assert (DV : exists ds, drop_variables g (all_rows g o) o = Ok ds).
    { unfold drop_variables. destruct (mo_drop o) as [p|] eqn:Ed; [|eauto]. destruct (truthyQ (Some p)) eqn:T; [|eauto].
      eexists. apply (mapM_rows_in (all_rows g o) Visit (fun v r => mkMCol (Drop v) (zero_one true) p [(r, 1)])).
      intros v Hv. apply in_rows_visit. apply (P1 p); [|exact Hv]. split; [exact Ed|].
      cbn [truthyQ] in T. apply negb_true_iff in T. intro C. apply Qeq_bool_iff in C. congruence. }
    destruct DV as (ds & ->). cbn [bind].
    assert (PV : exists ps, dummy_variables g (all_rows g o) o = Ok ps).
    { unfold dummy_variables. destruct (mo_periodic o) eqn:Ep; [|eauto].
      eexists. apply (mapM_rows_in (all_rows g o) (fun p : node * ndata => Visit (fst p)) (fun p r => mkMCol (Dummy (fst p)) nonneg big [(r, 1)])).
      intros [v d] Hv. apply filter_In in Hv. destruct Hv as [Hv Hh]. unfold has_dummy in Hh. cbn [fst snd] in Hh.
      apply andb_true_iff in Hh. destruct Hh as [H1 H2]. apply Z.ltb_lt in H1. apply negb_true_iff in H2. apply node_eqb_neq in H2.
      apply in_rows_visit. exact (P2 eq_refl v d Hv H2 H1). }
    destruct PV as (ps & ->). cbn [bind].
    assert (EV : exists es, extra_variables (all_rows g o) o = Ok es).
    { unfold extra_variables, fleet_size. rewrite Ef. cbn [option_map of_opt bind].
      eexists. apply (mapM_rows_in (all_rows g o) Fleet (fun k r => mkMCol (Extra k) nonneg big [(r, - (1))])).
      intros k Hk. apply in_seq in Hk. apply in_rows_fleet. exists fl. split; [|lia].
      assert (NE : fl <> []) by (destruct fl; [simpl in Hk; lia|discriminate]).
      split; [exact Ef|]. split; [exact NE|exact (PF NE)]. }
    destruct EV as (es & ->). cbn [bind].
    assert (SV : exists ss, span_variables (all_rows g o) o = Ok ss).
    { unfold span_variables. destruct (mo_span o) eqn:Es; [|eauto].
      rewrite (mapM_rows_in (all_rows g o) SpanOf (fun _ r => (r, - (1)))); [cbn [bind]; eauto|].
      intros i Hi. apply in_seq in Hi. apply in_rows_span. split; [exact Es|lia]. }
    destruct SV as (ss & ->). cbn [bind]. eauto.
Qed.

Theorem update_ok g o cs m c : built g o cs m ->
  ((exists m1, update o m c = Ok m1) <-> addable g o c) /\
  (~ addable g o c -> update o m c = Err KeyError).
Proof.
  intro B. assert (SH := built_shape _ _ _ _ B). assert (U := sh_fleet _ _ _ _ SH).
  destruct (new_variable_ok g o c U) as [N1 N2]. unfold update. rewrite (sh_rows _ _ _ _ SH). split.
  - rewrite <- N1. split.
    + intros (m1 & H). apply bind_ok in H. destruct H as (y & Hy & _). eauto.
    + intros (y & ->). cbn [bind]. eauto.
  - intro H. destruct N2 as [N2| ->]; [|reflexivity]. exfalso. apply H, N1, N2.
Qed.

Lemma integral_rows m : map fst (ms_rows (integral m)) = map fst (ms_rows m).
Proof.
  unfold integral. cbn [ms_rows]. rewrite map_map. apply map_ext. intros [r q]. unfold integral_row. cbn [fst].
  destruct r; reflexivity.
Qed.

Theorem solve_master_ok g o relax cs solver pi m : built g o cs m ->
  a_status (solver (program_of (stage m (negb relax)))) = Optimal ->
  exists D, solve_master g o relax cs solver pi m =
    Ok (stage m (negb relax), D, a_objective (solver (program_of (stage m (negb relax))))).
Proof.
  intros B ST. assert (SH := built_shape _ _ _ _ B). unfold solve_master.
  assert (E : (if relax then m else integral m) = stage m (negb relax)) by (destruct relax; reflexivity).
  rewrite E, ST. cbn [status_eqb negb raise_if bind].
  assert (R : map fst (ms_rows (stage m (negb relax))) = map fst (all_rows g o)).
  { rewrite <- (sh_rows _ _ _ _ SH). destruct relax; cbn [negb stage]; [reflexivity|apply integral_rows]. }
  assert (DU : exists D, get_duals g o (stage m (negb relax)) cs pi = Ok D).
  { unfold get_duals.
    rewrite (mapM_rows_in (ms_rows (stage m (negb relax))) (fun p : node * ndata => Visit (fst p)) (fun p r => (fst p, pi r))).
    2:{ intros [v d] Hp. cbn [fst]. rewrite R. apply in_rows_visit. exists d. apply filter_In in Hp. destruct Hp as [Hin Hm].
        unfold must_visit in Hm. cbn [fst snd] in Hm. apply andb_true_iff in Hm. destruct Hm as [H1 H2].
        apply negb_true_iff in H1, H2. apply is_depot_false in H1. repeat split; tauto. }
    cbn [bind]. destruct (sh_fleet _ _ _ _ SH) as (fl & Ef & PF).
    assert (FL : exists f, (if has_fleet o && negb (mo_periodic o) then
                let* K := fleet_size o in
                let* l := mapM (fun k => let* r := row_at (ms_rows (stage m (negb relax))) (Fleet k) in Ok (pi r)) (seq 0 K) in
                Ok (Some l) else Ok None) = Ok f).
    { destruct (has_fleet o && negb (mo_periodic o)); [|eauto]. unfold fleet_size. rewrite Ef. cbn [option_map of_opt bind].
      rewrite (mapM_rows_in (ms_rows (stage m (negb relax))) Fleet (fun _ r => pi r)); [cbn [bind]; eauto|].
      intros k Hk. apply in_seq in Hk. rewrite R. apply in_rows_fleet. exists fl. split; [|lia].
      assert (NE : fl <> []) by (destruct fl; [simpl in Hk; lia|discriminate]).
      split; [exact Ef|]. split; [exact NE|exact (PF NE)]. }
    destruct FL as (f & ->). cbn [bind].
    destruct (mo_span o) eqn:Es; [|cbn [bind]; eauto].
    assert (SP : exists l, mapM (fun c => let* r := span_row (ms_rows (stage m (negb relax))) (c_name c) in Ok (c_name c, pi r)) cs = Ok l).
    { assert (A : forall c, In c cs -> exists i, c_name c = CNat i /\ (1 <= i <= 999)%nat).
      { intros c Hc. destruct (sh_cols _ _ _ _ SH) as (ys & F & _). destruct (Forall2_in_l _ _ _ _ F Hc) as (y & _ & Hy).
        assert (AD : addable g o c) by (apply (proj1 (new_variable_ok g o c (sh_fleet _ _ _ _ SH))); eauto).
        exact (ad_name _ _ _ AD Es). }
      eexists. apply (mapM_pure _ (fun c => (c_name c, pi (match c_name c with CNat i => SpanOf i | _ => SpanOf 0 end)))).
      intros c Hc. destruct (A c Hc) as (i & -> & Hi). cbn [span_row]. rewrite row_at_in; [reflexivity|].
      rewrite R. apply in_rows_span. split; [exact Es|exact Hi]. }
    destruct SP as (l & ->). cbn [bind]. eauto. }
  destruct DU as (D & ->). cbn [bind]. eauto.
Qed.

Theorem get_total_ok g o cs m final x total : (forall c, In c cs -> labelled c) -> built g o cs m ->
  exists sel dropped, get_total_cost_and_routes o (stage m final) x total cs =
    Ok (match total with Some q => q | None => 0 end, sel, dropped).
Proof.
  intros LAB B. assert (SH := built_shape _ _ _ _ B). unfold get_total_cost_and_routes.
  assert (H : forall c, In c cs -> has_variable (stage m final) (c_name c) = true).
  { intros c Hc. assert (Hv := has_variables g o cs m LAB SH c Hc). destruct final; cbn [stage]; [|exact Hv].
    unfold has_variable in *. unfold integral. cbn [ms_cols]. apply existsb_exists in Hv. destruct Hv as (y & Hy & E).
    apply existsb_exists. exists (integral_col y). split; [apply in_map; exact Hy|]. exact E. }
  assert (F := foldM_filter_ok (fun c => has_variable (stage m final) (c_name c)) (fun c => Qltb 0 (x (Y (c_name c)))) cs []).
  rewrite F by exact H. cbn [bind]. eauto.
Qed.

(* ------------------------------------------------------------------ *)
(** ** The global span *)

Definition named (i : nat) (c : column) : bool := match c_name c with CNat n => (n =? i)%nat | _ => false end.

Lemma named_alone cs c i : NoDup (map c_name cs) -> In c cs -> c_name c = CNat i -> filter (named i) cs = [c].
Proof.
  intros ND Hc E. induction cs as [|d cs IH]; [destruct Hc|]. cbn [map] in ND.
  inversion ND as [|n l Hn NDl]; subst. cbn [filter]. destruct Hc as [->|Hc].
  - assert (En : named i c = true) by (unfold named; rewrite E; apply Nat.eqb_refl). rewrite En.
    assert (F : filter (named i) cs = []).
    { destruct (filter (named i) cs) as [|d l'] eqn:F; [reflexivity|]. exfalso.
      assert (Hd : In d (filter (named i) cs)) by (rewrite F; left; reflexivity). apply filter_In in Hd. destruct Hd as [Hd Nd].
      apply Hn. rewrite E. unfold named in Nd. destruct (c_name d) as [j|j|j] eqn:Ed; try discriminate. apply Nat.eqb_eq in Nd.
      subst j. rewrite <- Ed. apply in_map. exact Hd. }
    rewrite F. reflexivity.
  - assert (En : named i d = false).
    { unfold named. destruct (c_name d) as [j|j|j] eqn:Ed; try reflexivity. apply Nat.eqb_neq. intros ->.
      apply Hn. rewrite <- E. apply in_map. exact Hc. }
    rewrite En. apply IH; auto.
Qed.

Section Span.
  Variables (g : vgraph) (o : moptions) (cs : list column).
  Hypothesis NAMES : NoDup (map c_name cs).
  Hypothesis SPAN : mo_span o = true.

  Theorem span_row_of final x c i : solution g o cs final x -> In c cs -> c_name c = CNat i -> (1 <= i <= 999)%nat ->
    c_cost c * x (Y (c_name c)) <= if (i <=? 74)%nat then x Span else 0.
  Proof.
    intros S Hc En Hi. assert (H := so_span _ _ _ _ _ S SPAN i Hi). fold (named i) in H.
    change (fun c => match c_name c with CNat n => (n =? i)%nat | _ => false end) with (named i) in H.
    rewrite (named_alone cs c i NAMES Hc En) in H. unfold Qsum_over in H. cbn [map] in H. rewrite Qsum_cons in H.
    change (Qsum []) with 0 in H. lra.
  Qed.

  (** In the relaxation and in the integer program: a column that is used at all is used fully. *)
  Theorem span_used final x c i : solution g o cs final x -> In c cs -> c_name c = CNat i -> (1 <= i <= 999)%nat ->
    0 < x (Y (c_name c)) -> x (Y (c_name c)) == 1 /\ ((i <= 74)%nat -> c_cost c <= x Span) /\ ((75 <= i)%nat -> c_cost c <= 0).
  Proof.
    intros S Hc En Hi Hx. assert (H := span_row_of final x c i S Hc En Hi).
    destruct (so_routes _ _ _ _ _ S c Hc) as (X0 & X1 & XW & _).
    destruct (zero_one_values _ X0 X1 (XW (or_intror SPAN))) as [E|E]; [lra|]. rewrite E in H. split; [exact E|]. split; intro Hl.
    - apply Nat.leb_le in Hl. rewrite Hl in H. lra.
    - assert (F : (i <=? 74)%nat = false) by (apply Nat.leb_gt; lia). rewrite F in H. lra.
  Qed.

  (** A customer served only by columns numbered 75 or more, none of them free, cannot be served. *)
  Theorem span_blocked v d : customer g v d -> (forall p, ~ drops o p) -> mo_periodic o = false ->
    (forall c, In c cs -> (0 < times v c)%nat -> exists i, c_name c = CNat i /\ (75 <= i <= 999)%nat /\ 0 < c_cost c) ->
    forall final x, ~ solution g o cs final x.
  Proof.
    intros Hv ND PER H final x S. destruct (so_visits _ _ _ _ _ S v d Hv) as [V _].
    unfold count_visits, required in V. rewrite PER in V. cbn [andb] in V.
    assert (T : truthyQ (mo_drop o) = false).
    { destruct (truthyQ (mo_drop o)) eqn:T; [|reflexivity]. apply truthy_drops in T. destruct T as (p & D).
      exfalso. exact (ND p D). }
    rewrite T in V.
    assert (Z0 : Qsum_over cs (fun c => inject_Z (Z.of_nat (times v c)) * x (Y (c_name c))) == 0).
    { unfold Qsum_over. apply Qsum_map_zero. intros c Hc. destruct (times v c) as [|n] eqn:Et.
      - change (inject_Z (Z.of_nat 0)) with 0. ring.
      - destruct (H c Hc ltac:(lia)) as (i & En & Hi & Hcost).
        destruct (so_routes _ _ _ _ _ S c Hc) as (X0 & X1 & XW & _).
        destruct (Qlt_le_dec 0 (x (Y (c_name c)))) as [Hx|Hx].
        + destruct (span_used final x c i S Hc En ltac:(lia) Hx) as (_ & _ & Hn). specialize (Hn ltac:(lia)). lra.
        + assert (E : x (Y (c_name c)) == 0) by lra. rewrite E. ring. }
    lra.
  Qed.
End Span.

Lemma span_of_ge sel c : In c sel -> c_cost c <= span_of sel.
Proof.
  induction sel as [|d sel IH]; [intros []|]. unfold span_of in *. cbn [fold_right]. intros [->|H].
  - destruct (Qltb _ (c_cost c)) eqn:E; [lra|]. apply Qltb_ge in E. exact E.
  - specialize (IH H). destruct (Qltb _ (c_cost d)) eqn:E; [|exact IH]. apply Qltb_lt in E. lra.
Qed.
Lemma span_of_nonneg sel : 0 <= span_of sel.
Proof.
  induction sel as [|d sel IH]; [unfold span_of; simpl; lra|]. unfold span_of in *. cbn [fold_right].
  destruct (Qltb _ (c_cost d)) eqn:E; [|exact IH]. apply Qltb_lt in E. lra.
Qed.
Lemma span_of_le sel M : 0 <= M -> (forall c, In c sel -> c_cost c <= M) -> span_of sel <= M.
Proof.
  intros H0 H. induction sel as [|d sel IH]; [unfold span_of; simpl; lra|]. unfold span_of in *. cbn [fold_right].
  destruct (Qltb _ (c_cost d)); [apply H; left; reflexivity|]. apply IH. intros c Hc. apply H. right. exact Hc.
Qed.

Section SpanValue.
  Variables (g : vgraph) (o : moptions) (cs : list column).
  Variables (solver resolver : program mvar -> answer mvar).
  Variables (t : Q) (sel : list column) (dropped : list node).
  Hypothesis WF : wf g.
  Hypothesis LAB : forall c, In c cs -> labelled c.
  Hypothesis NAMES : NoDup (map c_name cs).
  Hypothesis RIGHT : forall m, built g o cs m -> right_answer (program_of (integral m)) (solver (program_of (integral m))).
  Hypothesis AGREE : agreed g o cs solver resolver.
  Hypothesis END : concluded g o cs solver resolver t sel dropped.
  Hypothesis PERIOD : mo_periodic o = false.
  Hypothesis SPAN : mo_span o = true.

  Lemma span_names c : In c cs -> exists i, c_name c = CNat i /\ (1 <= i <= 999)%nat.
  Proof.
    intro Hc. destruct END as (m & m1 & pi & D & q & B & _). assert (SH := built_shape _ _ _ _ B).
    destruct (sh_cols _ _ _ _ SH) as (ys & F & _). destruct (Forall2_in_l _ _ _ _ F Hc) as (y & _ & Hy).
    assert (AD : addable g o c) by (apply (proj1 (new_variable_ok g o c (sh_fleet _ _ _ _ SH))); eauto).
    exact (ad_name _ _ _ AD SPAN).
  Qed.

  Lemma extra_zero x : solution g o cs true x ->
    Qsum_over (seq 0 match mo_fleet o with Some l => List.length l | None => 0 end) (fun k => x (Extra k)) == 0.
  Proof.
    intro S. unfold Qsum_over. apply Qsum_map_zero. intros k Hk. apply in_seq in Hk.
    destruct (mo_fleet o) as [l|] eqn:El; [|simpl in Hk; lia].
    apply (proj2 (so_extra _ _ _ _ _ S l El k ltac:(lia))). reflexivity.
  Qed.

  (** the cost of a valid selection in the program *)
  Lemma enc_span_cost sel' dropped' sp : valid_selection g o cs sel' dropped' ->
    solution g o cs true (enc sel' dropped' sp) ->
    total_cost g o cs (enc sel' dropped' sp) ==
    sp + match mo_drop o with Some p => p * inject_Z (Z.of_nat (List.length dropped')) | None => 0 end.
  Proof.
    intros V S. unfold total_cost. rewrite SPAN, PERIOD, (extra_zero _ S). cbn [enc].
    destruct (va_dropped _ _ _ _ _ V) as [D1 D2].
    assert (M := sum_members (custs g) dropped' (NoDup_custs g WF) D1 D2).
    destruct (mo_drop o) as [p|] eqn:Ed; [|lra]. destruct (truthyQ (Some p)) eqn:T.
    - rewrite M. lra.
    - cbn [truthyQ] in T. apply negb_false_iff, Qeq_bool_iff in T. rewrite T. ring.
  Qed.

  (** The value returned is the cost of the most expensive selected column plus the penalties. *)
  Theorem span_value : t == span_price o sel dropped /\
    forall c, In c sel -> exists i, c_name c = CNat i /\ (1 <= i <= 999)%nat /\ ((75 <= i)%nat -> c_cost c <= 0).
  Proof.
    assert (V := conclusion_valid g o cs solver resolver t sel dropped WF LAB NAMES (fun m B => ra_sound _ _ (RIGHT m B)) END PERIOD).
    destruct (values g o cs solver resolver t sel dropped WF LAB RIGHT AGREE END) as (m & x & SH & S & E1 & E2 & E3 & M).
    assert (USED : forall c, In c sel -> exists i, c_name c = CNat i /\ (1 <= i <= 999)%nat /\
              ((i <= 74)%nat -> c_cost c <= x Span) /\ ((75 <= i)%nat -> c_cost c <= 0)).
    { intros c Hc. rewrite E1 in Hc. unfold chosen in Hc. apply filter_In in Hc. destruct Hc as [Hc Hx]. apply Qltb_lt in Hx.
      destruct (span_names c Hc) as (i & En & Hi).
      destruct (span_used g o cs NAMES SPAN true x c i S Hc En Hi Hx) as (_ & U1 & U2). exists i. auto. }
    split; [|intros c Hc; destruct (USED c Hc) as (i & U1 & U2 & _ & U4); exists i; auto].
    assert (SPOS := so_makespan _ _ _ _ _ S SPAN).
    assert (SO : span_of sel <= x Span).
    { apply span_of_le; [exact SPOS|]. intros c Hc. destruct (USED c Hc) as (i & _ & _ & U1 & U2).
      destruct (le_lt_dec i 74) as [Hi|Hi]; [auto|]. specialize (U2 Hi). lra. }
    assert (SENC : solution g o cs true (enc sel dropped (span_of sel))).
    { apply (enc_solution g o cs NAMES sel dropped (span_of sel) V PERIOD). intros _. split; [apply span_of_nonneg|].
      intros c Hc i En. destruct (USED c Hc) as (i' & En' & _ & _ & U2). assert (i' = i) by congruence. subst i'.
      destruct (i <=? 74)%nat eqn:Ei; [apply span_of_ge; exact Hc|]. apply Nat.leb_gt in Ei. apply U2. lia. }
    assert (UP := M _ SENC). rewrite (enc_span_cost _ _ _ V SENC) in UP.
    assert (LOW : total_cost g o cs x == x Span + match mo_drop o with Some p => p * inject_Z (Z.of_nat (List.length dropped)) | None => 0 end).
    { unfold total_cost. rewrite SPAN, PERIOD, (extra_zero _ S).
      destruct (mo_drop o) as [p|] eqn:Ed; [|lra]. destruct (truthyQ (Some p)) eqn:T.
      - rewrite <- (sum_members (custs g) dropped (NoDup_custs g WF) (proj1 (va_dropped _ _ _ _ _ V)) (proj2 (va_dropped _ _ _ _ _ V))).
        assert (EQ : Qsum_over (custs g) (fun v => x (Drop v)) == Qsum_over (custs g) (fun v => if mem v dropped then 1 else 0)).
        { unfold Qsum_over. apply Qsum_map_ext. intros v Hv.
          assert (T' : truthyQ (mo_drop o) = true) by (rewrite Ed; exact T).
          destruct (proj1 (truthy_drops o) T') as (p' & D).
          destruct (so_drop _ _ _ _ _ S p' D v Hv) as (D0 & D1 & D2).
          assert (P := drop_keys_perm g o cs m LAB SH T').
          assert (Hk : In v (drop_keys m)) by (rewrite P; exact Hv).
          destruct (zero_one_values _ D0 D1 D2) as [E|E].
          - assert (N : mem v dropped = false).
            { apply mem_false. rewrite E2. intro C. apply filter_In in C. destruct C as [_ C]. apply Qltb_lt in C. lra. }
            rewrite N. exact E.
          - assert (N : mem v dropped = true).
            { apply mem_In. rewrite E2. apply filter_In. split; [exact Hk|]. apply Qltb_lt. lra. }
            rewrite N. exact E. }
        rewrite EQ. lra.
      - cbn [truthyQ] in T. apply negb_false_iff, Qeq_bool_iff in T. rewrite T. ring. }
    unfold span_price. lra.
  Qed.

  (** ... and no selection of columns numbered up to 74 has a smaller one. *)
  Theorem span_best sel' dropped' : valid_selection g o cs sel' dropped' ->
    (forall c i, In c sel' -> c_name c = CNat i -> (75 <= i)%nat -> c_cost c <= 0) ->
    t <= span_price o sel' dropped'.
  Proof.
    intros V LOWN.
    destruct (values g o cs solver resolver t sel dropped WF LAB RIGHT AGREE END) as (m & x & SH & S & E1 & E2 & E3 & M).
    assert (SENC : solution g o cs true (enc sel' dropped' (span_of sel'))).
    { apply (enc_solution g o cs NAMES sel' dropped' (span_of sel') V PERIOD). intros _. split; [apply span_of_nonneg|].
      intros c Hc i En. destruct (i <=? 74)%nat eqn:Ei; [apply span_of_ge; exact Hc|]. apply Nat.leb_gt in Ei. apply (LOWN c i Hc En). lia. }
    assert (UP := M _ SENC). rewrite (enc_span_cost _ _ _ V SENC) in UP. exact UP.
  Qed.
End SpanValue.
