(** The master problem is the documented set covering / set partitioning formulation. *)
From Verif.Base Require Import Prelude Graph.
From Verif.Spec Require Import Routes Network LinProg Master.
From Verif.Model Require Import Args Reach Checks Preprocess ClarkeWright Greedy Initial Pricing Master.
From Verif.Proofs Require Import RouteLemmas PreLemmas.

(* ------------------------------------------------------------------ *)
(** ** Rows as sums over the columns *)

Lemma mrow_eqb_eq a b : mrow_eqb a b = true <-> a = b.
Proof.
  destruct a, b; simpl; split; intro H; try discriminate; try congruence.
  - apply node_eqb_eq in H. congruence.
  - inversion H. apply node_eqb_refl.
  - apply Nat.eqb_eq in H. congruence.
  - inversion H. apply Nat.eqb_refl.
  - apply Nat.eqb_eq in H. congruence.
  - inversion H. apply Nat.eqb_refl.
Qed.

Lemma cname_eqb_eq a b : cname_eqb a b = true <-> a = b.
Proof.
  destruct a, b; simpl; split; intro H; try discriminate; try congruence;
    try (apply Nat.eqb_eq in H; congruence); inversion H; apply Nat.eqb_refl.
Qed.

Definition coef_in (r : mrow) (l : list (mrow * Q)) : Q :=
  Qsum (map snd (filter (fun t => mrow_eqb r (fst t)) l)).
Definition coef (r : mrow) (c : mcol) : Q := coef_in r (mc_coefs c).

Definition share (x : mvar -> Q) (r : mrow) (cols : list mcol) : Q :=
  Qsum (map (fun c => coef r c * x (mc_var c)) cols).

Lemma coef_in_app r l1 l2 : coef_in r (l1 ++ l2) == coef_in r l1 + coef_in r l2.
Proof. unfold coef_in. rewrite filter_app, map_app, Qsum_app. lra. Qed.

Lemma coef_in_one r s q : coef_in r [(s, q)] == if mrow_eqb r s then q else 0.
Proof. unfold coef_in. cbn [filter fst]. destruct (mrow_eqb r s); cbn [map snd Qsum fold_right]; lra. Qed.

Lemma value_app {V} (x : V -> Q) l1 l2 : value x (l1 ++ l2) == value x l1 + value x l2.
Proof. unfold value. rewrite map_app, Qsum_app. lra. Qed.

Lemma value_row x cols r : value x (row_lhs cols r) == share x r cols.
Proof.
  unfold row_lhs, share. induction cols as [|c cols IH]; cbn [flat_map map].
  - unfold value. simpl. lra.
  - rewrite value_app, IH, Qsum_cons. apply Qplus_comp; [|lra].
    unfold coef, coef_in, value. rewrite map_map. cbn [fst snd].
    induction (filter (fun t => mrow_eqb r (fst t)) (mc_coefs c)) as [|t l IHl]; cbn [map].
    + simpl. lra.
    + rewrite !Qsum_cons, IHl. ring.
Qed.

Lemma share_app x r l1 l2 : share x r (l1 ++ l2) == share x r l1 + share x r l2.
Proof. unfold share. rewrite map_app, Qsum_app. lra. Qed.
Lemma share_perm x r l1 l2 : Permutation l1 l2 -> share x r l1 == share x r l2.
Proof. intro P. unfold share. apply Qsum_perm, Permutation_map, P. Qed.
Lemma share_integral x r l : share x r (map integral_col l) == share x r l.
Proof. unfold share. rewrite map_map. apply Qsum_map_ext. intros c _. reflexivity. Qed.

Lemma share_map {A} x r (f : A -> mcol) l :
  share x r (map f l) = Qsum (map (fun a => coef r (f a) * x (mc_var (f a))) l).
Proof. unfold share. rewrite map_map. reflexivity. Qed.

(** A sum with a single term that may differ from 0. *)
Lemma Qsum_single {A} (dec : forall a b : A, {a = b} + {a <> b}) (f : A -> Q) (l : list A) a :
  NoDup l -> (forall b, In b l -> b <> a -> f b == 0) ->
  Qsum (map f l) == if in_dec dec a l then f a else 0.
Proof.
  intros ND H. induction l as [|b l IH]; [simpl; lra|].
  inversion ND as [|b' l' Hb NDl]; subst. cbn [map]. rewrite Qsum_cons.
  rewrite IH; [|assumption|intros c Hc Hne; apply H; simpl; auto].
  destruct (dec b a) as [->|Hne].
  - destruct (in_dec dec a l) as [Hin|_]; [contradiction|].
    destruct (in_dec dec a (a :: l)) as [_|Hn]; [lra|exfalso; apply Hn; simpl; auto].
  - rewrite (H b (or_introl eq_refl) Hne).
    destruct (in_dec dec a l) as [Hin|Hn]; destruct (in_dec dec a (b :: l)) as [Hin'|Hn']; try lra.
    + exfalso. apply Hn'. simpl; auto.
    + destruct Hin' as [E|E]; contradiction.
Qed.

(* ------------------------------------------------------------------ *)
(** ** The variables of the master problem *)

Lemma row_at_ok rows r r' : row_at rows r = Ok r' -> r' = r /\ In r (map fst rows).
Proof.
  unfold row_at. destruct (existsb _ rows) eqn:E; intro H; inversion H; subst.
  split; [reflexivity|]. apply existsb_exists in E. destruct E as (p & Hp & Ep).
  apply mrow_eqb_eq in Ep. subst. apply in_map. exact Hp.
Qed.
Lemma row_at_in rows r : In r (map fst rows) -> row_at rows r = Ok r.
Proof.
  intro H. unfold row_at. destruct (existsb _ rows) eqn:E; [reflexivity|].
  exfalso. apply in_map_iff in H. destruct H as (p & <- & Hp).
  assert (C : existsb (fun q => mrow_eqb (fst p) (fst q)) rows = true).
  { apply existsb_exists. exists p. split; [exact Hp|apply mrow_eqb_eq; reflexivity]. }
  congruence.
Qed.

(** [mapM] of lookups is [map] *)
Lemma mapM_rows {A B} rows (key : A -> mrow) (f : A -> mrow -> B) l bs :
  mapM (fun a => let* r := row_at rows (key a) in Ok (f a r)) l = Ok bs ->
  bs = map (fun a => f a (key a)) l /\ forall a, In a l -> In (key a) (map fst rows).
Proof.
  intro H. apply mapM_ok in H. induction H as [|a b l bs Hab _ IH]; [split; [reflexivity|intros a []]|].
  apply bind_ok in Hab. destruct Hab as (r & Hr & Hb). apply row_at_ok in Hr. destruct Hr as [-> Hin].
  inversion Hb; subst. destruct IH as [-> IH]. split; [reflexivity|].
  intros c [<-|Hc]; auto.
Qed.

Lemma in_rows_visit g o v : In (Visit v) (map fst (all_rows g o)) <->
  exists d, customer g v d.
Proof.
  unfold all_rows, covering_rows. rewrite !map_app, !in_app_iff, map_map. cbn [fst]. split.
  - intros [H|[H|H]].
    + apply in_map_iff in H. destruct H as ([w d] & E & Hin). inversion E; subst.
      apply filter_In in Hin. destruct Hin as [Hin Hm]. unfold must_visit in Hm.
      apply andb_true_iff in Hm. destruct Hm as [H1 H2]. apply negb_true_iff in H1, H2.
      apply is_depot_false in H1. exists d. repeat split; tauto.
    + exfalso. unfold bound_rows in H. destruct (mo_fleet o) as [l|]; [|destruct H].
      destruct (nonempty l && negb (mo_periodic o)); [|destruct H].
      rewrite map_map in H. apply in_map_iff in H. destruct H as (p & E & _). discriminate.
    + exfalso. unfold span_rows in H. destruct (mo_span o); [|destruct H].
      rewrite map_map in H. apply in_map_iff in H. destruct H as (p & E & _). discriminate.
  - intros (d & Hin & H1 & H2 & H3). left. apply in_map_iff. exists (v, d). split; [reflexivity|].
    apply filter_In. split; [exact Hin|]. unfold must_visit. cbn [fst snd].
    rewrite (proj2 (is_depot_false v) (conj H1 H2)), H3. reflexivity.
Qed.

Lemma map_fst_combine_seq {A} (l : list A) i : map fst (combine (seq i (List.length l)) l) = seq i (List.length l).
Proof. revert i. induction l as [|a l IH]; intro i; [reflexivity|]. simpl. rewrite IH. reflexivity. Qed.

Lemma in_rows_fleet g o k : In (Fleet k) (map fst (all_rows g o)) <->
  exists l, fleet_bound o l /\ (k < List.length l)%nat.
Proof.
  unfold all_rows, covering_rows. rewrite !map_app, !in_app_iff, map_map. cbn [fst]. split.
  - intros [H|[H|H]].
    + exfalso. apply in_map_iff in H. destruct H as (p & E & _). discriminate.
    + unfold bound_rows in H. destruct (mo_fleet o) as [l|] eqn:El; [|destruct H].
      destruct (nonempty l && negb (mo_periodic o)) eqn:Eb; [|destruct H].
      apply andb_true_iff in Eb. destruct Eb as [E1 E2]. apply negb_true_iff in E2.
      rewrite map_map in H. cbn [fst] in H. apply in_map_iff in H. destruct H as ([i n] & E & Hin).
      inversion E; subst. apply in_combine_l in Hin. apply in_seq in Hin.
      exists l. split; [|lia]. split; [exact El|]. split; [destruct l; [discriminate|discriminate]|exact E2].
    + exfalso. unfold span_rows in H. destruct (mo_span o); [|destruct H].
      rewrite map_map in H. apply in_map_iff in H. destruct H as (p & E & _). discriminate.
  - intros (l & (E1 & E2 & E3) & Hk). right. left. unfold bound_rows. rewrite E1, E3.
    destruct l as [|a l]; [congruence|]. cbn [nonempty negb andb].
    rewrite map_map. cbn [fst]. rewrite <- (map_map fst Fleet).
    apply in_map_iff. exists k. split; [reflexivity|].
    assert (E : map fst (combine (seq 0 (List.length (a :: l))) (a :: l)) = seq 0 (List.length (a :: l))).
    { apply map_fst_combine_seq. }
    rewrite E. apply in_seq. lia.
Qed.

Lemma coef_visits v l :
  coef_in (Visit v) (map (fun u => (Visit u, 1)) l) == inject_Z (Z.of_nat (count_occ node_eq_dec l v)).
Proof.
  induction l as [|u l IH]; [vm_compute; reflexivity|].
  change (map (fun u => (Visit u, 1)) (u :: l)) with ([(Visit u, 1)] ++ map (fun u => (Visit u, 1)) l).
  rewrite coef_in_app, coef_in_one, IH. cbn [mrow_eqb count_occ].
  destruct (node_eq_dec u v) as [->|Hne].
  - rewrite node_eqb_refl. rewrite Nat2Z.inj_succ, <- Z.add_1_r, inject_Z_plus. change (inject_Z 1) with 1. lra.
  - assert (E : node_eqb v u = false) by (apply node_eqb_neq; congruence). rewrite E. lra.
Qed.

Lemma coef_in_sum r l :
  coef_in r l == Qsum (map (fun t => if mrow_eqb r (fst t) then snd t else 0) l).
Proof.
  unfold coef_in. induction l as [|t l IH]; [simpl; lra|]. cbn [filter map].
  destruct (mrow_eqb r (fst t)); cbn [map]; rewrite ?Qsum_cons, IH; [lra|].
  change (Qsum (0 :: map (fun t => if mrow_eqb r (fst t) then snd t else 0) l))
    with (0 + Qsum (map (fun t => if mrow_eqb r (fst t) then snd t else 0) l)). lra.
Qed.

Lemma coef_other r l : (forall p, In p l -> mrow_eqb r (fst p) = false) -> coef_in r l == 0.
Proof.
  intro H. rewrite coef_in_sum. apply Qsum_map_zero. intros p Hp. rewrite (H p Hp). reflexivity.
Qed.

(** Rows given by a key function, each once *)
Lemma coef_keyed {A} (dec : forall a b : A, {a = b} + {a <> b}) (key : A -> mrow) q l a :
  (forall a b, key a = key b -> a = b) -> NoDup l ->
  coef_in (key a) (map (fun b => (key b, q)) l) == if in_dec dec a l then q else 0.
Proof.
  intros inj ND. rewrite coef_in_sum, map_map. cbn [fst snd].
  rewrite (Qsum_single dec (fun b => if mrow_eqb (key a) (key b) then q else 0) l a ND).
  - destruct (in_dec dec a l); [|reflexivity].
    rewrite (proj2 (mrow_eqb_eq (key a) (key a)) eq_refl). reflexivity.
  - intros b _ Hne. destruct (mrow_eqb (key a) (key b)) eqn:E; [|reflexivity].
    apply mrow_eqb_eq in E. apply inj in E. congruence.
Qed.

Lemma count_filter_cust v vs : is_cust v = true ->
  count_occ node_eq_dec (filter is_cust vs) v = count_occ node_eq_dec vs v.
Proof.
  intro Hv. induction vs as [|u vs IH]; [reflexivity|]. cbn [filter count_occ].
  destruct (node_eq_dec u v) as [->|Hne].
  - rewrite Hv. cbn [count_occ]. destruct (node_eq_dec v v); [congruence|congruence].
  - destruct (is_cust u); [|exact IH]. cbn [count_occ]. destruct (node_eq_dec u v); [congruence|exact IH].
Qed.

Lemma visit_coefs_ok rows vs l : visit_coefs rows vs = Ok l ->
  l = map (fun v => (Visit v, 1)) (filter is_cust vs) /\
  forall v, In v (filter is_cust vs) -> In (Visit v) (map fst rows).
Proof. intro H. exact (mapM_rows rows Visit (fun _ r => (r, 1)) _ _ H). Qed.

Lemma fleet_coefs_ok rows o k l : fleet_coefs rows o k = Ok l ->
  exists fl, mo_fleet o = Some fl /\
    l = map (fun j => (Fleet j, 1)) (filter (fun j => (k =? j)%nat) (seq 0 (List.length fl))) /\
    ((k < List.length fl)%nat -> In (Fleet k) (map fst rows)).
Proof.
  intro H. apply bind_ok in H. destruct H as (K & HK & H). unfold fleet_size in HK.
  destruct (mo_fleet o) as [fl|]; [|discriminate]. inversion HK; subst.
  exists fl. split; [reflexivity|].
  destruct (mapM_rows rows Fleet (fun _ r => (r, 1)) _ _ H) as [-> Hin]. split; [reflexivity|].
  intro Hk. apply Hin. apply filter_In. split; [apply in_seq; lia|apply Nat.eqb_refl].
Qed.

Lemma coef_fleet k j n : (j < n)%nat ->
  coef_in (Fleet j) (map (fun i => (Fleet i, 1)) (filter (fun i => (k =? i)%nat) (seq 0 n)))
  == if (k =? j)%nat then 1 else 0.
Proof.
  intro Hj.
  rewrite (coef_keyed Nat.eq_dec Fleet 1 (filter (fun i => (k =? i)%nat) (seq 0 n)) j);
    [|intros a b E; congruence|apply NoDup_filter', seq_NoDup].
  destruct (in_dec Nat.eq_dec j (filter (fun i => (k =? i)%nat) (seq 0 n))) as [Hin|Hn].
  - apply filter_In in Hin. destruct Hin as [_ ->]. reflexivity.
  - destruct (k =? j)%nat eqn:E; [|reflexivity]. exfalso. apply Hn.
    apply filter_In. split; [apply in_seq; lia|exact E].
Qed.

(** The variable of a column. *)
Record variable_of (o : moptions) (c : column) (y : mcol) : Prop := {
  vo_var : mc_var y = Y (c_name c);
  vo_bounds : mc_bounds y = zero_one (mo_span o);
  vo_cost : mc_cost y = if mo_span o then 0 else c_cost c;
  vo_visit : forall v, v <> Source -> v <> Sink -> coef (Visit v) y == inject_Z (Z.of_nat (times v c));
  vo_fleet : forall l k, mo_fleet o = Some l -> (k < List.length l)%nat ->
    coef (Fleet k) y == if (c_type c =? k)%nat then 1 else 0;
  vo_span : forall i, coef (SpanOf i) y ==
    if mo_span o && match c_name c with CNat n => (n =? i)%nat | _ => false end then c_cost c else 0
}.

Lemma coef_map_other {A} r (key : A -> mrow) q l : (forall a, mrow_eqb r (key a) = false) ->
  coef_in r (map (fun a => (key a, q)) l) == 0.
Proof.
  intro H. apply coef_other. intros p Hp. apply in_map_iff in Hp. destruct Hp as (a & <- & _). apply H.
Qed.

Lemma new_variable_spec rows o c y : labelled c ->
  new_variable rows o c = Ok y -> variable_of o c y.
Proof.
  intros L H. unfold new_variable in H. destruct (mo_span o) eqn:Es.
  - unfold span_route_variable in H. apply bind_ok in H. destruct H as (cov & Hc & H).
    apply bind_ok in H. destruct H as (fl & Hf & H). apply bind_ok in H. destruct H as (r & Hr & H).
    inversion H; subst y; clear H.
    destruct (visit_coefs_ok _ _ _ Hc) as [-> _]. destruct (fleet_coefs_ok _ _ _ _ Hf) as (l & El & -> & _).
    unfold labelled in L. destruct (c_name c) as [n|n|n] eqn:En; simpl in Hr; try discriminate.
    apply row_at_ok in Hr. destruct Hr as [-> _].
    assert (Ep : served c = c_nodes c) by (unfold served; rewrite L; reflexivity).
    constructor; cbn [mc_var mc_bounds mc_cost mc_coefs]; rewrite ?Es; try reflexivity.
    + rewrite En; reflexivity.
    + intros v H1 H2. unfold coef. cbn [mc_coefs]. rewrite !coef_in_app, coef_visits, coef_in_one.
      rewrite (coef_map_other (Visit v) Fleet) by reflexivity. cbn [mrow_eqb].
      rewrite count_filter_cust by (apply is_cust_true; auto).
      unfold times. rewrite Ep. lra.
    + intros l' k El' Hk. unfold coef. cbn [mc_coefs]. rewrite !coef_in_app, coef_in_one.
      rewrite (coef_map_other (Fleet k) Visit) by reflexivity. cbn [mrow_eqb].
      rewrite El in El'. inversion El'; subst l'. rewrite coef_fleet by exact Hk. lra.
    + intros i. unfold coef. cbn [mc_coefs]. rewrite !coef_in_app, coef_in_one.
      rewrite (coef_map_other (SpanOf i) Visit) by reflexivity.
      rewrite (coef_map_other (SpanOf i) Fleet) by reflexivity. cbn [mrow_eqb andb]. rewrite En.
      rewrite (Nat.eqb_sym i n). destruct (n =? i)%nat; lra.
  - unfold route_variable in H. apply bind_ok in H. destruct H as (cov & Hc & H).
    apply bind_ok in H. destruct H as (fl & Hf & H).
    inversion H; subst y; clear H.
    destruct (visit_coefs_ok _ _ _ Hc) as [-> _]. destruct (fleet_coefs_ok _ _ _ _ Hf) as (l & El & -> & _).
    constructor; cbn [mc_var mc_bounds mc_cost mc_coefs]; rewrite ?Es; try reflexivity.
    + intros v H1 H2. unfold coef. cbn [mc_coefs]. rewrite !coef_in_app, coef_visits.
      rewrite (coef_map_other (Visit v) Fleet) by reflexivity.
      rewrite count_filter_cust by (apply is_cust_true; auto).
      unfold times, served. lra.
    + intros l' k El' Hk. unfold coef. cbn [mc_coefs]. rewrite !coef_in_app.
      rewrite (coef_map_other (Fleet k) Visit) by reflexivity.
      rewrite El in El'. inversion El'; subst l'. rewrite coef_fleet by exact Hk. lra.
    + intros i. unfold coef. cbn [mc_coefs]. rewrite !coef_in_app.
      rewrite (coef_map_other (SpanOf i) Visit) by reflexivity.
      rewrite (coef_map_other (SpanOf i) Fleet) by reflexivity. cbn [andb]. lra.
Qed.

(* ------------------------------------------------------------------ *)
(** ** The whole problem *)

Definition drop_col (p : Q) (v : node) : mcol := mkMCol (Drop v) (zero_one true) p [(Visit v, 1)].
Definition dummy_col (v : node) : mcol := mkMCol (Dummy v) nonneg big [(Visit v, 1)].
Definition extra_col (k : nat) : mcol := mkMCol (Extra k) nonneg big [(Fleet k, - (1))].
Definition span_col : mcol := mkMCol Span nonneg 1 (map (fun n => (SpanOf n, - (1))) (seq 1 74)).

Definition drop_cols (g : vgraph) (o : moptions) : list mcol :=
  match mo_drop o with
  | Some p => if truthyQ (mo_drop o) then map (drop_col p) (custs g) else []
  | None => []
  end.
Definition dummy_cols (g : vgraph) (o : moptions) : list mcol :=
  if mo_periodic o then map (fun p => dummy_col (fst p)) (filter has_dummy (gnodes g)) else [].
Definition extra_cols (o : moptions) : list mcol :=
  match mo_fleet o with Some l => map extra_col (seq 0 (List.length l)) | None => [] end.
Definition span_cols (o : moptions) : list mcol := if mo_span o then [span_col] else [].

Record shape (g : vgraph) (o : moptions) (cs : list column) (m : master) : Prop := {
  sh_rows : ms_rows m = all_rows g o;
  sh_cols : exists ys, Forall2 (fun c y => new_variable (all_rows g o) o c = Ok y) cs ys /\
    Permutation (ms_cols m) (ys ++ drop_cols g o ++ dummy_cols g o ++ extra_cols o ++ span_cols o);
  sh_drop : truthyQ (mo_drop o) = true -> forall v, In v (custs g) -> exists d, customer g v d;
  sh_dummy : mo_periodic o = true -> forall v d, In (v, d) (gnodes g) -> v <> Source -> (1 < freq d)%Z ->
    exists d', customer g v d';
  sh_fleet : exists l, mo_fleet o = Some l /\ (l <> [] -> mo_periodic o = false)
}.

Lemma formulate_shape g o cs m : formulate g o cs = Ok m -> shape g o cs m.
Proof.
  unfold formulate. intro H.
  apply bind_ok in H. destruct H as (ys & Hy & H). apply bind_ok in H. destruct H as (ds & Hd & H).
  apply bind_ok in H. destruct H as (ps & Hp & H). apply bind_ok in H. destruct H as (es & He & H).
  apply bind_ok in H. destruct H as (ss & Hs & H). inversion H; subst m; clear H.
  apply mapM_ok in Hy.
  assert (Ed : ds = drop_cols g o /\ (truthyQ (mo_drop o) = true ->
            forall v, In v (custs g) -> exists d, customer g v d)).
  { unfold drop_variables in Hd. unfold drop_cols. destruct (mo_drop o) as [p|]; [|inversion Hd; split; [reflexivity|discriminate]].
    destruct (truthyQ (Some p)); [|inversion Hd; split; [reflexivity|discriminate]].
    destruct (mapM_rows _ Visit (fun v r => mkMCol (Drop v) (zero_one true) p [(r, 1)]) _ _ Hd) as [-> Hin].
    split; [reflexivity|]. intros _ v Hv. apply (in_rows_visit g o), Hin, Hv. }
  assert (Ep : ps = dummy_cols g o /\ (mo_periodic o = true -> forall v d, In (v, d) (gnodes g) -> v <> Source ->
            (1 < freq d)%Z -> exists d', customer g v d')).
  { unfold dummy_variables in Hp. unfold dummy_cols. destruct (mo_periodic o); [|inversion Hp; split; [reflexivity|discriminate]].
    destruct (mapM_rows _ (fun p => Visit (fst p)) (fun p r => mkMCol (Dummy (fst p)) nonneg big [(r, 1)]) _ _ Hp) as [-> Hin].
    split; [reflexivity|]. intros _ v d Hv Hne Hf. apply (in_rows_visit g o). apply (Hin (v, d)).
    apply filter_In. split; [exact Hv|]. unfold has_dummy. cbn [fst snd].
    apply andb_true_iff. split; [apply Z.ltb_lt; exact Hf|].
    apply negb_true_iff, node_eqb_neq; exact Hne. }
  assert (Ee : es = extra_cols o /\ exists l, mo_fleet o = Some l /\ (l <> [] -> mo_periodic o = false)).
  { unfold extra_variables in He. apply bind_ok in He. destruct He as (K & HK & He).
    unfold fleet_size in HK. unfold extra_cols. destruct (mo_fleet o) as [l|] eqn:El; [|discriminate].
    inversion HK; subst K.
    destruct (mapM_rows _ Fleet (fun k r => mkMCol (Extra k) nonneg big [(r, - (1))]) _ _ He) as [-> Hin].
    split; [reflexivity|]. exists l. split; [reflexivity|]. intro Hl.
    assert (H0 : In (Fleet 0) (map fst (all_rows g o))).
    { apply Hin. apply in_seq. destruct l; [congruence|simpl; lia]. }
    apply in_rows_fleet in H0. destruct H0 as (l' & (_ & _ & E) & _). exact E. }
  assert (Es : ss = span_cols o).
  { unfold span_variables in Hs. unfold span_cols. destruct (mo_span o); [|inversion Hs; reflexivity].
    apply bind_ok in Hs. destruct Hs as (l & Hl & Hs).
    destruct (mapM_rows _ SpanOf (fun _ r => (r, - (1))) _ _ Hl) as [-> _]. inversion Hs. reflexivity. }
  destruct Ed as [-> Ed], Ep as [-> Ep], Ee as [-> Ee]. subst ss.
  constructor; cbn [ms_rows ms_cols]; auto.
  exists ys. split; [exact Hy|reflexivity].
Qed.

Lemma built_shape g o cs m : built g o cs m -> shape g o cs m.
Proof.
  induction 1 as [cs m H|cs c m m1 _ IH H]; [exact (formulate_shape _ _ _ _ H)|].
  unfold update in H. apply bind_ok in H. destruct H as (y & Hy & H). inversion H; subst m1; clear H.
  destruct IH as [Hr (ys & Hys & P) Hd Hp Hf]. rewrite Hr in Hy.
  constructor; cbn [ms_rows ms_cols]; auto.
  exists (ys ++ [y]). split; [apply Forall2_app; [exact Hys|constructor; [exact Hy|constructor]]|].
  rewrite P, <- !app_assoc. apply Permutation_app_head.
  rewrite !app_assoc. rewrite <- Permutation_cons_append. reflexivity.
Qed.

Lemma variables_of g o cs ys : (forall c, In c cs -> labelled c) ->
  Forall2 (fun c y => new_variable (all_rows g o) o c = Ok y) cs ys -> Forall2 (variable_of o) cs ys.
Proof.
  intros L F. induction F as [|c y cs ys Hc F IH]; [constructor|].
  constructor; [apply (new_variable_spec (all_rows g o)); [apply L; simpl; auto|exact Hc]|].
  apply IH. intros c' Hc'. apply L; simpl; auto.
Qed.

Section Meaning.
  Variables (g : vgraph) (o : moptions) (cs : list column) (m : master).
  Hypothesis WF : wf g.
  Hypothesis LAB : forall c, In c cs -> labelled c.
  Hypothesis SH : shape g o cs m.

  Definition others : list mcol := drop_cols g o ++ dummy_cols g o ++ extra_cols o ++ span_cols o.

  Lemma columns : exists ys, Forall2 (variable_of o) cs ys /\ Permutation (ms_cols m) (ys ++ others).
  Proof.
    destruct (sh_cols _ _ _ _ SH) as (ys & F & P). exists ys. split; [|exact P].
    exact (variables_of _ _ _ _ LAB F).
  Qed.

  Lemma share_routes x r (F : column -> Q) ys l :
    (forall c y, In c l -> variable_of o c y -> coef r y == F c) ->
    Forall2 (variable_of o) l ys -> share x r ys == Qsum_over l (fun c => F c * x (Y (c_name c))).
  Proof.
    intros H FA. unfold Qsum_over. induction FA as [|c y l ys Hc FA IH]; [unfold share; simpl; lra|].
    unfold share. cbn [map]. rewrite !Qsum_cons.
    assert (E1 : coef r y == F c) by (apply H; simpl; auto).
    assert (E2 : mc_var y = Y (c_name c)) by apply (vo_var _ _ _ Hc).
    rewrite E1, E2. apply Qplus_comp; [reflexivity|].
    apply IH. intros c' y' Hin. apply H. simpl; auto.
  Qed.

  Lemma NoDup_custs : NoDup (custs g).
  Proof. apply NoDup_filter', (wf_nodes _ WF). Qed.

  Lemma one_coef r s q : coef r (mkMCol s nonneg 0 [(q : mrow, 1)]) == if mrow_eqb r q then 1 else 0.
  Proof. unfold coef. cbn [mc_coefs]. apply coef_in_one. Qed.

  Lemma share_drop x r :
    share x r (drop_cols g o) ==
    match r with
    | Visit v => if truthyQ (mo_drop o) then (if in_dec node_eq_dec v (custs g) then x (Drop v) else 0) else 0
    | _ => 0
    end.
  Proof.
    unfold drop_cols. destruct (mo_drop o) as [p|]; [|destruct r; unfold share; simpl; lra].
    destruct (truthyQ (Some p)); [|destruct r; unfold share; simpl; lra].
    rewrite share_map. unfold coef. cbn [drop_col mc_coefs mc_var].
    destruct r as [v|k|n].
    - rewrite (Qsum_single node_eq_dec (fun a => coef_in (Visit v) [(Visit a, 1)] * x (Drop a)) (custs g) v NoDup_custs).
      + destruct (in_dec node_eq_dec v (custs g)); [|reflexivity]. rewrite coef_in_one. cbn [mrow_eqb].
        rewrite node_eqb_refl. ring.
      + intros b _ Hne. rewrite coef_in_one. cbn [mrow_eqb].
        assert (E : node_eqb v b = false) by (apply node_eqb_neq; congruence). rewrite E. ring.
    - apply Qsum_map_zero. intros a _. rewrite coef_in_one. cbn [mrow_eqb]. ring.
    - apply Qsum_map_zero. intros a _. rewrite coef_in_one. cbn [mrow_eqb]. ring.
  Qed.

  Lemma share_dummy x v d : In (v, d) (gnodes g) -> v <> Source ->
    share x (Visit v) (dummy_cols g o) == if mo_periodic o && (1 <? freq d)%Z then x (Dummy v) else 0.
  Proof.
    intros Hin Hv. unfold dummy_cols. destruct (mo_periodic o); [|unfold share; simpl; lra].
    rewrite share_map. unfold coef. cbn [dummy_col mc_coefs mc_var andb].
    rewrite <- (map_map fst (fun w => coef_in (Visit v) [(Visit w, 1)] * x (Dummy w))).
    assert (ND : NoDup (map fst (filter has_dummy (gnodes g)))).
    { assert (H := wf_nodes _ WF). unfold nodes in H. revert H.
      generalize (gnodes g). induction l as [|a l IH]; cbn [filter map]; intro H; [constructor|].
      inversion H as [|a' l' Ha Hl]; subst. destruct (has_dummy a); [|auto]. cbn [map]. constructor; [|auto].
      intro C. apply Ha. apply in_map_iff in C. destruct C as (b & E & Hb). apply filter_In in Hb.
      rewrite <- E. apply in_map. tauto. }
    rewrite (Qsum_single node_eq_dec (fun w => coef_in (Visit v) [(Visit w, 1)] * x (Dummy w)) _ v ND).
    - destruct (in_dec node_eq_dec v (map fst (filter has_dummy (gnodes g)))) as [Hi|Hn].
      + rewrite coef_in_one. cbn [mrow_eqb]. rewrite node_eqb_refl.
        apply in_map_iff in Hi. destruct Hi as ([w d'] & E & Hi). cbn [fst] in E. subst w.
        apply filter_In in Hi. destruct Hi as [Hi Hd]. unfold has_dummy in Hd. cbn [fst snd] in Hd.
        assert (E : d' = d).
        { assert (A1 := assoc_node_NoDup v d' (gnodes g) (wf_nodes _ WF) Hi).
          assert (A2 := assoc_node_NoDup v d (gnodes g) (wf_nodes _ WF) Hin). congruence. }
        subst d'. apply andb_true_iff in Hd. destruct Hd as [-> _]. ring.
      + destruct (1 <? freq d)%Z eqn:Ef; [|reflexivity]. exfalso. apply Hn.
        apply in_map_iff. exists (v, d). split; [reflexivity|]. apply filter_In. split; [exact Hin|].
        unfold has_dummy. cbn [fst snd]. rewrite Ef. cbn [andb]. apply negb_true_iff, node_eqb_neq; exact Hv.
    - intros b _ Hne. rewrite coef_in_one. cbn [mrow_eqb].
      assert (E : node_eqb v b = false) by (apply node_eqb_neq; congruence). rewrite E. ring.
  Qed.

  Lemma share_dummy_other x r : (forall v, r <> Visit v) -> share x r (dummy_cols g o) == 0.
  Proof.
    intro H. unfold dummy_cols. destruct (mo_periodic o); [|unfold share; simpl; lra].
    rewrite share_map. apply Qsum_map_zero. intros a _. unfold coef, dummy_col. cbn [mc_coefs mc_var]. rewrite coef_in_one.
    destruct (mrow_eqb r (Visit (fst a))) eqn:E; [|ring].
    apply mrow_eqb_eq in E. exfalso. exact (H _ E).
  Qed.

  Lemma share_extra x k l : mo_fleet o = Some l -> (k < List.length l)%nat ->
    share x (Fleet k) (extra_cols o) == - x (Extra k).
  Proof.
    intros El Hk. unfold extra_cols. rewrite El, share_map. unfold coef. cbn [extra_col mc_coefs mc_var].
    rewrite (Qsum_single Nat.eq_dec (fun a => coef_in (Fleet k) [(Fleet a, - (1))] * x (Extra a)) _ k (seq_NoDup _ _)).
    - destruct (in_dec Nat.eq_dec k (seq 0 (List.length l))) as [_|Hn];
        [rewrite coef_in_one; cbn [mrow_eqb]; rewrite Nat.eqb_refl; ring|].
      exfalso. apply Hn. apply in_seq. lia.
    - intros b _ Hne. rewrite coef_in_one. cbn [mrow_eqb].
      assert (E : (k =? b)%nat = false) by (apply Nat.eqb_neq; congruence). rewrite E. ring.
  Qed.

  Lemma share_extra_other x r : (forall k, r <> Fleet k) -> share x r (extra_cols o) == 0.
  Proof.
    intro H. unfold extra_cols. destruct (mo_fleet o) as [l|]; [|unfold share; simpl; lra].
    rewrite share_map. apply Qsum_map_zero. intros a _. unfold coef, extra_col. cbn [mc_coefs mc_var]. rewrite coef_in_one.
    destruct (mrow_eqb r (Fleet a)) eqn:E; [|ring].
    apply mrow_eqb_eq in E. exfalso. exact (H _ E).
  Qed.

  Lemma share_span x i : mo_span o = true -> (1 <= i)%nat ->
    share x (SpanOf i) (span_cols o) == if (i <=? 74)%nat then - x Span else 0.
  Proof.
    intros Es Hi. unfold span_cols. rewrite Es. unfold share. cbn [map]. rewrite Qsum_cons. unfold coef.
    cbn [span_col mc_coefs mc_var].
    assert (E : coef_in (SpanOf i) (map (fun n => (SpanOf n, - (1))) (seq 1 74)) ==
                if in_dec Nat.eq_dec i (seq 1 74) then - (1) else 0).
    { apply (coef_keyed Nat.eq_dec SpanOf (- (1))); [intros a b E; congruence|apply seq_NoDup]. }
    rewrite E. destruct (in_dec Nat.eq_dec i (seq 1 74)) as [Hin|Hn].
    - apply in_seq in Hin. assert (B : (i <=? 74)%nat = true) by (apply Nat.leb_le; lia). rewrite B.
      cbn [Qsum fold_right]. ring.
    - destruct (i <=? 74)%nat eqn:B; [|cbn [Qsum fold_right]; ring].
      exfalso. apply Hn. apply Nat.leb_le in B. apply in_seq. lia.
  Qed.

  Lemma share_span_other x r : (forall i, r <> SpanOf i) -> share x r (span_cols o) == 0.
  Proof.
    intro H. unfold span_cols. destruct (mo_span o); [|unfold share; simpl; lra].
    unfold share. cbn [map]. rewrite Qsum_cons. unfold coef. cbn [span_col mc_coefs mc_var].
    rewrite (coef_map_other r SpanOf).
    - cbn [Qsum fold_right]. ring.
    - intro i. destruct (mrow_eqb r (SpanOf i)) eqn:E; [|reflexivity].
      apply mrow_eqb_eq in E. exfalso. exact (H _ E).
  Qed.

  Lemma share_split x r ys : Permutation (ms_cols m) (ys ++ others) ->
    share x r (ms_cols m) == share x r ys + (share x r (drop_cols g o) + (share x r (dummy_cols g o) +
                             (share x r (extra_cols o) + share x r (span_cols o)))).
  Proof. intro P. rewrite (share_perm _ _ _ _ P). unfold others. rewrite !share_app. reflexivity. Qed.

  Lemma customer_cust v d : customer g v d -> In v (custs g).
  Proof.
    intros (Hin & H1 & H2 & _). apply filter_In. split; [|apply is_cust_true; auto].
    unfold nodes. apply in_map_iff. exists (v, d). auto.
  Qed.

  Lemma share_visit x v d : customer g v d ->
    share x (Visit v) (ms_cols m) == count_visits g o cs x v d.
  Proof.
    intro Hc. destruct columns as (ys & F & P). rewrite (share_split _ _ _ P).
    destruct (Hc) as (Hin & H1 & H2 & H3).
    rewrite (share_routes x (Visit v) (fun c => inject_Z (Z.of_nat (times v c))) ys cs); [| |exact F].
    - rewrite share_drop, (share_dummy x v d Hin H1), share_extra_other, share_span_other by discriminate.
      unfold count_visits.
      destruct (in_dec node_eq_dec v (custs g)) as [_|Hn]; [|exfalso; apply Hn; exact (customer_cust v d Hc)].
      destruct (truthyQ (mo_drop o)); lra.
    - intros c y _ Hv. apply (vo_visit _ _ _ Hv); assumption.
  Qed.

  Lemma sum_filter (f : column -> bool) (h : column -> Q) l :
    Qsum_over (filter f l) h == Qsum_over l (fun c => (if f c then 1 else 0) * h c).
  Proof.
    unfold Qsum_over. induction l as [|c l IH]; [simpl; lra|]. cbn [filter map].
    rewrite Qsum_cons. destruct (f c); cbn [map]; rewrite ?Qsum_cons, IH; lra.
  Qed.

  Lemma share_fleet x k l : mo_fleet o = Some l -> (k < List.length l)%nat ->
    share x (Fleet k) (ms_cols m) == count_type cs x k - x (Extra k).
  Proof.
    intros El Hk. destruct columns as (ys & F & P). rewrite (share_split _ _ _ P).
    rewrite (share_routes x (Fleet k) (fun c => if (c_type c =? k)%nat then 1 else 0) ys cs); [| |exact F].
    - rewrite share_drop, share_dummy_other, (share_extra x k l El Hk), share_span_other by discriminate.
      unfold count_type. rewrite sum_filter. lra.
    - intros c y _ Hv. apply (vo_fleet _ _ _ Hv l); assumption.
  Qed.

  Lemma share_spanrow x i : mo_span o = true -> (1 <= i)%nat ->
    share x (SpanOf i) (ms_cols m) ==
    Qsum_over (filter (fun c => match c_name c with CNat n => (n =? i)%nat | _ => false end) cs)
              (fun c => c_cost c * x (Y (c_name c)))
    - (if (i <=? 74)%nat then x Span else 0).
  Proof.
    intros Es Hi. destruct columns as (ys & F & P). rewrite (share_split _ _ _ P).
    rewrite (share_routes x (SpanOf i)
               (fun c => (if match c_name c with CNat n => (n =? i)%nat | _ => false end then 1 else 0) * c_cost c) ys cs);
      [| |exact F].
    - rewrite share_drop, share_dummy_other, share_extra_other, (share_span x i Es Hi) by discriminate.
      rewrite sum_filter.
      assert (E : forall l, Qsum_over l (fun c => (if match c_name c with CNat n => (n =? i)%nat | _ => false end then 1 else 0)
                              * c_cost c * x (Y (c_name c))) ==
                Qsum_over l (fun c => (if match c_name c with CNat n => (n =? i)%nat | _ => false end then 1 else 0)
                              * (c_cost c * x (Y (c_name c))))).
      { intro l. unfold Qsum_over. apply Qsum_map_ext. intros c _. ring. }
      rewrite E. destruct (i <=? 74)%nat; lra.
    - intros c y _ Hv. rewrite (vo_span _ _ _ Hv), Es. cbn [andb].
      destruct (match c_name c with CNat n => (n =? i)%nat | _ => false end); ring.
  Qed.

  (** The program that is solved *)
  Definition stage (final : bool) : master := if final then integral m else m.

  Lemma stage_row final r q s :
    In (r, (s, q)) (ms_rows (stage final)) <->
    exists s0, In (r, (s0, q)) (all_rows g o) /\
      s = match r with Visit _ => if final then EQ else s0 | _ => s0 end.
  Proof.
    unfold stage. destruct final.
    - unfold integral. cbn [ms_rows]. rewrite (sh_rows _ _ _ _ SH). split.
      + intro H. apply in_map_iff in H. destruct H as ([r0 [s0 q0]] & E & Hin).
        unfold integral_row in E. cbn [fst snd] in E. exists s0.
        destruct r0; inversion E; subst; auto.
      + intros (s0 & Hin & ->). apply in_map_iff. exists (r, (s0, q)). split; [|exact Hin].
        destruct r; reflexivity.
    - rewrite (sh_rows _ _ _ _ SH). split.
      + intro H. exists s. split; [exact H|destruct r; reflexivity].
      + intros (s0 & Hin & ->). destruct r; exact Hin.
  Qed.

  Lemma stage_share x r final : share x r (ms_cols (stage final)) == share x r (ms_cols m).
  Proof. unfold stage. destruct final; [apply share_integral|reflexivity]. Qed.

  Lemma row_kinds r s q : In (r, (s, q)) (all_rows g o) <->
    (exists v d, customer g v d /\ r = Visit v /\ s = GE /\ q = required o d) \/
    (exists l k, fleet_bound o l /\ nth_error l k = Some q /\ r = Fleet k /\ s = if mo_all o then EQ else LE) \/
    (exists i, mo_span o = true /\ (1 <= i <= 999)%nat /\ r = SpanOf i /\ s = LE /\ q = 0).
  Proof.
    unfold all_rows. rewrite !in_app_iff. unfold covering_rows. split.
    - intros [H|[H|H]].
      + left. apply in_map_iff in H. destruct H as ([v d] & E & Hin). cbn [fst snd] in E. inversion E; subst.
        apply filter_In in Hin. destruct Hin as [Hin Hm]. unfold must_visit in Hm. cbn [fst snd] in Hm.
        apply andb_true_iff in Hm. destruct Hm as [H1 H2]. apply negb_true_iff in H1, H2.
        apply is_depot_false in H1. exists v, d. repeat split; tauto.
      + right. left. unfold bound_rows in H. destruct (mo_fleet o) as [l|] eqn:El; [|destruct H].
        destruct (nonempty l && negb (mo_periodic o)) eqn:Eb; [|destruct H].
        apply andb_true_iff in Eb. destruct Eb as [E1 E2]. apply negb_true_iff in E2.
        apply in_map_iff in H. destruct H as ([i n] & E & Hin). cbn [fst snd] in E. inversion E; subst.
        exists l, i. split; [split; [exact El|split; [destruct l; discriminate|exact E2]]|].
        split; [|split; reflexivity]. clear - Hin.
        assert (G : forall (l : list Q) j, In (i, q) (combine (seq j (List.length l)) l) -> (j <= i)%nat /\ nth_error l (i - j) = Some q).
        { clear. induction l as [|a l IH]; intros j H; [destruct H|]. cbn [List.length seq combine] in H.
          destruct H as [H|H].
          - inversion H; subst. split; [lia|]. rewrite Nat.sub_diag. reflexivity.
          - destruct (IH (Datatypes.S j) H) as [H1 H2]. split; [lia|].
            replace (i - j)%nat with (Datatypes.S (i - Datatypes.S j)) by lia. exact H2. }
        destruct (G l 0%nat Hin) as [_ H]. rewrite Nat.sub_0_r in H. exact H.
      + right. right. unfold span_rows in H. destruct (mo_span o); [|destruct H].
        apply in_map_iff in H. destruct H as (i & E & Hin). inversion E; subst.
        apply in_seq in Hin. exists i. repeat split; try lia.
    - intros [(v & d & (Hin & H1 & H2 & H3) & -> & -> & ->)|[(l & k & (E1 & E2 & E3) & Hk & -> & ->)|(i & Es & Hi & -> & -> & ->)]].
      + left. apply in_map_iff. exists (v, d). split; [reflexivity|].
        apply filter_In. split; [exact Hin|]. unfold must_visit. cbn [fst snd].
        rewrite (proj2 (is_depot_false v) (conj H1 H2)), H3. reflexivity.
      + right. left. unfold bound_rows. rewrite E1, E3. destruct l as [|a l]; [congruence|].
        cbn [nonempty negb andb]. apply in_map_iff. exists (k, q). split; [reflexivity|].
        assert (G : forall (l : list Q) j k, nth_error l k = Some q -> In ((j + k)%nat, q) (combine (seq j (List.length l)) l)).
        { clear. induction l as [|a l IH]; intros j k H; [destruct k; discriminate|].
          destruct k as [|k]; cbn [nth_error] in H.
          - inversion H; subst. rewrite Nat.add_0_r. simpl. auto.
          - cbn [List.length seq combine]. right. replace (j + Datatypes.S k)%nat with (Datatypes.S j + k)%nat by lia.
            apply IH. exact H. }
        exact (G _ 0%nat k Hk).
      + right. right. unfold span_rows. rewrite Es. apply in_map_iff. exists i. split; [reflexivity|].
        apply in_seq. lia.
  Qed.

  Lemma holds_share x r s q final :
    holds x (mkRow (row_lhs (ms_cols (stage final)) r) s q) <->
    match s with
    | LE => share x r (ms_cols m) <= q
    | GE => q <= share x r (ms_cols m)
    | EQ => share x r (ms_cols m) == q
    end.
  Proof.
    unfold holds. cbn [r_lhs r_sense r_rhs].
    assert (E : value x (row_lhs (ms_cols (stage final)) r) == share x r (ms_cols m)).
    { rewrite value_row, stage_share. reflexivity. }
    destruct s; rewrite E; reflexivity.
  Qed.

  (** Bounds *)
  Definition final_bounds (final : bool) (c : mcol) : bounds := mc_bounds (if final then integral_col c else c).

  Lemma stage_bounds final x :
    (forall v b, In (v, b) (p_vars (program_of (stage final))) -> in_bounds (x v) b) <->
    (forall c, In c (ms_cols m) -> in_bounds (x (mc_var c)) (final_bounds final c)).
  Proof.
    unfold stage, final_bounds. destruct final; cbn [program_of p_vars integral ms_cols].
    - rewrite map_map. split.
      + intros H c Hc. apply H. apply in_map_iff. exists c. split; [reflexivity|exact Hc].
      + intros H v b Hin. apply in_map_iff in Hin. destruct Hin as (c & E & Hc). inversion E; subst. exact (H c Hc).
    - split.
      + intros H c Hc. apply H. apply in_map_iff. exists c. split; [reflexivity|exact Hc].
      + intros H v b Hin. apply in_map_iff in Hin. destruct Hin as (c & E & Hc). inversion E; subst. exact (H c Hc).
  Qed.

  Lemma in_bounds_intro q lo up i : lo <= q -> (forall u, up = Some u -> q <= u) -> (i = true -> whole q) ->
    in_bounds q (mkBounds (Some lo) up i).
  Proof.
    intros H1 H2 H3. split; [|split; [exact H2|exact H3]]. cbn [b_low]. intros l E. inversion E; subst. exact H1.
  Qed.

  Lemma stage_columns final x :
    (forall c, In c (ms_cols m) -> in_bounds (x (mc_var c)) (final_bounds final c)) <->
    (forall c, In c cs ->
       0 <= x (Y (c_name c)) /\ x (Y (c_name c)) <= 1 /\
       (final = true \/ mo_span o = true -> whole (x (Y (c_name c)))) /\
       (final = true -> (exists i, c_name c = CNonElem i) -> x (Y (c_name c)) == 0)) /\
    (forall p, drops o p -> forall v, In v (custs g) -> 0 <= x (Drop v) /\ x (Drop v) <= 1 /\ whole (x (Drop v))) /\
    (mo_periodic o = true -> forall v d, In (v, d) (gnodes g) -> v <> Source -> (1 < freq d)%Z ->
       0 <= x (Dummy v) /\ (final = true -> whole (x (Dummy v)))) /\
    (forall l, mo_fleet o = Some l -> forall k, (k < List.length l)%nat ->
       0 <= x (Extra k) /\ (final = true -> x (Extra k) == 0)) /\
    (mo_span o = true -> 0 <= x Span).
  Proof.
    destruct columns as (ys & F & P).
    assert (ALL : (forall c, In c (ms_cols m) -> in_bounds (x (mc_var c)) (final_bounds final c)) <->
                  (forall c, In c (ys ++ others) -> in_bounds (x (mc_var c)) (final_bounds final c))).
    { split; intros H c Hc; apply H; [rewrite P|rewrite <- P]; exact Hc. }
    rewrite ALL. clear ALL.
    assert (SPL : (forall c, In c (ys ++ others) -> in_bounds (x (mc_var c)) (final_bounds final c)) <->
      (forall c, In c ys -> in_bounds (x (mc_var c)) (final_bounds final c)) /\
      (forall c, In c (drop_cols g o) -> in_bounds (x (mc_var c)) (final_bounds final c)) /\
      (forall c, In c (dummy_cols g o) -> in_bounds (x (mc_var c)) (final_bounds final c)) /\
      (forall c, In c (extra_cols o) -> in_bounds (x (mc_var c)) (final_bounds final c)) /\
      (forall c, In c (span_cols o) -> in_bounds (x (mc_var c)) (final_bounds final c))).
    { split.
      - intro H. unfold others in H.
        split; [|split; [|split; [|split]]]; intros c Hc; apply H; rewrite !in_app_iff; tauto.
      - intros (H1 & H2 & H3 & H4 & H5) c Hc. unfold others in Hc. rewrite !in_app_iff in Hc.
        destruct Hc as [Hc|[Hc|[Hc|[Hc|Hc]]]]; auto. }
    rewrite SPL. clear SPL.
    assert (A1 : (forall c, In c ys -> in_bounds (x (mc_var c)) (final_bounds final c)) <->
      (forall c, In c cs ->
       0 <= x (Y (c_name c)) /\ x (Y (c_name c)) <= 1 /\
       (final = true \/ mo_span o = true -> whole (x (Y (c_name c)))) /\
       (final = true -> (exists i, c_name c = CNonElem i) -> x (Y (c_name c)) == 0))).
    { clear P. revert F. generalize cs. intros l F. clear - F.
      induction F as [|c y l ys Hv F IH]; [split; intros _ c []|].
      assert (ONE : in_bounds (x (mc_var y)) (final_bounds final y) <->
        (0 <= x (Y (c_name c)) /\ x (Y (c_name c)) <= 1 /\
         (final = true \/ mo_span o = true -> whole (x (Y (c_name c)))) /\
         (final = true -> (exists i, c_name c = CNonElem i) -> x (Y (c_name c)) == 0))).
      { destruct Hv as [V1 V2 V3 _ _ _]. unfold final_bounds. destruct final.
        - unfold integral_col. cbn [mc_bounds]. rewrite V1, V2. cbn [zero_one b_low b_up b_int].
          destruct (c_name c) as [n|n|n].
          + split.
            * intros (B1 & B2 & B3). split; [apply B1; reflexivity|]. split; [apply B2; reflexivity|].
              split; [intros _; apply B3; reflexivity|intros _ (i & C); discriminate].
            * intros (B1 & B2 & B3 & _). apply in_bounds_intro; [exact B1|intros u E; inversion E; subst; exact B2|auto].
          + split.
            * intros (B1 & B2 & B3). split; [apply B1; reflexivity|]. split; [apply B2; reflexivity|].
              split; [intros _; apply B3; reflexivity|intros _ (i & C); discriminate].
            * intros (B1 & B2 & B3 & _). apply in_bounds_intro; [exact B1|intros u E; inversion E; subst; exact B2|auto].
          + split.
            * intros (B1 & B2 & B3). assert (C1 := B1 0 eq_refl). assert (C2 := B2 0 eq_refl).
              split; [exact C1|]. split; [lra|]. split; [intros _; apply B3; reflexivity|intros _ _; lra].
            * intros (B1 & B2 & B3 & B4). apply in_bounds_intro.
              -- exact B1.
              -- intros u E; inversion E; subst. rewrite (B4 eq_refl (ex_intro _ n eq_refl)). lra.
              -- auto.
        - rewrite V1, V2. cbn [zero_one b_low b_up b_int]. split.
          + intros (B1 & B2 & B3). split; [apply B1; reflexivity|]. split; [apply B2; reflexivity|].
            split; [intros [C|C]; [discriminate|apply B3; exact C]|discriminate].
          + intros (B1 & B2 & B3 & _). apply in_bounds_intro; [exact B1|intros u E; inversion E; subst; exact B2|auto]. }
      split.
      - intros H c' [<-|Hc']; [apply ONE, H; simpl; auto|].
        apply IH; [|exact Hc']. intros y' Hy'. apply H; simpl; auto.
      - intros H y' [<-|Hy']; [apply ONE, H; simpl; auto|].
        apply IH; [|exact Hy']. intros c' Hc'. apply H; simpl; auto. }
    assert (A2 : (forall c, In c (drop_cols g o) -> in_bounds (x (mc_var c)) (final_bounds final c)) <->
      (forall p, drops o p -> forall v, In v (custs g) -> 0 <= x (Drop v) /\ x (Drop v) <= 1 /\ whole (x (Drop v)))).
    { clear - final. unfold drop_cols. split.
      - intros H p (E & Hp) v Hv. rewrite E in H. cbn [truthyQ] in H.
        assert (Eq : Qeq_bool p 0 = false).
        { destruct (Qeq_bool p 0) eqn:Eb; [|reflexivity]. apply Qeq_bool_iff in Eb. contradiction. }
        rewrite Eq in H. cbn [negb] in H.
        assert (B := H _ (in_map (drop_col p) _ _ Hv)). unfold final_bounds in B.
        destruct final; destruct B as (B1 & B2 & B3); cbn in B1, B2, B3.
        + split; [apply B1; reflexivity|]. split; [apply B2; reflexivity|apply B3; reflexivity].
        + split; [apply B1; reflexivity|]. split; [apply B2; reflexivity|apply B3; reflexivity].
      - intros H c Hc. destruct (mo_drop o) as [p|] eqn:E; [|destruct Hc]. cbn [truthyQ] in Hc.
        destruct (Qeq_bool p 0) eqn:Eb; [destruct Hc|]. cbn [negb] in Hc.
        apply in_map_iff in Hc. destruct Hc as (v & <- & Hv).
        assert (D : drops o p).
        { split; [exact E|]. intro C. apply Qeq_bool_iff in C. congruence. }
        destruct (H p D v Hv) as (B1 & B2 & B3).
        unfold final_bounds. destruct final; (apply in_bounds_intro; [exact B1|intros u Eu; inversion Eu; subst; exact B2|intros _; exact B3]). }
    assert (A3 : (forall c, In c (dummy_cols g o) -> in_bounds (x (mc_var c)) (final_bounds final c)) <->
      (mo_periodic o = true -> forall v d, In (v, d) (gnodes g) -> v <> Source -> (1 < freq d)%Z ->
       0 <= x (Dummy v) /\ (final = true -> whole (x (Dummy v))))).
    { clear - final. unfold dummy_cols. destruct (mo_periodic o); [|split; [discriminate|intros _ c []]]. split.
      - intros H _ v d Hin Hv Hf.
        assert (Hd : In (v, d) (filter has_dummy (gnodes g))).
        { apply filter_In. split; [exact Hin|]. unfold has_dummy. cbn [fst snd]. apply andb_true_iff.
          split; [apply Z.ltb_lt; exact Hf|apply negb_true_iff, node_eqb_neq; exact Hv]. }
        assert (B := H _ (in_map (fun p => dummy_col (fst p)) _ _ Hd)). unfold final_bounds in B.
        destruct final; destruct B as (B1 & B2 & B3); cbn in B1, B3.
        + split; [apply B1; reflexivity|]. intros _. apply B3; reflexivity.
        + split; [apply B1; reflexivity|discriminate].
      - intros H c Hc. apply in_map_iff in Hc. destruct Hc as ([v d] & <- & Hin).
        apply filter_In in Hin. destruct Hin as [Hin Hd]. unfold has_dummy in Hd. cbn [fst snd] in Hd.
        apply andb_true_iff in Hd. destruct Hd as [Hd Hv]. apply Z.ltb_lt in Hd.
        apply negb_true_iff, node_eqb_neq in Hv.
        destruct (H eq_refl v d Hin Hv Hd) as (B1 & B2).
        unfold final_bounds. destruct final.
        + apply in_bounds_intro; [exact B1|discriminate|auto].
        + apply in_bounds_intro; [exact B1|discriminate|discriminate]. }
    assert (A4 : (forall c, In c (extra_cols o) -> in_bounds (x (mc_var c)) (final_bounds final c)) <->
      (forall l, mo_fleet o = Some l -> forall k, (k < List.length l)%nat ->
       0 <= x (Extra k) /\ (final = true -> x (Extra k) == 0))).
    { clear - final. unfold extra_cols. split.
      - intros H l E k Hk. rewrite E in H.
        assert (Hi : In k (seq 0 (List.length l))) by (apply in_seq; lia).
        assert (B := H _ (in_map extra_col _ _ Hi)). unfold final_bounds in B.
        destruct final; destruct B as (B1 & B2 & B3); cbn in B1, B2.
        + assert (C1 := B1 0 eq_refl). assert (C2 := B2 0 eq_refl). split; [exact C1|intros _; lra].
        + split; [apply B1; reflexivity|discriminate].
      - intros H c Hc. destruct (mo_fleet o) as [l|] eqn:E; [|destruct Hc].
        apply in_map_iff in Hc. destruct Hc as (k & <- & Hk). apply in_seq in Hk.
        destruct (H l eq_refl k ltac:(lia)) as (B1 & B2).
        unfold final_bounds. destruct final.
        + apply in_bounds_intro; [exact B1| |discriminate].
          cbn [extra_col mc_var]. intros u Eu. inversion Eu; subst. rewrite (B2 eq_refl). lra.
        + apply in_bounds_intro; [exact B1|discriminate|discriminate]. }
    assert (A5 : (forall c, In c (span_cols o) -> in_bounds (x (mc_var c)) (final_bounds final c)) <->
      (mo_span o = true -> 0 <= x Span)).
    { clear - final. unfold span_cols. destruct (mo_span o); [|split; [discriminate|intros _ c []]]. split.
      - intros H _. assert (B := H span_col (or_introl eq_refl)). destruct B as (B1 & _).
        unfold final_bounds in B1. destruct final; apply B1; reflexivity.
      - intros H c [<-|[]]. unfold final_bounds.
        destruct final; (apply in_bounds_intro; [exact (H eq_refl)|discriminate|discriminate]). }
    rewrite A1, A2, A3, A4, A5. reflexivity.
  Qed.

  Theorem feasible_iff final x :
    feasible x (program_of (stage final)) <-> solution g o cs final x.
  Proof.
    assert (ROWS : (forall r, In r (p_rows (program_of (stage final))) -> holds x r) <->
      (forall r s q, In (r, (s, q)) (ms_rows (stage final)) ->
        match s with
        | LE => share x r (ms_cols m) <= q
        | GE => q <= share x r (ms_cols m)
        | EQ => share x r (ms_cols m) == q
        end)).
    { unfold program_of at 1. cbn [p_rows]. split.
      - intros H r s q Hin. apply (holds_share x r s q final). apply H.
        apply in_map_iff. exists (r, (s, q)). split; [reflexivity|exact Hin].
      - intros H r Hr. apply in_map_iff in Hr. destruct Hr as ([r0 [s q]] & <- & Hin). cbn [fst snd].
        apply holds_share. exact (H r0 s q Hin). }
    assert (FE : feasible x (program_of (stage final)) <->
      (forall r, In r (p_rows (program_of (stage final))) -> holds x r) /\
      (forall v b, In (v, b) (p_vars (program_of (stage final))) -> in_bounds (x v) b)).
    { split; [intros [F1 F2]; auto|intros [F1 F2]; constructor; auto]. }
    rewrite FE, ROWS, stage_bounds, stage_columns. clear FE ROWS. split.
    - intros (R & C1 & C2 & C3 & C4 & C5). constructor; auto.
      + intros v d Hc.
        assert (H := R (Visit v) (if final then EQ else GE) (required o d)).
        assert (V := share_visit x v d Hc).
        assert (Hin : In (Visit v, (if final then EQ else GE, required o d)) (ms_rows (stage final))).
        { apply stage_row. exists GE. split; [|reflexivity]. apply row_kinds. left. exists v, d. auto. }
        specialize (H Hin). destruct final; [split; [lra|intros _; lra]|split; [lra|discriminate]].
      + intros l Hl k n Hk.
        assert (Hlen : (k < List.length l)%nat) by (apply nth_error_Some; rewrite Hk; discriminate).
        assert (H := R (Fleet k) (if mo_all o then EQ else LE) n).
        assert (V := share_fleet x k l (proj1 Hl) Hlen).
        assert (Hin : In (Fleet k, (if mo_all o then EQ else LE, n)) (ms_rows (stage final))).
        { apply stage_row. exists (if mo_all o then EQ else LE). split; [|reflexivity].
          apply row_kinds. right. left. exists l, k. auto. }
        specialize (H Hin). destruct (mo_all o); [split; [lra|intros _; lra]|split; [lra|discriminate]].
      + intros Es i Hi. assert (H := R (SpanOf i) LE 0).
        assert (V := share_spanrow x i Es (proj1 Hi)).
        assert (Hin : In (SpanOf i, (LE, 0)) (ms_rows (stage final))).
        { apply stage_row. exists LE. split; [|reflexivity].
          apply row_kinds. right. right. exists i. auto. }
        specialize (H Hin). cbv beta iota in H. lra.
    - intros [S1 S2 S3 S4 S5 S6 S7 S8]. split; [|auto].
      intros r s q Hin. apply stage_row in Hin. destruct Hin as (s0 & Hin & ->). apply row_kinds in Hin.
      destruct Hin as [(v & d & Hc & -> & -> & ->)|[(l & k & Hl & Hk & -> & ->)|(i & Es & Hi & -> & -> & ->)]].
      + destruct (S1 v d Hc) as [H1 H2]. destruct final.
        * rewrite (share_visit x v d Hc). auto.
        * rewrite (share_visit x v d Hc). exact H1.
      + assert (Hlen : (k < List.length l)%nat) by (apply nth_error_Some; rewrite Hk; discriminate).
        destruct (S2 l Hl k q Hk) as [H1 H2]. destruct (mo_all o).
        * rewrite (share_fleet x k l (proj1 Hl) Hlen). auto.
        * rewrite (share_fleet x k l (proj1 Hl) Hlen). exact H1.
      + rewrite (share_spanrow x i Es (proj1 Hi)). assert (H := S3 Es i Hi). lra.
  Qed.

  (** The objective *)
  Lemma objective_cols (f : mcol -> mcol) x l : (forall c, mc_cost (f c) = mc_cost c /\ mc_var (f c) = mc_var c) ->
    value x (map (fun c => (mc_cost c, mc_var c)) (map f l)) == Qsum (map (fun c => mc_cost c * x (mc_var c)) l).
  Proof.
    intro H. unfold value. rewrite !map_map. apply Qsum_map_ext. intros c _. cbn [fst snd].
    destruct (H c) as [-> ->]. reflexivity.
  Qed.

  Theorem objective_is final x : value x (p_obj (program_of (stage final))) == total_cost g o cs x.
  Proof.
    assert (E : value x (p_obj (program_of (stage final))) ==
                Qsum (map (fun c => mc_cost c * x (mc_var c)) (ms_cols m))).
    { unfold stage. destruct final.
      - unfold program_of, integral. cbn [p_obj ms_cols]. apply objective_cols. intro c. split; reflexivity.
      - unfold program_of. cbn [p_obj]. rewrite <- (map_id (ms_cols m)) at 1.
        apply objective_cols. intro c. split; reflexivity. }
    rewrite E. clear E. destruct columns as (ys & F & P).
    rewrite (Qsum_perm _ _ (Permutation_map (fun c => mc_cost c * x (mc_var c)) P)). unfold others.
    rewrite !map_app, !Qsum_app.
    assert (B1 : Qsum (map (fun c => mc_cost c * x (mc_var c)) ys) ==
                 if mo_span o then 0 else Qsum_over cs (fun c => c_cost c * x (Y (c_name c)))).
    { clear P. revert F. generalize cs. intros l F. clear - F.
      induction F as [|c y l ys Hv F IH]; [destruct (mo_span o); unfold Qsum_over; simpl; lra|].
      cbn [map]. rewrite Qsum_cons, IH. rewrite (vo_cost _ _ _ Hv), (vo_var _ _ _ Hv).
      destruct (mo_span o); [lra|]. unfold Qsum_over. cbn [map]. rewrite Qsum_cons. reflexivity. }
    assert (B2 : Qsum (map (fun c => mc_cost c * x (mc_var c)) (drop_cols g o)) ==
       match mo_drop o with Some p => p * (if truthyQ (mo_drop o) then Qsum_over (custs g) (fun v => x (Drop v)) else 0) | None => 0 end).
    { unfold drop_cols. destruct (mo_drop o) as [p|]; [|simpl; lra].
      destruct (truthyQ (Some p)); [|simpl; lra].
      rewrite map_map. cbn [drop_col mc_cost mc_var]. unfold Qsum_over. rewrite Qsum_map_scale. reflexivity. }
    assert (B3 : Qsum (map (fun c => mc_cost c * x (mc_var c)) (dummy_cols g o)) ==
       if mo_periodic o then (10000000000 # 1) * Qsum_over (filter has_dummy (gnodes g)) (fun p => x (Dummy (fst p))) else 0).
    { unfold dummy_cols. destruct (mo_periodic o); [|simpl; lra].
      rewrite map_map. cbn [dummy_col mc_cost mc_var]. unfold Qsum_over. rewrite Qsum_map_scale. reflexivity. }
    assert (B4 : Qsum (map (fun c => mc_cost c * x (mc_var c)) (extra_cols o)) ==
       (10000000000 # 1) * Qsum_over (seq 0 (match mo_fleet o with Some l => List.length l | None => 0 end)) (fun k => x (Extra k))).
    { unfold extra_cols. destruct (mo_fleet o) as [l|]; [|unfold Qsum_over; simpl; lra].
      rewrite map_map. cbn [extra_col mc_cost mc_var]. unfold Qsum_over. rewrite Qsum_map_scale. reflexivity. }
    assert (B5 : Qsum (map (fun c => mc_cost c * x (mc_var c)) (span_cols o)) == if mo_span o then x Span else 0).
    { unfold span_cols. destruct (mo_span o); cbn [map]; [rewrite Qsum_cons; cbn [span_col mc_cost mc_var Qsum fold_right]; lra|simpl; lra]. }
    rewrite B1, B2, B3, B4, B5. unfold total_cost. destruct (mo_span o); lra.
  Qed.
End Meaning.
