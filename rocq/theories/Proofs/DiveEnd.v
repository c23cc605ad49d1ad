(** What solving with diving ends with: the programs of the dive stay solvable, everybody is visited
    or dropped, and every column comes from pricing. *)
From Coq Require Import Relations.
From Verif.Base Require Import Prelude Graph.
From Verif.Spec Require Import Routes Network LinProg Pricing MIP Columns Pool Master Duality Run.
From Verif.Model Require Import Args Reach Checks Preprocess ClarkeWright Greedy Initial Pricing
  GreedyPricing LPPricing Cspy Master Dive Hyper ColGen.
From Verif.Proofs Require Import RouteLemmas PricingProofs MasterProofs SelectProofs PoolProofs PoolQuality ColGenProofs RunProofs
  BoundProofs HyperProofs DiveProofs ColGenCor ColGenEnd.

(** An assignment, zero on the columns that are not in [cs]. *)
Definition only_on (cs : list column) (x : mvar -> Q) (v : mvar) : Q :=
  match v with Y n => if existsb (cname_eqb n) (map c_name cs) then x v else 0 | _ => x v end.

Lemma only_on_in cs x n : In n (map c_name cs) -> only_on cs x (Y n) = x (Y n).
Proof. intro H. cbn. replace (existsb _ _) with true; [reflexivity|]. symmetry. apply existsb_exists. exists n. split; [exact H|]. apply cname_eqb_eq. reflexivity. Qed.
Lemma only_on_out cs x n : ~ In n (map c_name cs) -> only_on cs x (Y n) = 0.
Proof.
  intro H. cbn. destruct (existsb _ _) eqn:E; [|reflexivity]. exfalso. apply H. apply existsb_exists in E. destruct E as (m & Hm & E).
  apply cname_eqb_eq in E. subst m. exact Hm.
Qed.

Lemma Qsum_over_app {A} (l1 l2 : list A) f : Qsum_over (l1 ++ l2) f == Qsum_over l1 f + Qsum_over l2 f.
Proof. unfold Qsum_over. rewrite map_app. induction (map f l1) as [|q l IH]; cbn [app]; rewrite ?Qsum_cons; [change (Qsum []) with 0; lra|]. rewrite IH. lra. Qed.
Lemma Qsum_over_zero {A} (l : list A) f : (forall a, In a l -> f a == 0) -> Qsum_over l f == 0.
Proof. unfold Qsum_over. induction l as [|a l IH]; intro H; [reflexivity|]. cbn [map]. rewrite Qsum_cons, IH, (H a); [lra|left; reflexivity|intros; apply H; right; assumption]. Qed.
Lemma Qsum_over_ext {A} (l : list A) f h : (forall a, In a l -> f a == h a) -> Qsum_over l f == Qsum_over l h.
Proof. unfold Qsum_over. induction l as [|a l IH]; intro H; [reflexivity|]. cbn [map]. rewrite !Qsum_cons, IH, (H a); [reflexivity|left; reflexivity|intros; apply H; right; assumption]. Qed.
Lemma Qsum_over_untag (l l' : list column) f : (forall c c', untag c = untag c' -> f c = f c') -> map untag l = map untag l' ->
  Qsum_over l f == Qsum_over l' f.
Proof.
  intros F. revert l'. induction l as [|c l IH]; intros [|c' l'] H; cbn [map] in H; try discriminate; [reflexivity|].
  assert (H1 : untag c = untag c') by congruence. assert (H2 : map untag l = map untag l') by congruence.
  unfold Qsum_over in *. cbn [map]. rewrite !Qsum_cons, (IH l' H2), (F c c' H1). reflexivity.
Qed.
Lemma Qsum_over_filter {A} P (l : list A) f : Qsum_over (filter P l) f == Qsum_over l (fun a => (if P a then 1 else 0) * f a).
Proof.
  unfold Qsum_over. induction l as [|a l IH]; [reflexivity|]. cbn [filter map]. rewrite Qsum_cons, <- IH.
  destruct (P a); cbn [map]; rewrite ?Qsum_cons; lra.
Qed.
Lemma untag_fields c c' : untag c = untag c' ->
  c_name c = c_name c' /\ c_nodes c = c_nodes c' /\ c_path c = c_path c' /\ c_cost c = c_cost c' /\ c_type c = c_type c'.
Proof. destruct c, c'. unfold untag. cbn. intro H. injection H as -> -> -> -> -> ->. auto. Qed.

Section Grow.
  Variables a b : list column.
  Variable new : list column.
  Hypothesis U : map untag b = map untag a ++ new.
  Hypothesis ND : NoDup (map c_name b).

  Lemma grow_split : exists b1 b2, b = b1 ++ b2 /\ map untag b1 = map untag a /\
    (forall c, In c b2 -> ~ In (c_name c) (map c_name a)).
  Proof.
    apply map_eq_app in U. destruct U as (b1 & b2 & -> & U1 & U2). exists b1, b2. split; [reflexivity|]. split; [exact U1|].
    assert (En : map c_name b1 = map c_name a).
    { clear - U1. revert a U1. induction b1 as [|c l IH]; intros [|c' l'] H; cbn [map] in H; try discriminate; [reflexivity|].
      assert (H1 : untag c = untag c') by congruence. assert (H2 : map untag l = map untag l') by congruence.
      cbn [map]. f_equal; [apply (untag_fields _ _ H1)|exact (IH l' H2)]. }
    intros c Hc. rewrite <- En. rewrite map_app in ND. intro Hn. apply (in_map c_name) in Hc.
    revert ND Hn Hc. clear. generalize (map c_name b1) (map c_name b2). intros l1 l2 ND H1 H2. induction l1 as [|n l IH]; [destruct H1|].
    cbn [app] in ND. inversion ND as [|? ? N1 N2]; subst. destruct H1 as [E|H1]; [rewrite E in N1; apply N1, in_or_app; right; exact H2|exact (IH N2 H1)].
  Qed.

  Lemma grow_sum (f : column -> Q) x : (forall c c', untag c = untag c' -> f c = f c') ->
    Qsum_over b (fun c => f c * only_on a x (Y (c_name c))) == Qsum_over a (fun c => f c * x (Y (c_name c))).
  Proof.
    intro F. destruct grow_split as (b1 & b2 & -> & U1 & N). rewrite Qsum_over_app.
    rewrite (Qsum_over_zero b2); [|intros c Hc; rewrite (only_on_out a x (c_name c) (N c Hc)); lra].
    rewrite (Qsum_over_untag b1 a (fun c => f c * only_on a x (Y (c_name c)))); [|intros c c' H; destruct (untag_fields _ _ H) as (E & _); rewrite (F c c' H), E; reflexivity|exact U1].
    rewrite (Qsum_over_ext a _ (fun c => f c * x (Y (c_name c)))); [lra|]. intros c Hc. rewrite (only_on_in a x (c_name c) (in_map c_name a c Hc)). reflexivity.
  Qed.

  Lemma grow_filter P (f : column -> Q) x : (forall c c', untag c = untag c' -> f c = f c') -> (forall c c', untag c = untag c' -> P c = P c') ->
    Qsum_over (filter P b) (fun c => f c * only_on a x (Y (c_name c))) == Qsum_over (filter P a) (fun c => f c * x (Y (c_name c))).
  Proof.
    intros F G. rewrite !Qsum_over_filter. rewrite <- (Qsum_over_ext b (fun c => ((if P c then 1 else 0) * f c) * only_on a x (Y (c_name c)))) by (intros; lra).
    rewrite <- (Qsum_over_ext a (fun c => ((if P c then 1 else 0) * f c) * x (Y (c_name c)))) by (intros; lra).
    apply grow_sum. intros c c' H. rewrite (F c c' H), (G c c' H). reflexivity.
  Qed.

  Lemma whole_zero : whole 0.
  Proof. exists 0%Z. reflexivity. Qed.

  Lemma solution_grows g o x : solution g o a false x -> solution g o b false (only_on a x).
  Proof.
    intros [S1 S2 S3 S4 S5 S6 S7 S8]. constructor.
    - intros v d Hv. destruct (S1 v d Hv) as (Q1 & _). split; [|discriminate]. unfold count_visits in *.
      rewrite (grow_sum (fun c => inject_Z (Z.of_nat (times v c)))); [exact Q1|]. intros c c' H. destruct (untag_times v c c' H) as (-> & _). reflexivity.
    - intros l Hl k n Hn. destruct (S2 l Hl k n Hn) as (Q1 & Q2).
      assert (E : count_type b (only_on a x) k == count_type a x k).
      { unfold count_type. rewrite (Qsum_over_ext (filter _ b) _ (fun c => 1 * only_on a x (Y (c_name c)))) by (intros; lra).
        rewrite (Qsum_over_ext (filter _ a) _ (fun c => 1 * x (Y (c_name c)))) by (intros; lra). apply (grow_filter (fun c => (c_type c =? k)%nat) (fun _ => 1)); [reflexivity|].
        intros c c' H. destruct (untag_fields _ _ H) as (_ & _ & _ & _ & ->). reflexivity. }
      change (only_on a x (Extra k)) with (x (Extra k)). rewrite E. auto.
    - intros Sp i Hi. change (only_on a x Span) with (x Span).
      rewrite (grow_filter (fun c => match c_name c with CNat n => (n =? i)%nat | _ => false end) c_cost); [exact (S3 Sp i Hi)| |];
        intros c c' H; destruct (untag_fields _ _ H) as (E1 & _ & _ & E2 & _); [exact E2|rewrite E1; reflexivity].
    - intros c Hc. destruct grow_split as (b1 & b2 & Eb & U1 & N). rewrite Eb in Hc. apply in_app_or in Hc. destruct Hc as [Hc|Hc].
      + apply (in_map untag) in Hc. rewrite U1 in Hc. apply in_map_iff in Hc. destruct Hc as (c0 & E & Hc). destruct (untag_fields _ _ E) as (En & _).
        rewrite <- En. rewrite only_on_in by (apply in_map; exact Hc). destruct (S4 c0 Hc) as (Q1 & Q2 & Q3 & _). repeat split; auto. discriminate.
      + rewrite only_on_out by (apply N; exact Hc). split; [lra|]. split; [lra|]. split; [intros _; exact whole_zero|discriminate].
    - exact S5.
    - exact S6.
    - exact S7.
    - exact S8.
  Qed.
End Grow.

Section DiveEnd.
  Variable E : env.
  Variable C : cgconfig.
  Variable g : vgraph.
  Hypothesis W : wf g.
  Hypothesis S1 : forall n q, sound_answer q (e_master E n q).
  Hypothesis SD : forall n i q, sound_answer q (e_dive E n i q).
  Hypothesis OR : forall n l v, In v (e_order E n l) -> In v l.

  (** Some assignment solves the relaxed problem with the fixed variables at 1. *)
  Definition solvable (s : state) : Prop :=
    (exists x, solution g (cg_master C) (s_pool s) false x /\ forall v, In v (s_fixed s) -> x v == 1) /\
    forall n, In (Y n) (s_fixed s) -> In n (map c_name (s_pool s)).

  Lemma var_names pool m : (forall c, In c pool -> labelled c) -> built g (cg_master C) pool m ->
    forall n, In (Y n) (map mc_var (ms_cols m)) -> In n (map c_name pool).
  Proof.
    intros LAB B n H. apply built_shape in B. destruct (sh_cols _ _ _ _ B) as (ys & F & P).
    assert (H' : In (Y n) (map mc_var (ys ++ drop_cols g (cg_master C) ++ dummy_cols g (cg_master C) ++ extra_cols (cg_master C) ++ span_cols (cg_master C)))).
    { apply in_map_iff in H. destruct H as (y & Ey & Hy). rewrite P in Hy. apply in_map_iff. eauto. }
    rewrite map_app in H'. apply in_app_or in H'. destruct H' as [H'|H'].
    - clear - F H'. induction F as [|c y cs ys N F IH]; [destruct H'|]. destruct H' as [H'|H']; [left|right; exact (IH H')].
      unfold new_variable in N. destruct (mo_span (cg_master C)); [unfold span_route_variable in N|unfold route_variable in N]; repeat (apply bind_ok in N; destruct N as (? & _ & N)); injection N as N; subst y; cbn in H'; congruence.
    - exfalso. rewrite !map_app in H'. repeat (apply in_app_or in H'; destruct H' as [H'|H']).
      + unfold drop_cols in H'. destruct (mo_drop (cg_master C)); [|destruct H']. destruct (truthyQ _); [|destruct H'].
        apply in_map_iff in H'. destruct H' as (y & Ey & Hy). apply in_map_iff in Hy. destruct Hy as (u & <- & _). discriminate.
      + unfold dummy_cols in H'. destruct (mo_periodic _); [|destruct H'].
        apply in_map_iff in H'. destruct H' as (y & Ey & Hy). apply in_map_iff in Hy. destruct Hy as (u & <- & _). discriminate.
      + apply in_map_iff in H'. destruct H' as (y & Ey & Hy). unfold extra_cols in Hy. destruct (mo_fleet _); [|destruct Hy]. apply in_map_iff in Hy. destruct Hy as (u & <- & _). discriminate.
      + apply in_map_iff in H'. destruct H' as (y & Ey & Hy). unfold span_cols in Hy. destruct (mo_span _); [|destruct Hy]. destruct Hy as [<-|[]]. discriminate.
  Qed.

  Lemma grow_solvable pool pool' x fixed : grown E C g pool pool' -> numbered pool' ->
    solution g (cg_master C) pool false x -> (forall v, In v fixed -> x v == 1) -> (forall n, In (Y n) fixed -> In n (map c_name pool)) ->
    (exists x', solution g (cg_master C) pool' false x' /\ forall v, In v fixed -> x' v == 1) /\
    forall n, In (Y n) fixed -> In n (map c_name pool').
  Proof.
    intros G N Sx Fx Nm. destruct (grown_extends E C g pool pool' G) as (new & U). split.
    - exists (only_on pool x). split; [exact (solution_grows pool pool' new U (names_NoDup pool' N) g (cg_master C) x Sx)|].
      intros v Hv. destruct v; try exact (Fx _ Hv). rewrite only_on_in by (apply Nm; exact Hv). exact (Fx _ Hv).
    - intros n Hn. specialize (Nm n Hn). apply in_map_iff in Nm. destruct Nm as (c & <- & Hc).
      destruct (grown_in E C g pool pool' c G Hc) as (c' & Hc' & Eu). destruct (untag_fields _ _ Eu) as (<- & _). apply in_map. exact Hc'.
  Qed.

  (** One iteration of column generation: afterwards the problem is solvable *)
  Lemma first_solvable s s' : inv C g s -> fine (s_pool s) -> s_dive s = false -> s_fixed s = [] ->
    find_columns E C s = Ok s' -> solvable s' /\ s_fixed s' = [].
  Proof.
    intros I Fi Dv Fx H. destruct (find_columns_ok E C g s s' I H) as (I' & G & _ & _ & _ & s1 & D & q & H1 & _ & K & _).
    destruct (K Dv) as (_ & Kf & _). rewrite Fx in Kf. split; [|exact Kf].
    destruct (solve_relaxed_master E C s s1 D q Dv H1) as (Hm & _). 
    assert (LAB : forall c, In c (s_pool s) -> labelled c) by (intros c Hc; apply (Fi c Hc)).
    assert (FE : feasible (a_value (e_master E (S (s_tick s)) (program_of (s_master s)))) (program_of (s_master s))).
    { apply (sa_feasible _ _ (S1 _ _)). left. unfold solve_master in Hm. apply bind_ok in Hm. destruct Hm as (u & Hu & _).
      cbn in Hu. destruct (status_eqb _ _) eqn:Es in Hu; [|discriminate]. destruct (a_status _); try discriminate; reflexivity. }
    apply (feasible_iff g (cg_master C) (s_pool s) (s_master s) W LAB (built_shape _ _ _ _ (iv_built _ _ _ I)) false) in FE.
    unfold solvable. rewrite Kf. eapply grow_solvable; [exact G|exact (iv_numbered _ _ _ I')|exact FE|intros v []|intros n []].
  Qed.

  Lemma dive_solvable s s' : inv C g s -> fine (s_pool s) -> s_dive s = true -> dive_inv s -> solvable s ->
    find_columns E C s = Ok s' ->
    solvable s' /\ exists x, feasible x (fixing (s_fixed s') (program_of (s_master s))).
  Proof.
    intros I Fi Dv DI ((x & Sx & Fx) & Nm) H. destruct (find_columns_ok E C g s s' I H) as (I' & G & _ & _ & _ & s1 & D & q & H1 & _).
    assert (LAB : forall c, In c (s_pool s) -> labelled c) by (intros c Hc; apply (Fi c Hc)).
    assert (FI := feasible_iff g (cg_master C) (s_pool s) (s_master s) W LAB (built_shape _ _ _ _ (iv_built _ _ _ I)) false).
    destruct (rest_keeps E C _ _ _ _ _ H1 H) as (R1 & _ & _).
    unfold solve_relaxed in H1. cbn [s_dive tick] in H1. rewrite Dv in H1. apply bind_ok in H1.
    destruct H1 as ([[[d fx] D1] a] & Hd & H1). cbn [s_graph s_pool s_master s_fixed s_diving tick s_tick] in Hd.
    unfold solve_and_dive in Hd. apply bind_ok in Hd. destruct Hd as ([d1 added] & Hd & Hx). apply bind_ok in Hx.
    destruct Hx as (D2 & _ & Hx). injection Hx as <- <- <- <-.
    assert (Ef : s_fixed s' = s_fixed s ++ added).
    { rewrite R1. cbn [s_hyper set_solution tick] in H1. destruct (s_hyper s); injection H1 as <- <- <-; reflexivity. }
    assert (Q : exists y, solution g (cg_master C) (s_pool s) false y /\ (forall v, In v (s_fixed s') -> y v == 1) /\
      forall n, In (Y n) (s_fixed s') -> In n (map c_name (s_pool s))).
    { destruct (run_dive_cases _ _ _ _ _ _ _ Hd) as [(_ & -> & _)|(_ & v & C1 & _ & _ & _ & [(St & -> & _)|(_ & -> & _)])]; rewrite Ef, ?app_nil_r.
      - exists x. auto.
      - assert (FE := sa_feasible _ _ (SD _ _ _) (or_introl St)). apply fixing_iff in FE. destruct FE as (FE & F1).
        apply fixing_iff in FE. destruct FE as (FE & F2). apply FI in FE. eexists. split; [exact FE|]. split.
        + intros w Hw. apply in_app_or in Hw. destruct Hw as [Hw|Hw]; [exact (F2 w Hw)|exact (F1 w Hw)].
        + intros n Hn. apply in_app_or in Hn. destruct Hn as [Hn|[->|[]]]; [exact (Nm n Hn)|].
          apply (var_names (s_pool s) (s_master s) LAB (iv_built _ _ _ I)). apply OR in C1 || (destruct C1 as [C1 _ _]; apply OR in C1). exact C1.
      - exists x. auto. }
    destruct Q as (y & Sy & Fy & Ny). split.
    - unfold solvable. eapply grow_solvable; [exact G|exact (iv_numbered _ _ _ I')|exact Sy|exact Fy|exact Ny].
    - exists y. apply fixing_iff. split; [apply FI; exact Sy|exact Fy].
  Qed.

  Lemma run_first n s s' : run E C n s s' -> inv C g s -> fine (s_pool s) -> s_dive s = false -> s_fixed s = [] -> s_more s = true ->
    solvable s' /\ s_fixed s' = [] /\ fine (s_pool s').
  Proof.
    intro R. induction R as [s M|s s1 M H L|n s s1 s2 M H T L R IH]; intros I Fi Dv Fx Mo.
    - congruence.
    - destruct (first_solvable s s1 I Fi Dv Fx H) as (A1 & A2). split; [exact A1|]. split; [exact A2|].
      destruct (find_columns_ok E C g s s1 I H) as (_ & G & _). exact (grown_fine _ _ _ _ _ G Fi).
    - destruct (first_solvable s s1 I Fi Dv Fx H) as (A1 & A2).
      destruct (find_columns_ok E C g s s1 I H) as (I1 & G & _ & Dv1 & _). assert (Fi1 := grown_fine _ _ _ _ _ G Fi).
      destruct (s_more s1) eqn:M1.
      + apply IH; [apply inv_tick; exact I1|exact Fi1|cbn [s_dive tick]; congruence|exact A2|exact M1].
      + assert (Es : s2 = tick (tick s1)).
        { inversion R as [? Ex1 Ex2 Ex3|? ? M3|? ? ? ? M3]; subst; [reflexivity| |]; cbn [s_more tick] in M3; congruence. }
        subst s2. auto.
  Qed.

  Lemma starts_solvable s st : starts E C s st -> inv C g s -> fine (s_pool s) -> s_dive s = true -> dive_inv s -> solvable s ->
    solvable st /\ inv C g st /\ fine (s_pool st) /\ dive_inv st /\ s_dive st = true.
  Proof.
    intros S I Fi Dv DI Sv. induction S as [M|st s1 S IH H T L M]; [auto|].
    destruct IH as (A1 & A2 & A3 & A4 & A5). destruct (dive_solvable st s1 A2 A3 A5 A4 A1 H) as (B1 & _).
    destruct (find_columns_ok E C g st s1 A2 H) as (I1 & G & _ & Dv1 & _).
    split; [exact B1|]. split; [apply inv_tick; exact I1|]. split; [exact (grown_fine _ _ _ _ _ G A3)|]. split; [|cbn [s_dive tick]; congruence].
    assert (J := find_inv E C _ _ A4 H). destruct J. constructor; assumption.
  Qed.

  Theorem dive_concluded f f2 s s' t sel dropped : fresh C g s ->
    solve_columns E C f f2 true s = Ok (s', Some (t, sel, dropped)) -> mo_periodic (cg_master C) = false ->
    grown E C g (s_pool s) (s_pool s') /\ NoDup sel /\ (forall c, In c sel -> In c (s_pool s')) /\
    NoDup dropped /\ (forall u, In u dropped -> In u (custs g)) /\ (truthyQ (mo_drop (cg_master C)) = false -> dropped = []) /\
    ((exists n q x, feasible x q /\ a_status (e_master E n q) <> Optimal) \/
     forall v d, customer g v d -> (exists c, In c sel /\ (0 < times v c)%nat) \/ In v dropped).
  Proof.
    intros F H PER. unfold solve_columns in H. apply bind_ok in H. destruct H as (s1 & H1 & H). apply bind_ok in H. destruct H as (r & H2 & H).
    injection H as -> ->. unfold generate_and_dive in H1. apply bind_ok in H1. destruct H1 as (s0 & H0 & H).
    apply generation_is_run in H0. destruct H0 as (n0 & _ & R0). apply generation_is_run in H. destruct H as (n & _ & R).
    destruct (run_ok E C g n0 s s0 R0 (fresh_inv _ _ _ F)) as (I0 & G0 & _ & _ & _).
    destruct (run_first n0 s s0 R0 (fresh_inv _ _ _ F) (fresh_fine C g s F) (fs_dive _ _ _ F) (fs_fixed _ _ _ F) (fs_more _ _ _ F)) as (Sv0 & Fx0 & Fi0).
    assert (DI := run_fixes E C n0 s s0 R0 (fresh_dive_inv _ _ _ F)). apply start_dive_inv in DI.
    destruct (run_ok E C g n _ s' R (inv_dive C g s0 I0)) as (Is' & G1 & _).
    destruct (run_ends E C n _ s' R eq_refl) as (st & sl & B1 & B2 & -> & _).
    destruct (starts_solvable _ _ B1 (inv_dive C g s0 I0) Fi0 eq_refl DI Sv0) as (Sv & Ist & Fst & DIst & Dst).
    destruct (dive_solvable st sl Ist Fst Dst DIst Sv B2) as (_ & (x & Fx)).
    destruct (dive_iteration E C st sl Dst DIst B2) as (_ & added & A1 & A2 & A3).
    destruct (find_columns_ok E C g st sl Ist B2) as (Isl & Gsl & _).
    cbn [s_pool tick start_dive] in *. split; [eapply grown_trans; [exact G0|exact G1]|].
    assert (LAB : forall c, In c (s_pool st) -> labelled c) by (intros c Hc; apply (Fst c Hc)).
    assert (SH := built_shape _ _ _ _ (iv_built _ _ _ Ist)).
    assert (LABl : forall c, In c (s_pool sl) -> labelled c) by (intros c Hc; apply (grown_fine _ _ _ _ _ Gsl Fst c Hc)).
    assert (SHl := built_shape _ _ _ _ (iv_built _ _ _ Isl)).
    unfold conclude in H2. apply bind_ok in H2. destruct H2 as (u & H2 & H3). injection H3 as ->.
    cbn [s_master s_values s_pool tick] in H2. apply selected in H2. destruct H2 as (-> & -> & _).
    split; [apply NoDup_filter; apply (NoDup_map_inv (fun c => number (c_name c))); apply numbered_names; exact (iv_numbered _ _ _ Isl)|].
    split; [intros c Hc; apply filter_In in Hc; tauto|].
    assert (PM : truthyQ (mo_drop (cg_master C)) = true -> Permutation (drop_keys (s_master sl)) (custs g)) by (intro Z; exact (drop_keys_perm g (cg_master C) (s_pool sl) (s_master sl) LABl SHl Z)).
    split.
    { destruct (truthyQ _); [|constructor]. apply NoDup_filter. eapply Permutation_NoDup; [apply Permutation_sym, PM; reflexivity|]. exact (NoDup_custs g W). }
    split.
    { destruct (truthyQ _); [|intros w []]. intros w Hw. apply filter_In in Hw. eapply Permutation_in; [apply PM; reflexivity|apply Hw]. }
    split; [intro Z; rewrite Z; reflexivity|].
    set (q := fixing (s_fixed sl) (program_of (s_master st))) in *. set (a := e_master E (S (S (s_tick st))) q) in *.
    destruct (status_eqb (a_status a) Optimal) eqn:Es.
    2:{ left. exists (S (S (s_tick st))), q, x. split; [exact Fx|]. fold a. intro Z. rewrite Z in Es. discriminate. }
    right. intros v d Hv.
    assert (FE : feasible (a_value a) q) by (apply (sa_feasible _ _ (S1 _ _)); left; fold a; destruct (a_status a); try discriminate; reflexivity).
    apply fixing_iff in FE. destruct FE as (FE & _).
    assert (VY : forall c, In c (s_pool st) -> s_values sl (Y (c_name c)) = a_value a (Y (c_name c))).
    { intros c Hc. rewrite A3. unfold values_of.
      assert (HV := has_variables g (cg_master C) (s_pool st) (s_master st) LAB SH c Hc).
      assert (M : mem_var (Y (c_name c)) (map mc_var (ms_cols (s_master st))) = true).
      { unfold has_variable in HV. apply existsb_exists in HV. destruct HV as (y & Hy & Ey).
        apply mem_var_iff. destruct (mc_var y) as [nm| | | |] eqn:Ev; try discriminate. apply cname_eqb_eq in Ey. subst nm.
        rewrite <- Ev. apply in_map. exact Hy. }
      rewrite M. reflexivity. }
    apply (feasible_iff g (cg_master C) (s_pool st) (s_master st) W LAB SH false) in FE.
    destruct (so_visits _ _ _ _ _ FE v d Hv) as [V _]. unfold count_visits, required in V. rewrite PER in V. cbn [andb] in V.
    assert (P0 : forall c, In c (s_pool st) -> 0 <= a_value a (Y (c_name c))) by (intros c Hc; apply (so_routes _ _ _ _ _ FE c Hc)).
    assert (Cu : In v (custs g)).
    { destruct Hv as (Hv & V1 & V2 & _). apply in_custs. split; [apply (in_map fst) in Hv; exact Hv|auto]. }
    assert (EX : 0 < Qsum_over (s_pool st) (fun c => inject_Z (Z.of_nat (times v c)) * a_value a (Y (c_name c))) ->
       exists c, In c (s_pool st) /\ (0 < times v c)%nat /\ 0 < a_value a (Y (c_name c))).
    { intro V1. clear - V1 P0. unfold Qsum_over in V1. revert V1 P0. generalize (s_pool st). intro l. induction l as [|c l IH]; intros V P.
      - cbn in V. lra.
      - cbn [map] in V. rewrite Qsum_cons in V. destruct (times v c) as [|k] eqn:Et.
        + destruct IH as (c1 & C1 & C2 & C3); [change (inject_Z (Z.of_nat 0)) with 0 in V; lra|intros; apply P; right; assumption|].
          exists c1. split; [right; exact C1|auto].
        + destruct (Qltb 0 (a_value a (Y (c_name c)))) eqn:X.
          * apply Qltb_lt in X. exists c. split; [left; reflexivity|]. split; [lia|exact X].
          * apply Qltb_ge in X. assert (Z := P c (or_introl eq_refl)). assert (Z0 : a_value a (Y (c_name c)) == 0) by lra.
            rewrite Z0 in V. destruct IH as (c1 & C1 & C2 & C3); [lra|intros; apply P; right; assumption|].
            exists c1. split; [right; exact C1|auto]. }
    assert (PK : (exists c, In c (s_pool st) /\ (0 < times v c)%nat /\ 0 < a_value a (Y (c_name c))) ->
      exists c, In c (chosen (s_values sl) (s_pool sl)) /\ (0 < times v c)%nat).
    { intros (c & C1 & C2 & C3). destruct (grown_in E C g _ _ c Gsl C1) as (c' & D1 & D2). exists c'. destruct (untag_times v c' c D2) as (T1 & T2). split; [|lia].
      apply filter_In. split; [exact D1|]. apply Qltb_lt. rewrite T2, (VY c C1). exact C3. }
    destruct (truthyQ (mo_drop (cg_master C))) eqn:TD.
    - assert (DR : exists pq, drops (cg_master C) pq).
      { destruct (mo_drop (cg_master C)) as [pq|] eqn:Ed; [|discriminate]. exists pq. split; [exact Ed|]. cbn in TD. apply negb_true_iff in TD. apply Qeq_bool_neq. exact TD. }
      destruct DR as (pq & DR). destruct (so_drop _ _ _ _ _ FE pq DR v Cu) as (D1 & D2 & (z & D3)).
      destruct (Qltb (1 # 2) (a_value a (Drop v))) eqn:Ez.
      + right. apply filter_In. split; [eapply Permutation_in; [apply Permutation_sym, PM; reflexivity|exact Cu]|].
        assert (Vd : s_values sl (Drop v) = a_value a (Drop v)); [|rewrite Vd; exact Ez].
        rewrite A3. unfold values_of. replace (mem_var _ _) with true; [reflexivity|]. symmetry. apply mem_var_iff.
        destruct (sh_cols _ _ _ _ SH) as (ys & _ & P). apply in_map_iff.
        exists (mkMCol (Drop v) (zero_one true) pq [(Visit v, 1)]). split; [reflexivity|]. rewrite P. apply in_or_app. right. apply in_or_app. left.
        unfold drop_cols. destruct DR as (DR & _). rewrite DR in TD |- *. rewrite TD. apply in_map_iff. exists v. auto.
      + left. apply PK, EX. apply Qltb_ge in Ez. assert (Zz : a_value a (Drop v) == 0).
        { assert (z <= 0)%Z; [|assert (0 <= z)%Z]. 
          - destruct (Z_le_gt_dec z 0) as [Y|Y]; [exact Y|exfalso]. assert (1 <= inject_Z z) by (change 1 with (inject_Z 1); rewrite <- Zle_Qle; lia). lra.
          - rewrite D3 in D1. change 0 with (inject_Z 0) in D1. rewrite <- Zle_Qle in D1. exact D1.
          - assert (z = 0%Z) by lia. subst z. exact D3. }
        lra.
    - left. apply PK, EX. lra.
  Qed.
End DiveEnd.
