(** Selections of columns: what the final master problem returns. *)
From Coq Require Qround.
From Verif.Base Require Import Prelude Graph.
From Verif.Spec Require Import Routes Network LinProg Master.
From Verif.Model Require Import Args Reach Checks Preprocess ClarkeWright Greedy Initial Pricing Master.
From Verif.Proofs Require Import RouteLemmas PreLemmas MasterProofs.

Definition chosen (x : mvar -> Q) (cs : list column) : list column :=
  filter (fun c => Qltb 0 (x (Y (c_name c)))) cs.

Lemma cname_eq_dec (a b : cname) : {a = b} + {a <> b}.
Proof. decide equality; apply Nat.eq_dec. Qed.

Lemma foldM_filter {A} (ok sel : A -> bool) l acc r :
  foldM (fun acc c => if ok c then Ok (if sel c then acc ++ [c] else acc) else Err KeyError) l acc = Ok r ->
  r = acc ++ filter sel l /\ forall c, In c l -> ok c = true.
Proof.
  revert acc. induction l as [|c l IH]; intros acc H; simpl in H.
  - inversion H; subst. split; [symmetry; apply app_nil_r|intros c []].
  - destruct (ok c) eqn:Eo; simpl in H; [|discriminate]. destruct (IH _ H) as [-> Hok]. split.
    + cbn [filter]. destruct (sel c); [rewrite <- app_assoc; reflexivity|reflexivity].
    + intros c' [<-|Hc']; auto.
Qed.

Lemma foldM_filter_ok {A} (ok sel : A -> bool) l acc :
  (forall c, In c l -> ok c = true) ->
  foldM (fun acc c => if ok c then Ok (if sel c then acc ++ [c] else acc) else Err KeyError) l acc = Ok (acc ++ filter sel l).
Proof.
  revert acc. induction l as [|c l IH]; intros acc H; simpl.
  - rewrite app_nil_r. reflexivity.
  - rewrite (H c (or_introl eq_refl)). simpl. rewrite IH; [|intros c' Hc'; apply H; simpl; auto].
    destruct (sel c); [rewrite <- app_assoc; reflexivity|reflexivity].
Qed.

Lemma selected o m x total cs t sel dropped :
  get_total_cost_and_routes o m x total cs = Ok (t, sel, dropped) ->
  sel = chosen x cs /\
  dropped = (if truthyQ (mo_drop o) then filter (fun v => Qltb (1 # 2) (x (Drop v))) (drop_keys m) else []) /\
  t = match total with Some q => q | None => 0 end.
Proof.
  unfold get_total_cost_and_routes. intro H. apply bind_ok in H. destruct H as (s & Hs & H).
  apply (foldM_filter (fun c => has_variable m (c_name c)) (fun c => Qltb 0 (x (Y (c_name c))))) in Hs.
  destruct Hs as [-> _]. inversion H; subst. split; [reflexivity|]. split; reflexivity.
Qed.

Lemma integral_keys m : drop_keys (integral m) = drop_keys m.
Proof.
  unfold drop_keys, integral. cbn [ms_cols]. rewrite flat_map_concat_map, map_map, <- flat_map_concat_map.
  apply flat_map_ext. intro c. reflexivity.
Qed.

Lemma perm_flat_map {A B} (f : A -> list B) l1 l2 : Permutation l1 l2 -> Permutation (flat_map f l1) (flat_map f l2).
Proof.
  induction 1 as [|a l1 l2 _ IH|a b l|l1 l2 l3 _ IH1 _ IH2]; simpl.
  - constructor.
  - apply Permutation_app_head, IH.
  - rewrite !app_assoc. apply Permutation_app_tail, Permutation_app_comm.
  - exact (perm_trans IH1 IH2).
Qed.

Lemma flat_map_nil {A B} (f : A -> list B) l : (forall a, In a l -> f a = []) -> flat_map f l = [].
Proof.
  induction l as [|a l IH]; intro H; [reflexivity|]. simpl. rewrite (H a (or_introl eq_refl)). simpl.
  apply IH. intros b Hb. apply H. simpl; auto.
Qed.

Lemma Forall2_in_l {A B} (R : A -> B -> Prop) l1 l2 a : Forall2 R l1 l2 -> In a l1 -> exists b, In b l2 /\ R a b.
Proof.
  induction 1 as [|x y l1 l2 H _ IH]; intro Hin; [destruct Hin|].
  destruct Hin as [<-|Hin]; [exists y; simpl; auto|]. destruct (IH Hin) as (b & Hb & Hr). exists b; simpl; auto.
Qed.
Lemma Forall2_in_r {A B} (R : A -> B -> Prop) l1 l2 b : Forall2 R l1 l2 -> In b l2 -> exists a, In a l1 /\ R a b.
Proof.
  induction 1 as [|x y l1 l2 H _ IH]; intro Hin; [destruct Hin|].
  destruct Hin as [<-|Hin]; [exists x; simpl; auto|]. destruct (IH Hin) as (a & Ha & Hr). exists a; simpl; auto.
Qed.

Section Final.
  Variables (g : vgraph) (o : moptions) (cs : list column) (m : master).
  Hypothesis WF : wf g.
  Hypothesis LAB : forall c, In c cs -> labelled c.
  Hypothesis SH : shape g o cs m.

  Lemma drop_keys_perm : truthyQ (mo_drop o) = true -> Permutation (drop_keys m) (custs g).
  Proof.
    intro T. destruct (columns g o cs m LAB SH) as (ys & F & P).
    unfold drop_keys. rewrite (perm_flat_map _ _ _ P). unfold others. rewrite !flat_map_app.
    rewrite (flat_map_nil _ ys), (flat_map_nil _ (dummy_cols g o)), (flat_map_nil _ (extra_cols o)), (flat_map_nil _ (span_cols o)).
    - cbn [app]. rewrite !app_nil_r. unfold drop_cols. destruct (mo_drop o) as [p|]; [|discriminate]. rewrite T.
      rewrite flat_map_concat_map, map_map. cbn [drop_col mc_var].
      rewrite <- flat_map_concat_map. clear. induction (custs g) as [|v l IH]; [constructor|]. simpl. constructor. exact IH.
    - intros c Hc. unfold span_cols in Hc. destruct (mo_span o); [|destruct Hc]. destruct Hc as [<-|[]]. reflexivity.
    - intros c Hc. unfold extra_cols in Hc. destruct (mo_fleet o); [|destruct Hc].
      apply in_map_iff in Hc. destruct Hc as (k & <- & _). reflexivity.
    - intros c Hc. unfold dummy_cols in Hc. destruct (mo_periodic o); [|destruct Hc].
      apply in_map_iff in Hc. destruct Hc as (k & <- & _). reflexivity.
    - intros y Hy. destruct (Forall2_in_r _ _ _ _ F Hy) as (c & _ & Hv). rewrite (vo_var _ _ _ Hv). reflexivity.
  Qed.

  Lemma has_variables c : In c cs -> has_variable m (c_name c) = true.
  Proof.
    intro Hc. destruct (columns g o cs m LAB SH) as (ys & F & P).
    destruct (Forall2_in_l _ _ _ _ F Hc) as (y & Hy & Hv).
    unfold has_variable. apply existsb_exists. exists y. split.
    - rewrite P. apply in_or_app. left. exact Hy.
    - rewrite (vo_var _ _ _ Hv). apply cname_eqb_eq. reflexivity.
  Qed.

  (** An integral value between 0 and 1 *)
  Lemma zero_one_values q : 0 <= q -> q <= 1 -> whole q -> q == 0 \/ q == 1.
  Proof.
    intros H0 H1 (z & E). rewrite E in *. destruct (Z_le_gt_dec z 0) as [Hz|Hz].
    - left. assert (z = 0%Z); [|subst; reflexivity].
      change 0 with (inject_Z 0) in H0. rewrite <- Zle_Qle in H0. lia.
    - right. assert (z = 1%Z); [|subst; reflexivity].
      change 1 with (inject_Z 1) in H1. rewrite <- Zle_Qle in H1. lia.
  Qed.

  Section Solution.
    Variable x : mvar -> Q.
    Hypothesis SOL : solution g o cs true x.

    Lemma route_value c : In c cs -> x (Y (c_name c)) == if Qltb 0 (x (Y (c_name c))) then 1 else 0.
    Proof.
      intro Hc. destruct (so_routes _ _ _ _ _ SOL c Hc) as (H0 & H1 & H2 & _).
      destruct (zero_one_values _ H0 H1 (H2 (or_introl eq_refl))) as [E|E].
      - destruct (Qltb 0 (x (Y (c_name c)))) eqn:B; [apply Qltb_lt in B; lra|exact E].
      - destruct (Qltb 0 (x (Y (c_name c)))) eqn:B; [exact E|apply Qltb_ge in B; lra].
    Qed.

    Lemma chosen_sum (f : column -> Q) l : (forall c, In c l -> In c cs) ->
      Qsum_over l (fun c => f c * x (Y (c_name c))) == Qsum_over (chosen x l) f.
    Proof.
      intro H. unfold Qsum_over, chosen. induction l as [|c l IH]; [simpl; lra|].
      cbn [map filter]. rewrite Qsum_cons, IH; [|intros c' Hc'; apply H; simpl; auto].
      assert (E := route_value c (H c (or_introl eq_refl))).
      destruct (Qltb 0 (x (Y (c_name c)))); rewrite E; cbn [map]; rewrite ?Qsum_cons; lra.
    Qed.

    Lemma chosen_elem c i : In c (chosen x cs) -> c_name c <> CNonElem i.
    Proof.
      intros Hc C. unfold chosen in Hc. apply filter_In in Hc. destruct Hc as [Hc Hp]. apply Qltb_lt in Hp.
      destruct (so_routes _ _ _ _ _ SOL c Hc) as (_ & _ & _ & H).
      assert (E := H eq_refl (ex_intro _ i C)). lra.
    Qed.
  End Solution.

  (** Sums of numbers of visits *)
  Lemma sum_times v l : Qsum_over l (fun c => inject_Z (Z.of_nat (times v c))) ==
    inject_Z (Z.of_nat (list_sum (map (times v) l))).
  Proof.
    unfold Qsum_over. induction l as [|c l IH]; [reflexivity|]. cbn [map].
    rewrite Qsum_cons, IH. change (list_sum (times v c :: map (times v) l)) with (times v c + list_sum (map (times v) l))%nat.
    rewrite Nat2Z.inj_add, inject_Z_plus. reflexivity.
  Qed.

  Lemma list_sum_zero l : list_sum l = 0%nat -> forall n, In n l -> n = 0%nat.
  Proof.
    induction l as [|a l IH]; intros H n Hn; [destruct Hn|]. simpl in H. destruct Hn as [<-|Hn]; [lia|].
    apply IH; [lia|exact Hn].
  Qed.
End Final.

Lemma list_sum_nil l : list_sum l = 0%nat <-> forall n, In n l -> n = 0%nat.
Proof.
  split; [apply list_sum_zero|]. induction l as [|a l IH]; intro H; [reflexivity|].
  simpl. rewrite (H a (or_introl eq_refl)), IH; [reflexivity|]. intros n Hn. apply H. simpl; auto.
Qed.

Lemma sum_never v l : list_sum (map (times v) l) = 0%nat <-> never v l.
Proof.
  rewrite list_sum_nil. split.
  - intros H c Hc. apply H. apply in_map. exact Hc.
  - intros H n Hn. apply in_map_iff in Hn. destruct Hn as (c & <- & Hc). exact (H c Hc).
Qed.

Lemma sum_once v l : NoDup l -> (list_sum (map (times v) l) = 1%nat <-> once v l).
Proof.
  intro ND. induction l as [|c l IH].
  - split; [discriminate|]. intros (c & Hc & _). destruct Hc.
  - inversion ND as [|c' l' Hc NDl]; subst. specialize (IH NDl). cbn [map].
    change (list_sum (times v c :: map (times v) l)) with (times v c + list_sum (map (times v) l))%nat. split.
    + intro H. destruct (times v c) as [|n] eqn:E.
      * destruct (proj1 IH H) as (c1 & H1 & H2 & H3). exists c1. split; [simpl; auto|]. split; [exact H2|].
        intros c2 [<-|Hc2] Hp; [lia|]. exact (H3 c2 Hc2 Hp).
      * assert (E0 : list_sum (map (times v) l) = 0%nat) by lia. apply sum_never in E0.
        exists c. split; [simpl; auto|]. split; [lia|].
        intros c2 [<-|Hc2] Hp; [reflexivity|]. assert (Ez := E0 c2 Hc2). lia.
    + intros (c1 & H1 & H2 & H3). destruct H1 as [<-|H1].
      * assert (N : never v l).
        { intros c2 Hc2. destruct (times v c2) as [|n] eqn:E; [reflexivity|]. exfalso.
          assert (c2 = c) by (apply H3; [simpl; auto|lia]). subst. contradiction. }
        apply sum_never in N. lia.
      * assert (E : times v c = 0%nat).
        { destruct (times v c) as [|n] eqn:E; [reflexivity|]. exfalso.
          assert (c = c1) by (apply H3; [simpl; auto|lia]). subst. contradiction. }
        rewrite E. apply IH. exists c1. split; [exact H1|]. split; [exact H2|].
        intros c2 Hc2 Hp. apply H3; [simpl; auto|exact Hp].
Qed.

Lemma names_NoDup cs : NoDup (map c_name cs) -> NoDup cs.
Proof. apply NoDup_map_inv. Qed.

Lemma chosen_NoDup x cs : NoDup (map c_name cs) -> NoDup (chosen x cs).
Proof. intro H. apply NoDup_filter', names_NoDup, H. Qed.

Lemma same_name cs c c' : NoDup (map c_name cs) -> In c cs -> In c' cs -> c_name c = c_name c' -> c = c'.
Proof.
  intros ND. induction cs as [|a l IH]; intros H1 H2 E; [destruct H1|].
  cbn [map] in ND. inversion ND as [|n l' Hn NDl]; subst.
  destruct H1 as [<-|H1], H2 as [<-|H2]; auto.
  - exfalso. apply Hn. rewrite E. apply in_map. exact H2.
  - exfalso. apply Hn. rewrite <- E. apply in_map. exact H1.
Qed.

(* ------------------------------------------------------------------ *)
(** ** What is returned *)

Lemma truthy_drops o : truthyQ (mo_drop o) = true <-> exists p, drops o p.
Proof.
  unfold drops. destruct (mo_drop o) as [p|]; cbn [truthyQ]; split.
  - intro H. exists p. split; [reflexivity|]. intro C. apply Qeq_bool_iff in C. rewrite C in H. discriminate.
  - intros (q & E & H). inversion E; subst. destruct (Qeq_bool q 0) eqn:B; [|reflexivity].
    apply Qeq_bool_iff in B. contradiction.
  - discriminate.
  - intros (q & E & _). discriminate.
Qed.

Lemma solve_master_stage g o relax cs solver pi m m1 D q :
  solve_master g o relax cs solver pi m = Ok (m1, D, q) ->
  m1 = stage m (negb relax) /\ a_status (solver (program_of m1)) = Optimal /\
  q = a_objective (solver (program_of m1)).
Proof.
  unfold solve_master. intro H. apply bind_ok in H. destruct H as (u & Hu & H).
  apply bind_ok in H. destruct H as (D' & HD & H). inversion H; subst.
  apply raise_if_ok in Hu. apply negb_false_iff in Hu.
  assert (E : forall a : status, status_eqb a Optimal = true -> a = Optimal) by (intros [] ; try discriminate; reflexivity).
  destruct relax; cbn [negb stage]; (split; [reflexivity|]; split; [apply E; exact Hu|reflexivity]).
Qed.

Lemma optimal_feasible {V} (p : program V) a : sound_answer p a -> a_status a = Optimal -> feasible (a_value a) p.
Proof. intros S H. apply (sa_feasible _ _ S). left. exact H. Qed.

Lemma of_type_sum k l : inject_Z (Z.of_nat (of_type k l)) ==
  Qsum_over l (fun c => if (c_type c =? k)%nat then 1 else 0).
Proof.
  unfold of_type, Qsum_over. induction l as [|c l IH]; [reflexivity|]. cbn [filter map]. rewrite Qsum_cons.
  destruct (c_type c =? k)%nat.
  - cbn [List.length]. rewrite Nat2Z.inj_succ, <- Z.add_1_r, inject_Z_plus, IH. change (inject_Z 1) with 1. lra.
  - rewrite IH. lra.
Qed.

Lemma inject_nat_eq a b : inject_Z (Z.of_nat a) == inject_Z (Z.of_nat b) <-> a = b.
Proof. split; [|intros ->; reflexivity]. unfold Qeq, inject_Z. cbn [Qnum Qden]. intro H. apply Nat2Z.inj. rewrite !Z.mul_1_r in H. exact H. Qed.

Section Conclusion.
  Variables (g : vgraph) (o : moptions) (cs : list column).
  Variables (solver resolver : program mvar -> answer mvar).
  Variables (t : Q) (sel : list column) (dropped : list node).
  Hypothesis WF : wf g.
  Hypothesis LAB : forall c, In c cs -> labelled c.
  Hypothesis NAMES : NoDup (map c_name cs).
  Hypothesis SOUND : forall m, built g o cs m -> sound_answer (program_of (integral m)) (solver (program_of (integral m))).
  Hypothesis END : concluded g o cs solver resolver t sel dropped.

  Lemma conclusion : exists m x, shape g o cs m /\ feasible x (program_of (integral m)) /\
    solution g o cs true x /\ sel = chosen x cs /\
    dropped = (if truthyQ (mo_drop o) then filter (fun v => Qltb (1 # 2) (x (Drop v))) (drop_keys m) else []) /\
    x = a_value (solver (program_of (integral m))) /\
    t = match a_objective (resolver (program_of (integral m))) with Some q => q | None => 0 end /\ built g o cs m /\
    a_status (solver (program_of (integral m))) = Optimal.
  Proof.
    destruct END as (m & m1 & pi & D & q & B & S & R).
    assert (SH := built_shape _ _ _ _ B).
    destruct (solve_master_stage _ _ _ _ _ _ _ _ _ _ S) as (E1 & E2 & _). cbn [negb stage] in E1.
    exists m, (a_value (solver (program_of (integral m)))).
    assert (F : feasible (a_value (solver (program_of (integral m)))) (program_of (integral m))).
    { apply optimal_feasible; [exact (SOUND m B)|]. rewrite E1 in E2. exact E2. }
    split; [exact SH|]. split; [exact F|]. split; [exact (proj1 (feasible_iff g o cs m WF LAB SH true _) F)|].
    destruct (selected _ _ _ _ _ _ _ _ R) as (R1 & R2 & R3). rewrite E1 in R1, R2, R3.
    rewrite integral_keys in R2. rewrite E1 in E2. auto 8.
  Qed.

  Lemma conclusion_cols c : In c sel -> In c cs.
  Proof.
    destruct conclusion as (m & x & _ & _ & _ & E & _). rewrite E. intro H. apply filter_In in H. tauto.
  Qed.

  Lemma conclusion_visits v d : customer g v d -> mo_periodic o = false ->
    inject_Z (Z.of_nat (list_sum (map (times v) sel))) + inject_Z (Z.of_nat (count_occ node_eq_dec dropped v)) == 1.
  Proof.
    destruct conclusion as (m & x & SH & _ & S & -> & -> & _). intros Hc Hp.
    assert (V := proj2 (so_visits _ _ _ _ _ S v d Hc) eq_refl).
    unfold count_visits, required in V. rewrite Hp in V. cbn [andb] in V.
    assert (E : Qsum_over cs (fun c => inject_Z (Z.of_nat (times v c)) * x (Y (c_name c))) ==
                inject_Z (Z.of_nat (list_sum (map (times v) (chosen x cs))))).
    { rewrite (chosen_sum g o cs x S (fun c => inject_Z (Z.of_nat (times v c))) cs (fun c H => H)). apply sum_times. }
    rewrite E in V. clear E.
    destruct (truthyQ (mo_drop o)) eqn:T.
    - destruct (proj1 (truthy_drops o) T) as (p & D).
      assert (Hv := customer_cust g v d Hc).
      destruct (so_drop _ _ _ _ _ S p D v Hv) as (D0 & D1 & D2).
      assert (P := drop_keys_perm g o cs m LAB SH T).
      assert (ND : NoDup (drop_keys m)).
      { apply (Permutation_NoDup (Permutation_sym P)). apply NoDup_custs, WF. }
      assert (Hk : In v (drop_keys m)) by (rewrite P; exact Hv).
      assert (E : inject_Z (Z.of_nat (count_occ node_eq_dec (filter (fun v => Qltb (1 # 2) (x (Drop v))) (drop_keys m)) v)) == x (Drop v)).
      { destruct (zero_one_values _ D0 D1 D2) as [E|E].
        - assert (N : ~ In v (filter (fun v => Qltb (1 # 2) (x (Drop v))) (drop_keys m))).
          { intro C. apply filter_In in C. destruct C as [_ C]. apply Qltb_lt in C. lra. }
          apply (count_occ_not_In node_eq_dec) in N. rewrite N. rewrite E. reflexivity.
        - rewrite count_occ_one; [rewrite E; reflexivity|apply NoDup_filter', ND|].
          apply filter_In. split; [exact Hk|]. apply Qltb_lt. lra. }
      rewrite E. lra.
    - cbn [count_occ]. change (inject_Z (Z.of_nat 0)) with 0. lra.
  Qed.

  Lemma dropped_custs : NoDup dropped /\ forall v, In v dropped -> In v (custs g).
  Proof.
    destruct conclusion as (m & x & SH & _ & S & _ & E & _). rewrite E.
    destruct (truthyQ (mo_drop o)) eqn:T; [|split; [constructor|intros v []]].
    assert (P := drop_keys_perm g o cs m LAB SH T). split.
    - apply NoDup_filter'. apply (Permutation_NoDup (Permutation_sym P)). apply NoDup_custs, WF.
    - intros v Hv. apply filter_In in Hv. rewrite <- P. tauto.
  Qed.

  Theorem conclusion_fleet l k n : fleet_bound o l -> nth_error l k = Some n ->
    inject_Z (Z.of_nat (of_type k sel)) <= n /\
    (mo_all o = true -> inject_Z (Z.of_nat (of_type k sel)) == n).
  Proof.
    destruct conclusion as (m & x & SH & _ & S & -> & _). intros Hl Hk.
    assert (Hlen : (k < List.length l)%nat) by (apply nth_error_Some; rewrite Hk; discriminate).
    destruct (so_fleet _ _ _ _ _ S l Hl k n Hk) as [H1 H2].
    assert (H3 := proj2 (so_extra _ _ _ _ _ S l (proj1 Hl) k Hlen) eq_refl).
    assert (E : count_type cs x k == inject_Z (Z.of_nat (of_type k (chosen x cs)))).
    { unfold count_type. rewrite sum_filter, of_type_sum.
      apply (chosen_sum g o cs x S (fun c => if (c_type c =? k)%nat then 1 else 0) cs (fun c H => H)). }
    split; [lra|]. intro Ha. specialize (H2 Ha). lra.
  Qed.

  Theorem conclusion_elementary c i : In c sel -> c_name c <> CNonElem i.
  Proof. destruct conclusion as (m & x & _ & _ & S & -> & _). apply (chosen_elem g o cs x S). Qed.

  Theorem conclusion_valid : mo_periodic o = false -> valid_selection g o cs sel dropped.
  Proof.
    intro Hp. constructor.
    - exact conclusion_cols.
    - destruct conclusion as (m & x & _ & _ & _ & -> & _). apply chosen_NoDup, NAMES.
    - exact conclusion_elementary.
    - intros v d Hc. assert (V := conclusion_visits v d Hc Hp).
      assert (ND : NoDup sel).
      { destruct conclusion as (m & x & _ & _ & _ & -> & _). apply chosen_NoDup, NAMES. }
      rewrite <- inject_Z_plus, <- Nat2Z.inj_add in V.
      assert (E : (list_sum (map (times v) sel) + count_occ node_eq_dec dropped v)%nat = 1%nat).
      { apply inject_nat_eq. rewrite V. reflexivity. }
      destruct (count_occ node_eq_dec dropped v) as [|n] eqn:C.
      + left. split; [apply sum_once; [exact ND|lia]|]. apply (count_occ_not_In node_eq_dec). exact C.
      + right. split; [apply sum_never; lia|]. apply (count_occ_In node_eq_dec). lia.
    - exact dropped_custs.
    - intro N. destruct conclusion as (m & x & _ & _ & _ & _ & E & _). rewrite E.
      destruct (truthyQ (mo_drop o)) eqn:T; [|reflexivity].
      apply truthy_drops in T. destruct T as (p & D). exfalso. exact (N p D).
    - intros l Hl k n Hk. exact (conclusion_fleet l k n Hl Hk).
  Qed.
End Conclusion.

(* ------------------------------------------------------------------ *)
(** ** Every valid selection is a solution *)

Definition has_name (n : cname) (sel : list column) : bool := existsb (fun c => cname_eqb (c_name c) n) sel.
Definition enc (sel : list column) (dropped : list node) (sp : Q) (v : mvar) : Q :=
  match v with
  | Y n => if has_name n sel then 1 else 0
  | Drop u => if mem u dropped then 1 else 0
  | Span => sp
  | _ => 0
  end.

Lemma has_name_in n sel : has_name n sel = true <-> exists c, In c sel /\ c_name c = n.
Proof.
  unfold has_name. rewrite existsb_exists. split; intros (c & H & E); exists c; split; auto; apply cname_eqb_eq; exact E.
Qed.

Lemma binary_sum (x : mvar -> Q) (f : column -> Q) l :
  (forall c, In c l -> x (Y (c_name c)) == if Qltb 0 (x (Y (c_name c))) then 1 else 0) ->
  Qsum_over l (fun c => f c * x (Y (c_name c))) == Qsum_over (chosen x l) f.
Proof.
  intro H. unfold Qsum_over, chosen. induction l as [|c l IH]; [simpl; lra|].
  cbn [map filter]. rewrite Qsum_cons, IH; [|intros c' Hc'; apply H; simpl; auto].
  assert (E := H c (or_introl eq_refl)).
  destruct (Qltb 0 (x (Y (c_name c)))); rewrite E; cbn [map]; rewrite ?Qsum_cons; lra.
Qed.

Lemma Qsum_over_perm {A} (f : A -> Q) l1 l2 : Permutation l1 l2 -> Qsum_over l1 f == Qsum_over l2 f.
Proof. intro P. unfold Qsum_over. apply Qsum_perm, Permutation_map, P. Qed.

Lemma list_sum_perm l1 l2 : Permutation l1 l2 -> list_sum l1 = list_sum l2.
Proof. induction 1; simpl in *; lia. Qed.

Lemma sum_members (l sub : list node) : NoDup l -> NoDup sub -> (forall v, In v sub -> In v l) ->
  Qsum_over l (fun v => if mem v sub then 1 else 0) == inject_Z (Z.of_nat (List.length sub)).
Proof.
  intros ND NS H.
  assert (E : forall l, Qsum_over l (fun v => if mem v sub then 1 else 0) ==
                        inject_Z (Z.of_nat (List.length (filter (fun v => mem v sub) l)))).
  { clear. unfold Qsum_over. induction l as [|v l IH]; [reflexivity|]. cbn [map filter]. rewrite Qsum_cons, IH.
    destruct (mem v sub); [|lra]. cbn [List.length]. rewrite Nat2Z.inj_succ, <- Z.add_1_r, inject_Z_plus.
    change (inject_Z 1) with 1. lra. }
  rewrite E. apply inject_nat_eq. apply Permutation_length. apply NoDup_Permutation; [apply NoDup_filter', ND|exact NS|].
  intro v. rewrite filter_In, mem_In. split; [tauto|]. intro Hv. split; [apply H; exact Hv|exact Hv].
Qed.

Section Encode.
  Variables (g : vgraph) (o : moptions) (cs : list column) (m : master).
  Hypothesis WF : wf g.
  Hypothesis NAMES : NoDup (map c_name cs).
  Hypothesis SH : shape g o cs m.
  Variables (sel : list column) (dropped : list node) (sp : Q).
  Hypothesis VALID : valid_selection g o cs sel dropped.
  Hypothesis PERIOD : mo_periodic o = false.
  Let x := enc sel dropped sp.

  Lemma enc_binary c : x (Y (c_name c)) == if Qltb 0 (x (Y (c_name c))) then 1 else 0.
  Proof. unfold x, enc. destruct (has_name (c_name c) sel); reflexivity. Qed.

  Lemma enc_one c : In c cs -> (In c sel <-> has_name (c_name c) sel = true).
  Proof.
    intro Hc. rewrite has_name_in. split.
    - intro H. exists c. auto.
    - intros (c' & H' & E). assert (c' = c); [|subst; exact H'].
      apply (same_name cs); auto. apply (va_cols _ _ _ _ _ VALID). exact H'.
  Qed.

  Lemma enc_chosen : Permutation (chosen x cs) sel.
  Proof.
    apply NoDup_Permutation; [apply chosen_NoDup, NAMES|exact (va_NoDup _ _ _ _ _ VALID)|].
    intro c. unfold chosen. rewrite filter_In.
    assert (E : Qltb 0 (x (Y (c_name c))) = has_name (c_name c) sel).
    { unfold x, enc. destruct (has_name (c_name c) sel); reflexivity. }
    rewrite E. split.
    - intros [Hc H]. apply (enc_one c Hc). exact H.
    - intro H. assert (Hc := va_cols _ _ _ _ _ VALID c H). split; [exact Hc|]. apply (enc_one c Hc). exact H.
  Qed.

  Lemma enc_sum f : Qsum_over cs (fun c => f c * x (Y (c_name c))) == Qsum_over sel f.
  Proof.
    rewrite binary_sum; [|intros c _; apply enc_binary]. apply Qsum_over_perm, enc_chosen.
  Qed.

  Lemma enc_cost : mo_span o = false -> total_cost g o cs x == price o sel dropped.
  Proof.
    intro Es. unfold total_cost, price. rewrite Es, PERIOD.
    assert (E := enc_sum c_cost). rewrite E. clear E.
    assert (Z0 : Qsum_over (seq 0 match mo_fleet o with Some l => List.length l | None => 0 end) (fun k => x (Extra k)) == 0).
    { unfold Qsum_over. apply Qsum_map_zero. intros k _. reflexivity. }
    rewrite Z0.
    assert (D : match mo_drop o with Some p => p * (if truthyQ (mo_drop o) then Qsum_over (custs g) (fun v => x (Drop v)) else 0) | None => 0 end
             == match mo_drop o with Some p => p * inject_Z (Z.of_nat (List.length dropped)) | None => 0 end).
    { destruct (va_dropped _ _ _ _ _ VALID) as [D1 D2].
      assert (M := sum_members (custs g) dropped (NoDup_custs g WF) D1 D2).
      destruct (mo_drop o) as [p|] eqn:Ed; [|reflexivity]. destruct (truthyQ (Some p)) eqn:T.
      - assert (M' : Qsum_over (custs g) (fun v => x (Drop v)) == inject_Z (Z.of_nat (List.length dropped))) by exact M.
        rewrite M'. reflexivity.
      - cbn [truthyQ] in T. apply negb_false_iff, Qeq_bool_iff in T. rewrite T. ring. }
    rewrite D. lra.
  Qed.

  Lemma enc_solution :
    (mo_span o = true -> 0 <= sp /\
       forall c, In c sel -> forall i, c_name c = CNat i -> c_cost c <= if (i <=? 74)%nat then sp else 0) ->
    solution g o cs true x.
  Proof.
    intro SPAN. constructor.
    - intros v d Hc.
      assert (E : count_visits g o cs x v d == 1).
      { unfold count_visits. rewrite PERIOD. cbn [andb].
        rewrite (enc_sum (fun c => inject_Z (Z.of_nat (times v c)))), sum_times.
        destruct (va_once _ _ _ _ _ VALID v d Hc) as [[H1 H2]|[H1 H2]].
        - apply sum_once in H1; [|exact (va_NoDup _ _ _ _ _ VALID)]. rewrite H1.
          assert (Ed : x (Drop v) == 0) by (unfold x, enc; apply mem_false in H2; rewrite H2; reflexivity).
          destruct (truthyQ (mo_drop o)); rewrite ?Ed; reflexivity.
        - apply sum_never in H1. rewrite H1.
          assert (Ed : x (Drop v) == 1) by (unfold x, enc; apply mem_In in H2; rewrite H2; reflexivity).
          destruct (truthyQ (mo_drop o)) eqn:T; [rewrite Ed; reflexivity|].
          exfalso. rewrite (va_nodrop _ _ _ _ _ VALID) in H2; [destruct H2|].
          intros p D. assert (truthyQ (mo_drop o) = true) by (apply truthy_drops; exists p; exact D). congruence. }
      assert (R : required o d = 1) by (unfold required; rewrite PERIOD; reflexivity).
      rewrite R. split; [lra|intros _; exact E].
    - intros l Hl k n Hk.
      assert (E : count_type cs x k == inject_Z (Z.of_nat (of_type k sel))).
      { unfold count_type. rewrite sum_filter, of_type_sum. apply enc_sum. }
      assert (E0 : x (Extra k) == 0) by reflexivity. rewrite E0.
      destruct (va_fleet _ _ _ _ _ VALID l Hl k n Hk) as [H1 H2].
      split; [lra|]. intro Ha. specialize (H2 Ha). lra.
    - intros Es i Hi. destruct (SPAN Es) as [S0 S1].
      assert (ND : NoDup (map c_name (filter (fun c => match c_name c with CNat n => (n =? i)%nat | _ => false end) cs))).
      { clear - NAMES. induction cs as [|c l IH]; [constructor|]. cbn [map] in NAMES.
        inversion NAMES as [|n l' Hn NDl]; subst. cbn [filter].
        destruct (match c_name c with CNat n => (n =? i)%nat | _ => false end); [|auto].
        cbn [map]. constructor; [|auto]. intro C. apply Hn. apply in_map_iff in C.
        destruct C as (c' & E & Hc'). apply filter_In in Hc'. rewrite <- E. apply in_map. tauto. }
      assert (EQ : forall c, In c (filter (fun c => match c_name c with CNat n => (n =? i)%nat | _ => false end) cs) ->
                     c_name c = CNat i /\ In c cs).
      { intros c Hc. apply filter_In in Hc. destruct Hc as [Hc E]. split; [|exact Hc].
        destruct (c_name c); try discriminate. apply Nat.eqb_eq in E. congruence. }
      revert ND EQ.
      generalize (filter (fun c => match c_name c with CNat n => (n =? i)%nat | _ => false end) cs). intros l ND EQ.
      assert (POS : 0 <= if (i <=? 74)%nat then sp else 0) by (destruct (i <=? 74)%nat; lra).
      assert (XS : (if (i <=? 74)%nat then x Span else 0) = (if (i <=? 74)%nat then sp else 0)) by reflexivity.
      rewrite XS. destruct l as [|c l].
      + unfold Qsum_over. simpl. exact POS.
      + destruct l as [|c' l].
        * unfold Qsum_over. cbn [map]. rewrite Qsum_cons. cbn [Qsum fold_right].
          destruct (EQ c (or_introl eq_refl)) as [En Hc].
          assert (Ex : x (Y (c_name c)) == if has_name (c_name c) sel then 1 else 0) by reflexivity.
          rewrite Ex. destruct (has_name (c_name c) sel) eqn:H; [|lra].
          apply (enc_one c Hc) in H. assert (H1 := S1 c H i En). lra.
        * exfalso. cbn [map] in ND. inversion ND as [|n l' Hn _]; subst. apply Hn.
          destruct (EQ c (or_introl eq_refl)) as [En _]. destruct (EQ c' (or_intror (or_introl eq_refl))) as [En' _].
          rewrite En, En'. simpl; auto.
    - intros c Hc. unfold x, enc. destruct (has_name (c_name c) sel) eqn:H.
      + split; [lra|]. split; [lra|]. split; [intros _; exists 1%Z; reflexivity|].
        intros _ (i & C). exfalso. apply (enc_one c Hc) in H. exact (va_elem _ _ _ _ _ VALID c i H C).
      + split; [lra|]. split; [lra|]. split; [intros _; exists 0%Z; reflexivity|intros; reflexivity].
    - intros p _ v _. unfold x, enc. destruct (mem v dropped).
      + split; [lra|]. split; [lra|]. exists 1%Z; reflexivity.
      + split; [lra|]. split; [lra|]. exists 0%Z; reflexivity.
    - intro C. congruence.
    - intros l _ k _. split; [unfold x, enc; lra|reflexivity].
    - intro Es. exact (proj1 (SPAN Es)).
  Qed.
End Encode.

(* ------------------------------------------------------------------ *)
(** ** Value and optimality of what is returned *)

Lemma exact_values {V} (p : program V) a b x : exact_answer p a -> exact_answer p b -> feasible x p ->
  exists q, a_objective a = Some q /\ q == value (a_value b) (p_obj p) /\
    forall y, feasible y p -> q <= value y (p_obj p).
Proof.
  intros A B F. destruct (ea_cases _ _ A) as [(Ha & Oa & Ma)|[_ N]]; [|exfalso; exact (N x F)].
  destruct (ea_cases _ _ B) as [(Hb & Ob & Mb)|[_ N]]; [|exfalso; exact (N x F)].
  destruct (a_objective a) as [q|] eqn:E; [|congruence]. exists q. split; [reflexivity|].
  assert (Eq := sa_objective _ _ (ea_sound _ _ A) q E).
  assert (Fa := optimal_feasible p a (ea_sound _ _ A) Ha).
  assert (Fb := optimal_feasible p b (ea_sound _ _ B) Hb).
  assert (H1 := Ma _ Fb). assert (H2 := Mb _ Fa). split; [lra|].
  intros y Fy. assert (H3 := Ma y Fy). lra.
Qed.

(** what is asked again after an optimal answer has its value *)
Definition agreed (g : vgraph) (o : moptions) (cs : list column) (solver resolver : program mvar -> answer mvar) : Prop :=
  forall m, built g o cs m -> a_status (solver (program_of (integral m))) = Optimal ->
  exists q, a_objective (resolver (program_of (integral m))) = Some q /\
    q == value (a_value (solver (program_of (integral m)))) (p_obj (program_of (integral m))).
Lemma exact_right {V} (p : program V) a : exact_answer p a -> right_answer p a.
Proof. intros [S [(_ & _ & M)|(I & _)]]; constructor; auto. intro E. congruence. Qed.
Lemma exact_agreed g o cs solver resolver :
  (forall m, built g o cs m -> exact_answer (program_of (integral m)) (solver (program_of (integral m)))) ->
  (forall m, built g o cs m -> exact_answer (program_of (integral m)) (resolver (program_of (integral m)))) ->
  agreed g o cs solver resolver.
Proof.
  intros E1 E2 m B St. assert (F := optimal_feasible _ _ (ea_sound _ _ (E1 m B)) St).
  destruct (exact_values _ _ _ _ (E2 m B) (E1 m B) F) as (q & Eq & V & _). exists q. auto.
Qed.
(** the solver's own value instead of what is asked again *)
Definition again (solver : program mvar -> answer mvar) (p : program mvar) : answer mvar :=
  mkAnswer Optimal (Some (value (a_value (solver p)) (p_obj p))) (a_value (solver p)).
Lemma again_agreed g o cs solver : agreed g o cs solver (again solver).
Proof. intros m _ _. eexists. split; reflexivity. Qed.
Lemma concluded_again g o cs solver resolver t sel dropped : concluded g o cs solver resolver t sel dropped ->
  exists t', concluded g o cs solver (again solver) t' sel dropped.
Proof.
  intros (m & m1 & pi & D & q & B & S & R). unfold get_total_cost_and_routes in R. apply bind_ok in R. destruct R as (l & R1 & R2).
  injection R2 as _ <- <-. eexists. exists m, m1, pi, D, q. split; [exact B|]. split; [exact S|].
  unfold get_total_cost_and_routes. rewrite R1. cbn [bind]. reflexivity.
Qed.

Section Value.
  Variables (g : vgraph) (o : moptions) (cs : list column).
  Variables (solver resolver : program mvar -> answer mvar).
  Variables (t : Q) (sel : list column) (dropped : list node).
  Hypothesis WF : wf g.
  Hypothesis LAB : forall c, In c cs -> labelled c.
  Hypothesis NAMES : NoDup (map c_name cs).
  Hypothesis RIGHT : forall m, built g o cs m -> right_answer (program_of (integral m)) (solver (program_of (integral m))).
  Hypothesis AGREE : agreed g o cs solver resolver.
  Hypothesis END : concluded g o cs solver resolver t sel dropped.
  Hypothesis PERIOD : mo_periodic o = false.

  Lemma SOUND' : forall m, built g o cs m -> sound_answer (program_of (integral m)) (solver (program_of (integral m))).
  Proof. intros m B. exact (ra_sound _ _ (RIGHT m B)). Qed.

  Lemma values : exists m x, shape g o cs m /\ solution g o cs true x /\ sel = chosen x cs /\
    dropped = (if truthyQ (mo_drop o) then filter (fun v => Qltb (1 # 2) (x (Drop v))) (drop_keys m) else []) /\
    t == total_cost g o cs x /\
    forall y, solution g o cs true y -> t <= total_cost g o cs y.
  Proof.
    destruct (conclusion g o cs solver resolver t sel dropped WF LAB SOUND' END)
      as (m & x & SH & F & S & E1 & E2 & E3 & E4 & B & St).
    exists m, x. split; [exact SH|]. split; [exact S|]. split; [exact E1|]. split; [exact E2|].
    destruct (AGREE m B St) as (q & Eq & V). rewrite Eq in E4. rewrite E4.
    assert (M : forall y, feasible y (program_of (integral m)) -> q <= value y (p_obj (program_of (integral m)))) by (intros y Fy; rewrite V; exact (ra_least _ _ (RIGHT m B) St y Fy)).
    split.
    - rewrite <- (objective_is g o cs m LAB SH true x). rewrite E3. exact V.
    - intros y Hy. rewrite <- (objective_is g o cs m LAB SH true y). apply M.
      apply (feasible_iff g o cs m WF LAB SH true y). exact Hy.
  Qed.

  Theorem conclusion_price : mo_span o = false -> t == price o sel dropped.
  Proof.
    intro Es.
    assert (V := conclusion_valid g o cs solver resolver t sel dropped WF LAB NAMES SOUND' END PERIOD).
    destruct values as (m & x & SH & S & E1 & E2 & E3 & _). rewrite E3.
    rewrite <- (enc_cost g o cs WF NAMES sel dropped 0 V PERIOD Es).
    unfold total_cost. rewrite Es, PERIOD.
    assert (A1 : Qsum_over cs (fun c => c_cost c * x (Y (c_name c))) ==
                 Qsum_over cs (fun c => c_cost c * enc sel dropped 0 (Y (c_name c)))).
    { rewrite (enc_sum g o cs NAMES sel dropped 0 V c_cost).
      rewrite (chosen_sum g o cs x S c_cost cs (fun c H => H)). rewrite E1. reflexivity. }
    assert (A2 : truthyQ (mo_drop o) = true -> Qsum_over (custs g) (fun v => x (Drop v)) ==
                 Qsum_over (custs g) (fun v => enc sel dropped 0 (Drop v))).
    { intro T. unfold Qsum_over. apply Qsum_map_ext. intros v Hv. cbn [enc].
      destruct (proj1 (truthy_drops o) T) as (p & D).
      destruct (so_drop _ _ _ _ _ S p D v Hv) as (D0 & D1 & D2).
      rewrite T in E2.
      assert (P := drop_keys_perm g o cs m LAB SH T).
      assert (Hk : In v (drop_keys m)) by (rewrite P; exact Hv).
      destruct (zero_one_values _ D0 D1 D2) as [E|E].
      - assert (N : mem v dropped = false).
        { apply mem_false. rewrite E2. intro C. apply filter_In in C. destruct C as [_ C]. apply Qltb_lt in C. lra. }
        rewrite N. exact E.
      - assert (N : mem v dropped = true).
        { apply mem_In. rewrite E2. apply filter_In. split; [exact Hk|]. apply Qltb_lt. lra. }
        rewrite N. exact E. }
    assert (A3 : Qsum_over (seq 0 match mo_fleet o with Some l => List.length l | None => 0 end) (fun k => x (Extra k)) == 0).
    { unfold Qsum_over. apply Qsum_map_zero. intros k Hk. apply in_seq in Hk.
      destruct (mo_fleet o) as [l|] eqn:El; [|simpl in Hk; lia].
      apply (proj2 (so_extra _ _ _ _ _ S l El k ltac:(lia))). reflexivity. }
    assert (A4 : Qsum_over (seq 0 match mo_fleet o with Some l => List.length l | None => 0 end)
                   (fun k => enc sel dropped 0 (Extra k)) == 0).
    { unfold Qsum_over. apply Qsum_map_zero. intros k Hk. reflexivity. }
    rewrite A1, A3, A4.
    destruct (mo_drop o) as [p|]; [|reflexivity].
    destruct (truthyQ (Some p)) eqn:T; [rewrite (A2 eq_refl); reflexivity|reflexivity].
  Qed.

  Theorem conclusion_best sel' dropped' : mo_span o = false ->
    valid_selection g o cs sel' dropped' -> t <= price o sel' dropped'.
  Proof.
    intros Es V. destruct values as (m & x & SH & _ & _ & _ & _ & M).
    rewrite <- (enc_cost g o cs WF NAMES sel' dropped' 0 V PERIOD Es). apply M.
    apply (enc_solution g o cs NAMES sel' dropped' 0 V PERIOD). rewrite Es. discriminate.
  Qed.
End Value.

(* ------------------------------------------------------------------ *)
(** ** Periodic customers *)

Lemma columns_with_sum v l : (forall c, In c l -> NoDup (served c)) ->
  list_sum (map (times v) l) = columns_with v l.
Proof.
  intro H. unfold columns_with. induction l as [|c l IH]; [reflexivity|]. cbn [map filter].
  change (list_sum (times v c :: map (times v) l)) with (times v c + list_sum (map (times v) l))%nat.
  rewrite IH; [|intros c' Hc'; apply H; simpl; auto].
  assert (B : (times v c <= 1)%nat).
  { unfold times. apply (proj1 (NoDup_count_occ node_eq_dec (served c))). apply H. simpl; auto. }
  destruct (times v c) as [|[|n]]; simpl; lia.
Qed.

Theorem periodic_visits g o cs solver resolver t sel dropped :
  wf g -> (forall c, In c cs -> labelled c) -> (forall c, In c cs -> honest c) ->
  NoDup (map c_name cs) ->
  (forall m, built g o cs m -> sound_answer (program_of (integral m)) (solver (program_of (integral m)))) ->
  concluded g o cs solver resolver t sel dropped ->
  mo_periodic o = true -> (forall p, ~ drops o p) ->
  exists artificial : node -> nat, forall v d, customer g v d ->
    Z.of_nat (columns_with v sel + artificial v) = freq d /\ ((freq d <= 1)%Z -> artificial v = 0%nat).
Proof.
  intros WF LAB HON ND SOUND END PER NODROP.
  destruct (conclusion g o cs solver resolver t sel dropped WF LAB SOUND END) as (m & x & SH & F & S & E1 & _).
  exists (fun v => match node_data g v with
                   | Some d => if (1 <? freq d)%Z then Z.to_nat (Qround.Qfloor (x (Dummy v))) else 0%nat
                   | None => 0%nat end).
  intros v d Hc. assert (V := proj2 (so_visits _ _ _ _ _ S v d Hc) eq_refl).
  destruct (Hc) as (Hin & Hs & _).
  assert (Nd : node_data g v = Some d) by (apply assoc_node_NoDup; [exact (wf_nodes _ WF)|exact Hin]).
  rewrite Nd. unfold count_visits, required in V. rewrite PER in V. cbn [andb] in V.
  assert (T : truthyQ (mo_drop o) = false).
  { destruct (truthyQ (mo_drop o)) eqn:T; [|reflexivity]. apply truthy_drops in T. destruct T as (p & D).
    exfalso. exact (NODROP p D). }
  rewrite T in V.
  assert (E : Qsum_over cs (fun c => inject_Z (Z.of_nat (times v c)) * x (Y (c_name c))) ==
              inject_Z (Z.of_nat (columns_with v sel))).
  { rewrite (chosen_sum g o cs x S (fun c => inject_Z (Z.of_nat (times v c))) cs (fun c H => H)).
    rewrite sum_times, <- E1. rewrite columns_with_sum; [reflexivity|].
    intros c Hc'. apply HON; [rewrite E1 in Hc'; apply filter_In in Hc'; tauto|].
    intro i. rewrite E1 in Hc'. exact (chosen_elem g o cs x S c i Hc'). }
  rewrite E in V. clear E.
  destruct (1 <? freq d)%Z eqn:B.
  - apply Z.ltb_lt in B. destruct (so_dummy _ _ _ _ _ S PER v d Hin Hs B) as [D0 D1].
    destruct (D1 eq_refl) as (z & Ez).
    assert (Ef : Qround.Qfloor (x (Dummy v)) = z).
    { rewrite (Qround.Qfloor_comp _ _ Ez). apply Qround.Qfloor_Z. }
    rewrite Ef. assert (Hz : (0 <= z)%Z).
    { rewrite Ez in D0. change 0 with (inject_Z 0) in D0. rewrite <- Zle_Qle in D0. exact D0. }
    split; [|intro C; lia].
    rewrite Ez in V.
    assert (V' : inject_Z (Z.of_nat (columns_with v sel) + z) == inject_Z (freq d)) by (rewrite inject_Z_plus; lra).
    unfold Qeq, inject_Z in V'. cbn [Qnum Qden] in V'. lia.
  - split; [|reflexivity].
    assert (V' : inject_Z (Z.of_nat (columns_with v sel)) == inject_Z (freq d)) by lra.
    unfold Qeq, inject_Z in V'. cbn [Qnum Qden] in V'. lia.
Qed.
