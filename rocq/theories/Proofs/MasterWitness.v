(** Concrete master problems: hypotheses that can be met, and properties that fail. *)
From Verif.Base Require Import Prelude Graph.
From Verif.Spec Require Import Routes Network LinProg Pricing MIP Master Duality.
From Verif.Model Require Import Args Reach Checks Preprocess ClarkeWright Greedy Initial Pricing LPPricing Master.
From Verif.Proofs Require Import RouteLemmas Deciders PreLemmas PricingProofs LPProofs PricingCor MasterProofs SelectProofs
  MasterCor PricingWitness.

(** A solver that always answers [x]. *)
Definition answers (x : mvar -> Q) (p : program mvar) : answer mvar := mkAnswer Optimal (Some (value x (p_obj p))) x.

Lemma answers_sound g o cs x : wf g -> (forall c, In c cs -> labelled c) -> solution g o cs true x ->
  forall m, built g o cs m -> sound_answer (program_of (integral m)) (answers x (program_of (integral m))).
Proof.
  intros WF LAB S m B. assert (SH := built_shape _ _ _ _ B). constructor; cbn [answers a_value a_objective].
  - intros _. exact (proj2 (feasible_iff g o cs m WF LAB SH true x) S).
  - intros q E. injection E as <-. reflexivity.
Qed.

Lemma answers_exact g o cs x : wf g -> (forall c, In c cs -> labelled c) -> solution g o cs true x ->
  (forall y, solution g o cs true y -> total_cost g o cs x <= total_cost g o cs y) ->
  forall m, built g o cs m -> exact_answer (program_of (integral m)) (answers x (program_of (integral m))).
Proof.
  intros WF LAB S M m B. assert (SH := built_shape _ _ _ _ B). constructor; [exact (answers_sound g o cs x WF LAB S m B)|].
  left. cbn [answers a_value a_objective a_status]. split; [reflexivity|]. split; [discriminate|]. intros y Hy.
  assert (E1 := objective_is g o cs m LAB SH true x). assert (E2 := objective_is g o cs m LAB SH true y).
  cbn [stage] in E1, E2. rewrite E1, E2. apply M. exact (proj1 (feasible_iff g o cs m WF LAB SH true y) Hy).
Qed.

(** ** Three customers *)
Definition netm : vgraph :=
  mkGraph [(Source, mk_node 0 0 0 0); (Cust 1, mk_node 1 0 0 0); (Cust 2, mk_node 1 0 0 0); (Cust 3, mk_node 1 0 0 0); (Sink, mk_node 0 0 0 0)]
          [mk_arc Source (Cust 1) 10 0; mk_arc Source (Cust 2) 11 0; mk_arc Source (Cust 3) 40 0;
           mk_arc (Cust 1) (Cust 2) 2 0;
           mk_arc (Cust 1) Sink 10 0; mk_arc (Cust 2) Sink 11 0; mk_arc (Cust 3) Sink 40 0;
           mk_arc Source Sink 0 0].
Lemma netm_network : network 1 netm. Proof. apply networkb_ok. vm_compute. reflexivity. Qed.

(** the column of a route, as made by the MIP; as made by the labelling algorithm *)
Definition col (i : nat) (cs : list node) (k : nat) : column :=
  mkCol (CNat i) (trip cs) (arcs (trip cs)) None (path_sum (cost_of netm k) (trip cs)) k None.
Definition lcol (n : cname) (p : list node) (q : Q) : column :=
  mkCol n (fst (digraph_of (arcs p))) (snd (digraph_of (arcs p))) (Some p) q 0 None.

Definition poolm : list column :=
  [col 1 [Cust 1] 0; col 2 [Cust 2] 0; col 3 [Cust 3] 0; col 4 [Cust 1; Cust 2] 0;
   lcol (CNonElem 5) [Source; Cust 1; Cust 2; Cust 1; Sink] 24; lcol (CElem 6) [Source; Cust 1; Cust 2; Sink] 23].
Definition mom : moptions := mkMO (Some 30) (Some [2]) false false false.
Definition masterm : master := got (mkMaster [] []) (formulate netm mom poolm).
Lemma masterm_ok : formulate netm mom poolm = Ok masterm. Proof. vm_compute. reflexivity. Qed.
Lemma poolm_labelled c : In c poolm -> labelled c.
Proof. intro H. repeat (destruct H as [<-|H]; [cbn; first [reflexivity | discriminate]|]). destruct H. Qed.
Lemma poolm_honest c : In c poolm -> honest c.
Proof.
  intro H. repeat (destruct H as [<-|H]; [intro N; try (exfalso; eapply N; reflexivity); vm_compute; repeat constructor; cbn; intuition discriminate|]).
  destruct H.
Qed.
Lemma poolm_names : NoDup (map c_name poolm).
Proof. vm_compute. repeat constructor; cbn; intuition discriminate. Qed.

Definition xm : mvar -> Q := enc [col 4 [Cust 1; Cust 2] 0] [Cust 3] 0.
Lemma xm_solution : solution netm mom poolm true xm.
Proof.
  apply (proj1 (feasible_iff netm mom poolm masterm (net_wf _ _ netm_network) poolm_labelled
                  (formulate_shape _ _ _ _ masterm_ok) true xm)).
  apply feasibleb_ok. vm_compute. reflexivity.
Qed.

Lemma customer_in g v d : In (v, d) (gnodes g) -> v <> Source -> v <> Sink -> is_aux_depot d = false -> customer g v d.
Proof. repeat split; auto. Qed.

Lemma xm_best y : solution netm mom poolm true y -> total_cost netm mom poolm xm <= total_cost netm mom poolm y.
Proof.
  intro S.
  assert (E : total_cost netm mom poolm xm == 53) by (vm_compute; reflexivity). rewrite E. clear E.
  destruct (so_visits _ _ _ _ _ S (Cust 1) (mk_node 1 0 0 0)) as [V1 _]; [apply customer_in; cbn; auto; discriminate|].
  destruct (so_visits _ _ _ _ _ S (Cust 2) (mk_node 1 0 0 0)) as [V2 _]; [apply customer_in; cbn; auto; discriminate|].
  destruct (so_visits _ _ _ _ _ S (Cust 3) (mk_node 1 0 0 0)) as [V3 _]; [apply customer_in; cbn; auto; discriminate|].
  assert (R := fun c H => proj1 (so_routes _ _ _ _ _ S c H)).
  assert (R1 := R _ (or_introl eq_refl)). assert (R2 := R _ (or_intror (or_introl eq_refl))).
  assert (R3 := R _ (or_intror (or_intror (or_introl eq_refl)))).
  assert (R4 := R _ (or_intror (or_intror (or_intror (or_introl eq_refl))))).
  assert (R5 := R _ (or_intror (or_intror (or_intror (or_intror (or_introl eq_refl)))))).
  assert (R6 := R _ (or_intror (or_intror (or_intror (or_intror (or_intror (or_introl eq_refl))))))).
  assert (X := proj1 (so_extra _ _ _ _ _ S [2] eq_refl 0%nat ltac:(cbn; lia))).
  assert (DR : drops mom 30) by (split; [reflexivity|intro C; discriminate C]).
  assert (D1 := proj1 (so_drop _ _ _ _ _ S 30 DR (Cust 1) ltac:(cbn; auto))).
  assert (D2 := proj1 (so_drop _ _ _ _ _ S 30 DR (Cust 2) ltac:(cbn; auto))).
  assert (D3 := proj1 (so_drop _ _ _ _ _ S 30 DR (Cust 3) ltac:(cbn; auto))).
  clear R S DR.
  change (required mom (mk_node 1 0 0 0)) with 1 in V1, V2, V3.
  unfold count_visits, Qsum_over, poolm in V1, V2, V3. unfold total_cost, Qsum_over, poolm.
  cbn [map Qsum fold_right mom mo_drop mo_periodic mo_fleet mo_span truthyQ Qeq_bool List.length seq negb andb] in *.
  cbn [c_name c_cost col lcol] in *.
  change (Qeq_bool 30 0) with false in *.
  repeat match goal with H : context [inject_Z (Z.of_nat ?t)] |- _ =>
    let t' := eval vm_compute in (inject_Z (Z.of_nat t)) in change (inject_Z (Z.of_nat t)) with t' in H end.
  repeat match goal with |- context [path_sum ?w ?p] =>
    let q := eval vm_compute in (path_sum w p) in change (path_sum w p) with q end.
  change (custs netm) with [Cust 1; Cust 2; Cust 3]. cbn [map Qsum fold_right negb].
  cbn [Qsum fold_right negb] in *.
  lra.
Qed.

Definition duals_any : mrow -> Q := fun _ => 0.
Lemma concludedm : concluded netm mom poolm (answers xm) (answers xm) 53 [col 4 [Cust 1; Cust 2] 0] [Cust 3].
Proof.
  exists masterm, (integral masterm), duals_any. eexists. eexists.
  split; [apply b_formulate; exact masterm_ok|]. split; [vm_compute; reflexivity|].
  vm_compute. reflexivity.
Qed.

(** ** Visits on several days *)
Definition netq : vgraph :=
  mkGraph [(Source, mk_node 0 0 0 0); (Cust 1, mkN 1 0 0 0 0 2 None false); (Cust 2, mk_node 1 0 0 0); (Cust 3, mk_node 1 0 0 0); (Sink, mk_node 0 0 0 0)]
          (gedges netm).
Lemma netq_network : network 1 netq. Proof. apply networkb_ok. vm_compute. reflexivity. Qed.
Definition moq : moptions := mkMO None (Some []) false true false.
Definition masterq : master := got (mkMaster [] []) (formulate netq moq poolm).
Lemma masterq_ok : formulate netq moq poolm = Ok masterq. Proof. vm_compute. reflexivity. Qed.
Definition selq : list column := [col 1 [Cust 1] 0; col 3 [Cust 3] 0; col 4 [Cust 1; Cust 2] 0].
Definition xq : mvar -> Q := enc selq [] 0.
Lemma xq_solution : solution netq moq poolm true xq.
Proof.
  apply (proj1 (feasible_iff netq moq poolm masterq (net_wf _ _ netq_network) poolm_labelled
                  (formulate_shape _ _ _ _ masterq_ok) true xq)).
  apply feasibleb_ok. vm_compute. reflexivity.
Qed.
Lemma concludedq : concluded netq moq poolm (answers xq) (answers xq) 123 selq [].
Proof.
  exists masterq, (integral masterq), duals_any. eexists. eexists.
  split; [apply b_formulate; exact masterq_ok|]. split; [vm_compute; reflexivity|].
  vm_compute. reflexivity.
Qed.

(** ** A lower bound *)
Definition pool3 : list column := [col 1 [Cust 1] 0; col 2 [Cust 2] 0; col 3 [Cust 3] 0; col 4 [Cust 1; Cust 2] 0].
Definition mo3 : moptions := mkMO None (Some [3]) false false false.
Definition master3 : master := got (mkMaster [] []) (formulate netm mo3 pool3).
Lemma built3 : built netm mo3 pool3 master3. Proof. apply b_formulate. vm_compute. reflexivity. Qed.
Definition pi3 (r : mrow) : Q := match r with Visit (Cust 1) => 2 | Visit (Cust 2) => 21 | Visit (Cust 3) => 80 | _ => 0 end.
Definition x3 : mvar -> Q := enc [col 3 [Cust 3] 0; col 4 [Cust 1; Cust 2] 0] [] 0.
Definition duals3 : dual_dict := mkDuals [(Cust 1, 2); (Cust 2, 21); (Cust 3, 80)] (Some [0]) [].
Lemma solve3 : solve_master netm mo3 true pool3 (answers x3) pi3 master3 = Ok (master3, duals3, Some 103).
Proof. vm_compute. reflexivity. Qed.
Lemma dual3 : dual_solution mo3 master3 pi3 103.
Proof.
  constructor.
  - intros [| |[|[p|p|]|p]]; try (vm_compute; discriminate); destruct p; vm_compute; discriminate.
  - intros k _. vm_compute. discriminate.
  - vm_compute. discriminate.
Qed.
Definition optm : options := mkOptions false false false false None false [].
Definition net3p : vgraph := priced duals3 0 netm.
Definition prog3 : program pvar := got (mkProgram [] [] []) (LPPricing.formulate net3p 0 None optm None None false).
Definition pricer3 (p : program pvar) : answer pvar := mkAnswer Optimal (Some 0) (onec (arcs (trip [Cust 3]))).

Lemma pricer3_exact p : LPPricing.formulate net3p 0 None optm None None false = Ok p -> exact_answer p (pricer3 p).
Proof.
  assert (N : network 1 net3p) by (apply networkb_ok; vm_compute; reflexivity).
  assert (HP : forall a b, In (a, b) (arc_list net3p) ->
            (fun v => match v with Source => 0 | Cust 1 => 10 | Cust 2 => 10 | Cust _ => 40 | Sink => 0 end) b -
            (fun v => match v with Source => 0 | Cust 1 => 10 | Cust 2 => 10 | Cust _ => 40 | Sink => 0 end) a <=
            weight_of net3p a b).
  { intros a b Hab. vm_compute in Hab.
    repeat (destruct Hab as [E|Hab]; [inversion E; subst; vm_compute; discriminate|]). destruct Hab. }
  assert (F : LPPricing.formulate net3p 0 None optm None None false = Ok prog3) by (vm_compute; reflexivity).
  rewrite F. intro E. injection E as <-.
  assert (FE : feasible (onec (arcs (trip [Cust 3]))) prog3) by (apply feasibleb_ok; vm_compute; reflexivity).
  assert (FV : value (onec (arcs (trip [Cust 3]))) (p_obj prog3) == 0) by (vm_compute; reflexivity).
  constructor.
  - constructor; [intros _; exact FE|]. cbn [pricer3 a_objective a_value]. intros q E. injection E as <-. symmetry. exact FV.
  - left. cbn [pricer3 a_status a_objective a_value]. split; [reflexivity|]. split; [discriminate|]. intros y Hy.
    assert (B := potential_bound _ _ 0 _ _ _ _ _ _ _ _ (custs netm) N ltac:(lia) ltac:(intros v Hv; exact Hv) HP F Hy).
    cbn beta in B. rewrite FV. eapply Qle_trans; [|exact B]. vm_compute. discriminate.
Qed.

(** ** The global span with many columns *)
(** [n] customers with their round trips *)
Definition star (n : nat) : vgraph :=
  let vs := map (fun i => Cust (Z.of_nat i)) (seq 1 n) in
  mkGraph ((Source, mk_node 0 0 0 9) :: map (fun v => (v, mk_node 1 0 0 9)) vs ++ [(Sink, mk_node 0 0 0 9)])
          (map (fun v => mk_arc Source v 1 1) vs ++ map (fun v => mk_arc v Sink 1 1) vs ++ [mk_arc Source Sink 0 0]).
Definition optw : options := mkOptions true false false false None false [].
Definition mos : moptions := mkMO None (Some []) false false true.
Definition pool_star (n : nat) : list column := snd (got ([], []) (initialize optw false None None None (fun _ l => l) [] (star n))).
Definition master_star (n : nat) : master := got (mkMaster [] []) (formulate (star n) mos (pool_star n)).

Lemma once_by_count v l : NoDup l -> list_sum (map (times v) l) = 1%nat -> once v l.
Proof. intros ND H. apply sum_once; assumption. Qed.

(** every customer is served once; the one numbered 75 only by columns 75 to 999 *)
Definition each_served (g : vgraph) (pool : list column) : bool :=
  forallb (fun p => is_depot (fst p) || (list_sum (map (times (fst p)) pool) =? 1)%nat) (gnodes g).
Definition late (v : node) (pool : list column) : bool :=
  forallb (fun c => (times v c =? 0)%nat ||
    match c_name c with CNat i => (75 <=? i)%nat && (i <=? 999)%nat && Qltb 0 (c_cost c) | _ => false end) pool.
Definition unlabelled (pool : list column) : bool :=
  forallb (fun c => match c_name c, c_path c with CNat _, None => true | _, _ => false end) pool.

Lemma blocked (g : vgraph) pool m n v d : network 1 g -> formulate g mos pool = Ok m ->
  map c_name pool = map CNat (seq 1 n) -> unlabelled pool = true -> each_served g pool = true ->
  customer g v d -> late v pool = true ->
  valid_selection g mos pool pool [] /\
  (forall x, ~ feasible x (program_of m)) /\ (forall x, ~ feasible x (program_of (integral m))).
Proof.
  intros N F EN UL ES CU LA.
  assert (ND : NoDup (map c_name pool)).
  { rewrite EN. apply FinFun.Injective_map_NoDup; [intros a b H; congruence|apply seq_NoDup]. }
  assert (LAB : forall c, In c pool -> labelled c).
  { intros c Hc. apply (proj1 (forallb_forall _ _) UL) in Hc. unfold labelled. destruct (c_name c); destruct (c_path c); try discriminate; reflexivity. }
  split.
  { constructor.
    - auto.
    - apply names_NoDup. exact ND.
    - intros c i Hc C. apply (in_map c_name) in Hc.
      rewrite EN, C in Hc. apply in_map_iff in Hc. destruct Hc as (j & Ej & _). discriminate.
    - intros u e (Hin & H1 & H2 & _). left. split; [|intros []]. apply once_by_count; [apply names_NoDup; exact ND|].
      apply (proj1 (forallb_forall _ _) ES) in Hin. cbn [fst] in Hin. rewrite (proj2 (is_depot_false u) (conj H1 H2)) in Hin.
      apply Nat.eqb_eq in Hin. exact Hin.
    - split; [constructor|intros u []].
    - reflexivity.
    - intros l (E & NE & _). exfalso. apply NE. injection E as <-. reflexivity. }
  assert (B : forall final x, ~ solution g mos pool final x).
  { apply (span_blocked g mos pool ND eq_refl v d CU).
    - intros p (E & _). discriminate.
    - reflexivity.
    - intros c Hc Ht. apply (proj1 (forallb_forall _ _) LA) in Hc. apply orb_true_iff in Hc. destruct Hc as [Hc|Hc].
      + apply Nat.eqb_eq in Hc. lia.
      + destruct (c_name c) as [i|i|i]; try discriminate. apply andb_true_iff in Hc. destruct Hc as [Hc Hq].
        apply andb_true_iff in Hc. destruct Hc as [Hc1 Hc2]. apply Nat.leb_le in Hc1, Hc2. apply Qltb_lt in Hq.
        exists i. split; [reflexivity|]. split; [lia|exact Hq]. }
  assert (SH := formulate_shape _ _ _ _ F).
  split; intros x Hx.
  - apply (B false x). exact (proj1 (feasible_iff _ _ _ _ (net_wf _ _ N) LAB SH false x) Hx).
  - apply (B true x). exact (proj1 (feasible_iff _ _ _ _ (net_wf _ _ N) LAB SH true x) Hx).
Qed.

Lemma star_customer n i : (1 <= i <= n)%nat -> customer (star n) (Cust (Z.of_nat i)) (mk_node 1 0 0 9).
Proof.
  intro H. repeat split; try discriminate. unfold star. cbn [gnodes]. right. apply in_or_app. left.
  apply in_map_iff. exists (Cust (Z.of_nat i)). split; [reflexivity|]. apply in_map_iff. exists i. split; [reflexivity|].
  apply in_seq. lia.
Qed.

Theorem span_seventy_fifth : exists (g : vgraph) po o rs pool m,
  network 1 g /\ round_trips g /\ mo_span o = true /\ mo_drop o = None /\
  initialize po false None None None (fun _ l => l) [] g = Ok (rs, pool) /\
  formulate g o pool = Ok m /\
  valid_selection g o pool pool [] /\
  (forall x, ~ feasible x (program_of m)) /\ (forall x, ~ feasible x (program_of (integral m))).
Proof.
  exists (star 75), optw, mos, (fst (got ([], []) (initialize optw false None None None (fun _ l => l) [] (star 75)))), (pool_star 75), (master_star 75).
  assert (N : network 1 (star 75)) by (apply networkb_ok; vm_compute; reflexivity).
  split; [exact N|]. split; [apply round_tripsb_ok; vm_compute; reflexivity|].
  split; [reflexivity|]. split; [reflexivity|]. split; [vm_compute; reflexivity|].
  assert (F : formulate (star 75) mos (pool_star 75) = Ok (master_star 75)) by (vm_compute; reflexivity).
  split; [exact F|].
  apply (blocked (star 75) (pool_star 75) (master_star 75) 75 (Cust (Z.of_nat 75)) (mk_node 1 0 0 9) N F).
  - vm_compute. reflexivity.
  - vm_compute. reflexivity.
  - vm_compute. reflexivity.
  - apply star_customer. lia.
  - vm_compute. reflexivity.
Qed.

(** ** The examples beside the theorems *)
Lemma pool3_labelled c : In c pool3 -> labelled c.
Proof. intro H. repeat (destruct H as [<-|H]; [reflexivity|]). destruct H. Qed.
Lemma pool3_names : NoDup (map c_name pool3).
Proof. vm_compute. repeat constructor; cbn; intuition discriminate. Qed.

Lemma case3 : network 1 netm /\ NoDup (map c_name pool3) /\ solution netm mo3 pool3 true x3 /\
  (forall m, built netm mo3 pool3 m -> sound_answer (program_of (integral m)) (answers x3 (program_of (integral m)))) /\
  concluded netm mo3 pool3 (answers x3) (answers x3) 103 [col 3 [Cust 3] 0; col 4 [Cust 1; Cust 2] 0] [].
Proof.
  split; [exact netm_network|]. split; [exact pool3_names|].
  assert (S : solution netm mo3 pool3 true x3).
  { apply (proj1 (feasible_iff netm mo3 pool3 master3 (net_wf _ _ netm_network) pool3_labelled (built_shape _ _ _ _ built3) true x3)).
    apply feasibleb_ok. vm_compute. reflexivity. }
  split; [exact S|]. split; [exact (answers_sound netm mo3 pool3 x3 (net_wf _ _ netm_network) pool3_labelled S)|].
  exists master3, (integral master3), pi3. eexists. eexists. split; [exact built3|]. split; vm_compute; reflexivity.
Qed.

Lemma casem : network 1 netm /\ NoDup (map c_name poolm) /\ (forall c, In c poolm -> labelled c) /\
  (forall m, built netm mom poolm m -> exact_answer (program_of (integral m)) (answers xm (program_of (integral m)))) /\
  concluded netm mom poolm (answers xm) (answers xm) 53 [col 4 [Cust 1; Cust 2] 0] [Cust 3] /\
  price mom [col 4 [Cust 1; Cust 2] 0] [Cust 3] == 23 + 30.
Proof.
  split; [exact netm_network|]. split; [exact poolm_names|]. split; [exact poolm_labelled|].
  split; [exact (answers_exact netm mom poolm xm (net_wf _ _ netm_network) poolm_labelled xm_solution xm_best)|].
  split; [exact concludedm|]. vm_compute. reflexivity.
Qed.

Lemma caseq : network 1 netq /\
  (forall m, built netq moq poolm m -> sound_answer (program_of (integral m)) (answers xq (program_of (integral m)))) /\
  concluded netq moq poolm (answers xq) (answers xq) 123 selq [] /\
  customer netq (Cust 1) (mkN 1 0 0 0 0 2 None false) /\ columns_with (Cust 1) selq = 2%nat.
Proof.
  split; [exact netq_network|].
  split; [exact (answers_sound netq moq poolm xq (net_wf _ _ netq_network) poolm_labelled xq_solution)|].
  split; [exact concludedq|]. split; [apply customer_in; cbn; auto; discriminate|]. vm_compute. reflexivity.
Qed.

Lemma case_nonelem : exists c, In c poolm /\ ~ NoDup (served c) /\ labelled c /\ honest c /\
  concluded netm mom poolm (answers xm) (answers xm) 53 [col 4 [Cust 1; Cust 2] 0] [Cust 3].
Proof.
  exists (lcol (CNonElem 5) [Source; Cust 1; Cust 2; Cust 1; Sink] 24).
  assert (H : In (lcol (CNonElem 5) [Source; Cust 1; Cust 2; Cust 1; Sink] 24) poolm) by (unfold poolm; simpl; tauto).
  split; [exact H|]. split.
  - intro N. unfold served in N. cbn [lcol c_path] in N. inversion N as [|a l _ N']; subst. inversion N' as [|b l2 C _]; subst.
    apply C. simpl; auto.
  - split; [exact (poolm_labelled _ H)|]. split; [exact (poolm_honest _ H)|exact concludedm].
Qed.

Lemma case_bound : network 1 netm /\ built netm mo3 pool3 master3 /\
  solve_master netm mo3 true pool3 (answers x3) pi3 master3 = Ok (master3, duals3, Some 103) /\
  dual_solution mo3 master3 pi3 103 /\ mip_data netm optm None 0 /\
  add_reduced_cost duals3 0 None netm = Ok net3p /\
  (forall p, LPPricing.formulate net3p 0 None optm None None false = Ok p -> exact_answer p (pricer3 p)) /\
  lp_solve net3p true 0 None optm None None false None true pricer3 (custs netm) pool3 = Ok (pool3, false) /\
  serves netm mo3 [(0%nat, [Cust 1; Cust 2]); (0%nat, [Cust 3])] /\
  drivable netm optm None 0 None None [Cust 1; Cust 2] /\
  tours_cost netm [(0%nat, [Cust 1; Cust 2]); (0%nat, [Cust 3])] == 103.
Proof.
  split; [exact netm_network|]. split; [exact built3|]. split; [exact solve3|]. split; [exact dual3|].
  split; [constructor; discriminate|]. split; [vm_compute; reflexivity|]. split; [exact pricer3_exact|].
  split; [vm_compute; reflexivity|]. split.
  { constructor.
    - intros v d (Hin & H1 & H2 & _). cbn in Hin.
      destruct Hin as [E|[E|[E|[E|[E|[]]]]]]; inversion E; subst; try congruence.
      + exists (0%nat, [Cust 1; Cust 2]). simpl; auto.
      + exists (0%nat, [Cust 1; Cust 2]). simpl; auto.
      + exists (0%nat, [Cust 3]). simpl; auto.
    - intros l (E & _) k n Hk. injection E as <-. destruct k as [|[|k]]; try discriminate. injection Hk as <-.
      split; [vm_compute; discriminate|discriminate]. }
  split; [|vm_compute; reflexivity].
  constructor; try discriminate.
  constructor.
  - repeat constructor; simpl; intuition discriminate.
  - intros v [<-|[<-|[]]]; split; discriminate.
  - discriminate.
  - apply alongb_iff. vm_compute. reflexivity.
Qed.

Definition sel_span : list column := [col 3 [Cust 3] 0; col 4 [Cust 1; Cust 2] 0].
Lemma case_span : let o := mkMO None (Some []) false false true in
  exists m t sel, built netm o pool3 m /\
    (forall m, built netm o pool3 m -> exact_answer (program_of (integral m)) (answers (enc sel [] t) (program_of (integral m)))) /\
    concluded netm o pool3 (answers (enc sel [] t)) (answers (enc sel [] t)) t sel [] /\
    t = 80 /\ span_price o sel [] == 80 /\ List.length sel = 2%nat.
Proof.
  intro o. assert (F : formulate netm o pool3 = Ok (got (mkMaster [] []) (formulate netm o pool3))) by (vm_compute; reflexivity).
  exists (got (mkMaster [] []) (formulate netm o pool3)), 80, sel_span.
  split; [apply b_formulate; exact F|].
  assert (S : solution netm o pool3 true (enc sel_span [] 80)).
  { apply (proj1 (feasible_iff netm o pool3 _ (net_wf _ _ netm_network) pool3_labelled (formulate_shape _ _ _ _ F) true _)).
    apply feasibleb_ok. vm_compute. reflexivity. }
  split.
  { apply (answers_exact netm o pool3 _ (net_wf _ _ netm_network) pool3_labelled S). intros y Sy.
    destruct (so_visits _ _ _ _ _ Sy (Cust 3) (mk_node 1 0 0 0)) as [V _]; [apply customer_in; cbn; auto; discriminate|].
    assert (R := span_row_of netm o pool3 pool3_names eq_refl true y (col 3 [Cust 3] 0) 3 Sy ltac:(simpl; auto) eq_refl ltac:(lia)).
    change (c_name (col 3 [Cust 3] 0)) with (CNat 3) in R. cbn [Nat.leb] in R.
    assert (EC : c_cost (col 3 [Cust 3] 0) == 80) by (vm_compute; reflexivity). rewrite EC in R.
    change (required o (mk_node 1 0 0 0)) with 1 in V.
    unfold count_visits, Qsum_over, pool3 in V. cbn [map Qsum fold_right o mo_drop mo_periodic truthyQ andb] in V.
    cbn [c_name col] in V.
    repeat match goal with H : context [inject_Z (Z.of_nat ?t)] |- _ =>
      let t' := eval vm_compute in (inject_Z (Z.of_nat t)) in change (inject_Z (Z.of_nat t)) with t' in H end.
    unfold total_cost. cbn [o mo_span mo_drop mo_periodic mo_fleet List.length seq]. cbn [enc].
    unfold Qsum_over. cbn [map Qsum fold_right]. cbn [Qsum fold_right] in V. lra. }
  split; [|split; [reflexivity|split; [vm_compute; reflexivity|reflexivity]]].
  exists (got (mkMaster [] []) (formulate netm o pool3)), (integral (got (mkMaster [] []) (formulate netm o pool3))), duals_any.
  eexists. eexists. split; [apply b_formulate; exact F|]. split; vm_compute; reflexivity.
Qed.

Lemma other_selection : exists sel' dropped', valid_selection netm mom poolm sel' dropped' /\ price mom sel' dropped' == 72.
Proof.
  exists [col 1 [Cust 1] 0; col 2 [Cust 2] 0], [Cust 3]. split; [|vm_compute; reflexivity].
  assert (ND : NoDup [col 1 [Cust 1] 0; col 2 [Cust 2] 0]).
  { repeat constructor; [|intros []]. intros [E|[]]. discriminate. }
  constructor.
  - intros c [<-|[<-|[]]]; unfold poolm; simpl; auto.
  - exact ND.
  - intros c i [<-|[<-|[]]]; discriminate.
  - intros v d (Hin & H1 & H2 & _). cbn in Hin.
    destruct Hin as [E|[E|[E|[E|[E|[]]]]]]; inversion E; subst; try congruence.
    + left. split; [apply once_by_count; [exact ND|vm_compute; reflexivity]|]. intros [C|[]]; discriminate.
    + left. split; [apply once_by_count; [exact ND|vm_compute; reflexivity]|]. intros [C|[]]; discriminate.
    + right. split; [|simpl; auto]. intros c [<-|[<-|[]]]; vm_compute; reflexivity.
  - split; [repeat constructor; intros []|]. intros v [<-|[]]. vm_compute. tauto.
  - intro N. exfalso. apply (N 30). split; [reflexivity|intro C; discriminate C].
  - intros l (E & _) k n Hk. injection E as <-. destruct k as [|[|k]]; try discriminate. injection Hk as <-.
    split; [vm_compute; discriminate|discriminate].
Qed.

Lemma case_addable : (forall c, In c poolm -> addable netm mom c) /\ ~ addable netm mom (col 7 [Cust 9] 0).
Proof.
  split.
  - apply (proj1 (formulate_ok netm mom poolm)). exists masterm. exact masterm_ok.
  - intro A. destruct (ad_stops _ _ _ A (Cust 9)) as (d & Hin & _); try discriminate; [vm_compute; tauto|].
    cbn in Hin. intuition discriminate.
Qed.
