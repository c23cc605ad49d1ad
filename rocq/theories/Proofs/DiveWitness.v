(** Concrete runs with diving, time limits and the hyper-heuristic. *)
From Verif.Base Require Import Prelude Graph.
From Verif.Spec Require Import Routes Network LinProg Pricing MIP Columns Pool Master Duality Run.
From Verif.Model Require Import Args Reach Checks Preprocess ClarkeWright Greedy Initial Pricing GreedyPricing LPPricing Cspy Master Dive Hyper ColGen.
From Verif.Proofs Require Import RouteLemmas Deciders PreLemmas PricingProofs LPProofs PricingCor MasterProofs SelectProofs
  MasterCor ColGenProofs RunProofs BoundProofs HyperProofs DiveProofs ColGenCor Certificate PricingWitness MasterWitness Oracles ColGenWitness.

(** ** A dive after which a customer is visited twice *)
Definition netv : vgraph :=
  mkGraph [(Source, mk_node 0 0 0 0); (Cust 1, mk_node 1 0 0 0); (Cust 2, mk_node 1 0 0 0); (Cust 3, mk_node 1 0 0 0); (Sink, mk_node 0 0 0 0)]
   [mk_arc Source (Cust 1) 10 0; mk_arc Source (Cust 2) 5 0; mk_arc Source (Cust 3) 20 0; mk_arc (Cust 1) (Cust 2) 5 0;
    mk_arc (Cust 2) (Cust 3) 5 0; mk_arc (Cust 1) (Cust 3) 0 0;
    mk_arc (Cust 1) Sink 10 0; mk_arc (Cust 2) Sink 5 0; mk_arc (Cust 3) Sink 10 0; mk_arc Source Sink 0 0].
Definition given_v : list (list node) := [trip [Cust 1; Cust 2]; trip [Cust 2; Cust 3]; trip [Cust 1; Cust 3]; trip [Cust 1]; trip [Cust 3]].
Definition start_v : state := start_of netv optm mo0 given_v None.
Definition half : mvar -> Q := by_name [(1%nat, 1 # 2); (2%nat, 1 # 2); (3%nat, 1 # 2)].
Definition whole_v : mvar -> Q := by_name [(1%nat, 1); (3%nat, 1)].
Definition master_v (p : program mvar) : answer mvar :=
  if (List.length (p_rows p) =? 3)%nat then answers half p else answers whole_v p.
Definition env_v (later : mrow -> Q) : env :=
  quiet netv (fun _ => 0) (fun _ => master_v)
    (fun n => if (n <? 10)%nat then by_node [(1%Z, 10); (2%Z, 10); (3%Z, 10)] else later)
    [[Cust 1; Cust 2]; [Cust 3]; [Cust 2]].
Definition later_v : mrow -> Q := by_node [(1%Z, 0); (2%Z, 0); (3%Z, 20)].
Definition cg_v (m : option Z) : cgconfig := mkCG (Some BestPaths) false true false m 1 None 0 1 None None None optm mo0 (custs netv).
Definition col_v (n : nat) : column := nth (n - 1) (s_pool start_v) (col 0 [] 0).

Lemma fresh_v m : fresh (cg_v m) netv start_v.
Proof. apply (start_fresh (cg_v m) netv given_v); try reflexivity; vm_compute; reflexivity. Qed.
Lemma wf_v : network 1 netv.
Proof. apply networkb_ok. vm_compute. reflexivity. Qed.

Lemma master_v_exact fixed : fixed = [] \/ fixed = [Y (CNat 1)] ->
  exact_answer (fixing fixed (program_of (s_master start_v))) (master_v (fixing fixed (program_of (s_master start_v)))).
Proof.
  intros [->| ->].
  - apply (optimalb_ok mvar_eqb mvar_eqb_eq) with (ys := [10; 10; 10]); [vm_compute; reflexivity|vm_compute; reflexivity|eexists; split; vm_compute; reflexivity].
  - apply (optimalb_ok mvar_eqb mvar_eqb_eq) with (ys := [0; 0; 20; 0; 20]); [vm_compute; reflexivity|vm_compute; reflexivity|eexists; split; vm_compute; reflexivity].
Qed.


Lemma env_v_master l n : e_master (env_v l) n = master_v. Proof. reflexivity. Qed.
Lemma env_v_dive l n i : e_dive (env_v l) n i = master_v. Proof. reflexivity. Qed.
Lemma took {A} (r : res (state * option A)) t fx m :
  match r with Ok (s, Some t') => Some (t', s_fixed s, s_master s) | _ => None end = Some (t, fx, m) ->
  exists s', r = Ok (s', Some t) /\ s_fixed s' = fx /\ s_master s' = m.
Proof. destruct r as [[s [t'|]]|]; try discriminate. intro H. injection H as -> <- <-. eauto. Qed.
Lemma dive_run : exists s', solve_columns (env_v later_v) (cg_v None) 5 5 true start_v = Ok (s', Some (40, [col_v 1; col_v 3], [])) /\
                s_fixed s' = [Y (CNat 1)] /\ s_master s' = s_master start_v.
Proof. apply took. vm_compute. reflexivity. Qed.
Lemma valid_v : valid_selection netv mo0 (s_pool start_v) [col_v 2; col_v 4] [].
Proof.
  constructor.
  - intros c [<-|[<-|[]]]; vm_compute; auto 10.
  - repeat constructor; [intros [H|[]]|intros []]. vm_compute in H. discriminate.
  - intros c i [<-|[<-|[]]]; vm_compute; discriminate.
  - intros v d (H1 & H2 & H3 & H4). left. split; [|intros []].
    cbn in H1. destruct H1 as [H1|[H1|[H1|[H1|[H1|[]]]]]]; injection H1 as <- <-; try contradiction.
    + exists (col_v 4). split; [right; left; reflexivity|]. split; [vm_compute; reflexivity|].
      intros c [<-|[<-|[]]] H; [vm_compute in H; lia|reflexivity].
    + exists (col_v 2). split; [left; reflexivity|]. split; [vm_compute; reflexivity|].
      intros c [<-|[<-|[]]] H; [reflexivity|vm_compute in H; lia].
    + exists (col_v 2). split; [left; reflexivity|]. split; [vm_compute; reflexivity|].
      intros c [<-|[<-|[]]] H; [reflexivity|vm_compute in H; lia].
  - split; [constructor|intros v []].
  - reflexivity.
  - intros l (E & _). injection E as <-. intros k n Hk. destruct k; discriminate.
Qed.
Theorem dive_invalid : exists E C g s s' t sel v d, fresh C g s /\ network 1 g /\
  mo_periodic (cg_master C) = false /\ (forall p, ~ drops (cg_master C) p) /\
  (* the columns stay the same, and the solver is right about every program it is given *)
  s_master s' = s_master s /\
  (forall n i fixed, fixed = [] \/ fixed = s_fixed s' -> let p := fixing fixed (program_of (s_master s)) in
     exact_answer p (e_master E n p) /\ exact_answer p (e_dive E n i p)) /\
  solve_columns E C 5 5 true s = Ok (s', Some (t, sel, [])) /\
  (* a customer is visited twice, though some columns visit everybody once at the same price *)
  customer g v d /\ columns_with v sel = 2%nat /\
  exists sel0, valid_selection g (cg_master C) (s_pool s) sel0 [] /\ price (cg_master C) sel0 [] == t.
Proof.
  destruct dive_run as (s' & R1 & R2 & R3).
  exists (env_v later_v), (cg_v None), netv, start_v, s', 40, [col_v 1; col_v 3], (Cust 1), (mk_node 1 0 0 0).
  split; [apply fresh_v|]. split; [exact wf_v|]. split; [reflexivity|]. split; [intros p []; discriminate|]. split; [exact R3|].
  split. { rewrite R2. intros n i fixed Hf. cbv zeta. rewrite env_v_master, env_v_dive. split; apply master_v_exact; exact Hf. }
  split; [exact R1|]. split.
  { split; [right; left; reflexivity|]. split; [discriminate|]. split; [discriminate|reflexivity]. }
  split; [vm_compute; reflexivity|].
  exists [col_v 2; col_v 4]. split; [exact valid_v|vm_compute; reflexivity].
Qed.

(** ** One iteration more than allowed *)
Theorem dive_too_long : exists E C g s s', fresh C g s /\ network 1 g /\ cg_max_iter C = Some 1%Z /\
  generate_and_dive E C 5 5 s = Ok s' /\ s_iter s' = 2%nat.
Proof.
  exists (env_v later_v), (cg_v (Some 1%Z)), netv, start_v, (got start_v (generate_and_dive (env_v later_v) (cg_v (Some 1%Z)) 5 5 start_v)). split; [apply fresh_v|]. split; [exact wf_v|].
  split; [reflexivity|]. split; [|vm_compute; reflexivity]. apply got_ok. vm_compute. reflexivity.
Qed.

(** ** A first iteration after the time limit *)
Definition env_t : env := quiet netm (fun _ => 1000) (fun _ => answers (by_name [(1%nat, 1); (2%nat, 1); (3%nat, 1)])) (fun _ => duals_g 0)
  [[Cust 3]; [Cust 1; Cust 2]].
Theorem first_unchecked : exists E C g s s', fresh C g s /\ network 1 g /\ cg_time_limit C = Some 100 /\
  (forall n, 100 < e_clock E n - cg_start C) /\
  column_generation E C 5 s = Ok s' /\ s_iter s' = 1%nat /\ (List.length (s_pool s) < List.length (s_pool s'))%nat.
Proof.
  exists env_t, cg_g, netm, start_g, (got start_g (column_generation env_t cg_g 5 start_g)).
  split; [apply (start_fresh cg_g netm given_g); try reflexivity; vm_compute; reflexivity|].
  split; [apply networkb_ok; vm_compute; reflexivity|]. split; [reflexivity|]. split; [intro n; vm_compute; reflexivity|].
  split; [apply got_ok; vm_compute; reflexivity|]. split; vm_compute; [reflexivity|lia].
Qed.

(** ** A strategy applied while diving that is not counted *)
Definition start_y : state := start_of netv optm mo0 given_v (Some new_hyper).
Definition later_y : mrow -> Q := by_node [(1%Z, 0); (2%Z, 30); (3%Z, 20)].
Definition cg_y : cgconfig := mkCG None false true false (Some 3%Z) 1000 None 0 1 None None None optm mo0 (custs netv).

Definition uncountedb (E : env) (C : cgconfig) (f n : nat) (x : strat) (s : state) : bool :=
  match column_generation E C f s with
  | Ok s0 =>
      match nth_start E C n (start_dive s0) with
      | Some st =>
          match s_hyper st, solve_relaxed E C st with
          | Some h, Ok (s1, D, q) =>
              match next_strategy E C q s1 with
              | Ok (s2, p) =>
                  match s_hyper s2, hy_current h with
                  | Some h2, Some y => strat_eqb y x && (at_ (hy_iterations h) x =? 0)%nat && (at_ (hy_iterations h2) x =? 0)%nat &&
                      ((0 <? s_iter st)%nat && negb (Z.of_nat (s_noimp st) =? cg_run_exact C)%Z &&
                       (Z.of_nat (List.length (s_pool st)) <=? 10000000000)%Z)
                  | _, _ => false
                  end
              | Err _ => false
              end
          | _, _ => false
          end
      | None => false
      end
  | Err _ => false
  end.
Lemma uncountedb_ok E C f n x s : uncountedb E C f n x s = true -> exists st h s1 D q s2 p h2,
  iteration E C s st /\ s_hyper st = Some h /\ hy_current h = Some x /\
  solve_relaxed E C st = Ok (s1, D, q) /\ next_strategy E C q s1 = Ok (s2, p) /\ s_hyper s2 = Some h2 /\
  at_ (hy_iterations h) x = 0%nat /\ at_ (hy_iterations h2) x = 0%nat /\
  (0 < s_iter st)%nat /\ Z.of_nat (s_noimp st) <> cg_run_exact C /\ (Z.of_nat (List.length (s_pool st)) <= 10000000000)%Z.
Proof.
  unfold uncountedb. intro H. destruct (column_generation E C f s) as [s0|] eqn:E0; [|discriminate].
  destruct (nth_start E C n (start_dive s0)) as [st|] eqn:E1; [|discriminate]. destruct (s_hyper st) as [h|] eqn:E2; [|discriminate].
  destruct (solve_relaxed E C st) as [[[s1 D] q]|] eqn:E3; [|discriminate]. destruct (next_strategy E C q s1) as [[s2 p]|] eqn:E4; [|discriminate].
  destruct (s_hyper s2) as [h2|] eqn:E5; [|discriminate]. destruct (hy_current h) as [y|] eqn:E6; [|discriminate].
  apply andb_true_iff in H. destruct H as [H K]. apply andb_true_iff in K. destruct K as [K K3]. apply andb_true_iff in K. destruct K as [K1 K2].
  apply Nat.ltb_lt in K1. apply negb_true_iff, Z.eqb_neq in K2. apply Z.leb_le in K3.
  apply andb_true_iff in H. destruct H as [H H3]. apply andb_true_iff in H. destruct H as [H1 H2]. apply strat_eqb_eq in H1. subst y.
  apply Nat.eqb_eq in H2, H3. exists st, h, s1, D, q, s2, p, h2. split; [eapply it_dive; [exact E0|eapply nth_starts; exact E1]|auto 15].
Qed.
Theorem not_counted : exists E C g s x st h s1 D q s2 p h2, fresh C g s /\ network 1 g /\ cg_strategy C = None /\
  (forall i j, 0 <= e_ucb E i j) /\ iteration E C s st /\ s_hyper st = Some h /\
  (* [x] was applied in the iteration before, and is not counted *)
  hy_current h = Some x /\
  solve_relaxed E C st = Ok (s1, D, q) /\ next_strategy E C q s1 = Ok (s2, p) /\ s_hyper s2 = Some h2 /\
  at_ (hy_iterations h) x = 0%nat /\ at_ (hy_iterations h2) x = 0%nat /\
  (0 < s_iter st)%nat /\ Z.of_nat (s_noimp st) <> cg_run_exact C /\ (Z.of_nat (List.length (s_pool st)) <= 10000000000)%Z.
Proof.
  destruct (uncountedb_ok (env_v later_y) cg_y 5 1 BestEdges1 start_y) as (st & h & s1 & D & q & s2 & p & h2 & H); [vm_compute; reflexivity|].
  exists (env_v later_y), cg_y, netv, start_y, BestEdges1, st, h, s1, D, q, s2, p, h2.
  split; [apply (start_fresh cg_y netv given_v); try reflexivity; vm_compute; reflexivity|].
  split; [exact wf_v|]. split; [reflexivity|]. split; [intros; cbn; lra|]. exact H.
Qed.

(** ** A dive that cannot backtrack: the span is fixed to 1 *)
Definition netd : vgraph :=
  mkGraph [(Source, mk_node 0 0 0 0); (Cust 1, mk_node 1 0 0 0); (Sink, mk_node 0 0 0 0)]
          [mk_arc Source (Cust 1) 1 0; mk_arc (Cust 1) Sink (3 # 2) 0; mk_arc Source Sink 0 0].
Definition mod_ : moptions := mkMO None (Some []) false false true.
Definition start_d : state := start_of netd optm mod_ [trip [Cust 1]] None.
Definition x_d (v : mvar) : Q := match v with Span => 5 # 2 | _ => 1 end.
Definition master_d (p : program mvar) : answer mvar :=
  if (List.length (p_rows p) =? List.length (p_rows (program_of (s_master start_d))))%nat then answers x_d p else mkAnswer Infeasible None x_d.
Definition duals_d (r : mrow) : Q := match r with Visit _ => 5 # 2 | SpanOf 1 => -1 | _ => 0 end.
Definition env_d : env := quiet netd (fun _ => 0) (fun _ => master_d) (fun _ => duals_d) [[Cust 1]].
Definition cg_d : cgconfig := mkCG (Some BestPaths) false true false None 1 None 0 1 None None None optm mod_ (custs netd).

Lemma generated (r : res state) m : match r with Ok s => Some (s_master s) | _ => None end = Some m -> exists s', r = Ok s' /\ s_master s' = m.
Proof. destruct r as [s|]; [|discriminate]. intro H. injection H as <-. eauto. Qed.
Lemma env_d_master n : e_master env_d n = master_d. Proof. reflexivity. Qed.
Lemma env_d_dive n i : e_dive env_d n i = master_d. Proof. reflexivity. Qed.
Lemma master_d_exact : exact_answer (program_of (s_master start_d)) (master_d (program_of (s_master start_d))).
Proof.
  apply (optimalb_ok mvar_eqb mvar_eqb_eq) with (ys := [5 # 2; -1 # 1]); [vm_compute; reflexivity|vm_compute; reflexivity|].
  eexists. split; vm_compute; reflexivity.
Qed.
Lemma master_d_infeasible : exact_answer (fixing [Span] (program_of (s_master start_d))) (master_d (fixing [Span] (program_of (s_master start_d)))).
Proof.
  assert (A : master_d (fixing [Span] (program_of (s_master start_d))) = mkAnswer Infeasible None x_d) by (vm_compute; reflexivity).
  rewrite A. constructor; [constructor|]; cbn [a_status a_objective].
  - intros [X|[X _]]; [discriminate|contradiction].
  - discriminate.
  - right. split; [reflexivity|]. intro y.
    apply (infeasibleb_ok mvar_eqb mvar_eqb_eq) with (ys := (5 # 2) :: (-1 # 1) :: repeat 0 998 ++ [-1 # 1; 0]). vm_compute. reflexivity.
Qed.
Theorem dive_breaks : exists E C g s s0 v, fresh C g s /\ network 1 g /\
  column_generation E C 5 s = Ok s0 /\ s_master s0 = s_master s /\
  (forall n, exact_answer (program_of (s_master s)) (e_master E n (program_of (s_master s)))) /\
  (forall n i, let p := fixing [v] (program_of (s_master s)) in exact_answer p (e_dive E n i p) /\ forall x, ~ feasible x p) /\
  generate_and_dive E C 5 5 s = Err AttributeError.
Proof.
  destruct (generated (column_generation env_d cg_d 5 start_d) (s_master start_d)) as (s0 & H1 & H2); [vm_compute; reflexivity|].
  exists env_d, cg_d, netd, start_d, s0, Span.
  split; [apply (start_fresh cg_d netd [trip [Cust 1]]); try reflexivity; vm_compute; reflexivity|].
  split; [apply networkb_ok; vm_compute; reflexivity|]. split; [exact H1|]. split; [exact H2|].
  split; [intro n; rewrite env_d_master; exact master_d_exact|].
  split; [|vm_compute; reflexivity]. intros n i. cbv zeta. rewrite env_d_dive. split; [exact master_d_infeasible|].
  destruct (ea_cases _ _ master_d_infeasible) as [(X & _)|[_ X]]; [|exact X]. exfalso. vm_compute in X. discriminate.
Qed.

(** ** The hypotheses of the theorems about column generation can be met *)
Lemma fresh_g : fresh cg_g netm start_g.
Proof. apply (start_fresh cg_g netm given_g); try reflexivity; vm_compute; reflexivity. Qed.
Lemma later_iteration : iteration env_g cg_g start_g start_g /\ cg_time_limit cg_g = Some 100 /\
  (exists st, starts env_g cg_g start_g st /\ s_iter st = 1%nat).
Proof.
  split; [apply it_generation, starts_first; reflexivity|]. split; [reflexivity|].
  assert (X : match nth_start env_g cg_g 1 start_g with Some st => (s_iter st =? 1)%nat | None => false end = true) by (vm_compute; reflexivity).
  destruct (nth_start env_g cg_g 1 start_g) as [st|] eqn:N; [|discriminate]. exists st. split; [exact (nth_starts _ _ _ _ _ N)|].
  apply Nat.eqb_eq. exact X.
Qed.
Theorem cspy_unlimited : exists C l t1 t2, cg_time_limit C = Some l /\ 0 < l /\
  l < t1 - cg_start C /\ cspy_limit (time_remaining C false t1) = None /\
  t2 - cg_start C < l /\ exists r, cspy_limit (time_remaining C false t2) = Some r /\ r < 0.
Proof.
  exists cg_g, 100, 101, (399 # 4). repeat split; try (vm_compute; reflexivity). eexists. split; vm_compute; reflexivity.
Qed.
Lemma bound_g : fresh cg_g netm start_g /\ column_generation env_g cg_g 5 start_g = Ok end_g /\ s_more end_g = false /\
  cg_strategy cg_g <> None /\ cg_cspy cg_g = false /\ network (cg_types cg_g) netm /\
  (forall k, (k < cg_types cg_g)%nat -> mip_data netm (cg_options cg_g) (cg_caps cg_g) k) /\
  (forall st s1 D q, starts env_g cg_g start_g st -> solve_relaxed env_g cg_g st = Ok (s1, D, q) ->
     (exists v, q = Some v /\ dual_solution (cg_master cg_g) (s_master st) (e_duals env_g (S (s_tick st))) v) /\
     forall k h j p, (k < cg_types cg_g)%nat -> add_reduced_cost D k None netm = Ok h ->
       LPPricing.formulate h k (cg_caps cg_g) (cg_options cg_g) (cg_stops cg_g) (cg_duration cg_g) (e_negative env_g (S j) h) = Ok p ->
       exact_answer p (e_pricer env_g (S j) (time_remaining cg_g false (e_clock env_g j)) p)) /\
  nth_error (rev (s_bounds end_g)) 0 = Some (Some 103).
Proof.
  split; [exact fresh_g|]. split; [exact ran_g|]. split; [vm_compute; reflexivity|]. split; [discriminate|]. split; [reflexivity|].
  split; [apply networkb_ok; vm_compute; reflexivity|]. split.
  { intros k Hk. constructor; discriminate. }
  split; [|vm_compute; reflexivity].
  intros st s1 D q St H. destruct (exact_g st s1 D q St H) as [A B]. split; [exact A|].
  intros k h j p Hk Hh Hp. assert (k = 0%nat) by (cbn in Hk; lia). subst k. exact (B h p Hh Hp).
Qed.

Definition start_k : state := start_of netm optm mo0 given_g (Some new_hyper).
Definition cg_k : cgconfig := mkCG None false false false (Some 2%Z) 1000 (Some 100) 0 1 None None None optm mo0 (custs netm).
Lemma fresh_k : fresh cg_k netm start_k.
Proof. apply (start_fresh cg_k netm given_g); try reflexivity; vm_compute; reflexivity. Qed.
Lemma seen {A B D} (f : A -> B) (h : A -> D) o x b d : o = Some x -> option_map (fun x => (f x, h x)) o = Some (b, d) -> f x = b /\ h x = d.
Proof. intros -> H. injection H as <- <-. auto. Qed.
Lemma exact_k st : starts env_g cg_k start_k st ->
  exact_answer (program_of (s_master st)) (e_master env_g (S (s_tick st)) (program_of (s_master st))) /\
  a_objective (e_master env_g (S (s_tick st)) (program_of (s_master st))) <> None.
Proof.
  intros S0. destruct (starts_nth _ _ _ _ S0) as (n & Hn).
  assert (Ln : (n < 2)%nat).
  { destruct (Nat.lt_ge_cases n 2) as [L|L]; [exact L|]. rewrite (nth_start_none env_g cg_k start_k 2) in Hn; [discriminate| |exact L].
    assert (X : match nth_start env_g cg_k 2 start_k with Some _ => false | None => true end = true) by (vm_compute; reflexivity).
    destruct (nth_start env_g cg_k 2 start_k); [discriminate|reflexivity]. }
  destruct n as [|[|n]]; [| |lia].
  - cbn [nth_start] in Hn. change (s_more start_k) with true in Hn. injection Hn as <-.
    split; [|vm_compute; discriminate].
    apply (optimalb_ok mvar_eqb mvar_eqb_eq) with (ys := [20; 22; 80]); [vm_compute; reflexivity|vm_compute; reflexivity|eexists; split; vm_compute; reflexivity].
  - assert (X : option_map (fun st => (s_tick st, program_of (s_master st))) (nth_start env_g cg_k 1 start_k) =
                Some (8%nat, got (mkProgram [] [] []) (of_opt IndexError (option_map (fun st => program_of (s_master st)) (nth_start env_g cg_k 1 start_k))))) by (vm_compute; reflexivity).
    apply (seen s_tick (fun st => program_of (s_master st)) _ st _ _ Hn) in X. destruct X as [X1 X2]. rewrite X1, X2.
    split; [|vm_compute; discriminate].
    apply (optimalb_ok mvar_eqb mvar_eqb_eq) with (ys := [2; 21; 80]); [vm_compute; reflexivity|vm_compute; reflexivity|eexists; split; vm_compute; reflexivity].
Qed.
Lemma hyper_case : fresh cg_k netm start_k /\ wf netm /\ cg_strategy cg_k = None /\ cg_run_exact cg_k <> 0%Z /\
  mo_periodic (cg_master cg_k) = false /\ (forall p, ~ drops (cg_master cg_k) p) /\ (exists v d, customer netm v d) /\
  (forall st, starts env_g cg_k start_k st -> let p := program_of (s_master st) in
     sound_answer p (e_master env_g (S (s_tick st)) p) /\ a_objective (e_master env_g (S (s_tick st)) p) <> None) /\
  exists st, starts env_g cg_k start_k st /\ s_iter st = 1%nat.
Proof.
  split; [exact fresh_k|]. split; [exact (net_wf _ _ netm_network)|]. split; [reflexivity|]. split; [discriminate|]. split; [reflexivity|].
  split; [intros p (H & _); discriminate|]. split; [exists (Cust 1); eexists; apply customer_in; cbn; auto; discriminate|].
  split; [intros st St p; destruct (exact_k st St) as [A B]; split; [exact (ea_sound _ _ A)|exact B]|].
  assert (X : match nth_start env_g cg_k 1 start_k with Some st => (s_iter st =? 1)%nat | None => false end = true) by (vm_compute; reflexivity).
  destruct (nth_start env_g cg_k 1 start_k) as [st|] eqn:N; [|discriminate]. exists st. split; [exact (nth_starts _ _ _ _ _ N)|].
  apply Nat.eqb_eq. exact X.
Qed.
