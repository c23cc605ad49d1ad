(** Concrete runs of column generation: hypotheses that can be met, and properties that fail. *)
From Verif.Base Require Import Prelude Graph.
From Verif.Spec Require Import Routes Network LinProg Pricing MIP Columns Pool Master Duality Run.
From Verif.Model Require Import Args Reach Checks Preprocess ClarkeWright Greedy Initial Pricing
  GreedyPricing LPPricing Cspy Master Dive Hyper ColGen.
From Verif.Proofs Require Import RouteLemmas Deciders PreLemmas PricingProofs LPProofs PricingCor MasterProofs SelectProofs
  MasterCor ColGenProofs RunProofs BoundProofs HyperProofs DiveProofs ColGenCor Certificate PricingWitness MasterWitness Oracles.

(** ** Tools *)
(** The solver answers the master problem by [masters], the pricing problems by the cheapest of
    [routes]; networkx is honest; there is no randomness. *)
Definition quiet (g : vgraph) (clock : nat -> Q) (masters : nat -> program mvar -> answer mvar) (pi : nat -> mrow -> Q)
    (routes : list (list node)) : env :=
  mkEnv clock masters pi (fun n _ => masters n) (fun _ l => l) (fun _ _ => pricer_of routes) (fun _ _ => false)
        (fun _ => ksp_of (arc_list g) (List.length (nodes g))) (fun _ _ _ _ _ _ _ => None) (fun _ _ _ => 0%nat)
        (fun _ => 0%nat) (fun _ _ => 0).
Definition by_node (l : list (Z * Q)) (r : mrow) : Q :=
  match r with Visit (Cust i) => match find (fun t => (fst t =? i)%Z) l with Some t => snd t | None => 0 end | _ => 0 end.
Definition by_name (l : list (nat * Q)) (v : mvar) : Q :=
  match v with Y (CNat i) => match find (fun t => (fst t =? i)%nat) l with Some t => snd t | None => 0 end | _ => 0 end.
Definition start_of (g : vgraph) (o : options) (mo : moptions) (given : list (list node)) (h : option hyper) : state :=
  let pool := snd (got ([], []) (initialize o false None None None (fun _ l => l) given g)) in
  mkSt g pool (got (mkMaster [] []) (Master.formulate g mo pool)) (fun _ => 0) [] (mkDive 0 0 []) false 0 0 true [] h 0.
Definition mo0 : moptions := mkMO None (Some []) false false false.

Definition is_ok {A} (r : res A) : bool := match r with Ok _ => true | Err _ => false end.
Lemma got_ok {A} (d : A) r : is_ok r = true -> r = Ok (got d r).
Proof. destruct r; [reflexivity|discriminate]. Qed.
(** the dual values and the objective, without the state *)
Definition relaxed_of (r : res (state * dual_dict * option Q)) : option (dual_dict * option Q) :=
  match r with Ok (_, D, q) => Some (D, q) | Err _ => None end.

(** the starts of the iterations, by computation *)
Fixpoint nth_start (E : env) (C : cgconfig) (n : nat) (s : state) : option state :=
  match n with
  | O => if s_more s then Some s else None
  | S n' =>
      match nth_start E C n' s with
      | Some st =>
          match find_columns E C st with
          | Ok s1 => if time_up E C s1 || limit_reached C s1 || negb (s_more s1) then None else Some (tick (tick s1))
          | Err _ => None
          end
      | None => None
      end
  end.
Lemma starts_nth E C s st : starts E C s st -> exists n, nth_start E C n s = Some st.
Proof.
  intro H. induction H as [M|st s1 S0 (n & IH) H T L M].
  - exists 0%nat. cbn [nth_start]. rewrite M. reflexivity.
  - exists (S n). cbn [nth_start]. rewrite IH, H, T, L, M. reflexivity.
Qed.
Lemma nth_starts E C s : forall n st, nth_start E C n s = Some st -> starts E C s st.
Proof.
  induction n as [|n IH]; intros st H; cbn [nth_start] in H.
  - destruct (s_more s) eqn:M; [|discriminate]. injection H as <-. apply starts_first. exact M.
  - destruct (nth_start E C n s) as [st0|] eqn:X; [|discriminate]. destruct (find_columns E C st0) as [s1|] eqn:F; [|discriminate].
    destruct (time_up E C s1 || limit_reached C s1 || negb (s_more s1)) eqn:Y; [discriminate|]. injection H as <-.
    rewrite !orb_false_iff, negb_false_iff in Y. destruct Y as [[Y1 Y2] Y3]. eapply starts_next; eauto.
Qed.
Lemma nth_start_none E C s n : nth_start E C n s = None -> forall m, (n <= m)%nat -> nth_start E C m s = None.
Proof.
  intros H m L. induction L as [|m L IH]; [exact H|]. cbn [nth_start]. rewrite IH. reflexivity.
Qed.

Lemma run_of E C f s s' : column_generation E C f s = Ok s' -> exists n, run E C n s s'.
Proof. intro H. apply generation_is_run in H. destruct H as (n & _ & H). eauto. Qed.

Definition strategy_state (C : cgconfig) : option hyper := match cg_strategy C with None => Some new_hyper | Some _ => None end.
Lemma start_fresh C g given : cg_caps C = None -> cg_duration C = None -> cg_stops C = None ->
  is_ok (initialize (cg_options C) false None None None (fun _ l => l) given g) = true ->
  is_ok (Master.formulate g (cg_master C) (s_pool (start_of g (cg_options C) (cg_master C) given (strategy_state C)))) = true ->
  fresh C g (start_of g (cg_options C) (cg_master C) given (strategy_state C)).
Proof.
  intros H1 H2 H3 H4 H5. constructor; try reflexivity; [|apply got_ok; exact H5|split; reflexivity].
  rewrite H1, H2, H3. exists false, (fun _ l => l), given.
  exists (fst (got ([], []) (initialize (cg_options C) false None None None (fun _ l => l) given g))).
  rewrite (got_ok ([], []) _ H4) at 1. destruct (got ([], []) _) as [rs pool] eqn:X. cbn [fst]. f_equal. f_equal.
  unfold start_of. cbn [s_pool]. rewrite X. reflexivity.
Qed.

(** the plan consisting of the routes [P] serves everybody *)
Definition servesb (g : vgraph) (P : list tour) : bool :=
  forallb (fun p => is_aux_depot (snd p) || node_eqb (fst p) Source || node_eqb (fst p) Sink ||
                    existsb (fun t => mem (fst p) (snd t)) P) (gnodes g).
Lemma servesb_ok g P : servesb g P = true -> serves g mo0 P.
Proof.
  intro H. constructor.
  - intros v d (H1 & H2 & H3 & H4). unfold servesb in H. apply (proj1 (forallb_forall _ _) H) in H1. cbn [fst snd] in H1.
    rewrite H4 in H1. destruct (node_eqb v Source) eqn:X; [apply node_eqb_eq in X; contradiction|].
    destruct (node_eqb v Sink) eqn:Y; [apply node_eqb_eq in Y; contradiction|]. cbn [orb] in H1.
    apply existsb_exists in H1. destruct H1 as (t & T1 & T2). exists t. split; [exact T1|]. apply mem_In. exact T2.
  - intros l (E & _). injection E as <-. intros k n Hk. destruct k; discriminate.
Qed.
Lemma plain_drivable g cs : forallb (fun v => negb (node_eqb v Source) && negb (node_eqb v Sink)) cs = true ->
  nodupb cs = true -> cs <> [] -> alongb (arc_list g) (trip cs) = true -> drivable g optm None 0 None None cs.
Proof.
  intros H1 H2 H3 H4. constructor; try discriminate. constructor.
  - apply nodupb_ok. exact H2.
  - intros v Hv. apply (proj1 (forallb_forall _ _) H1) in Hv. apply andb_true_iff in Hv. destruct Hv as [A B].
    apply negb_true_iff in A, B. split; intros ->; [rewrite (proj2 (node_eqb_eq Source Source) eq_refl) in A|rewrite (proj2 (node_eqb_eq Sink Sink) eq_refl) in B]; discriminate.
  - exact H3.
  - apply alongb_iff. exact H4.
Qed.

(** ** A run that ends because nothing is left to find *)
Definition given_g : list (list node) := [trip [Cust 1]; trip [Cust 2]; trip [Cust 3]].
Definition start_g : state := start_of netm optm mo0 given_g None.
Definition duals_g (n : nat) : mrow -> Q :=
  if (n <? 5)%nat then by_node [(1%Z, 20); (2%Z, 22); (3%Z, 80)] else by_node [(1%Z, 2); (2%Z, 21); (3%Z, 80)].
Definition env_g : env :=
  quiet netm (fun n => inject_Z (Z.of_nat n))
    (fun n => answers (if (n <? 5)%nat then by_name [(1%nat, 1); (2%nat, 1); (3%nat, 1)] else by_name [(3%nat, 1); (4%nat, 1)]))
    duals_g [[Cust 3]; [Cust 1; Cust 2]].
Definition cg_g : cgconfig := mkCG (Some BestPaths) false false false None 1 (Some 100) 0 1 None None None optm mo0 (custs netm).
Definition end_g : state := got start_g (column_generation env_g cg_g 5 start_g).
Lemma ran_g : column_generation env_g cg_g 5 start_g = Ok end_g. Proof. apply got_ok. vm_compute. reflexivity. Qed.
Lemma inv_g : inv cg_g netm start_g.
Proof.
  refine (initial_inv cg_g optm false None None None (fun _ l => l) given_g netm
            (fst (got ([], []) (initialize optm false None None None (fun _ l => l) given_g netm)))
            (s_pool start_g) (s_master start_g) start_g _ _ eq_refl eq_refl eq_refl); vm_compute; reflexivity.
Qed.

Lemma case_run : exists n, run env_g cg_g n start_g end_g /\ inv cg_g netm start_g /\
  s_more start_g = true /\ s_more end_g = false /\ cg_strategy cg_g <> None /\
  s_iter end_g = 2%nat /\ List.length (s_pool end_g) = 4%nat.
Proof.
  destruct (run_of _ _ _ _ _ ran_g) as (n & R). exists n. split; [exact R|]. split; [exact inv_g|].
  split; [reflexivity|]. split; [vm_compute; reflexivity|]. split; [discriminate|]. split; vm_compute; reflexivity.
Qed.

(** the exact pricing problems of that run *)
Definition pot1 (v : node) : Q := match v with Source => 0 | Cust 1 => 10 | Cust 2 => -8 # 1 | Cust _ => 40 | Sink => -19 # 1 end.
Definition pot2 (v : node) : Q := match v with Source => 0 | Cust 1 => 10 | Cust 2 => 10 | Cust _ => 40 | Sink => 0 end.
Lemma exact_g st s1 D q : starts env_g cg_g start_g st -> solve_relaxed env_g cg_g st = Ok (s1, D, q) ->
  (exists v, q = Some v /\ dual_solution mo0 (s_master st) (duals_g (S (s_tick st))) v) /\
  forall h p, add_reduced_cost D 0 None netm = Ok h ->
    LPPricing.formulate h 0 None optm None None false = Ok p ->
    exact_answer p (pricer_of [[Cust 3]; [Cust 1; Cust 2]] p).
Proof.
  intros S0 H. destruct (starts_nth _ _ _ _ S0) as (n & Hn).
  assert (Ln : (n < 2)%nat).
  { destruct (Nat.lt_ge_cases n 2) as [L|L]; [exact L|]. rewrite (nth_start_none env_g cg_g start_g 2) in Hn; [discriminate| |exact L].
    assert (X : match nth_start env_g cg_g 2 start_g with Some _ => false | None => true end = true) by (vm_compute; reflexivity).
    destruct (nth_start env_g cg_g 2 start_g); [discriminate|reflexivity]. }
  set (s := match n with O => start_g | _ => got start_g (of_opt IndexError (nth_start env_g cg_g 1 start_g)) end).
  assert (Es : st = s).
  { destruct n as [|[|n]]; [| |lia]; unfold s.
    - cbn [nth_start] in Hn. change (s_more start_g) with true in Hn. congruence.
    - rewrite Hn. reflexivity. }
  subst st.
  set (d := if (n =? 0)%nat then mkDuals [(Cust 1, 20); (Cust 2, 22); (Cust 3, 80)] None []
            else mkDuals [(Cust 1, 2); (Cust 2, 21); (Cust 3, 80)] None []).
  set (qv := if (n =? 0)%nat then 122 else 103).
  assert (HD : D = d /\ q = Some qv).
  { assert (P : relaxed_of (solve_relaxed env_g cg_g s) = Some (d, Some qv)).
    { destruct n as [|[|n]]; [| |lia]; vm_compute; reflexivity. }
    rewrite H in P. injection P as -> ->. split; reflexivity. }
  clear H. destruct HD as [-> ->]. split.
  - exists qv. split; [reflexivity|].
    assert (ED : duals_g (S (s_tick s)) = if (n =? 0)%nat then by_node [(1%Z, 20); (2%Z, 22); (3%Z, 80)] else by_node [(1%Z, 2); (2%Z, 21); (3%Z, 80)]).
    { unfold duals_g. assert (X : (S (s_tick s) <? 5)%nat = (n =? 0)%nat) by (destruct n as [|[|n]]; [| |lia]; vm_compute; reflexivity).
      rewrite X. reflexivity. }
    assert (EV : Qle_bool qv (dual_value (s_master s) (duals_g (S (s_tick s)))) = true).
    { destruct n as [|[|n]]; [| |lia]; vm_compute; reflexivity. }
    constructor; [|rewrite ED; destruct n; intros k _; vm_compute; discriminate|apply Qle_bool_iff; exact EV].
    rewrite ED. clear. intros [| |[|p|p]]; destruct n as [|n]; try (vm_compute; discriminate);
      (destruct p as [p|p|]; try (vm_compute; discriminate); destruct p; vm_compute; discriminate).
  - intros h p Hh Hp. destruct n as [|[|n]]; [| |lia].
    + assert (Eh : h = PricingWitness.priced d 0 netm) by (unfold PricingWitness.priced; rewrite Hh; reflexivity). subst h.
      eapply (pricer_ok (PricingWitness.priced d 0 netm) 1 0 None optm None None false pot1); [apply networkb_ok; vm_compute; reflexivity|lia|vm_compute; reflexivity|exact Hp].
    + assert (Eh : h = PricingWitness.priced d 0 netm) by (unfold PricingWitness.priced; rewrite Hh; reflexivity). subst h.
      eapply (pricer_ok (PricingWitness.priced d 0 netm) 1 0 None optm None None false pot2); [apply networkb_ok; vm_compute; reflexivity|lia|vm_compute; reflexivity|exact Hp].
Qed.

(** ** Hyper stops although a route is missing *)
Definition nine : list node := map (fun i => Cust (Z.of_nat i)) (seq 1 9).
Definition neth : vgraph :=
  mkGraph ((Source, mk_node 0 0 0 0) :: map (fun v => (v, mk_node 1 0 0 0)) nine ++ [(Sink, mk_node 0 0 0 0)])
          (map (fun v => mk_arc Source v 10 0) (rev nine) ++ [mk_arc (Cust 1) (Cust 2) 10 0] ++
           map (fun v => mk_arc v Sink 10 0) nine ++ [mk_arc Source Sink 0 0]).
Definition given_h : list (list node) := map (fun v => trip [v]) nine.
Definition start_h : state := start_of neth optm mo0 given_h (Some new_hyper).
Definition duals_h : mrow -> Q := by_node (map (fun i => (Z.of_nat i, 20)) (seq 1 9)).
Definition env_h : env := quiet neth (fun _ => 0) (fun _ => answers (fun _ => 1)) (fun _ => duals_h) [[Cust 9]].
Definition cg_h : cgconfig := mkCG None false false false None 1 None 0 1 None None None optm mo0 nine.
Definition end_h : state := got start_h (column_generation env_h cg_h 5 start_h).
Definition dual_h : dual_dict := mkDuals (map (fun v => (v, 20)) nine) None [].
Definition plan_h : list tour := (0%nat, [Cust 1; Cust 2]) :: map (fun v => (0%nat, [v])) (skipn 2 nine).

(** the part of the network seen by the attempt with [beta] paths, and its pricing problem *)
Definition part_h (beta : nat) : vgraph :=
  got neth (remove_edges_3 (ksp_of (arc_list neth) 11) beta (PricingWitness.priced dual_h 0 neth)).
Definition pot_h (v : node) : Q := match v with Source => 0 | Sink => 0 | _ => 10 end.
Lemma exact_h beta p : In beta [3; 5; 7; 9]%nat -> LPPricing.formulate (part_h beta) 0 None optm None None false = Ok p ->
  exact_answer p (pricer_of [[Cust 9]] p).
Proof.
  intros Hb. eapply (pricer_ok (part_h beta) 1 0 None optm None None false pot_h); [|lia|].
  - apply networkb_ok. destruct Hb as [<-|[<-|[<-|[<-|[]]]]]; vm_compute; reflexivity.
  - destruct Hb as [<-|[<-|[<-|[<-|[]]]]]; vm_compute; reflexivity.
Qed.

Lemma fresh_h : fresh cg_h neth start_h.
Proof. apply (start_fresh cg_h neth given_h); try reflexivity; vm_compute; reflexivity. Qed.
Lemma wf_h : network 1 neth.
Proof. apply networkb_ok. vm_compute. reflexivity. Qed.

Theorem hyper_stops : exists E C g s s1 D q s' P, fresh C g s /\ network 1 g /\ cg_types C = 1%nat /\
  cg_strategy C = None /\ cg_max_iter C = None /\ cg_time_limit C = None /\
  (* networkx, the master solver and the pricing solver are right *)
  (forall i w n, k_shortest (arc_list g) w n (e_paths E i w n)) /\
  exact_answer (program_of (s_master s)) (e_master E (S (s_tick s)) (program_of (s_master s))) /\
  solve_relaxed E C s = Ok (s1, D, Some q) /\ dual_solution (cg_master C) (s_master s) (e_duals E (S (s_tick s))) q /\
  (forall i j pr h hr p, In pr (parameters BestPaths) -> add_reduced_cost D 0 None g = Ok h ->
     pricing_graph (e_paths E i) pr D 0 h = Ok hr ->
     LPPricing.formulate (fst hr) 0 (cg_caps C) (cg_options C) (cg_stops C) (cg_duration C) (e_negative E j h) = Ok p ->
     exact_answer p (e_pricer E j None p)) /\
  (* column generation ends after one iteration, without a limit being reached *)
  column_generation E C 5 s = Ok s' /\ s_iter s' = 1%nat /\ s_more s' = false /\ s_bounds s' = [Some q] /\
  (* and there is a much better plan *)
  serves g (cg_master C) P /\
  (forall k c, In (k, c) P -> k = 0%nat /\ drivable g (cg_options C) (cg_caps C) k (cg_stops C) (cg_duration C) c) /\
  tours_cost g P + 9 < q.
Proof.
  assert (R : exists s1, solve_relaxed env_h cg_h start_h = Ok (s1, dual_h, Some 180)).
  { assert (P : relaxed_of (solve_relaxed env_h cg_h start_h) = Some (dual_h, Some 180)) by (vm_compute; reflexivity).
    destruct (solve_relaxed env_h cg_h start_h) as [[[s1 D] q]|]; [|discriminate]. injection P as -> ->. eauto. }
  destruct R as (s1 & R). exists env_h, cg_h, neth, start_h, s1, dual_h, 180, end_h, plan_h.
  split; [exact fresh_h|]. split; [exact wf_h|]. split; [reflexivity|]. split; [reflexivity|]. split; [reflexivity|]. split; [reflexivity|].
  split. { intros i w n. apply ksp_of_honest; [exact (net_wf _ _ wf_h)|vm_compute; tauto|apply Nat.le_refl]. }
  split. { apply (optimalb_ok mvar_eqb mvar_eqb_eq) with (ys := repeat 20 9); [vm_compute; reflexivity|reflexivity|eexists; split; reflexivity]. }
  split; [exact R|]. split.
  { constructor; [|intros k _; vm_compute; discriminate|vm_compute; discriminate].
    intros [| |[|p|p]]; try (vm_compute; discriminate). do 4 (try destruct p as [p|p|]; try (vm_compute; discriminate)). }
  split.
  { intros i j pr h hr p Hpr Hh Hhr Hp. assert (Eh : h = PricingWitness.priced dual_h 0 neth) by (unfold PricingWitness.priced; rewrite Hh; reflexivity). subst h.
    assert (B : exists beta, In beta [3; 5; 7; 9]%nat /\ pr = PPaths beta).
    { cbn in Hpr. destruct Hpr as [<-|[<-|[<-|[<-|[]]]]]; eexists; (split; [|reflexivity]); cbn; auto. }
    destruct B as (beta & Hb & ->). cbn [pricing_graph] in Hhr. apply bind_ok in Hhr. destruct Hhr as (hh & H1 & H2). injection H2 as <-.
    cbn [fst] in Hp. apply (exact_h beta p Hb).
    assert (Eq : hh = part_h beta) by (unfold part_h; cbn [e_paths env_h quiet] in H1; change (Datatypes.length (nodes neth)) with 11%nat in H1; rewrite H1; reflexivity). rewrite <- Eq. exact Hp. }
  split; [apply got_ok; vm_compute; reflexivity|]. split; [vm_compute; reflexivity|]. split; [vm_compute; reflexivity|]. split; [vm_compute; reflexivity|].
  split; [apply servesb_ok; vm_compute; reflexivity|]. split; [|vm_compute; reflexivity].
  intros k c Hin. assert (X : k = 0%nat /\ (c = [Cust 1; Cust 2] \/ In c (map (fun v => [v]) (skipn 2 nine)))).
  { destruct Hin as [Hin|Hin]; [injection Hin as <- <-; auto|]. apply in_map_iff in Hin. destruct Hin as (v & Ev & Hv). injection Ev as <- <-.
    split; [reflexivity|]. right. apply in_map_iff. eauto. }
  destruct X as [-> X]. split; [reflexivity|]. destruct X as [->|X]; [apply plain_drivable; try (vm_compute; reflexivity); discriminate|].
  cbn in X. decompose [or] X; try contradiction; subst c; apply plain_drivable; try (vm_compute; reflexivity); discriminate.
Qed.
