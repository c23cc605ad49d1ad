(** A labelling algorithm that looks at all paths without repeated nodes, and what the search with
    labelling pricing does for a mixed fleet. *)
From Verif.Base Require Import Prelude Graph.
From Verif.Spec Require Import Routes Network Inputs Feasible LinProg Pricing MIP Timing Labelling Master Duality Run Results Plans.
From Verif.Model Require Import Args Reach Checks Preprocess ClarkeWright Greedy Initial Pricing
  GreedyPricing LPPricing Cspy Master Dive Hyper ColGen Post Schedule Solve.
From Verif.Proofs Require Import RouteLemmas Deciders CspyProofs PricingCor Certificate DiveProofs PricingWitness MasterWitness PostEnd Oracles
  ColGenWitness SolveUser SolveSamples SolveWitness LabelWitness.

Lemma label_leb_iff a b : label_leb a b = true <-> label_le a b.
Proof.
  split; [apply label_leb_ok|]. intros [A B C D E F]. unfold label_leb. rewrite !andb_true_iff, !Qle_bool_iff. tauto.
Qed.
Lemma walk_last A : forall u v p, walk A u v p -> (exists q, p = u :: q) /\ last p Source = v /\ forall a, In a (arcs p) -> In a A.
Proof.
  induction 1 as [u|u w v p Ha Hw (IH1 & IH2 & IH3)].
  - split; [eauto|]. split; [reflexivity|]. intros a [].
  - destruct IH1 as (q & ->). split; [eauto|]. split; [exact IH2|]. intros a [<-|Hin]; [exact Ha|apply IH3; exact Hin].
Qed.
Lemma acceptableb_iff h m ref p : acceptableb h m ref p = true <-> resource_feasible h m ref p.
Proof.
  split; [apply acceptableb_ok|]. intros [W X Y]. destruct (walk_last _ _ _ _ W) as ((q & ->) & L & A). unfold acceptableb.
  rewrite !andb_true_iff. split; [split; [split|]|].
  - apply forallb_forall. intros a Ha. apply mem_arc_In. apply A. exact Ha.
  - apply node_eqb_eq. exact L.
  - apply forallb_forall. intros n Hn. apply in_seq in Hn. unfold labelled_ok. destruct (path_label ref (firstn n (Source :: q))) as [l|] eqn:El; [|reflexivity].
    apply label_leb_iff. eapply X; [symmetry; apply (firstn_skipn n)| |exact El]. destruct n; [lia|discriminate].
  - unfold labelled_ok. destruct (path_label ref (Source :: q)) as [l|] eqn:El; [|reflexivity]. apply label_leb_iff. apply Y. reflexivity.
Qed.

(** all simple paths to Sink *)
Fixpoint simple_paths (f : nat) (A : list arc) (seen : list node) (u : node) : list (list node) :=
  match f with
  | O => []
  | S f' =>
      if mem u seen then [] else
      (if node_eqb u Sink then [[u]] else []) ++
      flat_map (fun a => if node_eqb (fst a) u then map (cons u) (simple_paths f' A (u :: seen) (snd a)) else []) A
  end.
Lemma simple_paths_all A : forall f u p seen, walk A u Sink p -> NoDup p -> (forall v, In v p -> ~ In v seen) ->
  (List.length p <= f)%nat -> In p (simple_paths f A seen u).
Proof.
  induction f as [|f IH]; intros u p seen W N S L.
  - destruct (walk_last _ _ _ _ W) as ((q & ->) & _). cbn in L. lia.
  - destruct (walk_last _ _ _ _ W) as ((q & E) & _).
    cbn [simple_paths]. destruct (mem u seen) eqn:Em.
    { exfalso. apply (S u); [rewrite E; left; reflexivity|]. apply mem_In. exact Em. }
    apply in_or_app. inversion W as [x|x w y p' Ha Hw]; subst.
    + left. left. reflexivity.
    + right. apply in_flat_map. exists (u, w). split; [exact Ha|]. cbn [fst snd]. rewrite node_eqb_refl. apply in_map.
      apply NoDup_cons_iff in N. assert (p' = q) as -> by congruence. apply IH; [exact Hw|apply N| |cbn in L; lia].
      intros v Hv [<-|Hs]; [apply (proj1 N); exact Hv|]. apply (S v); [right; exact Hv|exact Hs].
Qed.

Definition lightest (w : node -> node -> Q) (ps : list (list node)) : option (list node) :=
  fold_right (fun p b => match b with Some p' => if Qle_bool (path_sum w p) (path_sum w p') then Some p else b | None => Some p end) None ps.
Lemma lightest_ok w ps : match lightest w ps with
  | Some p => In p ps /\ forall p', In p' ps -> path_sum w p <= path_sum w p' | None => ps = [] end.
Proof.
  induction ps as [|p ps IH]; [reflexivity|]. cbn [lightest fold_right]. fold (lightest w ps). destruct (lightest w ps) as [b|].
  - destruct IH as (I1 & I2). destruct (Qle_bool _ _) eqn:E.
    + apply Qle_bool_iff in E. split; [left; reflexivity|]. intros p' [<-|H]; [lra|]. specialize (I2 _ H). lra.
    + assert (E2 : ~ path_sum w p <= path_sum w b) by (intro X; apply Qle_bool_iff in X; congruence).
      split; [right; exact I1|]. intros p' [<-|H]; [lra|auto].
  - subst ps. split; [left; reflexivity|]. intros p' [<-|[]]; lra.
Qed.

Definition brute (h : vgraph) (m : label) (ref : label -> arc -> res label) (e : bool) (thr : option Q)
  : option (Q * list node) :=
  match lightest (weight_of h) (filter (fun p => acceptableb h m ref p && no_repeat p)
                                  (simple_paths (S (S (List.length (arc_list h)))) (arc_list h) [] Source)) with
  | Some p => Some (path_sum (weight_of h) p, p)
  | None => None
  end.
Lemma brute_sound h : sound_labelling h (brute h).
Proof.
  intros m ref e thr q p H. unfold brute in H. destruct (lightest _ _) as [p'|] eqn:F; [|discriminate]. injection H as <- <-.
  assert (L := lightest_ok (weight_of h) (filter (fun p => acceptableb h m ref p && no_repeat p)
                                  (simple_paths (S (S (List.length (arc_list h)))) (arc_list h) [] Source))). rewrite F in L.
  destruct L as (L & _). apply filter_In in L. destruct L as (_ & L). apply andb_true_iff in L. destruct L as (L1 & L2).
  split; [apply acceptableb_ok; exact L1|]. split; [reflexivity|]. intros _. apply CspyProofs.no_repeat_NoDup. exact L2.
Qed.
Lemma arcs_length (p : list node) : List.length (arcs p) = (List.length p - 1)%nat.
Proof. induction p as [|u [|v p] IH]; [reflexivity|reflexivity|]. cbn [arcs List.length] in *. rewrite IH. lia. Qed.
Lemma arcs_NoDup : forall p : list node, NoDup p -> NoDup (arcs p).
Proof.
  induction p as [|u [|v p] IH]; intro N; [constructor|constructor|]. cbn [arcs]. apply NoDup_cons_iff in N. destruct N as (N1 & N2).
  constructor; [|apply IH; exact N2]. intro H. apply N1. apply (arcs_in_nodes u v (v :: p)) in H. apply H.
Qed.
Lemma brute_exact h m ref : exact_labelling h m ref true (brute h m ref).
Proof.
  intros thr p RF N. specialize (N eq_refl). assert (W := rf_walk _ _ _ _ RF).
  set (ps := filter (fun p => acceptableb h m ref p && no_repeat p) (simple_paths (S (S (List.length (arc_list h)))) (arc_list h) [] Source)).
  assert (I : In p ps).
  { apply filter_In. split.
    - apply simple_paths_all; [exact W|exact N|intros v _ []|]. destruct (walk_last _ _ _ _ W) as (_ & _ & A).
      assert (X := NoDup_incl_length (arcs_NoDup p N) A). rewrite arcs_length in X. lia.
    - apply andb_true_iff. split; [apply acceptableb_iff; exact RF|apply CspyProofs.no_repeat_NoDup; exact N]. }
  assert (L := lightest_ok (weight_of h) ps). unfold brute. fold ps. destruct (lightest (weight_of h) ps) as [p'|].
  - exists (path_sum (weight_of h) p'), p'. split; [reflexivity|]. left. apply L. exact I.
  - rewrite L in I. destruct I.
Qed.

(* ------------------------------------------------------------------ *)
(** ** One customer, two vehicle types, the second one cheaper *)
Definition raw9 : rgraph :=
  let er l := mkER (Some (Vec l)) None in
  mkGraph [(Source, mkNR None None None None None None None false); (Cust 1, mkNR (Some 1) None None None None None None false);
           (Sink, mkNR None None None None None None None false)]
          [((Source, Cust 1), er [10; 1]); ((Cust 1, Sink), er [10; 1])].
Definition args9 : rargs := mkArgs (PNum (PInt 2)) (PList [PInt 5; PInt 5]) PNone PNone PNone true "Exact".
Definition sa9 : solve_args := mkSA [] [] "Exact" true true None false false None 1 false.
Definition env9 : env :=
  mkEnv (fun _ => 0)
        (fun _ => certify mvar_eqb [(by_elem [(CNat 1, 1)], [20])])
        (fun n => by_node [(1%Z, 20)])
        (fun _ _ => answers (fun _ => 0)) (fun _ l => l)
        (fun _ _ _ => mkAnswer Infeasible None (fun _ => 0)) (fun _ _ => false)
        (fun _ _ _ => []) (fun n _ h => brute h)
        (fun _ _ _ => 0%nat) (fun _ => 0%nat) (fun _ _ => 0).
Definition X9 : outside := mkOut env9 0 (fun _ l => l) nx_path (fun _ => mkAnswer Infeasible None (fun _ => 0)).
Definition run9 := (let* v := made raw9 args9 in solve X9 9 9 sa9 v).

Lemma raw9_wf : wf raw9. Proof. apply wfb_ok. vm_compute. reflexivity. Qed.
Lemma raw9_accepted : accepted_args args9 raw9.
Proof.
  constructor.
  - right. exists 2%Z. split; [reflexivity|lia].
  - right. left. exists [PInt 5; PInt 5]. split; [reflexivity|]. intros n [<-|[<-|[]]]; exists 5%Z; split; (reflexivity || lia).
  - left. reflexivity.
  - left. reflexivity.
  - intros _. split; [right; left; reflexivity|]. split; [right; left; reflexivity|]. split; [left; reflexivity|].
    exists 2%nat. split; [apply (fs_capacity args9 [PInt 5; PInt 5]); [reflexivity|discriminate]|].
    intros u v e H. unfold arc_data in H. apply assoc_arc_In in H. cbn in H.
    repeat (destruct H as [H|H]; [injection H as <- <- <-; eexists; split; reflexivity|]). destruct H.
Qed.

Theorem cheaper_vehicle_ignored : exists X sa g a v v' out q k r,
  wf g /\ accepted_args (with_strategy a (sa_strategy sa)) g /\ a_mixed_fleet a = true /\ falsy (a_num_vehicles a) /\
  sa_initial sa = [] /\ sa_pre sa = [] /\ sa_cspy sa = true /\ sa_elementary sa = true /\ sa_dive sa = false /\
  sa_greedy sa = false /\ sa_heuristic sa = false /\ sa_time_limit sa = None /\ sa_max_iter sa = None /\
  (forall x l, Permutation l (x_perms X x l)) /\
  (forall n q, sound_answer q (e_master (x_env X) n q) /\
     (a_status (e_master (x_env X) n q) = Optimal -> forall y, feasible y q ->
      value (a_value (e_master (x_env X) n q)) (p_obj q) <= value y (p_obj q))) /\
  (forall n tl h, sound_labelling h (e_label (x_env X) n tl h) /\
     forall m ref, exact_labelling h m ref true (e_label (x_env X) n tl h m ref)) /\ finds_paths (x_path X) /\
  create g a false false false None false None false [] = Ok v /\ solve X 9 9 sa v = Ok (v', out) /\
  best_value (out_solved out) = Ok q /\
  (exists l c, a_load_capacity a = PList l /\ nth_error l k = Some c /\ node_sum (user_demand g) (stops r) <= num_val c) /\
  (exists n, a_num_stops a = PNum (PInt n) /\ (Z.of_nat (List.length (stops r)) <= n)%Z) /\ falsy (a_duration a) /\ falsy (a_fixed_cost a) /\
  route_shape r /\ along (arc_list g) r /\ stops r = custs g /\ path_sum (user_cost g k) r + 17 < q.
Proof.
  destruct (solve_ok X9 sa9 raw9 args9 9 (fun _ out => best_value (out_solved out) = Ok 20)) as (v & v' & out & C & Sv & Hr);
    [vm_compute; reflexivity|].
  exists X9, sa9, raw9, args9, v, v', out, 20, 1%nat, (trip [Cust 1]).
  split; [apply raw9_wf|]. split; [exact raw9_accepted|]. split; [reflexivity|]. split; [reflexivity|].
  do 9 (split; [reflexivity|]). split; [intros x l; reflexivity|].
  split; [intros n q; apply (certify_right mvar_eqb mvar_eqb_eq)|].
  split; [intros n tl h; split; [apply brute_sound|intros m ref; apply brute_exact]|].
  split; [exact nx_path_ok|]. split; [exact C|]. split; [exact Sv|]. split; [exact Hr|].
  split. { exists [PInt 5; PInt 5], (PInt 5). split; [reflexivity|]. split; [reflexivity|]. vm_compute. discriminate. }
  split; [exists 2%Z; split; [reflexivity|vm_compute; discriminate]|]. split; [reflexivity|]. split; [reflexivity|].
  split. { exists [Cust 1]. split; [reflexivity|]. split; [repeat constructor; intros []|]. intros w [<-|[]]. split; discriminate. }
  split; [apply alongb_iff; vm_compute; reflexivity|]. split; vm_compute; reflexivity.
Qed.

(* ------------------------------------------------------------------ *)
(** ** A run with labelling pricing that proves a lower bound *)
Definition env_l : env :=
  mkEnv (fun _ => 0)
    (fun n => answers (if (n <? 5)%nat then by_name [(1%nat, 1); (2%nat, 1); (3%nat, 1)] else by_elem [(CNat 3, 1); (CElem 4, 1)]))
    duals_g (fun n _ => answers (fun _ => 0)) (fun _ l => l) (fun _ _ _ => mkAnswer Infeasible None (fun _ => 0)) (fun _ _ => false)
    (fun _ _ _ => []) (fun n _ h => brute h) (fun _ _ _ => 0%nat) (fun _ => 0%nat) (fun _ _ => 0).
Definition cg_l : cgconfig := mkCG (Some Exact) true true false None 1 None 0 1 None (Some 3%Z) None optm mo0 (custs netm).
Definition end_l : state := got start_g (column_generation env_l cg_l 5 start_g).
Lemma ran_l : column_generation env_l cg_l 5 start_g = Ok end_l. Proof. apply got_ok. vm_compute. reflexivity. Qed.
Lemma fresh_l : fresh cg_l netm start_g.
Proof.
  constructor; try reflexivity; [|split; reflexivity].
  exists false, (fun _ l => l), given_g, (fst (got ([], []) (initialize optm false None None (Some 3%Z) (fun _ l => l) given_g netm))).
  vm_compute. reflexivity.
Qed.

Lemma arcs_trip_inj : forall a b u, arcs (u :: a ++ [Sink]) = arcs (u :: b ++ [Sink]) -> a = b.
Proof.
  induction a as [|x a IH]; intros [|y b] u H.
  - reflexivity.
  - cbn in H. injection H as -> H. destruct b; discriminate.
  - cbn in H. injection H as -> H. destruct a; discriminate.
  - cbn [app] in H. change (arcs (u :: x :: a ++ [Sink])) with ((u, x) :: arcs (x :: a ++ [Sink])) in H.
    change (arcs (u :: y :: b ++ [Sink])) with ((u, y) :: arcs (y :: b ++ [Sink])) in H. injection H as <- H. f_equal. exact (IH _ _ H).
Qed.
Definition known_fine (g : vgraph) (D : dual_dict) (l : list (list node)) (pool : list column) : bool :=
  forallb (fun c => existsb (fun cs => arcs_eqb (listing c) (arcs (trip cs)) && Qle_bool 0 (reduced_cost g D 1 0 cs)) l) pool.
Lemma known_fine_ok g D l pool : known_fine g D l pool = true ->
  forall c cs, In c pool -> listing c = arcs (trip cs) -> 0 <= reduced_cost g D 1 0 cs.
Proof.
  intros H c cs Hc Hl. apply (proj1 (forallb_forall _ _) H) in Hc. apply existsb_exists in Hc. destruct Hc as (cs' & _ & Hc).
  apply andb_true_iff in Hc. destruct Hc as (H1 & H2). apply CspyProofs.arcs_eqb_eq in H1. rewrite Hl in H1.
  apply arcs_trip_inj in H1. subst cs'. apply Qle_bool_iff. exact H2.
Qed.

Lemma labelling_l st s1 D q : starts env_l cg_l start_g st -> solve_relaxed env_l cg_l st = Ok (s1, D, q) ->
  (exists v, q = Some v /\ dual_solution mo0 (s_master st) (duals_g (S (s_tick st))) v) /\
  (forall c cs, In c (s_pool st) -> listing c = arcs (trip cs) -> 0 <= reduced_cost netm D 1 0 cs).
Proof.
  intros S0 H. destruct (starts_nth _ _ _ _ S0) as (n & Hn).
  assert (Ln : (n < 2)%nat).
  { destruct (Nat.lt_ge_cases n 2) as [L|L]; [exact L|]. rewrite (nth_start_none env_l cg_l start_g 2) in Hn; [discriminate| |exact L].
    assert (X : match nth_start env_l cg_l 2 start_g with Some _ => false | None => true end = true) by (vm_compute; reflexivity).
    destruct (nth_start env_l cg_l 2 start_g); [discriminate|reflexivity]. }
  set (s := match n with O => start_g | _ => got start_g (of_opt IndexError (nth_start env_l cg_l 1 start_g)) end).
  assert (Es : st = s).
  { destruct n as [|[|n]]; [| |lia]; unfold s.
    - cbn [nth_start] in Hn. change (s_more start_g) with true in Hn. congruence.
    - rewrite Hn. reflexivity. }
  subst st.
  set (d := if (n =? 0)%nat then mkDuals [(Cust 1, 20); (Cust 2, 22); (Cust 3, 80)] None []
            else mkDuals [(Cust 1, 2); (Cust 2, 21); (Cust 3, 80)] None []).
  set (qv := if (n =? 0)%nat then 122 else 103).
  assert (HD : D = d /\ q = Some qv).
  { assert (P : relaxed_of (solve_relaxed env_l cg_l s) = Some (d, Some qv)).
    { destruct n as [|[|n]]; [| |lia]; vm_compute; reflexivity. }
    rewrite H in P. injection P as -> ->. split; reflexivity. }
  clear H. destruct HD as [-> ->]. split.
  - exists qv. split; [reflexivity|].
    assert (ED : duals_g (S (s_tick s)) = if (n =? 0)%nat then by_node [(1%Z, 20); (2%Z, 22); (3%Z, 80)] else by_node [(1%Z, 2); (2%Z, 21); (3%Z, 80)]).
    { unfold duals_g. assert (X : (S (s_tick s) <? 5)%nat = (n =? 0)%nat) by (destruct n as [|[|n]]; [| |lia]; vm_compute; reflexivity).
      rewrite X. reflexivity. }
    assert (EV : Qle_bool qv (dual_value (s_master s) (duals_g (S (s_tick s)))) = true).
    { destruct n as [|[|n]]; [| |lia]; vm_compute; reflexivity. }
    constructor; [|rewrite ED; destruct n; intros k _; vm_compute; discriminate|apply Qle_bool_iff; exact EV].
    rewrite ED. clear. intros [| |[|p|p]]; destruct n as [|n]; try (vm_compute; discriminate);
      (destruct p as [p|p|]; try (vm_compute; discriminate); destruct p; vm_compute; discriminate).
  - apply (known_fine_ok netm d [[Cust 1]; [Cust 2]; [Cust 3]; [Cust 1; Cust 2]]).
    destruct n as [|[|n]]; [| |lia]; vm_compute; reflexivity.
Qed.

Lemma bound_l : fresh cg_l netm start_g /\ column_generation env_l cg_l 5 start_g = Ok end_l /\ s_more end_l = false /\
  cg_strategy cg_l <> None /\ cg_cspy cg_l = true /\ cg_greedy cg_l = false /\ network (cg_types cg_l) netm /\
  labelling_data netm (cg_options cg_l) (cg_caps cg_l) (cg_stops cg_l) (cg_duration cg_l) /\
  (forall n tl h, sound_labelling h (e_label env_l n tl h)) /\
  (forall st s1 D q, starts env_l cg_l start_g st -> solve_relaxed env_l cg_l st = Ok (s1, D, q) ->
     (exists v, q = Some v /\ dual_solution (cg_master cg_l) (s_master st) (e_duals env_l (S (s_tick st))) v) /\
     (forall k c cs, (k < cg_types cg_l)%nat -> In c (s_pool st) -> listing c = arcs (trip cs) ->
        0 <= reduced_cost netm D 1 k cs) /\
     forall k h j m e, (k < cg_types cg_l)%nat -> add_reduced_cost D k None netm = Ok h ->
       limits h (cg_options cg_l) k (cg_caps cg_l) (cg_stops cg_l) (cg_duration cg_l) = Ok m ->
       (cg_elementary cg_l = true -> e = true) ->
       let ref := extension h (cg_options cg_l) (cg_caps cg_l) (cg_duration cg_l) in
       exact_labelling h m ref e (e_label env_l (S j) (cspy_limit (time_remaining cg_l false (e_clock env_l j))) h m ref)) /\
  map c_name (s_pool end_l) = [CNat 1; CNat 2; CNat 3; CElem 4] /\
  nth_error (rev (s_bounds end_l)) 0 = Some (Some 103).
Proof.
  split; [exact fresh_l|]. split; [exact ran_l|]. split; [vm_compute; reflexivity|]. split; [discriminate|]. split; [reflexivity|]. split; [reflexivity|].
  split; [apply networkb_ok; vm_compute; reflexivity|]. split.
  { constructor; try discriminate.
    - exists 3%Z. split; [reflexivity|discriminate].
    - split; vm_compute; reflexivity.
    - intros v Hv. vm_compute in Hv. repeat (destruct Hv as [<-|Hv]; [vm_compute; intuition discriminate|]). destruct Hv.
    - split; [|split].
      + intros u v Hv. vm_compute in Hv. repeat (destruct Hv as [E|Hv]; [inversion E; subst; vm_compute; discriminate|]). destruct Hv.
      + intros v Hv. vm_compute in Hv. repeat (destruct Hv as [<-|Hv]; [vm_compute; discriminate|]). destruct Hv.
      + vm_compute. discriminate. }
  split; [intros n tl h; apply brute_sound|]. split; [|split; vm_compute; reflexivity].
  intros st s1 D q St H. destruct (labelling_l st s1 D q St H) as [A B]. split; [exact A|]. split.
  - intros k c cs Hk. assert (k = 0%nat) by (cbn in Hk; lia). subst k. apply B.
  - intros k h j m e Hk _ _ He. rewrite (He eq_refl). apply brute_exact.
Qed.
