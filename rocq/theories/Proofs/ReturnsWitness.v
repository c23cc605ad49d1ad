(** Calls of solve() that return, and one that does not. *)
From Verif.Base Require Import Prelude Graph.
From Verif.Spec Require Import Routes Network Inputs Feasible LinProg Pricing MIP Timing Master Run Results Plans Variants Plain Returning.
From Verif.Model Require Import Args Reach Checks Preprocess ClarkeWright Greedy Initial Pricing
  GreedyPricing LPPricing Cspy Master Dive Hyper ColGen Post Schedule Solve.
From Verif.Proofs Require Import RouteLemmas Deciders LPProofs PricingCor Certificate DiveProofs PricingWitness MasterWitness PostEnd Oracles ColGenWitness SolveUser SolveSamples SolveWitness AnyCases AnyWitness WarmWitness LabelWitness PlainWitness.

Lemma accepted g a s : wf g -> a_mixed_fleet a = false -> costs_givenb g = true -> demandsb g = true ->
  timesb g = true -> preparedb g a s = true -> acceptable g a s.
Proof.
  intros W M C D T P. apply (preparedb_iff g a s W M); auto using costs_givenb_ok, demandsb_ok, timesb_ok.
Qed.

Lemma plain_7 : plain_problem sa7 (raw7 0) args7 None false None.
Proof.
  assert (W := raw7_wf 0). constructor.
  - exact W.
  - split; [reflexivity|]. intros x y l Z. discriminate.
  - apply raw7_costs.
  - apply raw7_demands.
  - apply timesb_ok. vm_compute. reflexivity.
  - apply raw7_aux.
  - discriminate.
  - reflexivity.
  - repeat split.
  - left. reflexivity.
  - intros x Z. discriminate.
  - intros k n [(x & Z & _)|(l & x & Z & _)]; discriminate.
  - apply accepted; [exact W|reflexivity|vm_compute; reflexivity|vm_compute; reflexivity|vm_compute; reflexivity|vm_compute; reflexivity].
Qed.

(** three vehicles for four customers, which may be dropped *)
Lemma plain_p : plain_problem sa_p raw_p args_p (Some 50) false None.
Proof.
  assert (W : wf raw_p) by (apply wfb_ok; vm_compute; reflexivity). constructor.
  - exact W.
  - split; [reflexivity|]. intros x y l Z. discriminate.
  - apply costs_givenb_ok. vm_compute. reflexivity.
  - apply demandsb_ok. vm_compute. reflexivity.
  - apply timesb_ok. vm_compute. reflexivity.
  - apply no_auxb_ok. vm_compute. reflexivity.
  - discriminate.
  - reflexivity.
  - repeat split.
  - left. reflexivity.
  - intros x Z. injection Z as <-. discriminate.
  - intros k n [(x & Z & _ & _ & ->)|(l & x & Z & _)]; [|discriminate]. injection Z as <-. split; [reflexivity|]. split; [vm_compute; discriminate|].
    right. exists 50. split; [reflexivity|discriminate].
  - apply accepted; [exact W|reflexivity|vm_compute; reflexivity|vm_compute; reflexivity|vm_compute; reflexivity|vm_compute; reflexivity].
Qed.

(** ** One customer, the way to which costs nothing *)
Definition raw_o : rgraph :=
  let no := mkNR None None None None None None None false in
  mkGraph [(Source, no); (Cust 1, no); (Sink, no)]
          [((Source, Cust 1), mkER (Some (Scalar 0)) None); ((Cust 1, Sink), mkER (Some (Scalar 10)) None)].
Definition args_o : rargs := mkArgs PNone PNone PNone PNone PNone false "BestPaths".
Definition sa_o (s : string) : solve_args := mkSA [] [] s true true None false false None 1 false.
Definition env_o : env :=
  mkEnv (fun _ => 0) (fun _ => certify mvar_eqb [(by_name [(1%nat, 1)], [10])]) (fun _ => by_node [(1%Z, 10)])
        (fun _ _ => answers (fun _ => 0)) (fun _ l => l)
        (fun _ _ _ => mkAnswer Infeasible None (fun _ => 0)) (fun _ _ => false)
        (fun _ _ _ => []) (fun n _ => labeller []) (fun _ _ _ => 0%nat) (fun _ => 0%nat) (fun _ _ => 0).
Definition X_o : outside := mkOut env_o 0 (fun _ l => l) nx_path (fun _ => mkAnswer Infeasible None (fun _ => 0)).

Lemma plain_o : plain_problem (sa_o "Exact") raw_o args_o None false None.
Proof.
  assert (W : wf raw_o) by (apply wfb_ok; vm_compute; reflexivity). constructor.
  - exact W.
  - split; [reflexivity|]. intros x y l Z. discriminate.
  - apply costs_givenb_ok. vm_compute. reflexivity.
  - apply demandsb_ok. vm_compute. reflexivity.
  - apply timesb_ok. vm_compute. reflexivity.
  - apply no_auxb_ok. vm_compute. reflexivity.
  - discriminate.
  - reflexivity.
  - repeat split.
  - left. reflexivity.
  - intros x Z. discriminate.
  - intros k n [(x & Z & _)|(l & x & Z & _)]; discriminate.
  - apply accepted; [exact W|reflexivity|vm_compute; reflexivity|vm_compute; reflexivity|vm_compute; reflexivity|vm_compute; reflexivity].
Qed.

Theorem paths_raise : exists X g a v, let sa s := mkSA [] [] s true true None false false None 1 false in
  plain_problem (sa "Exact"%string) g a None false None /\ acceptable g a "BestPaths" /\ acceptable g a "Hyper" /\
  (forall x l, Permutation l (x_perms X x l)) /\ (forall n q, right_answer q (e_master (x_env X) n q)) /\
  (forall n tl h, sound_labelling h (e_label (x_env X) n tl h)) /\ finds_paths (x_path X) /\
  create g a false false false None false None false [] = Ok v /\
  (forall f f2, solve X (S f) f2 (sa "BestPaths"%string) v = Err ZeroDivisionError) /\
  (forall f f2, solve X (S f) f2 (sa "Hyper"%string) v = Err ZeroDivisionError) /\
  exists v' out, solve X 9 9 (sa "Exact"%string) v = Ok (v', out) /\ sv_routes (out_solved out) = [(1%nat, [Source; Cust 1; Sink])] /\
    best_value (out_solved out) = Ok 10.
Proof.
  assert (A : exists v, create raw_o args_o false false false None false None false [] = Ok v /\
    (forall f f2, solve X_o (S f) f2 (sa_o "BestPaths") v = Err ZeroDivisionError) /\
    (forall f f2, solve X_o (S f) f2 (sa_o "Hyper") v = Err ZeroDivisionError) /\
    match solve X_o 9 9 (sa_o "Exact") v with Ok r => sv_routes (out_solved (snd r)) = [(1%nat, [Source; Cust 1; Sink])] /\
      best_value (out_solved (snd r)) = Ok 10 | Err _ => False end).
  { eexists. split; [vm_compute; reflexivity|]. split; [intros f f2; vm_compute; reflexivity|]. split; [intros f f2; vm_compute; reflexivity|]. vm_compute. split; reflexivity. }
  destruct A as (v & Cr & S1 & S2 & S3). exists X_o, raw_o, args_o, v. cbv zeta. split; [exact plain_o|].
  assert (W : wf raw_o) by (apply wfb_ok; vm_compute; reflexivity).
  split; [apply accepted; [exact W|reflexivity|vm_compute; reflexivity|vm_compute; reflexivity|vm_compute; reflexivity|vm_compute; reflexivity]|].
  split; [apply accepted; [exact W|reflexivity|vm_compute; reflexivity|vm_compute; reflexivity|vm_compute; reflexivity|vm_compute; reflexivity]|].
  split; [intros x l; apply Permutation_refl|]. split; [intros n q; destruct (certify_right mvar_eqb mvar_eqb_eq [(by_name [(1%nat, 1)], [10])] q) as (B1 & B2); constructor; [exact B1|exact B2]|].
  split; [intros n tl h; apply labeller_sound|]. split; [exact nx_path_ok|]. split; [exact Cr|]. split; [exact S1|]. split; [exact S2|].
  unfold sa_o in S3. destruct (solve X_o 9 9 _ v) as [[v' out]|] eqn:E; [|destruct S3]. exists v', out. split; [reflexivity|]. exact S3.
Qed.

(** ** Cases *)
Lemma returns_labelling_case : plain_problem sa7 (raw7 0) args7 None false None /\ sa_cspy sa7 = true /\
  (forall x l, Permutation l (x_perms X7 x l)) /\ (forall n q, sound_answer q (e_master (x_env X7) n q)) /\
  (forall n tl h, sound_labelling h (e_label (x_env X7) n tl h)) /\ finds_paths (x_path X7) /\
  exists v v' out, create (raw7 0) args7 false false false None false None false [] = Ok v /\
    solve X7 9 9 sa7 v = Ok (v', out) /\ sv_routes (out_solved out) = [(1%nat, trip [Cust 1; Cust 2])].
Proof.
  destruct labelling_case as (_ & _ & _ & _ & L1 & L2 & L3 & L4 & _ & _ & _ & _ & _ & v & v' & out & C & S & _ & _ & Ro & _).
  split; [exact plain_7|]. split; [reflexivity|]. split; [exact L1|]. split; [exact L2|]. split; [exact L3|]. split; [exact L4|]. exists v, v', out. auto.
Qed.

Lemma costs_p : forall k u t, 0 <= user_cost raw_p k u t.
Proof.
  intros k u t. unfold user_cost. destruct (arc_data raw_p u t) as [e|] eqn:E.
  - unfold arc_data in E. apply assoc_arc_In in E. cbn in E.
    repeat (destruct E as [E|E]; [injection E as <- <- <-; cbn; lra|]). destruct E.
  - destruct (mem_arc _ _); [|lra]. change 0 with (inject_Z 0). rewrite <- Zle_Qle. lia.
Qed.

Lemma returns_mip_case : exists X, plain_problem sa_p raw_p args_p (Some 50) false None /\ sa_cspy sa_p = false /\
  (forall k u t, 0 <= user_cost raw_p k u t) /\ (forall k, 0 <= price_of args_p k) /\
  (forall x l, Permutation l (x_perms X x l)) /\
  (forall n q, sound_answer q (e_master (x_env X) n q) /\
     (a_status (e_master (x_env X) n q) = Optimal -> a_objective (e_master (x_env X) n q) <> None /\
      forall y, feasible y q -> value (a_value (e_master (x_env X) n q)) (p_obj q) <= value y (p_obj q))) /\
  (forall n tl q, sound_answer q (e_pricer (x_env X) n tl q)) /\ no_circles (x_env X) /\ finds_paths (x_path X) /\
  exists v v' out, create raw_p args_p false false false (Some 50) false None false [] = Ok v /\
    solve X 9 9 sa_p v = Ok (v', out) /\
    sv_routes (out_solved out) = [(1%nat, [Source; Cust 1; Cust 2; Sink]); (2%nat, [Source; Cust 3; Cust 4; Sink])].
Proof.
  exists (X_p cands_p). split; [exact plain_p|]. split; [reflexivity|]. split; [exact costs_p|]. split.
  { intros [|[|k]]; vm_compute; discriminate. }
  split; [intros; apply Permutation_refl|]. split.
  { intros n q. destruct (certify_right mvar_eqb mvar_eqb_eq cands_p q) as [A B]. split; [exact A|]. intro S. split; [|exact (B S)].
    cbn [X_p x_env env_p e_master] in *. unfold certify in *. destruct (find _ _); [discriminate|discriminate S]. }
  split; [intros n tl q; apply propose_sound|]. split; [intros n tl g h k caps o ns dur p _ Z; discriminate|]. split; [exact nx_path_ok|].
  assert (A : match create raw_p args_p false false false (Some 50) false None false [] with
    | Ok v => match solve (X_p cands_p) 9 9 sa_p v with
      | Ok r => sv_routes (out_solved (snd r)) = [(1%nat, [Source; Cust 1; Cust 2; Sink]); (2%nat, [Source; Cust 3; Cust 4; Sink])]
      | _ => False end
    | Err _ => False end) by (vm_compute; reflexivity).
  destruct (create raw_p args_p false false false (Some 50) false None false []) as [v|e] eqn:C; [|contradiction].
  destruct (solve (X_p cands_p) 9 9 sa_p v) as [[v' out]|e] eqn:S1; [|contradiction]. exists v, v', out. auto.
Qed.
