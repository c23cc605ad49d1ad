(** A call of solve() with MIP pricing that needs two iterations. *)
From Verif.Base Require Import Prelude Graph.
From Verif.Spec Require Import Routes Network Inputs Feasible LinProg MIP Plans Variants.
From Verif.Model Require Import Args Reach Checks Preprocess ClarkeWright Greedy Initial LPPricing Master Dive ColGen Post Schedule Solve.
From Verif.Proofs Require Import Deciders DiveProofs PricingWitness MasterWitness Oracles PostEnd ColGenWitness SolveSamples SolveWitness.

Definition rawe : rgraph :=
  let nr := mkNR (Some 1) None None None None None None false in
  let er c := mkER (Some (Scalar c)) None in
  mkGraph [(Source, mkNR None None None None None None None false); (Cust 1, nr); (Cust 2, nr);
           (Sink, mkNR None None None None None None None false)]
          [((Source, Cust 1), er 10); ((Source, Cust 2), er 10); ((Cust 1, Sink), er 10); ((Cust 2, Sink), er 10);
           ((Cust 1, Cust 2), er 5)].
Definition argse : rargs := mkArgs PNone (PNum (PInt 5)) PNone (PNum (PInt 3)) PNone false "Exact".
Definition enve : env :=
  mkEnv (fun _ => 0)
        (fun _ => certify mvar_eqb [(by_name [(1%nat, 1); (2%nat, 1)], [23; 23]); (by_name [(3%nat, 1)], [23; 5])])
        (fun n => if (n <? 3)%nat then by_node [(1%Z, 23); (2%Z, 23)] else by_node [(1%Z, 23); (2%Z, 5)])
        (fun _ _ => answers (fun _ => 0)) (fun _ l => l)
        (fun _ _ => route_pricer [[Cust 1; Cust 2]]) (fun _ _ => false)
        (fun _ _ _ => []) (fun _ _ _ _ _ _ _ => None) (fun _ _ _ => 0%nat) (fun _ => 0%nat) (fun _ _ => 0).
Definition Xe : outside := mkOut enve 0 (fun _ l => l) nx_path (fun _ => mkAnswer Infeasible None (fun _ => 0)).
Definition sae : solve_args := mkSA [trip [Cust 1]; trip [Cust 2]] [] "Exact" false true None false false None 1 false.
Definition rune (f : nat) := (let* v := create rawe argse false false false None false None false [] in solve Xe f f sae v).

Lemma mip_case : wf rawe /\ (a_mixed_fleet argse = false -> no_empty_costs rawe) /\
  (forall k u t, 0 <= user_cost rawe k u t) /\ (forall k, 0 <= price_of argse k) /\
  (forall n q, sound_answer q (e_master (x_env Xe) n q) /\
     (a_status (e_master (x_env Xe) n q) = Optimal -> a_objective (e_master (x_env Xe) n q) <> None /\
      forall y, feasible y q -> value (a_value (e_master (x_env Xe) n q)) (p_obj q) <= value y (p_obj q))) /\
  exists v, create rawe argse false false false None false None false [] = Ok v /\
    solve Xe 1 1 sae v = Err OutOfFuel /\
    exists v' out, solve Xe 2 2 sae v = Ok (v', out) /\ v_iter v' = 2%nat /\
      sv_routes (out_solved out) = [(1%nat, [Source; Cust 1; Cust 2; Sink])] /\ best_value (out_solved out) = Ok 28.
Proof.
  split; [apply wfb_ok; vm_compute; reflexivity|]. split; [intros _; apply costs_givenb_ok; vm_compute; reflexivity|]. split.
  { intros k u t. unfold user_cost. destruct (arc_data rawe u t) as [e|] eqn:E.
    - unfold arc_data in E. apply assoc_arc_In in E. cbn in E.
      repeat (destruct E as [E|E]; [injection E as <- <- <-; cbn; lra|]). destruct E.
    - destruct (mem_arc _ _); [|lra]. change 0 with (inject_Z 0). rewrite <- Zle_Qle. lia. }
  split; [intro k; vm_compute; discriminate|]. split.
  { intros n q. destruct (certify_right mvar_eqb mvar_eqb_eq [(by_name [(1%nat, 1); (2%nat, 1)], [23; 23]); (by_name [(3%nat, 1)], [23; 5])] q) as [A B].
    split; [exact A|]. intro S. split; [|exact (B S)].
    cbn [Xe x_env enve e_master] in *. unfold certify in *. destruct (find _ _); [discriminate|discriminate S]. }
  destruct (solve_ok Xe sae rawe argse 2 (fun v' out => v_iter v' = 2%nat /\
      sv_routes (out_solved out) = [(1%nat, [Source; Cust 1; Cust 2; Sink])] /\ best_value (out_solved out) = Ok 28)) as (v & v' & out & C & S & P);
    [vm_compute; auto|].
  exists v. split; [exact C|]. split; [|exists v', out; split; [exact S|exact P]].
  assert (X : rune 1 = Err OutOfFuel) by (vm_compute; reflexivity). unfold rune in X. change (create rawe argse false false false None false None false []) with (made rawe argse) in X. rewrite C in X. exact X.
Qed.
