(** Calls with limits that matter, and with limits that do not. *)
From Verif.Base Require Import Prelude Graph.
From Verif.Spec Require Import Routes Network Inputs Feasible LinProg Pricing MIP Timing Master Run Results Plans Variants Plain Returning Limits.
From Verif.Model Require Import Args Reach Checks Preprocess ClarkeWright Greedy Initial Pricing
  GreedyPricing LPPricing Cspy Master Dive Hyper ColGen Post Schedule Solve.
From Verif.Proofs Require Import SolveHeur Deciders LPProofs Certificate MasterWitness ColGenWitness SolveSamples SolveWitness DiveProofs PostEnd Oracles AnyWitness AgainWitness WarmWitness LabelWitness PlainWitness ReturnsWitness ReturnsGivenWitness Limits.

(** the call of C109_labelling_case, for which two iterations are enough *)
Lemma limits_case : time_blind (x_env X_h) /\ (forall n, e_clock (x_env X_h) n - x_start X_h < 60) /\
  exists v v' out, create (raw7 0) args7 false false false None false None false [] = Ok v /\
    solve X_h 9 9 (with_limits None None sa_h) v = Ok (v', out) /\ v_iter v' = 2%nat /\
    sv_routes (out_solved out) = [(1%nat, trip [Cust 2; Cust 1])] /\
    solve X_h 9 9 (with_limits (Some 60) (Some 2%Z) sa_h) v = Ok (v', out) /\
    exists v1 out1, solve X_h 9 9 (with_limits (Some 60) (Some 1%Z) sa_h) v = Ok (v1, out1) /\ v_iter v1 = 1%nat.
Proof.
  assert (B : time_blind (x_env X_h)) by (intros n t t'; split; reflexivity).
  assert (Cl : forall n, e_clock (x_env X_h) n - x_start X_h < 60) by (intro n; vm_compute; reflexivity).
  split; [exact B|]. split; [exact Cl|].
  assert (A : match create (raw7 0) args7 false false false None false None false [] with
    | Ok v => match solve X_h 9 9 (with_limits None None sa_h) v, solve X_h 9 9 (with_limits (Some 60) (Some 1%Z) sa_h) v with
      | Ok r, Ok r1 => v_iter (fst r) = 2%nat /\ sv_routes (out_solved (snd r)) = [(1%nat, trip [Cust 2; Cust 1])] /\ v_iter (fst r1) = 1%nat
      | _, _ => False end
    | Err _ => False end) by (vm_compute; repeat split; reflexivity).
  destruct (create (raw7 0) args7 false false false None false None false []) as [v|e] eqn:C; [|contradiction].
  destruct (solve X_h 9 9 (with_limits None None sa_h) v) as [[v' out]|e] eqn:S1; [|contradiction].
  destruct (solve X_h 9 9 (with_limits (Some 60) (Some 1%Z) sa_h) v) as [[v1 out1]|e] eqn:S2; [|contradiction].
  cbn [fst snd] in A. destruct A as (A1 & A2 & A3). exists v, v', out. split; [reflexivity|]. split; [exact S1|]. split; [exact A1|]. split; [exact A2|].
  split; [|exists v1, out1; auto]. apply generous_limits; [| |exact S1].
  - intros l E _. injection E as <-. split; [exact B|exact Cl].
  - intros m E _. injection E as <-. rewrite A1. lia.
Qed.

(** ** The clock has passed the limit when the first search starts *)
Definition late (c : Q) : outside :=
  let E := env_h in
  mkOut (mkEnv (fun _ => c) (e_master E) (e_duals E) (e_dive E) (e_order E) (e_pricer E) (e_negative E) (e_paths E)
               (e_label E) (e_random E) (e_choice E) (e_ucb E))
        0 (fun _ l => l) nx_path (fun _ => mkAnswer Infeasible None (fun _ => 0)).
(** a labelling algorithm that needs more time than it is ever given, unless it has no limit *)
Definition slow (rs : list (list node)) (n : nat) (tl : option Q) (h : vgraph) (m : label) (ref : label -> arc -> res label) (e : bool) (thr : option Q)
  : option (Q * list node) :=
  match tl with None => labeller rs h m ref e thr | Some _ => None end.
Lemma slow_sound rs n tl h : sound_labelling h (slow rs n tl h).
Proof. destruct tl as [t|]; [intros m ref e thr q p H; discriminate|exact (labeller_sound rs h)]. Qed.

Definition in_vain (c : Q) (rs : list (list node)) (tl : option Q) : res Q :=
  let* v := create (raw7 0) args7 false false false None false None false [] in
  let* r := solve (with_searches (late c) (e_pricer env_h) (slow rs)) 9 9 (with_limits tl None sa_h) v in
  best_value (out_solved (snd r)).

Lemma search_unlimited : exists X pr la la' sa v,
  create (raw7 0) args7 false false false None false None false [] = Ok v /\
  sa_time_limit sa = Some 60 /\ x_start X == 0 /\ (forall n, e_clock (x_env X) n == 100) /\
  (forall n q, right_answer q (e_master (x_env X) n q)) /\ finds_paths (x_path X) /\
  (forall n tl h, sound_labelling h (la n tl h) /\ sound_labelling h (la' n tl h)) /\
  (forall n t, la n (Some t) = la' n (Some t)) /\
  exists v1 out1 v2 out2, solve (with_searches X pr la) 9 9 sa v = Ok (v1, out1) /\ best_value (out_solved out1) = Ok 19 /\
    solve (with_searches X pr la') 9 9 sa v = Ok (v2, out2) /\ best_value (out_solved out2) = Ok 38.
Proof.
  assert (A : match create (raw7 0) args7 false false false None false None false [] with
    | Ok v => match solve (with_searches (late 100) (e_pricer env_h) (slow [trip [Cust 2; Cust 1]])) 9 9 (with_limits (Some 60) None sa_h) v,
                    solve (with_searches (late 100) (e_pricer env_h) (slow [])) 9 9 (with_limits (Some 60) None sa_h) v with
      | Ok r, Ok r1 => best_value (out_solved (snd r)) = Ok 19 /\ best_value (out_solved (snd r1)) = Ok 38
      | _, _ => False end
    | Err _ => False end) by (vm_compute; split; reflexivity).
  destruct (create (raw7 0) args7 false false false None false None false []) as [v|e] eqn:C; [|contradiction].
  destruct (solve (with_searches (late 100) (e_pricer env_h) (slow [trip [Cust 2; Cust 1]])) 9 9 (with_limits (Some 60) None sa_h) v) as [[v1 o1]|e] eqn:S1; [|contradiction].
  destruct (solve (with_searches (late 100) (e_pricer env_h) (slow [])) 9 9 (with_limits (Some 60) None sa_h) v) as [[v2 o2]|e] eqn:S2; [|contradiction].
  destruct A as (A1 & A2). exists (late 100), (e_pricer env_h), (slow [trip [Cust 2; Cust 1]]), (slow []), (with_limits (Some 60) None sa_h), v.
  split; [reflexivity|]. split; [reflexivity|]. split; [reflexivity|]. split; [intro n; reflexivity|].
  split; [intros n q; destruct (certify_right mvar_eqb mvar_eqb_eq cands_h q) as (B1 & B2); constructor; [exact B1|exact B2]|].
  split; [exact nx_path_ok|]. split; [intros; split; apply slow_sound|]. split; [reflexivity|].
  exists v1, o1, v2, o2. auto.
Qed.

(** In time, the two labelling algorithms give the same result; without a limit they do not. *)
Lemma search_in_time : (forall n, x_start (late 1) <= e_clock (x_env (late 1)) n) /\ (forall n, e_clock (x_env (late 1)) n - x_start (late 1) < 60) /\
  (forall n t, slow [trip [Cust 2; Cust 1]] n (Some t) = slow [] n (Some t)) /\
  in_vain 1 [trip [Cust 2; Cust 1]] (Some 60) = Ok 38 /\ in_vain 1 [] (Some 60) = Ok 38 /\
  in_vain 1 [trip [Cust 2; Cust 1]] None = Ok 19.
Proof.
  split; [intro n; vm_compute; discriminate|]. split; [intro n; vm_compute; reflexivity|]. split; [reflexivity|].
  split; [vm_compute; reflexivity|]. split; vm_compute; reflexivity.
Qed.
