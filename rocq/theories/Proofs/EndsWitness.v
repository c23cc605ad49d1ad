(** Calls of solve() whose column generation needs several iterations. *)
From Verif.Base Require Import Prelude Graph.
From Verif.Model Require Import Args Initial ColGen Post Schedule Solve.
From Verif.Proofs Require Import SolveSamples LabelWitness.

Definition dive7 : solve_args := mkSA [] [] "BestEdges1" true false None true false None 1 false.
Definition ended (sa : solve_args) (f : nat) : option (nat * list (nat * list node) + exn) :=
  match create (raw7 0) args7 false false false None false None false [] with
  | Ok v => match solve X7 f f sa v with Ok (v', o) => Some (inl (v_iter v', sv_routes (out_solved o))) | Err e => Some (inr e) end
  | Err _ => None end.
Lemma ended_ok sa f n r : ended sa f = Some (inl (n, r)) ->
  exists v v' out, create (raw7 0) args7 false false false None false None false [] = Ok v /\
    solve X7 f f sa v = Ok (v', out) /\ v_iter v' = n /\ sv_routes (out_solved out) = r.
Proof.
  unfold ended. destruct (create _ _ _ _ _ _ _ _ _ _) as [v|]; [|discriminate].
  destruct (solve X7 f f sa v) as [[v' o]|] eqn:E; [|discriminate]. intro H. injection H as <- <-. exists v, v', o. auto.
Qed.
Lemma ended_err sa f e : ended sa f = Some (inr e) ->
  exists v, create (raw7 0) args7 false false false None false None false [] = Ok v /\ solve X7 f f sa v = Err e.
Proof.
  unfold ended. destruct (create _ _ _ _ _ _ _ _ _ _) as [v|]; [|discriminate].
  destruct (solve X7 f f sa v) as [[v' o]|] eqn:E; [discriminate|]. intro H. injection H as <-. exists v. auto.
Qed.
Lemma ends_case : sa_cspy sa7 = true /\ sa_max_iter sa7 = None /\ sa_time_limit sa7 = None /\ sa_cspy dive7 = true /\
  sa_dive dive7 = true /\ sa_max_iter dive7 = None /\ sa_time_limit dive7 = None /\
  exists v, create (raw7 0) args7 false false false None false None false [] = Ok v /\
    solve X7 2 2 sa7 v = Err OutOfFuel /\ solve X7 1 1 dive7 v = Err OutOfFuel /\
    (exists v' out, solve X7 3 3 sa7 v = Ok (v', out) /\ v_iter v' = 3%nat /\
       sv_routes (out_solved out) = [(1%nat, [Source; Cust 1; Cust 2; Sink])]) /\
    (exists v' out, solve X7 2 2 dive7 v = Ok (v', out) /\ v_iter v' = 3%nat /\
       sv_routes (out_solved out) = [(1%nat, [Source; Cust 2; Cust 1; Sink])]).
Proof.
  do 7 (split; [reflexivity|]).
  destruct (ended_err sa7 2 OutOfFuel ltac:(vm_compute; reflexivity)) as (v & C & E1).
  destruct (ended_err dive7 1 OutOfFuel ltac:(vm_compute; reflexivity)) as (v1 & C1 & E2).
  destruct (ended_ok sa7 3 3 [(1%nat, [Source; Cust 1; Cust 2; Sink])] ltac:(vm_compute; reflexivity)) as (v2 & v2' & o2 & C2 & E3 & I2 & R2).
  destruct (ended_ok dive7 2 3 [(1%nat, [Source; Cust 2; Cust 1; Sink])] ltac:(vm_compute; reflexivity)) as (v3 & v3' & o3 & C3 & E4 & I3 & R3).
  rewrite C in C1, C2, C3. injection C1 as <-. injection C2 as <-. injection C3 as <-.
  exists v. repeat split; try assumption; [exists v2', o2|exists v3', o3]; auto.
Qed.
