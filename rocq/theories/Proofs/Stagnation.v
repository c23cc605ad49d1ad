(** The count of iterations without progress, and when exact pricing is chosen because of it. *)
From Verif.Base Require Import Prelude Graph.
From Verif.Spec Require Import Routes Network LinProg Pricing MIP Columns Pool Master Duality Run.
From Verif.Model Require Import Args Reach Checks Preprocess ClarkeWright Greedy Initial Pricing
  GreedyPricing LPPricing Cspy Master Dive Hyper ColGen.
From Verif.Proofs Require Import Deciders ColGenProofs RunProofs ColGenCor Certificate PricingWitness MasterWitness Oracles ColGenWitness DiveWitness.

Lemma same_cost_iff a b : same_cost a b = true <-> same_value a b.
Proof.
  unfold same_cost. destruct a as [p|], b as [q|]; (split; intro H; [|inversion H; subst]); try discriminate.
  - constructor. apply Qeq_bool_iff. exact H.
  - apply Qeq_bool_iff. assumption.
  - constructor.
  - reflexivity.
Qed.
Lemma nth_rev {A} (l : list A) : nth_error (rev l) 0 = match rev l with [] => None | a :: _ => Some a end.
Proof. destruct (rev l); reflexivity. Qed.

Section Stagnation.
  Variable E : env.
  Variable C : cgconfig.
  Variable g : vgraph.

  (** what one iteration does to the counter *)
  Lemma iteration_counts s s' : inv C g s -> find_columns E C s = Ok s' -> s_dive s = false ->
    exists s1 D q s2 p, solve_relaxed E C s = Ok (s1, D, q) /\ next_strategy E C q s1 = Ok (s2, p) /\
      s_iter s' = S (s_iter s) /\ s_bounds s' = s_bounds s ++ [q] /\
      (s_iter s = 0%nat -> s_noimp s' = 0%nat) /\
      ((0 < s_iter s)%nat -> exists b l, rev (s_bounds s) = b :: l /\
         (same_value q b -> s_noimp s' = S (s_noimp s2)) /\ (~ same_value q b -> s_noimp s' = 0%nat)).
  Proof.
    intros I H Hd. destruct (find_columns_ok E C g _ _ I H) as (_ & _ & Hi & _ & _ & s1 & D & q & H1 & Hb & _).
    rewrite Hd in Hb. unfold find_columns in H. rewrite H1 in H. cbn [bind] in H.
    apply bind_ok in H. destruct H as ([s2 p] & H2 & H). apply bind_ok in H. destruct H as (s3 & H3 & H4). cbn [fst snd] in H3.
    exists s1, D, q, s2, p. split; [exact H1|]. split; [exact H2|]. split; [exact Hi|]. split; [exact Hb|].
    destruct (solve_relaxed_ok E C _ _ _ _ H1) as (A1 & A2 & A3 & A4).
    destruct (next_strategy_ok E C _ _ _ _ H2) as (B1 & B2 & B3 & B4).
    assert (I2 : inv C g s2) by (eapply same_search_inv; [eapply same_search_inv; [exact I|exact A1]|exact B1]).
    destruct (vehicles_ok E C g p D (seq 0 (cg_types C)) s2 s3) as (V1 & V2 & V3 & V4); [|exact I2|exact H3|].
    { intros k Hk. apply in_seq in Hk. lia. }
    assert (Ei : s_iter s3 = s_iter s) by (rewrite (kp_iter _ _ V3), (ss_iter _ _ B1), (ss_iter _ _ A1); reflexivity).
    assert (Eb : s_bounds s3 = s_bounds s) by (rewrite (kp_bounds _ _ V3), (ss_bounds _ _ B1), (ss_bounds _ _ A1); reflexivity).
    unfold progress in H4. rewrite Ei, Eb in H4. rewrite nth_rev in H4. split.
    - intro Z. rewrite Z in H4. cbn [Nat.ltb Nat.leb bind] in H4. injection H4 as <-. reflexivity.
    - intro Z. assert (L : (1 <? S (s_iter s))%nat = true) by (apply Nat.ltb_lt; lia). rewrite L in H4.
      destruct (rev (s_bounds s)) as [|b l]; [discriminate|]. cbn [of_opt bind] in H4. injection H4 as <-.
      exists b, l. split; [reflexivity|]. cbn [s_noimp set_progress]. rewrite (kp_noimp _ _ V3). split; intro S0.
      + apply same_cost_iff in S0. rewrite S0. reflexivity.
      + destruct (same_cost q b) eqn:X; [apply same_cost_iff in X; contradiction|reflexivity].
  Qed.

  Lemma stagnant_step s s' : cg_strategy C <> None -> inv C g s -> find_columns E C s = Ok s' -> s_dive s = false ->
    s_iter s = List.length (s_bounds s) -> stagnant (rev (s_bounds s)) (s_noimp s) ->
    s_iter s' = List.length (s_bounds s') /\ stagnant (rev (s_bounds s')) (s_noimp s').
  Proof.
    intros NH I H Hd Hl Hs. destruct (iteration_counts _ _ I H Hd) as (s1 & D & q & s2 & p & H1 & H2 & Hi & Hb & Z0 & Z1).
    rewrite Hb, Hi, app_length. cbn [List.length]. split; [lia|]. rewrite rev_app_distr. cbn [rev app].
    destruct (solve_relaxed_ok E C _ _ _ _ H1) as (A1 & A2 & A3 & A4).
    destruct (next_strategy_ok E C _ _ _ _ H2) as (B1 & B2 & B3 & B4).
    destruct (Nat.eq_dec (s_iter s) 0) as [Z|Z].
    - rewrite (Z0 Z). rewrite Hl in Z. destruct (s_bounds s); [|discriminate]. constructor.
    - destruct Z1 as (b & l & Hr & S1 & S2); [lia|]. rewrite Hr in *. rewrite (B4 NH), A3 in S1.
      destruct (same_cost q b) eqn:X.
      + apply same_cost_iff in X. rewrite (S1 X). constructor; assumption.
      + assert (N : ~ same_value q b) by (intro Y; apply same_cost_iff in Y; congruence). rewrite (S2 N). constructor. exact N.
  Qed.

  Lemma starts_stagnant s st : fresh C g s -> cg_strategy C <> None -> starts E C s st ->
    s_iter st = List.length (s_bounds st) /\ stagnant (rev (s_bounds st)) (s_noimp st).
  Proof.
    intros F NH S0. assert (Fi := fresh_inv C g s F). induction S0 as [M|st s1 S0 IH H T L M].
    - rewrite (fs_iter _ _ _ F), (fs_bounds _ _ _ F), (fs_noimp _ _ _ F). split; [reflexivity|constructor].
    - cbn [s_iter s_bounds s_noimp tick]. apply (stagnant_step st); try assumption; try apply IH.
      + apply (starts_inv E C g s); assumption.
      + rewrite (starts_dive E C s st S0). apply (fs_dive _ _ _ F).
  Qed.

  Theorem stagnation_choice s st p0 s1 D q : fresh C g s -> cg_strategy C = Some p0 -> starts E C s st ->
    solve_relaxed E C st = Ok (s1, D, q) ->
    exists n, stagnant (rev (s_bounds st)) n /\ s_noimp st = n /\ s_iter st = List.length (s_bounds st) /\
      (Z.of_nat n = cg_run_exact C -> next_strategy E C q s1 = Ok (s1, Exact)) /\
      (Z.of_nat n <> cg_run_exact C -> next_strategy E C q s1 = Ok (s1, p0)).
  Proof.
    intros F Hp S0 H. assert (NH : cg_strategy C <> None) by congruence.
    destruct (starts_stagnant _ _ F NH S0) as [Hl Hs]. exists (s_noimp st).
    split; [exact Hs|]. split; [reflexivity|]. split; [exact Hl|].
    destruct (solve_relaxed_ok E C _ _ _ _ H) as (A1 & A2 & A3 & A4). unfold next_strategy. rewrite A3, Hp. split; intro X.
    - rewrite (proj2 (Z.eqb_eq _ _) X). reflexivity.
    - rewrite (proj2 (Z.eqb_neq _ _) X). reflexivity.
  Qed.

  Theorem stagnation_end f s s' : fresh C g s -> cg_strategy C <> None -> column_generation E C f s = Ok s' ->
    stagnant (rev (s_bounds s')) (s_noimp s') /\ s_iter s' = List.length (s_bounds s').
  Proof.
    intros F NH H. assert (Fi := fresh_inv C g s F). apply generation_is_run in H. destruct H as (n & _ & R).
    assert (K : forall n a b, run E C n a b -> inv C g a -> s_dive a = false ->
                 s_iter a = List.length (s_bounds a) -> stagnant (rev (s_bounds a)) (s_noimp a) ->
                 stagnant (rev (s_bounds b)) (s_noimp b) /\ s_iter b = List.length (s_bounds b)).
    { clear - NH. intros n a b R. induction R as [a M|a a1 M H L|n a a1 b M H T L R IH]; intros I Hd Hl Hs.
      - auto.
      - destruct (stagnant_step _ _ NH I H Hd Hl Hs) as [Y1 Y2]. cbn [s_iter s_bounds s_noimp tick]. auto.
      - destruct (stagnant_step _ _ NH I H Hd Hl Hs) as [Y1 Y2].
        destruct (find_columns_ok E C g _ _ I H) as (I1 & _ & _ & D1 & _).
        apply IH; cbn [s_iter s_bounds s_noimp s_dive tick]; try assumption; [apply inv_tick; exact I1|congruence]. }
    apply (K _ _ _ R Fi).
    - apply (fs_dive _ _ _ F).
    - rewrite (fs_iter _ _ _ F), (fs_bounds _ _ _ F). reflexivity.
    - rewrite (fs_bounds _ _ _ F), (fs_noimp _ _ _ F). constructor.
  Qed.

  (** With Hyper the counter restarts from the number of iterations. *)
  Lemma hyper_noimp q s s1 p : cg_strategy C = None -> next_strategy E C q s = Ok (s1, p) ->
    (Z.of_nat (s_noimp s) = cg_run_exact C /\ s_noimp s1 = s_noimp s /\ p = Exact) \/
    (Z.of_nat (s_noimp s) <> cg_run_exact C /\ s_noimp s1 = s_iter s).
  Proof.
    intros NH H. unfold next_strategy in H. rewrite NH in H. destruct (_ =? _)%Z eqn:En.
    { injection H as <- <-. left. apply Z.eqb_eq in En. auto. }
    apply Z.eqb_neq in En. right. split; [exact En|]. destruct (s_iter s =? 0)%nat.
    - apply bind_ok in H. destruct H as (h & _ & H). injection H as <- <-. reflexivity.
    - apply bind_ok in H. destruct H as (s2 & H2 & H). apply bind_ok in H. destruct H as (h & _ & H).
      destruct (pick_heuristic _ h) as [h1 p1]. injection H as <- <-. unfold update_hyper in H2.
      apply bind_ok in H2. destruct H2 as ([[pool counts] total] & Hd & H2). apply bind_ok in H2. destruct H2 as (h2 & _ & H2).
      apply bind_ok in H2. destruct H2 as (h3 & _ & H2). apply bind_ok in H2. destruct H2 as (h4 & _ & H2). injection H2 as <-.
      reflexivity.
  Qed.
  Lemma hyper_counter s st : fresh C g s -> cg_strategy C = None -> (0 < cg_run_exact C)%Z -> starts E C s st ->
    s_iter st = List.length (s_bounds st) /\
    (s_noimp st = 0%nat \/ exists a b l, rev (s_bounds st) = a :: b :: l /\ same_value a b /\
       (s_noimp st = s_iter st \/ Z.of_nat (s_noimp st) = (cg_run_exact C + 1)%Z)).
  Proof.
    intros F NH Hr S0. assert (Fi := fresh_inv C g s F). induction S0 as [M|st s1 S0 IH H T L M].
    - rewrite (fs_iter _ _ _ F), (fs_bounds _ _ _ F), (fs_noimp _ _ _ F). auto.
    - cbn [s_iter s_bounds s_noimp tick].
      assert (Hd : s_dive st = false) by (rewrite (starts_dive E C s st S0); apply (fs_dive _ _ _ F)).
      destruct (iteration_counts st s1) as (s2 & D & q & s3 & p & H1 & H2 & Hi & Hb & Z0 & Z1); try assumption.
      { apply (starts_inv E C g s); assumption. }
      destruct IH as [Hl IH]. rewrite Hb, Hi, app_length. cbn [List.length]. split; [lia|].
      destruct (Nat.eq_dec (s_iter st) 0) as [Z|Z]; [left; auto|].
      destruct Z1 as (b & l & Hrv & S1 & S2); [lia|].
      destruct (same_cost q b) eqn:X.
      2:{ left. apply S2. intro Y. apply same_cost_iff in Y. congruence. }
      apply same_cost_iff in X. right. exists q, b, l. rewrite rev_app_distr, Hrv. cbn [rev app].
      split; [reflexivity|]. split; [exact X|]. rewrite (S1 X).
      destruct (solve_relaxed_ok E C _ _ _ _ H1) as (A1 & A2 & A3 & A4).
      destruct (hyper_noimp _ _ _ _ NH H2) as [(Y1 & Y2 & _)|(Y1 & Y2)].
      + right. rewrite Y2. lia.
      + left. rewrite Y2, (ss_iter _ _ A1). reflexivity.
  Qed.
  Theorem hyper_exact_once s st : fresh C g s -> cg_strategy C = None -> (0 < cg_run_exact C)%Z -> starts E C s st ->
    Z.of_nat (s_noimp st) = cg_run_exact C ->
    Z.of_nat (List.length (s_bounds st)) = cg_run_exact C /\ (2 <= cg_run_exact C)%Z /\
    exists a b l, rev (s_bounds st) = a :: b :: l /\ same_value a b.
  Proof.
    intros F NH Hr S0 H. destruct (hyper_counter _ _ F NH Hr S0) as [Hl [Y|(a & b & l & Y1 & Y2 & [Y|Y])]]; try lia.
    assert (L := f_equal (@List.length _) Y1). rewrite rev_length in L. cbn [List.length] in L.
    split; [lia|]. split; [lia|]. eauto.
  Qed.
  Theorem hyper_exact_never s st : fresh C g s -> cg_strategy C = None -> cg_run_exact C = 1%Z -> starts E C s st ->
    Z.of_nat (s_noimp st) <> cg_run_exact C.
  Proof.
    intros F NH Hr S0 H. destruct (hyper_exact_once s st F NH ltac:(lia) S0 H) as (_ & X & _). lia.
  Qed.
End Stagnation.

(** ** Runs in which the value of the relaxation does not change: the solver returns the first
    solution again and again *)
Definition env_s : env :=
  quiet netm (fun n => inject_Z (Z.of_nat n))
    (fun n => answers (by_name [(1%nat, 1); (2%nat, 1); (3%nat, 1)]))
    (fun _ => by_node [(1%Z, 20); (2%Z, 22); (3%Z, 80)]) [[Cust 3]; [Cust 1; Cust 2]].
Definition cg_s (p : option strat) (e : Z) : cgconfig :=
  mkCG p false false false (Some 6%Z) e None 0 1 None None None optm mo0 (custs netm).
Lemma fresh_s e : fresh (cg_s (Some BestEdges1) e) netm start_g.
Proof. apply (start_fresh (cg_s (Some BestEdges1) e) netm given_g); try reflexivity; vm_compute; reflexivity. Qed.
Lemma fresh_h e : fresh (cg_s None e) netm start_k.
Proof. apply (start_fresh (cg_s None e) netm given_g); try reflexivity; vm_compute; reflexivity. Qed.

Definition seen (E : env) (C : cgconfig) (n : nat) (s : state) (P : state -> strat -> bool) : bool :=
  match nth_start E C n s with
  | Some st =>
      match solve_relaxed E C st with
      | Ok (s1, _, q) => match next_strategy E C q s1 with Ok (_, p) => P st p | Err _ => false end
      | Err _ => false
      end
  | None => false
  end.
Lemma seen_ok E C n s P : seen E C n s P = true -> exists st s1 D q s2 p, starts E C s st /\
  solve_relaxed E C st = Ok (s1, D, q) /\ next_strategy E C q s1 = Ok (s2, p) /\ P st p = true.
Proof.
  unfold seen. destruct (nth_start E C n s) as [st|] eqn:X; [|discriminate].
  destruct (solve_relaxed E C st) as [[[s1 D] q]|] eqn:Y; [|discriminate].
  destruct (next_strategy E C q s1) as [[s2 p]|] eqn:Z; [|discriminate]. intro H.
  exists st, s1, D, q, s2, p. split; [eapply nth_starts; exact X|]. auto.
Qed.
Fixpoint qlist_eqb (l l' : list (option Q)) : bool :=
  match l, l' with
  | [], [] => true
  | Some p :: l, Some q :: l' => (Qnum p =? Qnum q)%Z && (Qden p =? Qden q)%positive && qlist_eqb l l'
  | _, _ => false
  end.
Lemma qlist_eqb_ok l : forall l', qlist_eqb l l' = true -> l = l'.
Proof.
  induction l as [|[p|] l IH]; intros [|[q|] l'] H; try discriminate; [reflexivity|]. cbn [qlist_eqb] in H.
  rewrite !andb_true_iff in H. destruct H as [[A B] D]. apply Z.eqb_eq in A. apply Pos.eqb_eq in B. rewrite (IH _ D).
  destruct p as [a b], q as [a' b']. cbn [Qnum Qden] in *. congruence.
Qed.

Lemma stagnation_case : exists st s1 D q s2, fresh (cg_s (Some BestEdges1) 2) netm start_g /\
  starts env_s (cg_s (Some BestEdges1) 2) start_g st /\ s_bounds st = [Some 122; Some 122; Some 122] /\
  solve_relaxed env_s (cg_s (Some BestEdges1) 2) st = Ok (s1, D, q) /\
  next_strategy env_s (cg_s (Some BestEdges1) 2) q s1 = Ok (s2, Exact).
Proof.
  destruct (seen_ok env_s (cg_s (Some BestEdges1) 2) 3 start_g
              (fun st p => qlist_eqb (s_bounds st) [Some 122; Some 122; Some 122] && strat_eqb p Exact))
    as (st & s1 & D & q & s2 & p & H1 & H2 & H3 & H4); [vm_compute; reflexivity|].
  apply andb_true_iff in H4. destruct H4 as [H4 H5]. apply qlist_eqb_ok in H4. destruct p; try discriminate.
  exists st, s1, D, q, s2. split; [apply fresh_s|]. auto.
Qed.
Lemma hyper_once_case : exists st s1 D q s2, fresh (cg_s None 2) netm start_k /\
  starts env_s (cg_s None 2) start_k st /\ Z.of_nat (s_noimp st) = cg_run_exact (cg_s None 2) /\
  s_bounds st = [Some 122; Some 122] /\
  solve_relaxed env_s (cg_s None 2) st = Ok (s1, D, q) /\
  next_strategy env_s (cg_s None 2) q s1 = Ok (s2, Exact).
Proof.
  destruct (seen_ok env_s (cg_s None 2) 2 start_k
              (fun st p => qlist_eqb (s_bounds st) [Some 122; Some 122] && strat_eqb p Exact && (s_noimp st =? 2)%nat))
    as (st & s1 & D & q & s2 & p & H1 & H2 & H3 & H4); [vm_compute; reflexivity|].
  rewrite !andb_true_iff in H4. destruct H4 as [[H4 H5] H6]. apply qlist_eqb_ok in H4. destruct p; try discriminate.
  apply Nat.eqb_eq in H6. exists st, s1, D, q, s2. split; [apply fresh_h|]. split; [exact H1|]. split; [rewrite H6; reflexivity|]. auto.
Qed.
(** The default value of run_exact: the value has not changed for one iteration, and another
    heuristic is tried. *)
Lemma hyper_ignores : exists E C g s st s1 D q s2 p, fresh C g s /\ network 1 g /\ cg_strategy C = None /\ cg_run_exact C = 1%Z /\
  starts E C s st /\ stagnant (rev (s_bounds st)) 1 /\
  solve_relaxed E C st = Ok (s1, D, q) /\ next_strategy E C q s1 = Ok (s2, p) /\ p <> Exact.
Proof.
  destruct (seen_ok env_s (cg_s None 1) 2 start_k
              (fun st p => qlist_eqb (s_bounds st) [Some 122; Some 122] && negb (strat_eqb p Exact)))
    as (st & s1 & D & q & s2 & p & H1 & H2 & H3 & H4); [vm_compute; reflexivity|].
  rewrite !andb_true_iff in H4. destruct H4 as [H4 H5]. apply qlist_eqb_ok in H4.
  exists env_s, (cg_s None 1), netm, start_k, st, s1, D, q, s2, p. split; [apply fresh_h|]. split; [exact netm_network|].
  split; [reflexivity|]. split; [reflexivity|]. split; [exact H1|]. split.
  { rewrite H4. apply st_same; [constructor; reflexivity|apply st_one]. }
  split; [exact H2|]. split; [exact H3|]. intros ->. discriminate.
Qed.
