(** Concrete calls of solve() with labelling pricing. *)
From Verif.Base Require Import Prelude Graph.
From Verif.Spec Require Import Routes Network Inputs Feasible LinProg Pricing MIP Timing Labelling Master Run Results Plans.
From Verif.Model Require Import Args Reach Checks Preprocess ClarkeWright Greedy Initial Pricing
  GreedyPricing LPPricing Cspy Master Dive Hyper ColGen Post Schedule Solve.
From Verif.Proofs Require Import RouteLemmas Deciders CspyProofs PricingCor Certificate DiveProofs PricingWitness MasterWitness PostEnd Oracles
  ColGenWitness SolveUser SolveSamples SolveWitness.

(* ------------------------------------------------------------------ *)
(** ** A labelling algorithm that knows some paths *)

Definition label_leb (a b : label) : bool :=
  Qle_bool (l_stops a) (l_stops b) && Qle_bool (l_load a) (l_load b) && Qle_bool (l_time a) (l_time b) &&
  Qle_bool (l_window a) (l_window b) && Qle_bool (l_collect a) (l_collect b) && Qle_bool (l_deliver a) (l_deliver b).
Lemma label_leb_ok a b : label_leb a b = true -> label_le a b.
Proof.
  unfold label_leb. rewrite !andb_true_iff, !Qle_bool_iff. intros (((((A & B) & C) & D) & E) & F). constructor; assumption.
Qed.
Definition labelled_ok (ref : label -> arc -> res label) (P : label -> bool) (p : list node) : bool :=
  match path_label ref p with Ok l => P l | Err _ => true end.
Definition acceptableb (h : vgraph) (m : label) (ref : label -> arc -> res label) (p : list node) : bool :=
  match p with
  | Source :: _ =>
      forallb (fun a => mem_arc a (arc_list h)) (arcs p) && node_eqb (last p Source) Sink &&
      forallb (fun n => labelled_ok ref (fun l => label_leb l m) (firstn n p)) (seq 1 (List.length p)) &&
      labelled_ok ref (label_leb zero_label) p
  | _ => false
  end.
Lemma along_walk A : forall q u, (forall a, In a (arcs (u :: q)) -> In a A) -> walk A u (last (u :: q) u) (u :: q).
Proof.
  induction q as [|w q IH]; intros u H; [constructor|].
  change (last (u :: w :: q) u) with (last (w :: q) u).
  assert (E' : last (w :: q) u = last (w :: q) w).
  { clear. revert w. assert (G : forall l (x a b : node), last (x :: l) a = last (x :: l) b).
    { induction l as [|y l IHl]; intros x a b; [reflexivity|]. exact (IHl y a b). } intro w. apply G. }
  rewrite E'. econstructor; [apply H; left; reflexivity|]. apply IH. intros a Ha. apply H. right. exact Ha.
Qed.
Lemma acceptableb_ok h m ref p : acceptableb h m ref p = true -> resource_feasible h m ref p.
Proof.
  unfold acceptableb. destruct p as [|[| |i] q]; try discriminate. rewrite !andb_true_iff. intros (((A & B) & C) & D). constructor.
  - apply node_eqb_eq in B. rewrite <- B. apply along_walk. intros a Ha. apply mem_arc_In. exact (proj1 (forallb_forall _ _) A a Ha).
  - intros p1 p2 l E N1 L. assert (Hn : In (List.length p1) (seq 1 (List.length (Source :: q)))).
    { apply in_seq. rewrite E, app_length. destruct p1; [congruence|]. cbn. lia. }
    apply (proj1 (forallb_forall _ _) C) in Hn. rewrite E, firstn_app, Nat.sub_diag, firstn_all, firstn_O, app_nil_r in Hn.
    unfold labelled_ok in Hn. rewrite L in Hn. apply label_leb_ok. exact Hn.
  - intros l L. unfold labelled_ok in D. rewrite L in D. apply label_leb_ok. exact D.
Qed.

(** the first of the paths [ps] that is allowed and has a negative weight *)
Definition labeller (ps : list (list node)) (h : vgraph) (m : label) (ref : label -> arc -> res label) (e : bool) (thr : option Q)
  : option (Q * list node) :=
  match find (fun p => acceptableb h m ref p && (negb e || no_repeat p) && Qltb (path_sum (weight_of h) p) 0) ps with
  | Some p => Some (path_sum (weight_of h) p, p)
  | None => None
  end.
Lemma labeller_sound ps h : sound_labelling h (labeller ps h).
Proof.
  intros m ref e thr q p H. unfold labeller in H. destruct (find _ ps) as [p'|] eqn:F; [|discriminate]. injection H as <- <-.
  apply find_some in F. destruct F as (_ & F). rewrite !andb_true_iff in F. destruct F as ((A & B) & _).
  split; [apply acceptableb_ok; exact A|]. split; [reflexivity|]. intros ->. cbn in B. apply no_repeat_NoDup. exact B.
Qed.

(* ------------------------------------------------------------------ *)
(** ** Two customers, [s] the time of a service *)

Definition raw7 (s : Q) : rgraph :=
  let nr := mkNR (Some 1) None (Some s) None None None None false in
  let er c := mkER (Some (Scalar c)) (Some 1) in
  mkGraph [(Source, mkNR None None None None None None None false); (Cust 1, nr); (Cust 2, nr);
           (Sink, mkNR None None None None None None None false)]
          [((Source, Cust 1), er 10); ((Source, Cust 2), er 9); ((Cust 1, Cust 2), er 2); ((Cust 2, Cust 1), er 1);
           ((Cust 1, Sink), er 9); ((Cust 2, Sink), er 10)].
Definition args7 : rargs := mkArgs (PNum (PInt 3)) (PNum (PInt 10)) (PNum (PInt 10)) PNone PNone false "Exact".
Definition sa7 : solve_args := mkSA [] [] "Exact" true false None false false None 1 false.
Definition by_elem (l : list (cname * Q)) (v : mvar) : Q :=
  match v with
  | Y c => match find (fun t => match fst t, c with CNat i, CNat j | CElem i, CElem j | CNonElem i, CNonElem j => (i =? j)%nat | _, _ => false end) l with
           | Some t => snd t | None => 0 end
  | _ => 0 end.
(** the first answer of the labelling algorithm visits customer 2 twice *)
Definition env7 : env :=
  mkEnv (fun _ => 0)
        (fun _ => propose [by_elem [(CElem 22, 1)]; by_elem [(CNat 1, 1)]])
        (fun n => by_node [(1%Z, 20); (2%Z, 20)])
        (fun _ _ => answers (fun _ => 0)) (fun _ l => l)
        (fun _ _ _ => mkAnswer Infeasible None (fun _ => 0)) (fun _ _ => false)
        (fun _ _ _ => [])
        (fun n _ => labeller (if (n <? 5)%nat then [[Source; Cust 2; Cust 1; Cust 2; Sink]] else [trip [Cust 1; Cust 2]]))
        (fun _ _ _ => 0%nat) (fun _ => 0%nat) (fun _ _ => 0).
Definition X7 : outside := mkOut env7 0 (fun _ l => l) nx_path (fun _ => mkAnswer Infeasible None (fun _ => 0)).

Definition env8 : env :=
  mkEnv (fun _ => 0)
        (fun _ => certify mvar_eqb [(by_elem [(CNat 1, 1); (CNat 2, 1)], [19; 19]); (by_elem [(CElem 41, 1)], [10; 9])])
        (fun n => if (n <? 3)%nat then by_node [(1%Z, 19); (2%Z, 19)] else by_node [(1%Z, 10); (2%Z, 9)])
        (fun _ _ => answers (fun _ => 0)) (fun _ l => l)
        (fun _ _ _ => mkAnswer Infeasible None (fun _ => 0)) (fun _ _ => false)
        (fun _ _ _ => []) (fun n _ => labeller [trip [Cust 2; Cust 1]])
        (fun _ _ _ => 0%nat) (fun _ => 0%nat) (fun _ _ => 0).
Definition X8 : outside := mkOut env8 0 (fun _ l => l) nx_path (fun _ => mkAnswer Infeasible None (fun _ => 0)).

Lemma raw7_wf s : wf (raw7 s). Proof. apply wfb_ok. vm_compute. reflexivity. Qed.
Lemma raw7_costs s : no_empty_costs (raw7 s). Proof. apply costs_givenb_ok. vm_compute. reflexivity. Qed.
Lemma raw7_demands s : nonneg_user_demands (raw7 s). Proof. apply demandsb_ok. vm_compute. reflexivity. Qed.
Lemma raw7_aux s : forall u r, node_data (raw7 s) u = Some r -> r_aux_depot r = false.
Proof.
  intros u r H. unfold node_data in H. apply assoc_node_In in H. cbn in H.
  repeat (destruct H as [H|H]; [injection H as <- <-; reflexivity|]). destruct H.
Qed.
Lemma raw7_symmetric s : (forall u, In u (custs (raw7 s)) -> user_time (raw7 s) u Sink == user_time (raw7 s) Source u) /\
  (forall u w, In u (custs (raw7 s)) -> In w (custs (raw7 s)) -> In (u, w) (arc_list (raw7 s)) -> In (w, u) (arc_list (raw7 s)) ->
     user_time (raw7 s) w u == user_time (raw7 s) u w).
Proof.
  split.
  - intros u H. cbn in H. repeat (destruct H as [<-|H]; [vm_compute; reflexivity|]). destruct H.
  - intros u w Hu Hw H1 H2. cbn in H1, H2.
    repeat (destruct H1 as [H1|H1]; [injection H1 as <- <-; first [vm_compute; reflexivity | exfalso; cbn in H2; intuition discriminate | exfalso; cbn in Hu; intuition discriminate | exfalso; cbn in Hw; intuition discriminate]|]).
    destruct H1.
Qed.

(** a call that meets the hypotheses: the first column found visits a customer twice, the second is selected *)
Lemma labelling_case : let g := raw7 0 in
  wf g /\ no_empty_costs g /\ nonneg_user_demands g /\
  (forall u r, node_data g u = Some r -> r_aux_depot r = false) /\
  (forall x l, Permutation l (x_perms X7 x l)) /\
  (forall n q, sound_answer q (e_master (x_env X7) n q)) /\
  (forall n tl h, sound_labelling h (e_label (x_env X7) n tl h)) /\ finds_paths (x_path X7) /\
  0 <= user_service g Source /\ (forall u, In u (custs g) -> user_service g u == 0) /\
  (forall u, In u (custs g) -> user_time g u Sink == user_time g Source u) /\
  (forall u w, In u (custs g) -> In w (custs g) -> In (u, w) (arc_list g) -> In (w, u) (arc_list g) ->
     user_time g w u == user_time g u w) /\
  (forall D u, time_limit args7 D -> In u (custs g) ->
     user_time g Source u + user_time g u Sink + user_service g u <= inject_Z D) /\
  exists v v' out, create g args7 false false false None false None false [] = Ok v /\
    solve X7 9 9 sa7 v = Ok (v', out) /\ v_iter v' = 3%nat /\ map c_name (v_chosen v') = [CElem 22] /\
    sv_routes (out_solved out) = [(1%nat, trip [Cust 1; Cust 2])] /\ best_value (out_solved out) = Ok 22.
Proof.
  cbv zeta. split; [apply raw7_wf|]. split; [apply raw7_costs|]. split; [apply raw7_demands|]. split; [apply raw7_aux|].
  split; [intros x l; reflexivity|]. split; [intros n q; apply propose_sound|]. split; [intros n tl h; apply labeller_sound|].
  split; [exact nx_path_ok|]. split; [vm_compute; discriminate|].
  split. { intros u H. cbn in H. repeat (destruct H as [<-|H]; [vm_compute; reflexivity|]). destruct H. }
  split; [apply raw7_symmetric|]. split; [apply raw7_symmetric|].
  split. { intros D u (E & _) H. injection E as <-. cbn in H. repeat (destruct H as [<-|H]; [vm_compute; discriminate|]). destruct H. }
  apply (solve_ok X7 sa7 (raw7 0) args7 9
    (fun v' out => v_iter v' = 3%nat /\ map c_name (v_chosen v') = [CElem 22] /\
       sv_routes (out_solved out) = [(1%nat, trip [Cust 1; Cust 2])] /\ best_value (out_solved out) = Ok 22)).
  vm_compute. repeat split; reflexivity.
Qed.

(** services count in the duration, but not for the labelling algorithm *)
Theorem labelling_overtime : exists X sa g a v v' out r,
  wf g /\ acceptable g a (sa_strategy sa) /\ (forall u w, 0 <= user_time g u w) /\ (forall u, 0 <= user_service g u) /\
  sa_initial sa = [] /\ sa_pre sa = [] /\ sa_cspy sa = true /\ sa_dive sa = false /\ sa_greedy sa = false /\ sa_heuristic sa = false /\
  (forall x l, Permutation l (x_perms X x l)) /\
  (forall n q, sound_answer q (e_master (x_env X) n q) /\
     (a_status (e_master (x_env X) n q) = Optimal -> forall y, feasible y q ->
      value (a_value (e_master (x_env X) n q)) (p_obj q) <= value y (p_obj q))) /\
  (forall n tl h, sound_labelling h (e_label (x_env X) n tl h)) /\ finds_paths (x_path X) /\
  (forall u, In u (custs g) -> user_time g u Sink == user_time g Source u) /\
  (forall u w, In u (custs g) -> In w (custs g) -> In (u, w) (arc_list g) -> In (w, u) (arc_list g) ->
     user_time g w u == user_time g u w) /\
  (forall D u, time_limit a D -> In u (custs g) ->
     user_time g Source u + user_time g u Sink + user_service g u <= inject_Z D) /\
  create g a false false false None false None false [] = Ok v /\ solve X 9 9 sa v = Ok (v', out) /\
  In r (map snd (sv_routes (out_solved out))) /\ ~ within_time g a r.
Proof.
  destruct (solve_ok X8 sa7 (raw7 5) args7 9
    (fun _ out => sv_routes (out_solved out) = [(1%nat, trip [Cust 2; Cust 1])])) as (v & v' & out & C & Sv & Hr);
    [vm_compute; reflexivity|].
  exists X8, sa7, (raw7 5), args7, v, v', out, (trip [Cust 2; Cust 1]).
  split; [apply raw7_wf|]. split.
  { apply preparedb_iff; [apply raw7_wf|reflexivity|apply raw7_costs|apply raw7_demands|apply timesb_ok; vm_compute; reflexivity|]. vm_compute. reflexivity. }
  split; [apply timesb_ok; vm_compute; reflexivity|].
  split. { intro u. unfold user_service. destruct (node_data (raw7 5) u) as [d|] eqn:E; [|lra]. unfold node_data in E. apply assoc_node_In in E. cbn in E.
           repeat (destruct E as [E|E]; [injection E as <- <-; vm_compute; discriminate|]). destruct E. }
  do 6 (split; [reflexivity|]). split; [intros x l; reflexivity|].
  split; [intros n q; apply (certify_right mvar_eqb mvar_eqb_eq)|]. split; [intros n tl h; apply labeller_sound|].
  split; [exact nx_path_ok|]. split; [apply raw7_symmetric|]. split; [apply raw7_symmetric|].
  split. { intros D u (E & _) H. injection E as <-. cbn in H. repeat (destruct H as [<-|H]; [vm_compute; discriminate|]). destruct H. }
  split; [exact C|]. split; [exact Sv|]. split; [rewrite Hr; left; reflexivity|].
  intro W. clear - W. assert (T : time_limit args7 10) by (split; [reflexivity|discriminate]). unfold within_time in W.
  apply (W 10%Z T). vm_compute. reflexivity.
Qed.
