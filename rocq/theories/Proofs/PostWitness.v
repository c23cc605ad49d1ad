(** Concrete results: routes, values, times and schedules of small problems. *)
From Verif.Base Require Import Prelude Graph.
From Verif.Spec Require Import Routes Network LinProg Inputs Feasible Prep MIP Results.
From Verif.Model Require Import Args Reach Checks Preprocess ClarkeWright Greedy Initial Pricing Post Schedule.
From Verif.Proofs Require Import RouteLemmas Deciders PreLemmas PostProofs TimesProofs PostCor ScheduleProofs PostEnd MasterWitness.

(** Two vehicle types. *)
Definition net2t : vgraph :=
  let a u v c1 c2 t := ((u, v), mkE [c1; c2] t 0) in
  mkGraph [(Source, mk_node 0 0 0 100); (Cust 1, mk_node 3 1 0 50); (Cust 2, mk_node 4 1 20 50);
           (Cust 3, mk_node 5 1 0 60); (Cust 4, mk_node 6 1 0 60); (Sink, mk_node 0 0 0 100)]
          [a Source (Cust 1) 10 12 5; a Source (Cust 2) 11 13 6; a Source (Cust 3) 12 14 7; a Source (Cust 4) 1 9 8;
           a (Cust 1) (Cust 2) 2 3 4; a (Cust 1) Sink 10 12 5; a (Cust 2) Sink 11 13 6; a (Cust 3) Sink 12 14 7;
           a (Cust 4) Sink 1 9 8; a Source Sink 0 0 0].
Definition chosen2 : list column :=
  [mkCol (CNat 7) (trip [Cust 1; Cust 2]) (arcs (trip [Cust 1; Cust 2])) None 28 1 None;
   mkCol (CNat 2) (trip [Cust 3]) (arcs (trip [Cust 3])) None 24 0 None].
Definition locked2 : list (list node) := [[Cust 1; Cust 2]; trip [Cust 4]].
Definition solved2 (drop : option Q) (span : bool) (dropped : list node) : solved :=
  mkSolved net2t net2t (Some [5%Z; 10%Z]) (Some 90%Z) false false false drop span
    [(1%nat, trip [Cust 1; Cust 2]); (2%nat, trip [Cust 3]); (3%nat, trip [Cust 4])]
    [(1%nat, 1%nat); (2%nat, 0%nat); (3%nat, 1%nat)] dropped.

Lemma shapes2 : Forall2 (fun c r => route_shape r /\ forall a, In a (c_arcs c) <-> In a (arcs r)) chosen2 [trip [Cust 1; Cust 2]; trip [Cust 3]].
Proof.
  constructor; [split; [apply route_shapeb_ok; reflexivity|intro; reflexivity]|].
  constructor; [split; [apply route_shapeb_ok; reflexivity|intro; reflexivity]|constructor].
Qed.

Lemma lists2 : node_lists nx_path net2t (Some [5%Z; 10%Z]) 2 locked2 chosen2 =
  Ok ([(1%nat, trip [Cust 1; Cust 2]); (2%nat, trip [Cust 3]); (3%nat, trip [Cust 4])], [(1%nat, 1%nat); (2%nat, 0%nat); (3%nat, 1%nat)]).
Proof. vm_compute. reflexivity. Qed.

Lemma keeps2 : keeps complete_route locked2 [trip [Cust 4]].
Proof.
  apply keeps_no; [intros (q & E); discriminate|]. apply keeps_yes; [exists [Cust 4]; reflexivity|constructor].
Qed.

Lemma results2 :
  (forall i r, In (i, r) (sv_routes (solved2 (Some 50) false [Cust 5])) ->
     knows 2 net2t r /\ exists k, dget Nat.eqb i (sv_types (solved2 (Some 50) false [Cust 5])) = Some k /\ (k < 2)%nat) /\
  best_routes_cost (solved2 (Some 50) false [Cust 5]) = Ok [(1%nat, 28); (2%nat, 24); (3%nat, 18)] /\
  best_routes_load (solved2 (Some 50) false [Cust 5]) = Ok [(1%nat, 7); (2%nat, 5); (3%nat, 6)] /\
  best_routes_duration (solved2 (Some 50) false [Cust 5]) = Ok [(1%nat, 17); (2%nat, 15); (3%nat, 17)] /\
  best_value (solved2 (Some 50) false [Cust 5]) = Ok 120 /\
  best_value (solved2 None true []) = Ok 28.
Proof.
  assert (K2 : forall u v e, arc_data net2t u v = Some e -> (2 <= List.length (ecost e))%nat) by (apply (net_costs 2 net2t); apply networkb_ok; vm_compute; reflexivity).
  split; [|vm_compute; auto]. intros i r H. cbn in H.
  destruct H as [H|[H|[H|[]]]]; injection H as <- <-; (split; [split; [|split; [apply alongb_iff; vm_compute; reflexivity|exact K2]]|eexists; split; [reflexivity|lia]]);
    intros v Hv; cbn in *; repeat (destruct Hv as [Hv|Hv]; [subst v; tauto|]); destruct Hv.
Qed.

(* ------------------------------------------------------------------ *)
(** ** Arrival times after preprocessing *)

Definition rawt (slow : Q) : rgraph :=
  let nr d := mkNR (Some d) None (Some 0) (Some 0) (Some 200) None None false in
  let er t := mkER (Some (Vec [1])) (Some t) in
  mkGraph [(Source, nr 0); (Cust 1, nr 3); (Cust 2, nr 4); (Sink, nr 0)]
          [((Source, Cust 1), er 1); ((Source, Cust 2), er slow); ((Cust 1, Cust 2), er 2);
           ((Cust 1, Sink), er 1); ((Cust 2, Sink), er 1)].
Definition cfgt : config := mkConfig None None None [] None 1.
Definition optt (pre : list (list node)) : options := mkOptions true false false false None false pre.
Definition solvedt (p : prepared) (rs : list (nat * list node)) : solved :=
  mkSolved (pr_graph p) (pr_copy p) None None true false false None false rs (map (fun q => (fst q, 0%nat)) rs) [].

Lemma rawt_ok slow : wf (rawt slow) /\ In Source (nodes (rawt slow)) /\ In Sink (nodes (rawt slow)) /\
  (forall u, ~ In (u, Source) (arc_list (rawt slow))) /\ (forall v, ~ In (Sink, v) (arc_list (rawt slow))) /\ cost_lists 1 (rawt slow) /\
  (forall v, In v (custs (rawt slow)) -> In (Source, v) (arc_list (rawt slow)) /\ In (v, Sink) (arc_list (rawt slow))).
Proof.
  split; [apply wfb_ok; vm_compute; reflexivity|]. split; [simpl; auto|]. split; [simpl; tauto|].
  split; [intros u H; simpl in H; intuition discriminate|]. split; [intros u H; simpl in H; intuition discriminate|]. split.
  { intros u v e H. apply assoc_arc_In in H. simpl in H. repeat (destruct H as [H|H]; [inversion H; subst; eexists; split; [reflexivity|simpl; lia]|]). destruct H. }
  intros v H. simpl in H. destruct H as [<-|[<-|[]]]; simpl; tauto.
Qed.

(** The direct trip to customer 2 takes 3, through customer 1 too. *)
Lemma caset : exists p, pre_solve cfgt (optt []) (rawt 3) = Ok p /\ nonneg_times (pr_copy p) /\ direct_is_fastest (pr_copy p) /\ nonneg_services (pr_copy p) /\
  let s := solvedt p [(1%nat, trip [Cust 1; Cust 2])] in
  timed (sv_windows s) (sv_duration s) /\ route_shape (trip [Cust 1; Cust 2]) /\ along (arc_list (pr_graph p)) (trip [Cust 1; Cust 2]) /\
  arrival_time s = Ok [(1%nat, [(Source, 0); (Cust 1, 1); (Cust 2, 3); (Sink, 4)])] /\ check_arrival_time s = Ok tt /\
  lower_of (pr_graph p) (Cust 2) == 3 /\ lower_of (pr_copy p) (Cust 2) == 0.
Proof.
  eexists. split; [vm_compute; reflexivity|].
  split; [apply nonneg_timesb_ok; vm_compute; reflexivity|].
  split. { split; intros u v H; vm_compute in H; intros H1 H2; repeat (destruct H as [H|H]; [inversion H; subst; try congruence; vm_compute; discriminate|]); destruct H. }
  split; [apply nonneg_servicesb_ok; vm_compute; reflexivity|]. cbv zeta.
  split; [left; reflexivity|]. split; [apply route_shapeb_ok; reflexivity|]. split; [apply alongb_iff; vm_compute; reflexivity|].
  split; [vm_compute; reflexivity|]. split; [vm_compute; reflexivity|]. split; vm_compute; reflexivity.
Qed.

(** Refuted: the direct trip to customer 2 takes 100, through customer 1 only 3. *)
Lemma check_arrival_wrong : exists g p r,
  (wf g /\ In Source (nodes g) /\ In Sink (nodes g) /\ (forall u, ~ In (u, Source) (arc_list g)) /\ (forall v, ~ In (Sink, v) (arc_list g)) /\
   cost_lists 1 g /\ (forall v, In v (custs g) -> In (Source, v) (arc_list g) /\ In (v, Sink) (arc_list g))) /\
  pre_solve cfgt (optt []) g = Ok p /\ nonneg_times (pr_copy p) /\ nonneg_services (pr_copy p) /\
  route_shape r /\ along (arc_list (pr_graph p)) r /\ windows_ok (pr_copy p) r /\
  check_arrival_time (solvedt p [(1%nat, r)]) = Err AssertionError.
Proof.
  exists (rawt 100). eexists. exists (trip [Cust 1; Cust 2]). split; [apply rawt_ok|]. split; [vm_compute; reflexivity|].
  split; [apply nonneg_timesb_ok; vm_compute; reflexivity|]. split; [apply nonneg_servicesb_ok; vm_compute; reflexivity|].
  split; [apply route_shapeb_ok; reflexivity|]. split; [apply alongb_iff; vm_compute; reflexivity|].
  split; [exists [0; 1; 3; 4]; vm_compute; intuition discriminate|]. vm_compute. reflexivity.
Qed.

(** Refuted for complete preassigned routes: their customers are no longer in the graph. *)
Lemma check_arrival_locked : exists g p r,
  (wf g /\ In Source (nodes g) /\ In Sink (nodes g) /\ (forall u, ~ In (u, Source) (arc_list g)) /\ (forall v, ~ In (Sink, v) (arc_list g)) /\
   cost_lists 1 g /\ (forall v, In v (custs g) -> In (Source, v) (arc_list g) /\ In (v, Sink) (arc_list g))) /\
  pre_solve cfgt (optt [r]) g = Ok p /\ nonneg_times (pr_copy p) /\ nonneg_services (pr_copy p) /\ direct_is_fastest (pr_copy p) /\
  route_shape r /\ along (arc_list (pr_copy p)) r /\ windows_ok (pr_copy p) r /\
  check_arrival_time (solvedt p [(1%nat, r)]) = Err KeyError.
Proof.
  exists (rawt 3). eexists. exists (trip [Cust 2]). split; [apply rawt_ok|]. split; [vm_compute; reflexivity|].
  split; [apply nonneg_timesb_ok; vm_compute; reflexivity|]. split; [apply nonneg_servicesb_ok; vm_compute; reflexivity|].
  split. { split; intros u v H; vm_compute in H; intros H1 H2; repeat (destruct H as [H|H]; [inversion H; subst; try congruence; vm_compute; discriminate|]); destruct H. }
  split; [apply route_shapeb_ok; reflexivity|]. split; [apply alongb_iff; vm_compute; reflexivity|].
  split; [exists [0; 3; 4]; vm_compute; intuition discriminate|]. vm_compute. reflexivity.
Qed.

(* ------------------------------------------------------------------ *)
(** ** Loads with simultaneous distribution and collection *)

Definition netc : vgraph :=
  mkGraph [(Source, mk_node 0 0 0 0); (Cust 1, mkN 1 2 0 0 0 1 None false); (Cust 2, mkN 3 1 0 0 0 1 None false); (Sink, mk_node 0 0 0 0)]
          [mk_arc Source (Cust 1) 1 0; mk_arc Source (Cust 2) 1 0; mk_arc (Cust 1) (Cust 2) 1 0; mk_arc (Cust 1) Sink 1 0; mk_arc (Cust 2) Sink 1 0].
Definition solvedc (cap : Z) : solved :=
  mkSolved netc netc (Some [cap]) None false false true None false [(1%nat, trip [Cust 1; Cust 2])] [(1%nat, 0%nat)] [].

Lemma node_load_exceeds : exists s d i r c l v,
  sv_both s = true /\ network 1 (sv_copy s) /\ sv_caps s = Some [c] /\ sv_types s = [(i, 0%nat)] /\ sv_routes s = [(i, r)] /\
  route_shape r /\ along (arc_list (sv_copy s)) r /\
  (forall p1 p2, r = p1 ++ p2 -> 0 <= load_between (sv_copy s) p1 p2 <= inject_Z c) /\
  node_load s = Ok [(i, d)] /\ In (v, l) d /\ inject_Z c < l.
Proof.
  exists (solvedc 10), [(Source, 10); (Cust 1, 11); (Cust 2, 9); (Sink, 9)], 1%nat, (trip [Cust 1; Cust 2]), 10%Z, 11, (Cust 1).
  split; [reflexivity|]. split; [apply networkb_ok; vm_compute; reflexivity|]. split; [reflexivity|]. split; [reflexivity|]. split; [reflexivity|].
  split; [apply route_shapeb_ok; reflexivity|]. split; [apply alongb_iff; vm_compute; reflexivity|].
  split.
  { intros p1 p2 E. unfold trip in E. cbn in E. repeat (destruct p1 as [|? p1]; cbn in E; [subst p2; vm_compute; split; discriminate|injection E as <- E]). 
    destruct p1; [|discriminate]. cbn in E. subst p2. vm_compute. split; discriminate. }
  split; [vm_compute; reflexivity|]. split; [right; left; reflexivity|]. vm_compute. reflexivity.
Qed.

(* ------------------------------------------------------------------ *)
(** ** Schedules *)

Definition nets (d1 : Q) : vgraph :=
  mkGraph [(Source, mk_node 0 0 0 0); (Cust 1, mk_node d1 0 0 0); (Cust 2, mk_node 1 0 0 0); (Cust 3, mk_node 1 0 0 0); (Sink, mk_node 0 0 0 0)]
          [mk_arc Source (Cust 1) 1 0; mk_arc Source (Cust 2) 1 0; mk_arc Source (Cust 3) 1 0;
           mk_arc (Cust 1) Sink 1 0; mk_arc (Cust 2) Sink 1 0; mk_arc (Cust 3) Sink 1 0].
Definition routess : list (nat * list node) := [(1%nat, trip [Cust 1]); (2%nat, trip [Cust 1]); (3%nat, trip [Cust 2]); (4%nat, trip [Cust 3])].
Definition typess : list (nat * nat) := [(1%nat, 0%nat); (2%nat, 0%nat); (3%nat, 0%nat); (4%nat, 0%nat)].
Definition assign (day : nat -> nat) (p : program svar) : answer svar :=
  mkAnswer Optimal (Some 0) (encode day 2 2).
Definition days1 (r : nat) : nat := match r with 1 | 3 => 0 | _ => 1 end%nat.
Definition days2 (r : nat) : nat := match r with 1 | 2 => 0 | _ => 1 end%nat.

Lemma good1 d1 : 0 < d1 -> good_days (nets d1) 2 routess (fun i => dget Nat.eqb i typess) [2] days1.
Proof.
  intro D. constructor.
  - intros i r H. destruct i as [|[|[|[|i]]]]; cbn; lia.
  - intros v i j r r' Hv Hd Hi Hj Vi Vj E. cbn in Hi, Hj.
    repeat match goal with H : _ \/ _ |- _ => destruct H as [H|H] | H : False |- _ => destruct H end;
      injection Hi as <- <-; injection Hj as <- <-; cbn in *; try reflexivity; try discriminate;
      repeat match goal with H : _ \/ _ |- _ => destruct H as [H|H] | H : False |- _ => destruct H end; subst; try discriminate; cbn in Hd; try (exfalso; revert Hd; vm_compute; discriminate).
  - intros k n t Hk Ht. destruct k as [|k]; [|destruct k; discriminate]. injection Hk as <-. destruct t as [|[|t]]; [vm_compute; discriminate|vm_compute; discriminate|lia].
Qed.

Lemma good2 : good_days (nets 0) 2 routess (fun i => dget Nat.eqb i typess) [2] days2.
Proof.
  constructor.
  - intros i r H. destruct i as [|[|[|[|i]]]]; cbn; lia.
  - intros v i j r r' Hv Hd Hi Hj Vi Vj E. cbn in Hi, Hj.
    repeat match goal with H : _ \/ _ |- _ => destruct H as [H|H] | H : False |- _ => destruct H end;
      injection Hi as <- <-; injection Hj as <- <-; cbn in *; try reflexivity; try discriminate;
      repeat match goal with H : _ \/ _ |- _ => destruct H as [H|H] | H : False |- _ => destruct H end; subst; try discriminate; cbn in Hd; try (exfalso; revert Hd; vm_compute; discriminate).
  - intros k n t Hk Ht. destruct k as [|k]; [|destruct k; discriminate]. injection Hk as <-. destruct t as [|[|t]]; [vm_compute; discriminate|vm_compute; discriminate|lia].
Qed.

Lemma assign_exact g routes types nv span day p : wf g -> NoDup (map fst routes) -> (1 <= span)%Z -> formulate_schedule g span routes types nv = Ok p ->
  good_days g span routes (fun i => dget Nat.eqb i types) nv day -> (forall t, (Z.of_nat t < span)%Z -> load_on (map fst routes) day t = 2%nat) ->
  exact_answer p (assign day p).
Proof.
  intros W NR S FP G L. assert (F : feasible (encode day 2 2) p).
  { apply (good_feasible g span routes types nv W NR p FP day 2 2 G). intros t Ht. apply in_days in Ht. rewrite (L t Ht). lia. }
  destruct (prog_shape g span routes types nv p FP) as (fl & _ & _ & E).
  assert (O : value (encode day 2 2) (p_obj p) == 0) by (rewrite E; vm_compute; reflexivity).
  split; [constructor; [intros _; exact F|intros q Hq; injection Hq as <-; cbn [a_value assign]; rewrite O; reflexivity]|]. left. split; [reflexivity|]. split; [discriminate|].
  intros y Fy. cbn [a_value assign]. rewrite O. assert (FR := feas_rows _ _ Fy). rewrite E in FR. cbn [p_rows] in FR.
  assert (D0 : In 0%nat (days span)) by (apply in_days; lia).
  assert (R1 : holds y (max_row (map fst routes) 0)). { apply FR. apply in_or_app. left. apply in_map. exact D0. }
  assert (R2 : holds y (min_row (map fst routes) 0)). { apply FR. apply in_or_app. right. apply in_or_app. left. apply in_map. exact D0. }
  unfold holds, max_row in R1. unfold holds, min_row in R2. cbn [r_sense r_lhs r_rhs] in R1, R2. unfold value in R1, R2. rewrite map_app, Qsum_app in R1, R2.
  cbn [map fst snd] in R1, R2. rewrite Qsum_cons in R1, R2. change (Qsum []) with 0 in R1, R2. rewrite E. cbn [p_obj]. unfold value. cbn [map fst snd]. rewrite !Qsum_cons. change (Qsum []) with 0. lra.
Qed.

Lemma schedule1 : wf (nets 1) /\ NoDup (map fst routess) /\
  (forall p, formulate_schedule (nets 1) 2 routess typess [2] = Ok p -> exact_answer p (assign days1 p)) /\
  schedule_routes (nets 1) 2 routess typess [2] (assign days1) = Ok [(0%nat, [1%nat; 3%nat]); (1%nat, [2%nat; 4%nat])] /\
  good_days (nets 1) 2 routess (fun i => dget Nat.eqb i typess) [2] days1.
Proof.
  assert (W : wf (nets 1)) by (apply wfb_ok; vm_compute; reflexivity).
  assert (N : NoDup (map fst routess)) by (repeat constructor; cbn; intuition discriminate).
  split; [exact W|]. split; [exact N|].
  split; [|split; [vm_compute; reflexivity|apply good1; lra]].
  intros p FP. apply (assign_exact (nets 1) routess typess [2] 2 days1 p W N); [lia|exact FP|apply good1; lra|].
  intros [|[|t]] Ht; [reflexivity|reflexivity|lia].
Qed.

(** A customer without demand is visited twice on a day although this can be avoided. *)
Lemma schedule_twice : exists g span routes types nv solver d v i j r r' t,
  wf g /\ NoDup (map fst routes) /\ (forall p, formulate_schedule g span routes types nv = Ok p -> exact_answer p (solver p)) /\
  schedule_routes g span routes types nv solver = Ok d /\
  In v (custs g) /\ In (i, r) routes /\ In (j, r') routes /\ i <> j /\ In v r /\ In v r' /\ on_day d i t /\ on_day d j t.
Proof.
  exists (nets 0), 2%Z, routess, typess, [2], (assign days2), [(0%nat, [1%nat; 2%nat]); (1%nat, [3%nat; 4%nat])], (Cust 1), 1%nat, 2%nat, (trip [Cust 1]), (trip [Cust 1]), 0%nat.
  assert (W : wf (nets 0)) by (apply wfb_ok; vm_compute; reflexivity).
  assert (N : NoDup (map fst routess)) by (repeat constructor; cbn; intuition discriminate).
  split; [exact W|]. split; [exact N|]. split.
  { intros p FP. apply (assign_exact (nets 0) routess typess [2] 2 days2 p W N); [lia|exact FP|apply good2|]. intros [|[|t]] Ht; [reflexivity|reflexivity|lia]. }
  split; [vm_compute; reflexivity|]. split; [cbn; auto|]. split; [cbn; auto|]. split; [cbn; auto|]. split; [discriminate|]. split; [cbn; auto|]. split; [cbn; auto|].
  split; exists [1%nat; 2%nat]; cbn; auto.
Qed.

Lemma case_departure : exists p, pre_solve cfgt (optt []) (rawt 3) = Ok p /\ nonneg_services (pr_copy p) /\
  let s := solvedt p [(1%nat, trip [Cust 1; Cust 2])] in
  departure_time s = Ok [(1%nat, [(Source, 0); (Cust 1, 1); (Cust 2, 3); (Sink, 4)])] /\
  check_arrival_time s = Ok tt /\ check_departure_time s = Ok tt.
Proof.
  eexists. split; [vm_compute; reflexivity|]. split; [apply nonneg_servicesb_ok; vm_compute; reflexivity|]. cbv zeta.
  split; [vm_compute; reflexivity|]. split; vm_compute; reflexivity.
Qed.
