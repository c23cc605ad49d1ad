(** The reported times after preprocessing, and concrete results. *)
From Verif.Base Require Import Prelude Graph.
From Verif.Spec Require Import Routes Network LinProg Inputs Feasible Prep Results.
From Verif.Model Require Import Args Reach Checks Preprocess ClarkeWright Greedy Initial Pricing Post Schedule.
From Verif.Proofs Require Import RouteLemmas ReachLemmas Deciders PreLemmas LockProofs PresolveProofs PresolveEnd PostProofs TimesProofs PostCor ScheduleProofs MasterWitness.

(* ------------------------------------------------------------------ *)
(** ** check_arrival_time on the routes found in the preprocessed network *)

Lemma along_nodes {N0 E0} (g : graph N0 E0) r v : wf g -> route_shape r -> along (arc_list g) r -> In v r -> In v (nodes g).
Proof.
  intros W (cs & -> & _ & _) A Hv. destruct cs as [|a cs].
  - cbn in Hv. assert (X : In (Source, Sink) (arc_list g)) by (apply A; left; reflexivity). apply (wf_ends _ W) in X. destruct Hv as [<-|[<-|[]]]; tauto.
  - apply in_split in Hv. destruct Hv as (p1 & p2 & E). destruct p1 as [|b p1].
    + injection E as <- E. destruct p2 as [|b p2]; [discriminate|]. assert (X : In (Source, a) (arc_list g)) by (apply A; left; reflexivity). apply (wf_ends _ W) in X. tauto.
    + assert (X : exists u, In (u, v) (arcs (Source :: (a :: cs) ++ [Sink]))).
      { destruct (exists_last (l := b :: p1)) as (q & u & Eq); [discriminate|]. exists u. apply arcs_in. exists q, p2. rewrite E, Eq, <- app_assoc. reflexivity. }
      destruct X as (u & X). apply A in X. apply (wf_ends _ W) in X. tauto.
Qed.

Theorem check_arrival_presolve c o (g : rgraph) p s d :
  wf g -> In Source (nodes g) -> In Sink (nodes g) ->
  (forall u, ~ In (u, Source) (arc_list g)) -> (forall v, ~ In (Sink, v) (arc_list g)) ->
  cost_lists (cf_vehicle_types c) g ->
  (forall v, In v (custs g) -> In (Source, v) (arc_list g) /\ In (v, Sink) (arc_list g)) ->
  pre_solve c o g = Ok p ->
  sv_graph s = pr_graph p -> sv_copy s = pr_copy p -> sv_windows s = o_time_windows o ->
  (o_time_windows o = true -> direct_is_fastest (pr_copy p) /\ nonneg_services (pr_copy p)) ->
  no_times s = false -> arrival_time s = Ok d ->
  (forall i r, In (i, r) (sv_routes s) -> route_shape r /\ along (arc_list (pr_graph p)) r) ->
  (check_arrival_time s = Ok tt <-> forall i r, In (i, r) (sv_routes s) -> windows_ok (pr_copy p) r).
Proof.
  intros W HS HT NI NO C RT P Eg Eh Ew TW N A R.
  destruct (presolve_nodes c o g p W HS HT NI NO C RT P) as (W3 & N3 & D3 & A3).
  assert (IN : forall i r v, In (i, r) (sv_routes s) -> In v r -> In v (nodes (pr_graph p))).
  { intros i r v Hir Hv. destruct (R i r Hir) as [R1 R2]. eapply along_nodes; eassumption. }
  assert (NE : forall i r, In (i, r) (sv_routes s) -> arc_list (pr_graph p) <> []).
  { intros i r Hir. destruct (R i r Hir) as [(cs & -> & _) R2]. intro Z. assert (X : exists a, In a (arcs (Source :: cs ++ [Sink]))).
    { destruct cs as [|x cs]; cbn; eexists; left; reflexivity. }
    destruct X as ((u, v) & X). apply R2 in X. rewrite Z in X. destruct X. }
  destruct (o_time_windows o) eqn:E.
  - destruct (TW eq_refl) as [DF NS]. rewrite <- Eh in DF, NS. rewrite <- Eh.
    apply (check_arrival_tight s d A N DF NS). intros i r Hir. destruct (R i r Hir) as [R1 R2]. split; [exact R1|].
    split; [rewrite Eh; intros u v Huv; apply A3; apply R2; exact Huv|].
    intros v Hv. rewrite Eg, Eh. assert (I := IN i r v Hir Hv). split; [exact I|]. destruct (D3 v I) as (_ & _ & _ & D4). apply D4. eapply NE; exact Hir.
  - rewrite <- Eh. apply (check_arrival_plain s d A N). intros i r Hir. destruct (R i r Hir) as [R1 R2]. split; [exact R1|].
    intros v Hv. rewrite Eg, Eh. assert (I := IN i r v Hir Hv). split; [exact I|]. destruct (D3 v I) as (_ & _ & _ & D4). exact D4.
Qed.

(* ------------------------------------------------------------------ *)
(** ** The contract of networkx' shortest_path can be met *)

Definition nx_path : path_oracle := fun _ es => match shortest_path es Source Sink with Ok p => Some p | Err _ => None end.

Lemma shortest_from_min A s t : forall f n p q, shortest_from A f n s t = Ok p -> walk A s t q -> (n < List.length q)%nat -> (List.length p <= List.length q)%nat.
Proof.
  assert (HD : forall n p l, walks_to A n s t = p :: l -> List.length p = S n).
  { intros n p l E. apply (walks_to_sound A n s t p). rewrite E. left. reflexivity. }
  induction f as [|f IH]; intros n p q H Q L; cbn [shortest_from] in H; destruct (walks_to A n s t) as [|p' l] eqn:E.
  - discriminate.
  - injection H as <-. rewrite (HD _ _ _ E). lia.
  - apply (IH (S n) p q H Q). destruct (Nat.eq_dec (S n) (List.length q)) as [Eq|]; [|lia]. exfalso.
    apply walks_to_complete in Q. replace (List.length q - 1)%nat with n in Q by lia. rewrite E in Q. destruct Q.
  - injection H as <-. rewrite (HD _ _ _ E). lia.
Qed.

Lemma nx_path_ok : finds_paths nx_path.
Proof.
  intros ns es. unfold nx_path. destruct (shortest_path es Source Sink) as [p|e] eqn:E.
  - split; [apply shortest_path_sound; exact E|]. intros q Q. apply (shortest_from_min es Source Sink _ 0 p q E Q).
    destruct (walk_nonempty _ _ _ _ Q) as (q' & ->). cbn. lia.
  - intros (q & Q). destruct (shortest_path_complete _ _ _ _ Q) as (p & Hp). congruence.
Qed.

(** node lists never fail on simple columns *)
Lemma column_lists_total sp cs rs : finds_paths sp -> Forall2 (fun c r => route_shape r /\ forall a, In a (c_arcs c) <-> In a (arcs r)) cs rs ->
  forall id, exists x, column_lists sp id cs = Ok x.
Proof.
  intros F H. induction H as [|c r cs rs [H1 H2] H IH]; intro id; cbn [column_lists]; [eexists; reflexivity|].
  rewrite (column_path sp c r F H1 H2). cbn. destruct (IH (S id)) as (x & ->). cbn. eexists. reflexivity.
Qed.

Lemma locked_lists_total h caps K rs : (forall r, In r rs -> r <> [] /\ (complete_route r -> knows K h r)) -> (forall l, caps = Some l -> l = [] \/ (K <= List.length l)%nat) ->
  forall id, exists x, locked_lists h caps K id rs = Ok x.
Proof.
  intros H C. induction rs as [|r rs IH]; intro id; cbn [locked_lists]; [eexists; reflexivity|].
  destruct (H r (or_introl eq_refl)) as [H1 H2]. destruct (is_complete_total r H1) as (b & Hb). rewrite Hb. cbn [bind].
  assert (IH' : forall id, exists x, locked_lists h caps K id rs = Ok x) by (apply IH; intros; apply H; right; assumption).
  destruct b; [|apply IH']. assert (CR : complete_route r) by (apply is_complete_spec in Hb; apply Hb; reflexivity).
  destruct (locked_type_total h caps K r (H2 CR) C) as (k & ->). cbn [bind]. destruct (IH' (S id)) as (x & ->). cbn. eexists. reflexivity.
Qed.

Theorem node_lists_total sp h caps K pre cs rs : finds_paths sp ->
  Forall2 (fun c r => route_shape r /\ forall a, In a (c_arcs c) <-> In a (arcs r)) cs rs ->
  (forall r, In r pre -> r <> [] /\ (complete_route r -> knows K h r)) -> (forall l, caps = Some l -> l = [] \/ (K <= List.length l)%nat) ->
  exists rts tys, node_lists sp h caps K pre cs = Ok (rts, tys).
Proof.
  intros F H P C. unfold node_lists. destruct (column_lists_total sp cs rs F H 1) as (a & ->). cbn [bind].
  destruct (locked_lists_total h caps K pre P C (S (List.length cs))) as (b & ->). cbn. eexists. eexists. reflexivity.
Qed.

Theorem results_total K s :
  (forall i r, In (i, r) (sv_routes s) -> knows K (sv_copy s) r /\ exists k, dget Nat.eqb i (sv_types s) = Some k /\ (k < K)%nat) ->
  (exists d, best_routes_cost s = Ok d) /\ (exists d, best_routes_load s = Ok d) /\
  (exists d, best_routes_duration s = Ok d) /\
  (sv_routes s <> [] \/ sv_span s = false -> exists v, best_value s = Ok v).
Proof.
  intro H. assert (KN : forall i r, In (i, r) (sv_routes s) -> knows K (sv_copy s) r) by (intros i r Hir; apply (H i r Hir)).
  destruct (cost_total K s H) as (d & Hd). split; [exists d; exact Hd|]. split; [apply (load_total K); exact KN|]. split; [apply (duration_total K); exact KN|].
  intro C. unfold best_value. rewrite Hd. cbn [bind].
  assert (M : exists v, (if sv_span s then pymax (map snd d) else Ok (pysum (map snd d))) = Ok v).
  { destruct (sv_span s); [|eexists; reflexivity]. destruct C as [C|C]; [|discriminate]. assert (NE : map snd d <> []).
    { intro Z. apply cost_ok in Hd. unfold reports in Hd. apply F2_length in Hd. destruct (sv_routes s); [congruence|]. destruct d; [discriminate|discriminate]. }
    destruct (map snd d) as [|q l]; [congruence|]. eexists. reflexivity. }
  destruct M as (v & ->). cbn [bind]. destruct (sv_drop s) as [q|]; [|eexists; reflexivity]. destruct (truthyQ (Some q)); eexists; reflexivity.
Qed.
