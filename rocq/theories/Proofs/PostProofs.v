(** Proofs about the node lists and the result properties. *)
From Verif.Base Require Import Prelude Graph.
From Verif.Spec Require Import Routes Network Prep Columns Results.
From Verif.Model Require Import Args Reach Checks Preprocess ClarkeWright Greedy Initial Pricing Post.
From Verif.Proofs Require Import RouteLemmas PreLemmas.

(* ------------------------------------------------------------------ *)
(** ** The walk of a simple route is unique *)

Lemma split_at {A} (u : A) : forall a b a' b', NoDup (a ++ u :: b) -> a ++ u :: b = a' ++ u :: b' -> a = a' /\ b = b'.
Proof.
  induction a as [|x a IH]; intros b a' b' ND H.
  - destruct a' as [|y a']; cbn in H; [injection H as ->; auto|]. injection H as <- H. cbn in ND.
    inversion ND as [|z l N1 N2]; subst. exfalso. apply N1. apply in_or_app. right. left. reflexivity.
  - destruct a' as [|y a']; cbn in H.
    + injection H as -> H. cbn in ND. inversion ND as [|z l N1 N2]; subst. exfalso. apply N1. apply in_or_app. right. left. reflexivity.
    + injection H as <- H. cbn in ND. inversion ND as [|z l N1 N2]; subst. destruct (IH _ _ _ N2 H) as [-> ->]. auto.
Qed.

Lemma last_in_list {A} (v : A) : forall b d, In (last (v :: b) d) (v :: b).
Proof.
  intro b. revert v. induction b as [|x b IH]; intros v d; [left; reflexivity|].
  right. change (last (v :: x :: b) d) with (last (x :: b) d). apply IH.
Qed.

Lemma walk_suffix A r w : (forall a, In a A -> In a (arcs r)) -> NoDup r ->
  forall b a u, r = a ++ u :: b -> last (u :: b) u = w -> forall p, walk A u w p -> p = u :: b.
Proof.
  intros SUB ND. induction b as [|v b IH]; intros a u E L p W.
  - cbn in L. subst w. inversion W as [|u0 v w0 q H1 H2]; subst; [reflexivity|]. exfalso.
    apply SUB in H1. apply arcs_in in H1. destruct H1 as (a' & b' & H1). apply split_at in H1; [|exact ND]. destruct H1 as [_ H1]. discriminate.
  - inversion W as [u0 X Y|u0 v' w0 q H1 H2]; subst.
    + exfalso. assert (N := NoDup_remove_2 _ _ _ ND). apply N. apply in_or_app. right.
      assert (IN := last_in_list v b (last (u :: v :: b) u)). rewrite <- (last_indep v b u) in IN.
      change (last (v :: b) u) with (last (u :: v :: b) u) in IN. congruence.
    + apply SUB in H1. apply arcs_in in H1. destruct H1 as (a' & b' & H1). apply split_at in H1; [|exact ND]. destruct H1 as [-> H1].
      injection H1 as <- <-. f_equal. apply (IH (a' ++ [u]) v).
      * rewrite <- app_assoc. reflexivity.
      * change (last (u :: v :: b) u) with (last (v :: b) u). apply last_indep.
      * exact H2.
Qed.

Lemma only_walk A cs : (forall a, In a A <-> In a (arcs (Source :: cs ++ [Sink]))) -> route_shape (Source :: cs ++ [Sink]) ->
  forall p, walk A Source Sink p <-> p = Source :: cs ++ [Sink].
Proof.
  intros S R p. assert (L : last (Source :: cs ++ [Sink]) Source = Sink).
  { change (Source :: cs ++ [Sink]) with ((Source :: cs) ++ [Sink]). apply last_last. }
  split; intro H.
  - apply (walk_suffix A (Source :: cs ++ [Sink]) Sink (fun a => proj1 (S a)) (route_shape_NoDup _ R) (cs ++ [Sink]) [] Source eq_refl L p H).
  - subst p. assert (W := walk_intro A (Source :: cs ++ [Sink]) Source (cs ++ [Sink]) eq_refl).
    rewrite L in W. apply W. intros u v Huv. apply S. exact Huv.
Qed.

Lemma path_found sp ns es cs : finds_paths sp -> route_shape (Source :: cs ++ [Sink]) ->
  (forall a, In a es <-> In a (arcs (Source :: cs ++ [Sink]))) -> sp ns es = Some (Source :: cs ++ [Sink]).
Proof.
  intros F R S. specialize (F ns es). destruct (sp ns es) as [p|].
  - destruct F as [F _]. apply (only_walk es cs S R) in F. congruence.
  - exfalso. apply F. exists (Source :: cs ++ [Sink]). apply (only_walk es cs S R). reflexivity.
Qed.

(* ------------------------------------------------------------------ *)
(** ** Sums *)

Lemma get_arc_data (g : vgraph) u v e : get_arc g u v = Ok e <-> arc_data g u v = Some e.
Proof. unfold get_arc, of_opt. destruct (arc_data g u v); split; intro H; congruence. Qed.
Lemma get_node_data (g : vgraph) v d : get_node g v = Ok d <-> node_data g v = Some d.
Proof. unfold get_node, of_opt. destruct (node_data g v); split; intro H; congruence. Qed.
Lemma nd_data (g : vgraph) v d : node_data g v = Some d -> nd g v = d.
Proof. unfold nd. intros ->. reflexivity. Qed.

Lemma arc_cost_ok h k a q : arc_cost h k a = Ok q -> q = cost_of h k (fst a) (snd a).
Proof.
  unfold arc_cost. intro H. apply bind_ok in H. destruct H as (e & H1 & H2). apply get_arc_data in H1.
  unfold cost_of. rewrite H1. unfold of_opt in H2. destruct (nth_error (ecost e) k) as [c|] eqn:E; [|discriminate]. injection H2 as ->.
  symmetry. apply nth_error_nth. exact E.
Qed.

Lemma mapM_value {A} (f : A -> res Q) (g : A -> Q) l bs : (forall a b, In a l -> f a = Ok b -> b = g a) -> mapM f l = Ok bs -> bs = map g l.
Proof.
  revert bs. induction l as [|a l IH]; intros bs H M; cbn in M; [injection M as <-; reflexivity|].
  apply bind_ok in M. destruct M as (b & M1 & M). apply bind_ok in M. destruct M as (bs' & M2 & M). injection M as <-.
  cbn. f_equal; [apply H; [left; reflexivity|exact M1]|]. apply IH; [intros; apply H; [right; assumption|assumption]|exact M2].
Qed.

Lemma mapM_total {A B} (f : A -> res B) l : (forall a, In a l -> exists b, f a = Ok b) -> exists bs, mapM f l = Ok bs.
Proof.
  induction l as [|a l IH]; intro H; cbn; [eexists; reflexivity|]. destruct (H a (or_introl eq_refl)) as (b & ->). cbn.
  destruct IH as (bs & ->); [intros; apply H; right; assumption|]. cbn. eexists. reflexivity.
Qed.

Lemma route_cost_ok h k r q : route_cost h k r = Ok q -> q == path_sum (cost_of h k) r.
Proof.
  unfold route_cost. intro H. apply bind_ok in H. destruct H as (l & H1 & H2). injection H2 as <-. rewrite pysum_Qsum. unfold path_sum.
  rewrite (mapM_value _ (fun a => cost_of h k (fst a) (snd a)) _ _ (fun a b _ => arc_cost_ok h k a b) H1). reflexivity.
Qed.
Lemma route_load_ok h r q : route_load h r = Ok q -> q == node_sum (demand_of h) r.
Proof.
  unfold route_load. intro H. apply bind_ok in H. destruct H as (l & H1 & H2). injection H2 as <-. rewrite pysum_Qsum. unfold node_sum.
  apply (mapM_value _ (demand_of h)) in H1; [subst l; reflexivity|]. intros v d _ H. apply bind_ok in H. destruct H as (x & H & H2).
  apply get_node_data, nd_data in H. unfold demand_of. rewrite H. congruence.
Qed.
Lemma route_duration_ok h r q : route_duration h r = Ok q -> q == duration_of (time_of h) (service_of h) r.
Proof.
  unfold route_duration. intro H. apply bind_ok in H. destruct H as (l & H1 & H). apply bind_ok in H. destruct H as (m & H2 & H). injection H as <-.
  rewrite !pysum_Qsum. unfold duration_of, path_sum, node_sum.
  apply (mapM_value _ (fun a => time_of h (fst a) (snd a))) in H1; [|intros a d _ H; apply bind_ok in H; destruct H as (x & H & H3);
    apply get_arc_data in H; unfold time_of; rewrite H; congruence].
  apply (mapM_value _ (service_of h)) in H2; [subst l m; reflexivity|].
  intros v d _ H. apply bind_ok in H. destruct H as (x & H & H3). apply get_node_data, nd_data in H. unfold service_of. rewrite H. congruence.
Qed.

Lemma knows_arc K h r k a : knows K h r -> In a (arcs r) -> (k < K)%nat -> exists q, arc_cost h k a = Ok q.
Proof.
  intros (_ & A & C) Ha Hk. destruct a as [u v]. apply A in Ha. apply arc_data_In in Ha. destruct Ha as (e & Ha).
  unfold arc_cost. cbn [fst snd]. rewrite (proj2 (get_arc_data h u v e) Ha). cbn.
  destruct (nth_error (ecost e) k) eqn:E; [eexists; reflexivity|]. exfalso. apply nth_error_None in E. specialize (C _ _ _ Ha). lia.
Qed.
Lemma route_cost_total K h r k : knows K h r -> (k < K)%nat -> exists q, route_cost h k r = Ok q.
Proof.
  intros N Hk. unfold route_cost. destruct (mapM_total (arc_cost h k) (arcs r)) as (l & ->); [intros; eapply knows_arc; eassumption|].
  cbn. eexists. reflexivity.
Qed.
Lemma node_read_total {A} (h : vgraph) r (f : ndata -> A) : (forall v, In v r -> In v (nodes h)) -> exists l, mapM (fun v => let* d := get_node h v in Ok (f d)) r = Ok l.
Proof. intro N. apply mapM_total. intros v Hv. destruct (get_node_ok h v (N v Hv)) as (d & -> & _). cbn. eexists. reflexivity. Qed.
Lemma route_load_total K h r : knows K h r -> exists q, route_load h r = Ok q.
Proof. intros (N & _). unfold route_load. destruct (node_read_total h r demand N) as (l & ->). cbn. eexists. reflexivity. Qed.
Lemma route_duration_total K h r : knows K h r -> exists q, route_duration h r = Ok q.
Proof.
  intros (N & A & _). unfold route_duration.
  destruct (mapM_total (fun a => let* e := get_arc h (fst a) (snd a) in Ok (etime e)) (arcs r)) as (l & ->).
  { intros [u v] Ha. apply A in Ha. destruct (get_arc_ok h u v Ha) as (e & H & _). cbn [fst snd]. rewrite H. cbn. eexists. reflexivity. }
  cbn. destruct (node_read_total h r service N) as (m & ->). cbn. eexists. reflexivity.
Qed.

(* ------------------------------------------------------------------ *)
(** ** The type of a locked route *)

Definition qualifies (h : vgraph) (caps : option (list Z)) (r : list node) (k : nat) : Prop :=
  carries caps k (node_sum (demand_of h) r) /\ path_sum (cost_of h k) r < big_cost.

(** state after the types below [n] *)
Definition best_upto (h : vgraph) (caps : option (list Z)) (r : list node) (n : nat) (s : Q * option nat) : Prop :=
  match snd s with
  | None => fst s = big_cost /\ forall j, (j < n)%nat -> ~ qualifies h caps r j
  | Some k => (k < n)%nat /\ qualifies h caps r k /\ fst s == path_sum (cost_of h k) r /\
      forall j, (j < n)%nat -> carries caps j (node_sum (demand_of h) r) ->
        path_sum (cost_of h k) r <= path_sum (cost_of h j) r /\
        ((j < k)%nat -> path_sum (cost_of h k) r < path_sum (cost_of h j) r)
  end.

Lemma type_step_ok h caps r s n s' : best_upto h caps r n s -> type_step h caps r s n = Ok s' -> best_upto h caps r (S n) s'.
Proof.
  unfold type_step. intros B H. apply bind_ok in H. destruct H as (q & Hq & H). apply bind_ok in H. destruct H as (l & Hl & H).
  apply route_cost_ok in Hq. apply route_load_ok in Hl.
  assert (KEEP : (carries caps n (node_sum (demand_of h) r) -> fst s <= path_sum (cost_of h n) r) -> best_upto h caps r (S n) s).
  { intro N. unfold best_upto in *. destruct (snd s) as [k|].
    - destruct B as (B1 & B2 & B3 & B4). split; [lia|]. split; [exact B2|]. split; [exact B3|]. intros j Hj C.
      destruct (Nat.eq_dec j n) as [->|Hn]; [split; [specialize (N C); lra|lia]|apply B4; [lia|exact C]].
    - destruct B as (B1 & B2). split; [exact B1|]. intros j Hj [Q1 Q2]. destruct (Nat.eq_dec j n) as [->|Hn]; [|apply (B2 j); [lia|split; assumption]].
      specialize (N Q1). rewrite B1 in N. lra. }
  assert (TAKE : q < fst s -> carries caps n (node_sum (demand_of h) r) -> best_upto h caps r (S n) (q, Some n)).
  { intros L C. unfold best_upto in *. cbn [snd fst]. assert (LB : fst s <= big_cost).
    { destruct (snd s) as [k|]; [destruct B as (_ & B2 & B3 & _); destruct B2 as [_ B2]; lra|destruct B as [-> _]; lra]. }
    split; [lia|]. split; [split; [exact C|lra]|]. split; [exact Hq|]. intros j Hj D.
    destruct (Nat.eq_dec j n) as [->|Hn]; [split; [lra|lia]|].
    assert (LT : path_sum (cost_of h n) r < path_sum (cost_of h j) r).
    { destruct (snd s) as [k|].
      - destruct B as (B1 & B2 & B3 & B4). destruct (B4 j ltac:(lia) D) as [X _]. lra.
      - destruct B as (B1 & B2). destruct (Qlt_le_dec (path_sum (cost_of h j) r) big_cost) as [X|X]; [exfalso; apply (B2 j); [lia|split; assumption]|lra]. }
    split; [lra|intros _; exact LT]. }
  destruct (Qltb q (fst s)) eqn:L.
  - apply Qltb_lt in L. destruct caps as [[|c0 cl]|].
    + injection H as <-. apply TAKE; [exact L|exact I].
    + apply bind_ok in H. destruct H as (c & Hc & H). unfold of_opt in Hc. destruct (nth_error (c0 :: cl) n) as [c'|] eqn:E; [|discriminate]. injection Hc as ->.
      destruct (Qle_bool l (inject_Z c)) eqn:F.
      * injection H as <-. apply Qle_bool_iff in F. apply TAKE; [exact L|]. exists c. split; [exact E|]. rewrite <- Hl. exact F.
      * injection H as <-. apply Qle_bool_false in F. apply KEEP. intros (c2 & E2 & F2). exfalso. rewrite E in E2. injection E2 as <-. lra.
    + injection H as <-. apply TAKE; [exact L|exact I].
  - injection H as <-. apply Qltb_ge in L. apply KEEP. intros _. lra.
Qed.

Lemma type_loop h caps r : forall n m s s', best_upto h caps r m s -> foldM (type_step h caps r) (seq m n) s = Ok s' -> best_upto h caps r (m + n) s'.
Proof.
  induction n as [|n IH]; intros m s s' B H; cbn in H.
  - injection H as <-. rewrite Nat.add_0_r. exact B.
  - apply bind_ok in H. destruct H as (s1 & H1 & H2). rewrite <- Nat.add_succ_comm. eapply IH; [|exact H2]. eapply type_step_ok; eassumption.
Qed.

Theorem locked_type_ok h caps K r t : locked_type h caps K r = Ok t ->
  match t with
  | Some k => cheapest_type h caps K r k /\ path_sum (cost_of h k) r < big_cost
  | None => forall j, (j < K)%nat -> ~ qualifies h caps r j
  end.
Proof.
  unfold locked_type. intro H. apply bind_ok in H. destruct H as (s & H & E). injection E as <-.
  apply (type_loop h caps r K 0) in H; [|split; [reflexivity|intros; lia]]. cbn in H. unfold best_upto in H. destruct (snd s) as [k|].
  - destruct H as (H1 & (H2 & H3) & H4 & H5). split; [constructor; auto|exact H3].
  - apply H.
Qed.

Theorem locked_type_total h caps K r : knows K h r -> (forall l, caps = Some l -> l = [] \/ (K <= List.length l)%nat) ->
  exists t, locked_type h caps K r = Ok t.
Proof.
  intros N C. unfold locked_type.
  destruct (foldM_inv_ok (type_step h caps r) (fun _ => True) (seq 0 K)) with (s := (big_cost, @None nat)) as (s & -> & _); [|exact I|cbn; eexists; reflexivity].
  intros s k Hk _. apply in_seq in Hk. unfold type_step. destruct (route_cost_total K h r k N ltac:(lia)) as (q & ->). cbn [bind].
  destruct (route_load_total K h r N) as (l & ->). cbn [bind]. destruct (Qltb q (fst s)); [|eexists; split; [reflexivity|exact I]].
  destruct caps as [[|c0 cl]|]; try (eexists; split; [reflexivity|exact I]).
  destruct (C _ eq_refl) as [D|D]; [discriminate|]. destruct (nth_error (c0 :: cl) k) as [c|] eqn:E; [|apply nth_error_None in E; lia].
  cbn [of_opt bind]. destruct (Qle_bool l (inject_Z c)); eexists; (split; [reflexivity|exact I]).
Qed.

(* ------------------------------------------------------------------ *)
(** ** The node lists *)

Lemma column_lists_ok sp : forall cs id r t, column_lists sp id cs = Ok (r, t) ->
  map fst r = seq id (List.length cs) /\ Forall2 (fun c p => sp (c_nodes c) (c_arcs c) = Some p) cs (map snd r) /\
  t = combine (seq id (List.length cs)) (map c_type cs).
Proof.
  induction cs as [|c cs IH]; intros id r t H; cbn in H.
  - injection H as <- <-. repeat split; constructor.
  - apply bind_ok in H. destruct H as (p & Hp & H). apply bind_ok in H. destruct H as ([r1 t1] & H1 & H). injection H as <- <-.
    destruct (IH _ _ _ H1) as (A & B & C). cbn. rewrite A. split; [reflexivity|]. split.
    + constructor; [|exact B]. unfold of_opt in Hp. destruct (sp (c_nodes c) (c_arcs c)); congruence.
    + rewrite C. reflexivity.
Qed.

Lemma locked_lists_ok h caps K : forall rs id r t, locked_lists h caps K id rs = Ok (r, t) ->
  exists ks, map fst r = seq id (List.length r) /\
    (forall x, In x rs -> x <> []) /\
    map snd r = filter (fun x => match is_complete x with Ok true => true | _ => false end) rs /\
    Forall2 (fun x k => locked_type h caps K x = Ok k) (map snd r) ks /\
    t = flat_map (fun ik => match snd ik with Some k => [(fst ik, k)] | None => [] end) (combine (seq id (List.length r)) ks).
Proof.
  induction rs as [|x rs IH]; intros id r t H; cbn in H.
  - injection H as <- <-. exists []. repeat split; [intros x []|constructor].
  - apply bind_ok in H. destruct H as (c & Hc & H). assert (NE : x <> []) by (intros ->; discriminate). destruct c.
    + apply bind_ok in H. destruct H as (k & Hk & H). apply bind_ok in H. destruct H as ([r1 t1] & H1 & H). injection H as <- <-.
      destruct (IH _ _ _ H1) as (ks & A & B & C & D & E). exists (k :: ks). cbn. rewrite A, Hc, C.
      split; [reflexivity|]. split; [intros y [<-|Hy]; auto|]. split; [reflexivity|]. split; [constructor; [exact Hk|rewrite <- C; exact D]|].
      rewrite E. destruct k; reflexivity.
    + destruct (IH _ _ _ H) as (ks & A & B & C & D & E). exists ks. cbn. rewrite Hc.
      split; [exact A|]. split; [intros y [<-|Hy]; auto|]. auto.
Qed.

Lemma dget_app {V} i (l1 l2 : list (nat * V)) : dget Nat.eqb i (l1 ++ l2) = match dget Nat.eqb i l1 with Some x => Some x | None => dget Nat.eqb i l2 end.
Proof. induction l1 as [|[j x] l1 IH]; cbn; [reflexivity|]. destruct (j =? i)%nat; auto. Qed.
Lemma dget_none {V} i (l : list (nat * V)) : (forall x, ~ In (i, x) l) -> dget Nat.eqb i l = None.
Proof.
  induction l as [|[j x] l IH]; intro H; cbn; [reflexivity|]. destruct (j =? i)%nat eqn:E.
  - apply Nat.eqb_eq in E. subst j. exfalso. apply (H x). left. reflexivity.
  - apply IH. intros y Hy. apply (H y). right. exact Hy.
Qed.
Lemma dget_combine {V} : forall (l : list V) id i x, nth_error l i = Some x -> dget Nat.eqb (id + i)%nat (combine (seq id (List.length l)) l) = Some x.
Proof.
  induction l as [|y l IH]; intros id i x H; [destruct i; discriminate|]. destruct i as [|i]; cbn.
  - rewrite Nat.add_0_r, Nat.eqb_refl. exact H.
  - destruct (id =? id + S i)%nat eqn:E; [apply Nat.eqb_eq in E; lia|]. rewrite <- Nat.add_succ_comm. apply IH. exact H.
Qed.
Lemma dget_optional : forall (ks : list (option nat)) id i k, nth_error ks i = Some k ->
  dget Nat.eqb (id + i)%nat (flat_map (fun ik => match snd ik with Some k => [(fst ik, k)] | None => [] end) (combine (seq id (List.length ks)) ks)) = k.
Proof.
  induction ks as [|y ks IH]; intros id i k H; [destruct i; discriminate|]. cbn [List.length seq combine flat_map]. rewrite dget_app. destruct i as [|i]; cbn in H.
  - injection H as ->. rewrite Nat.add_0_r. destruct k as [k|]; cbn.
    + rewrite Nat.eqb_refl. reflexivity.
    + apply dget_none. intros x Hx. apply in_flat_map in Hx. destruct Hx as ([j z] & H1 & H2). cbn in H2. destruct z; [|destruct H2].
      destruct H2 as [H2|[]]. injection H2 as -> _. apply in_combine_l in H1. apply in_seq in H1. lia.
  - assert (D : dget Nat.eqb (id + S i)%nat (match y with Some k0 => [(id, k0)] | None => [] end) = None).
    { apply dget_none. intros x Hx. destruct y; [|destruct Hx]. destruct Hx as [Hx|[]]. injection Hx as Hx _. lia. }
    cbn [fst snd]. rewrite D. rewrite <- Nat.add_succ_comm. apply IH. exact H.
Qed.

Lemma complete_iff x : x <> [] -> (match is_complete x with Ok true => true | _ => false end) = true <-> complete_route x.
Proof.
  intro N. destruct (is_complete_total x N) as (b & Hb). rewrite Hb. assert (S := is_complete_spec x b Hb). unfold complete_route.
  destruct b; rewrite <- S; split; congruence.
Qed.

Lemma F2_length {A B} (P : A -> B -> Prop) l l' : Forall2 P l l' -> List.length l = List.length l'.
Proof. induction 1; cbn; congruence. Qed.

Lemma NoDup_app_l {A} (l1 l2 : list A) : NoDup (l1 ++ l2) -> NoDup l1.
Proof.
  induction l1 as [|y l1 IH]; intro N; [constructor|]. cbn in N. inversion N as [|z l' N1 N2]; subst.
  constructor; [intro C; apply N1; apply in_or_app; left; exact C|auto].
Qed.

Lemma keeps_filter {A} (P : A -> Prop) (f : A -> bool) l : (forall x, In x l -> (f x = true <-> P x)) -> keeps P l (filter f l).
Proof.
  induction l as [|x l IH]; intro H; cbn; [constructor|]. assert (K : keeps P l (filter f l)) by (apply IH; intros; apply H; right; assumption).
  destruct (f x) eqn:E; constructor; try exact K; [apply H; [left; reflexivity|exact E]|].
  intro C. apply H in C; [congruence|left; reflexivity].
Qed.

Theorem node_lists_ok sp h caps K pre cs rts tys : node_lists sp h caps K pre cs = Ok (rts, tys) ->
  exists paths locked,
    map snd rts = paths ++ locked /\ map fst rts = seq 1 (List.length (paths ++ locked)) /\
    Forall2 (fun c p => sp (c_nodes c) (c_arcs c) = Some p) cs paths /\ keeps complete_route pre locked /\
    (forall i c, nth_error cs i = Some c -> dget Nat.eqb (S i) tys = Some (c_type c)) /\
    (forall i r, nth_error locked i = Some r ->
       match dget Nat.eqb (List.length cs + S i)%nat tys with
       | Some k => cheapest_type h caps K r k /\ path_sum (cost_of h k) r < big_cost
       | None => forall j, (j < K)%nat -> ~ qualifies h caps r j
       end).
Proof.
  unfold node_lists. intro H. apply bind_ok in H. destruct H as ([r1 t1] & H1 & H). apply bind_ok in H. destruct H as ([r2 t2] & H2 & H).
  injection H as <- <-. cbn [fst snd]. destruct (column_lists_ok _ _ _ _ _ H1) as (A1 & A2 & A3).
  destruct (locked_lists_ok _ _ _ _ _ _ _ H2) as (ks & B1 & B2 & B3 & B4 & B5).
  assert (L1 : List.length (map snd r1) = List.length cs) by (symmetry; exact (F2_length _ _ _ A2)).
  assert (L1' : List.length r1 = List.length cs) by (rewrite map_length in L1; exact L1).
  assert (LK : List.length ks = List.length r2) by (rewrite <- (F2_length _ _ _ B4), map_length; reflexivity).
  exists (map snd r1), (map snd r2). split; [apply map_app|]. split.
  { rewrite map_app, A1, B1, app_length, L1, map_length, seq_app. reflexivity. }
  split; [exact A2|]. split.
  { rewrite B3. apply keeps_filter. intros x Hx. apply complete_iff. apply B2. exact Hx. }
  split.
  - intros i c Hc. rewrite dget_app, A3. assert (LM : List.length (map c_type cs) = List.length cs) by apply map_length. 
    assert (D := dget_combine (map c_type cs) 1 i (c_type c) (map_nth_error _ _ _ Hc)). rewrite LM in D. cbn [Nat.add] in D. rewrite D. reflexivity.
  - intros i r Hr. assert (NONE : dget Nat.eqb (List.length cs + S i)%nat t1 = None).
    { apply dget_none. intros x Hx. rewrite A3 in Hx. apply in_combine_l, in_seq in Hx. lia. }
    rewrite dget_app, NONE, B5. rewrite <- LK.
    assert (EX : exists k, nth_error ks i = Some k /\ locked_type h caps K r = Ok k).
    { clear - B4 Hr. revert i Hr. induction B4 as [|x k l l' H0 HF IH]; intros i Hr; [destruct i; discriminate|].
      destruct i as [|i]; cbn in *; [injection Hr as ->; eauto|]. apply IH. exact Hr. }
    destruct EX as (k & E1 & E2). assert (D := dget_optional ks (S (List.length cs)) i k E1). rewrite <- Nat.add_succ_comm.
    replace (S (List.length cs) + i)%nat with (S (List.length cs) + i)%nat in D by reflexivity. rewrite D. apply (locked_type_ok _ _ _ _ _ E2).
Qed.

(* ------------------------------------------------------------------ *)
(** ** Properties per route *)

Lemma per_route_ok {V} s (f : nat -> list node -> res V) d : per_route s f = Ok d ->
  Forall2 (fun p q => fst q = fst p /\ f (fst p) (snd p) = Ok (snd q)) (sv_routes s) d.
Proof.
  unfold per_route. intro H. apply mapM_ok in H. induction H as [|p q l l' H HF IH]; constructor; [|exact IH].
  apply bind_ok in H. destruct H as (x & H & E). injection E as <-. auto.
Qed.
Lemma per_route_total {V} s (f : nat -> list node -> res V) : (forall i r, In (i, r) (sv_routes s) -> exists x, f i r = Ok x) -> exists d, per_route s f = Ok d.
Proof. intro H. apply mapM_total. intros [i r] Hir. destruct (H i r Hir) as (x & E). cbn [fst snd]. rewrite E. cbn. eexists. reflexivity. Qed.

Lemma Forall2_weaken {A B} (P Q : A -> B -> Prop) l l' : (forall a b, In a l -> P a b -> Q a b) -> Forall2 P l l' -> Forall2 Q l l'.
Proof.
  intros H F. induction F as [|a b l l' H0 F IH]; constructor; [apply H; [left; reflexivity|exact H0]|]. apply IH. intros; apply H; [right; assumption|assumption].
Qed.

Definition cost_report (s : solved) (i : nat) (r : list node) (q : Q) : Prop :=
  exists k, dget Nat.eqb i (sv_types s) = Some k /\ q == path_sum (cost_of (sv_copy s) k) r.

Theorem cost_ok s d : best_routes_cost s = Ok d -> reports (cost_report s) (sv_routes s) d.
Proof.
  unfold best_routes_cost, reports. intro H. apply per_route_ok in H. eapply Forall2_weaken; [|exact H]. intros [i r] [j q] _ [H1 H2]. cbn [fst snd] in *.
  split; [exact H1|]. apply bind_ok in H2. destruct H2 as (k & H2 & H3). unfold type_of, of_opt in H2. destruct (dget Nat.eqb i (sv_types s)) as [k'|] eqn:E; [|discriminate].
  injection H2 as ->. exists k. split; [exact E|]. apply route_cost_ok. exact H3.
Qed.

Theorem cost_total K s : (forall i r, In (i, r) (sv_routes s) -> knows K (sv_copy s) r /\ exists k, dget Nat.eqb i (sv_types s) = Some k /\ (k < K)%nat) ->
  exists d, best_routes_cost s = Ok d.
Proof.
  intro H. apply per_route_total. intros i r Hir. destruct (H i r Hir) as (N & k & E & Hk). unfold type_of. rewrite E. cbn.
  eapply route_cost_total; eassumption.
Qed.

Theorem load_ok s d : best_routes_load s = Ok d ->
  (has_caps (sv_caps s) = false \/ sv_both s = true \/ sv_pickup s = true -> d = []) /\
  (has_caps (sv_caps s) = true -> sv_both s = false -> sv_pickup s = false ->
     reports (fun _ r q => q == node_sum (demand_of (sv_copy s)) r) (sv_routes s) d).
Proof.
  unfold best_routes_load. intro H. split.
  - intro C. assert (E : negb (has_caps (sv_caps s)) || sv_both s || sv_pickup s = true).
    { destruct C as [-> | [-> | ->]]; cbn; rewrite ?orb_true_r; reflexivity. }
    rewrite E in H. congruence.
  - intros C1 C2 C3. rewrite C1, C2, C3 in H. cbn in H. apply per_route_ok in H. eapply Forall2_weaken; [|exact H].
    intros [i r] [j q] _ [H1 H2]. cbn [fst snd] in *. split; [exact H1|]. apply route_load_ok. exact H2.
Qed.

Theorem duration_ok s d : best_routes_duration s = Ok d ->
  (no_times s = true -> d = []) /\
  (no_times s = false -> reports (fun _ r q => q == duration_of (time_of (sv_copy s)) (service_of (sv_copy s)) r) (sv_routes s) d).
Proof.
  unfold best_routes_duration. intro H. split; intro C; rewrite C in H; [congruence|]. apply per_route_ok in H. eapply Forall2_weaken; [|exact H].
  intros [i r] [j q] _ [H1 H2]. cbn [fst snd] in *. split; [exact H1|]. apply route_duration_ok. exact H2.
Qed.

Theorem load_total K s : (forall i r, In (i, r) (sv_routes s) -> knows K (sv_copy s) r) -> exists d, best_routes_load s = Ok d.
Proof.
  intro H. unfold best_routes_load. destruct (_ || _); [eexists; reflexivity|]. apply per_route_total. intros i r Hir.
  eapply route_load_total. apply (H i r Hir).
Qed.
Theorem duration_total K s : (forall i r, In (i, r) (sv_routes s) -> knows K (sv_copy s) r) -> exists d, best_routes_duration s = Ok d.
Proof.
  intro H. unfold best_routes_duration. destruct (no_times s); [eexists; reflexivity|]. apply per_route_total. intros i r Hir.
  eapply route_duration_total. apply (H i r Hir).
Qed.

Theorem value_ok s v : best_value s = Ok v ->
  exists d m, best_routes_cost s = Ok d /\
    (sv_span s = false -> m == Qsum (map snd d)) /\
    (sv_span s = true -> In m (map snd d) /\ forall x, In x (map snd d) -> x <= m) /\
    v == m + match sv_drop s with Some p => p * inject_Z (Z.of_nat (List.length (sv_dropped s))) | None => 0 end.
Proof.
  unfold best_value. intro H. apply bind_ok in H. destruct H as (d & Hd & H). apply bind_ok in H. destruct H as (m & Hm & H).
  exists d, m. split; [exact Hd|]. split; [intro E; rewrite E in Hm; injection Hm as <-; apply pysum_Qsum|].
  split; [intro E; rewrite E in Hm; apply pymax_ok in Hm; exact Hm|].
  destruct (sv_drop s) as [p|]; [|injection H as <-; lra]. unfold truthyQ in H. destruct (Qeq_bool p 0) eqn:E; cbn in H; injection H as <-; [|reflexivity].
  apply Qeq_bool_iff in E. rewrite E. lra.
Qed.

(* ------------------------------------------------------------------ *)
(** ** node_load *)

Lemma dset_new {V} v (x : V) d : ~ In v (map fst d) -> dset node_eqb v x d = d ++ [(v, x)].
Proof.
  induction d as [|[w y] d IH]; intro H; cbn; [reflexivity|]. destruct (node_eqb w v) eqn:E.
  - apply node_eqb_eq in E. subst. exfalso. apply H. left. reflexivity.
  - rewrite IH; [reflexivity|]. intro C. apply H. right. exact C.
Qed.
Lemma dget_found {V} v (x : V) d : NoDup (map fst d) -> In (v, x) d -> dget node_eqb v d = Some x.
Proof.
  induction d as [|[w y] d IH]; intros N H; [destruct H|]. cbn. cbn in N. inversion N as [|z l N1 N2]; subst. destruct H as [H|H].
  - injection H as -> ->. rewrite node_eqb_refl. reflexivity.
  - destruct (node_eqb w v) eqn:E; [|apply IH; assumption]. apply node_eqb_eq in E. subst. exfalso. apply N1. apply (in_map fst) in H. exact H.
Qed.

(** what one node adds to the amount *)
Definition adds (s : solved) (v : node) : Q :=
  if sv_both s then collect_of (sv_copy s) v - demand_of (sv_copy s) v else demand_of (sv_copy s) v.

Lemma running_ext d : forall p a b, a == b -> Forall2 Qeq (running_loads d a p) (running_loads d b p).
Proof. induction p as [|v p IH]; intros a b E; cbn; constructor; [rewrite E; reflexivity|apply IH; rewrite E; reflexivity]. Qed.

Lemma load_loop s : forall r d a st, NoDup (map fst d ++ r) -> foldM (load_step s) r (d, a) = Ok st ->
  exists l, fst st = d ++ combine r l /\ List.length l = List.length r /\ Forall2 Qeq l (running_loads (adds s) a r).
Proof.
  induction r as [|v r IH]; intros d a st N H; cbn [foldM] in H.
  - injection H as <-. exists []. cbn. rewrite app_nil_r. repeat split; constructor.
  - apply bind_ok in H. destruct H as (s1 & H1 & H2). unfold load_step in H1. apply bind_ok in H1. destruct H1 as (n & Hn & H1). cbn [fst snd] in H1.
    apply get_node_data, nd_data in Hn.
    set (x := if sv_both s then a + demand n + (collect n - (2 # 1) * demand n) else a + demand n) in *.
    injection H1 as <-. assert (NV : ~ In v (map fst d)). { intro C. apply NoDup_remove_2 in N. apply N. apply in_or_app. left. exact C. }
    rewrite (dset_new v x d NV) in H2.
    destruct (IH (d ++ [(v, x)]) x st) as (l & L1 & L2 & L3); [rewrite map_app, <- app_assoc; exact N|exact H2|].
    exists (x :: l). cbn [combine List.length running_loads]. split; [rewrite L1, <- app_assoc; reflexivity|]. split; [lia|].
    assert (X : x == a + adds s v). { unfold x, adds, demand_of, collect_of. rewrite Hn. destruct (sv_both s); lra. }
    constructor; [exact X|]. clear - L3 X. assert (Y := running_ext (adds s) r x (a + adds s v) X). revert L3 Y. generalize (running_loads (adds s) x r) (running_loads (adds s) (a + adds s v) r).
    intros l1 l2 F1. revert l2. induction F1 as [|p q l l1 E F IH]; intros l2 F2; inversion F2 as [|q' q2 l1' l2' E2 F2']; subst; constructor; [rewrite E; exact E2|apply IH; assumption].
Qed.

(** the amount on the vehicle at the start of the report *)
Definition start_amount (s : solved) (i : nat) (a : Q) : Prop :=
  if sv_both s then exists k l c, dget Nat.eqb i (sv_types s) = Some k /\ sv_caps s = Some l /\ nth_error l k = Some c /\ a == inject_Z c
  else a == 0.

Theorem node_load_ok s d : node_load s = Ok d ->
  (has_caps (sv_caps s) = false -> sv_pickup s = false -> sv_both s = false -> d = []) /\
  (has_caps (sv_caps s) = true \/ sv_pickup s = true \/ sv_both s = true ->
   Forall2 (fun p q => fst q = fst p /\ (NoDup (snd p) -> map fst (snd q) = snd p /\
    exists a, start_amount s (fst p) a /\ Forall2 Qeq (map snd (snd q)) (running_loads (adds s) a (snd p)))) (sv_routes s) d).
Proof.
  unfold node_load. intro H. split.
  - intros C1 C2 C3. rewrite C1, C2, C3 in H. cbn in H. congruence.
  - intro C. assert (E : negb (has_caps (sv_caps s)) && negb (sv_pickup s) && negb (sv_both s) = false).
    { destruct C as [-> | [-> | ->]]; cbn; rewrite ?andb_false_r; reflexivity. }
    rewrite E in H. apply per_route_ok in H. eapply Forall2_weaken; [|exact H]. intros [i r] [j q] _ [H1 H2]. cbn [fst snd] in *.
    split; [exact H1|]. intro N. apply bind_ok in H2. destruct H2 as (a & Ha & H2). apply bind_ok in H2. destruct H2 as (st & H2 & H3). injection H3 as <-.
    apply load_loop in H2; [|exact N]. destruct H2 as (l & L1 & L2 & L3). cbn in L1. rewrite L1.
    assert (M : map fst (combine r l) = r /\ map snd (combine r l) = l).
    { clear - L2. revert l L2. induction r as [|v r IH]; intros [|x l] L; try discriminate; [auto|]. cbn in *. destruct (IH l) as [-> ->]; [lia|auto]. }
    destruct M as [M1 M2]. rewrite M1, M2. split; [reflexivity|]. exists a. split; [|exact L3].
    unfold start_amount. destruct (sv_both s); [|injection Ha as <-; reflexivity].
    apply bind_ok in Ha. destruct Ha as (k & Hk & Ha). unfold type_of, of_opt in Hk. destruct (dget Nat.eqb i (sv_types s)) as [k'|] eqn:T; [|discriminate]. injection Hk as ->.
    destruct (sv_caps s) as [cl|] eqn:CE; [|discriminate]. apply bind_ok in Ha. destruct Ha as (c & Hc & Ha). injection Ha as <-.
    exists k, cl, c. unfold of_opt in Hc. destruct (nth_error cl k) as [c'|] eqn:NE; [|discriminate]. injection Hc as ->. repeat split; try assumption. lra.
Qed.

(* ------------------------------------------------------------------ *)
(** ** Arrival and departure *)

(** arrival times along the rest of a route, leaving [u] with service start [t] *)
Fixpoint arrivals (h : vgraph) (u : node) (t : Q) (p : list node) : list Q :=
  match p with
  | [] => []
  | v :: p' => let t' := pymax2 (t + service_of h u + time_of h u v) (lower_of h v) in t' :: arrivals h v t' p'
  end.

Lemma arrivals_length h : forall p u t, List.length (arrivals h u t p) = List.length p.
Proof. induction p as [|v p IH]; intros u t; cbn; [reflexivity|]. rewrite IH. reflexivity. Qed.

Lemma arrival_loop h : forall p u t d d', NoDup (map fst d ++ p) -> dget node_eqb u d = Some t -> foldM (arrival_step h) (arcs (u :: p)) d = Ok d' ->
  d' = d ++ combine p (arrivals h u t p) /\ along (arc_list h) (u :: p) /\ (p <> [] -> In u (nodes h)) /\ forall v, In v p -> In v (nodes h).
Proof.
  induction p as [|v p IH]; intros u t d d' N G H.
  - cbn in H. injection H as <-. cbn. rewrite app_nil_r. split; [reflexivity|]. split; [intros x y []|]. split; [congruence|intros v []].
  - rewrite arcs_cons2 in H. cbn [foldM] in H. apply bind_ok in H. destruct H as (d1 & H1 & H). unfold arrival_step in H1. cbn [fst snd] in H1. rewrite G in H1. cbn [of_opt bind] in H1.
    apply bind_ok in H1. destruct H1 as (nu & Hu & H1). apply bind_ok in H1. destruct H1 as (e & He & H1). apply bind_ok in H1. destruct H1 as (nv & Hv & H1).
    assert (Iu : In u (nodes h)) by (apply node_data_In; exists nu; apply get_node_data; exact Hu).
    assert (Iv : In v (nodes h)) by (apply node_data_In; exists nv; apply get_node_data; exact Hv).
    assert (Ie : In (u, v) (arc_list h)) by (apply arc_data_In; exists e; apply get_arc_data; exact He).
    apply get_node_data, nd_data in Hu. apply get_node_data, nd_data in Hv. apply get_arc_data in He.
    set (x := pymax2 (t + service nu + etime e) (lower nv)) in *.
    assert (X : x = pymax2 (t + service_of h u + time_of h u v) (lower_of h v)). { unfold service_of, time_of, lower_of. rewrite Hu, Hv, He. reflexivity. }
    assert (NV : ~ In v (map fst d)). { intro C. apply NoDup_remove_2 in N. apply N. apply in_or_app. left. exact C. }
    injection H1 as <-. rewrite (dset_new v x d NV) in H.
    assert (N' : NoDup (map fst (d ++ [(v, x)]) ++ p)) by (rewrite map_app, <- app_assoc; exact N).
    destruct (IH v x _ d' N') as (A & B & C & D); [|exact H|].
    + apply dget_found; [|apply in_or_app; right; left; reflexivity]. clear - N'. revert N'. generalize (map fst (d ++ [(v, x)])). intro l.
      induction l as [|y l IH]; intro N; [constructor|]. cbn in N. inversion N as [|z l' N1 N2]; subst. constructor; [intro C; apply N1; apply in_or_app; left; exact C|auto].
    + split; [|split; [|split]].
      * rewrite A, <- app_assoc. cbn [arrivals combine app]. rewrite <- X. reflexivity.
      * apply along_cons2. auto.
      * intros _. exact Iu.
      * intros w [<-|Hw]; [exact Iv|auto].
Qed.

Lemma arrival_loop_total h : forall p u t d, dget node_eqb u d = Some t -> along (arc_list h) (u :: p) -> (forall v, In v (u :: p) -> In v (nodes h)) ->
  NoDup (map fst d ++ p) -> exists d', foldM (arrival_step h) (arcs (u :: p)) d = Ok d'.
Proof.
  induction p as [|v p IH]; intros u t d G A N ND; [eexists; reflexivity|]. rewrite arcs_cons2. cbn [foldM]. unfold arrival_step at 1. cbn [fst snd]. rewrite G. cbn [of_opt bind].
  apply along_cons2 in A. destruct A as [A1 A2]. destruct (get_node_ok h u (N u (or_introl eq_refl))) as (nu & -> & _). cbn [bind].
  destruct (get_arc_ok h u v A1) as (e & -> & _). cbn [bind]. destruct (get_node_ok h v (N v (or_intror (or_introl eq_refl)))) as (nv & -> & _). cbn [bind].
  assert (NV : ~ In v (map fst d)). { intro C. apply NoDup_remove_2 in ND. apply ND. apply in_or_app. left. exact C. }
  rewrite dset_new by exact NV. eapply (IH v).
  - apply dget_found; [|apply in_or_app; right; left; reflexivity]. rewrite map_app. cbn [map]. apply NoDup_app_l with (l2 := p). rewrite <- app_assoc. exact ND.
  - exact A2.
  - intros w Hw. apply N. right. exact Hw.
  - rewrite map_app, <- app_assoc. exact ND.
Qed.
