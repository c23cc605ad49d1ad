From Verif.Base Require Import Prelude Graph.
From Verif.Spec Require Import Routes Network.

Lemma arcs_cons2 u v t : arcs (u :: v :: t) = (u, v) :: arcs (v :: t).
Proof. reflexivity. Qed.

(** the join point of two paths is shared *)
Lemma arcs_app_mid p x q : arcs (p ++ x :: q) = arcs (p ++ [x]) ++ arcs (x :: q).
Proof.
  induction p as [|a p IH]; [reflexivity|].
  destruct p as [|b p]; [reflexivity|].
  change ((a :: b :: p) ++ x :: q) with (a :: b :: (p ++ x :: q)).
  change ((a :: b :: p) ++ [x]) with (a :: b :: (p ++ [x])).
  rewrite !arcs_cons2. change (b :: p ++ x :: q) with ((b :: p) ++ x :: q).
  rewrite IH. reflexivity.
Qed.

Lemma arcs_snoc p x y : arcs (p ++ [x; y]) = arcs (p ++ [x]) ++ [(x, y)].
Proof. rewrite (arcs_app_mid p x [y]). reflexivity. Qed.

Lemma arcs_in u v p : In (u, v) (arcs p) <-> exists p1 p2, p = p1 ++ u :: v :: p2.
Proof.
  induction p as [|a p IH]; simpl; split; intro H.
  - destruct H.
  - destruct H as ([|b p1] & p2 & H); discriminate.
  - destruct p as [|b p]; [destruct H|]. destruct H as [H|H].
    + inversion H; subst. exists [], p; auto.
    + apply IH in H. destruct H as (p1 & p2 & ->). exists (a :: p1), p2; auto.
  - destruct H as ([|b p1] & p2 & H); simpl in H; inversion H; subst; clear H.
    + left; auto.
    + destruct (p1 ++ u :: v :: p2) as [|c q] eqn:E; [destruct p1; discriminate|].
      right. apply IH. exists p1, p2; auto.
Qed.

Lemma arcs_in_nodes u v p : In (u, v) (arcs p) -> In u p /\ In v p.
Proof.
  rewrite arcs_in. intros (p1 & p2 & ->). rewrite !in_app_iff. simpl. auto.
Qed.

Lemma arcs_length u p : length (arcs (u :: p)) = length p.
Proof.
  revert u. induction p as [|v p IH]; intro u; simpl; auto. f_equal. apply (IH v).
Qed.

Lemma arcs_NoDup p : NoDup p -> NoDup (arcs p).
Proof.
  induction p as [|u p IH]; intro H; [constructor|].
  destruct p as [|v p]; [constructor|]. rewrite arcs_cons2.
  inversion H as [|x l Hn Hd]; subst. constructor; [|auto].
  intro C. apply arcs_in_nodes in C. tauto.
Qed.

Lemma arcs_map_fst u p : map fst (arcs (u :: p)) = removelast (u :: p).
Proof.
  revert u. induction p as [|v p IH]; intro u; [reflexivity|].
  rewrite arcs_cons2.
  change (u :: map fst (arcs (v :: p)) = u :: removelast (v :: p)). rewrite IH. reflexivity.
Qed.

Lemma arcs_map_snd u p : map snd (arcs (u :: p)) = p.
Proof.
  revert u. induction p as [|v p IH]; intro u; [reflexivity|].
  rewrite arcs_cons2.
  change (v :: map snd (arcs (v :: p)) = v :: p). rewrite IH. reflexivity.
Qed.

(** path sums *)
Lemma path_sum_cons2 w u v t : path_sum w (u :: v :: t) == w u v + path_sum w (v :: t).
Proof. unfold path_sum. rewrite arcs_cons2. reflexivity. Qed.

Lemma path_sum_one w u : path_sum w [u] = 0.
Proof. reflexivity. Qed.

Lemma path_sum_app_mid w p x q :
  path_sum w (p ++ x :: q) == path_sum w (p ++ [x]) + path_sum w (x :: q).
Proof. unfold path_sum. rewrite (arcs_app_mid p x q), map_app, Qsum_app. reflexivity. Qed.

Lemma path_sum_snoc w p x y : path_sum w (p ++ [x; y]) == path_sum w (p ++ [x]) + w x y.
Proof. rewrite path_sum_app_mid, path_sum_cons2, path_sum_one. lra. Qed.

Lemma path_sum_nonneg w p : (forall u v, In (u, v) (arcs p) -> 0 <= w u v) -> 0 <= path_sum w p.
Proof.
  intro H. unfold path_sum. apply Qsum_nonneg. intros x Hx. apply in_map_iff in Hx.
  destruct Hx as ([u v] & <- & Hin). simpl. auto.
Qed.

Lemma path_sum_ext w w' p :
  (forall u v, In (u, v) (arcs p) -> w u v == w' u v) -> path_sum w p == path_sum w' p.
Proof. intro H. unfold path_sum. apply Qsum_map_ext. intros [u v] Hin. simpl. auto. Qed.

Lemma node_sum_app w p q : node_sum w (p ++ q) == node_sum w p + node_sum w q.
Proof. unfold node_sum. rewrite map_app, Qsum_app. lra. Qed.

Lemma node_sum_cons w u q : node_sum w (u :: q) == w u + node_sum w q.
Proof. unfold node_sum. simpl. lra. Qed.

Lemma node_sum_nil w : node_sum w [] = 0.
Proof. reflexivity. Qed.

Lemma node_sum_nonneg w p : (forall v, In v p -> 0 <= w v) -> 0 <= node_sum w p.
Proof.
  intro H. unfold node_sum. apply Qsum_nonneg. intros x Hx. apply in_map_iff in Hx.
  destruct Hx as (v & <- & Hin). auto.
Qed.

Lemma node_sum_ext w w' p : (forall v, In v p -> w v == w' v) -> node_sum w p == node_sum w' p.
Proof. intro H. unfold node_sum. apply Qsum_map_ext. auto. Qed.

Lemma node_sum_perm w p q : Permutation p q -> node_sum w p == node_sum w q.
Proof. intro H. unfold node_sum. apply Qsum_perm, Permutation_map, H. Qed.

(** along *)
Lemma along_cons2 A u v t : along A (u :: v :: t) <-> In (u, v) A /\ along A (v :: t).
Proof.
  unfold along. rewrite arcs_cons2. simpl. split.
  - intro H. split; [apply H; auto|]. intros x y Hxy. apply H. auto.
  - intros (H1 & H2) x y [Hxy|Hxy]; [inversion Hxy; subst; auto|auto].
Qed.

Lemma along_app_mid A p x q : along A (p ++ x :: q) <-> along A (p ++ [x]) /\ along A (x :: q).
Proof.
  unfold along. rewrite (arcs_app_mid p x q). split.
  - intro H. split; intros u v Huv; apply H; apply in_or_app; auto.
  - intros (H1 & H2) u v Huv. apply in_app_or in Huv. destruct Huv; auto.
Qed.

Lemma along_snoc A p x y : along A (p ++ [x; y]) <-> along A (p ++ [x]) /\ In (x, y) A.
Proof.
  rewrite (along_app_mid A p x [y]). split; intros (H1 & H2); split; auto.
  - apply H2. simpl; auto.
  - intros u v [H|[]]. inversion H; subst; auto.
Qed.

Lemma along_sub A B p : (forall a, In a A -> In a B) -> along A p -> along B p.
Proof. intros Hs H u v Huv. auto. Qed.

(** walks *)
Lemma last_indep {A} (x : A) l d d' : last (x :: l) d = last (x :: l) d'.
Proof.
  revert x. induction l as [|y l IH]; intro x; [reflexivity|].
  change (last (y :: l) d = last (y :: l) d'). apply IH.
Qed.

Lemma walk_nonempty A u w p : walk A u w p -> exists q, p = u :: q.
Proof. intro H; inversion H; eauto. Qed.

Lemma walk_along A u w p : walk A u w p -> along A p.
Proof.
  induction 1 as [u|u v w p Ha Hw IH]; [intros x y []|].
  destruct (walk_nonempty _ _ _ _ Hw) as (q & ->). apply along_cons2. auto.
Qed.

Lemma walk_last A u w p : walk A u w p -> last p u = w.
Proof.
  intro H. assert (G : forall d, last p d = w); [|auto].
  induction H as [u|u v w p Ha Hw IH]; intro d; [reflexivity|].
  destruct (walk_nonempty _ _ _ _ Hw) as (q & ->). simpl in *. apply IH; exact d.
Qed.

Lemma walk_intro A p u q : p = u :: q -> along A p -> walk A u (last p u) p.
Proof.
  revert p u. induction q as [|v q IH]; intros p u -> H.
  - constructor.
  - apply along_cons2 in H. destruct H as (H1 & H2).
    apply walk_cons with v; auto.
    replace (last (u :: v :: q) u) with (last (v :: q) v).
    + apply IH; auto.
    + change (last (v :: q) v = last (v :: q) u). apply last_indep.
Qed.

Lemma walk_app A u v w p q : walk A u v p -> walk A v w (v :: q) -> walk A u w (p ++ q).
Proof.
  intro H. induction H as [u|u v v' p Ha Hw IH]; intro Hq; simpl; auto.
  apply walk_cons with v; auto.
Qed.

Lemma walk_trans A u v w p q : walk A u v p -> walk A v w q -> exists r, walk A u w r.
Proof.
  intros H1 H2. destruct (walk_nonempty _ _ _ _ H2) as (q' & ->).
  exists (p ++ q'). apply walk_app with v; auto.
Qed.

Lemma walk_sub A B u v p : (forall a, In a A -> In a B) -> walk A u v p -> walk B u v p.
Proof. intro H. induction 1; [constructor|]. econstructor; eauto. Qed.

(** routes *)
Lemma route_stops r cs :
  r = Source :: cs ++ [Sink] -> (forall v, In v cs -> v <> Source /\ v <> Sink) -> stops r = cs.
Proof.
  intros -> H. unfold stops. simpl. rewrite filter_app. simpl. rewrite app_nil_r.
  induction cs as [|v cs IH]; simpl; auto.
  assert (Hv : is_cust v = true) by (apply is_cust_true, H; simpl; auto).
  rewrite Hv. f_equal. apply IH. intros; apply H; simpl; auto.
Qed.

Lemma route_shape_NoDup r : route_shape r -> NoDup r.
Proof.
  intros (cs & -> & Hn & Hc). constructor.
  - rewrite in_app_iff. simpl. intros [H|[H|[]]]; [|discriminate]. apply Hc in H. tauto.
  - apply NoDup_app_intro; auto.
    + constructor; auto. constructor.
    + intros x Hx [<-|[]]. apply Hc in Hx. tauto.
Qed.

Lemma visits_app v r1 r2 : visits v (r1 ++ r2) = (visits v r1 + visits v r2)%nat.
Proof. induction r1 as [|r r1 IH]; simpl; auto. rewrite IH. lia. Qed.

Lemma visits_perm v r1 r2 : Permutation r1 r2 -> visits v r1 = visits v r2.
Proof. induction 1; simpl; lia. Qed.

Lemma visits_zero v rs : (forall r, In r rs -> ~ In v r) -> visits v rs = 0%nat.
Proof.
  induction rs as [|r rs IH]; intro H; simpl; auto.
  rewrite IH; [|intros; apply H; simpl; auto].
  rewrite (proj1 (count_occ_not_In node_eq_dec r v)); auto. apply H; simpl; auto.
Qed.

Lemma count_occ_one (v : node) l : NoDup l -> In v l -> count_occ node_eq_dec l v = 1%nat.
Proof.
  intros Hn Hi. pose proof (proj1 (NoDup_count_occ node_eq_dec l) Hn v).
  pose proof (proj1 (count_occ_In node_eq_dec l v) Hi). lia.
Qed.
