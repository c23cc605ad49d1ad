From Verif.Base Require Import Prelude Graph.
From Verif.Spec Require Import Routes Network.
From Verif.Proofs Require Import RouteLemmas.
From Verif.Model Require Import Reach.

(* ------------------------------------------------------------------ *)
(** * has_path *)

Lemma in_step (A : list arc) (S : list node) v :
  In v (flat_map (fun u => map snd (filter (fun a => node_eqb (fst a) u) A)) S) <->
  exists u, In u S /\ In (u, v) A.
Proof.
  rewrite in_flat_map. split.
  - intros (u & Hu & H). exists u. split; auto.
    apply in_map_iff in H. destruct H as ([x y] & Hy & H). simpl in Hy. subst.
    apply filter_In in H. simpl in H. destruct H as (H & E). apply node_eqb_eq in E. subst; auto.
  - intros (u & Hu & H). exists u. split; auto. apply in_map_iff. exists (u, v). split; auto.
    apply filter_In. simpl. rewrite node_eqb_refl. auto.
Qed.

Lemma reach_spec A n S v :
  In v (reach A n S) <->
  exists u p, In u S /\ walk A u v p /\ (length p <= Datatypes.S n)%nat.
Proof.
  revert S. induction n as [|n IH]; intro S; simpl.
  - split.
    + intro H. exists v, [v]. repeat split; auto. constructor.
    + intros (u & p & Hu & Hw & Hl). inversion Hw as [|? v1 ? p1 Ha Hw1]; subst; auto.
      destruct (walk_nonempty _ _ _ _ Hw1) as (q & ->). simpl in Hl. lia.
  - rewrite IH. split.
    + intros (u & p & Hu & Hw & Hl). apply nodup_In in Hu. apply in_app_or in Hu.
      destruct Hu as [Hu|Hu].
      * exists u, p. repeat split; auto.
      * apply in_step in Hu. destruct Hu as (x & Hx & Ha). exists x, (x :: p).
        repeat split; auto; [econstructor; eauto|simpl; lia].
    + intros (u & p & Hu & Hw & Hl). inversion Hw as [|? v1 ? p1 Ha Hw1]; subst.
      * exists v, [v]. repeat split; [|constructor|simpl; lia].
        apply nodup_In, in_or_app; auto.
      * exists v1, p1. repeat split; [|auto|simpl in Hl; lia].
        apply nodup_In, in_or_app. right. apply in_step. exists u; auto.
Qed.

Lemma not_NoDup_split (p : list node) :
  ~ NoDup p -> exists x p1 p2 p3, p = p1 ++ x :: p2 ++ x :: p3.
Proof.
  induction p as [|a p IH]; intro H; [exfalso; apply H; constructor|].
  destruct (in_dec node_eq_dec a p) as [Hin|Hn].
  - apply in_split in Hin. destruct Hin as (p2 & p3 & ->). exists a, [], p2, p3; auto.
  - destruct IH as (x & p1 & p2 & p3 & ->).
    + intro C. apply H. constructor; auto.
    + exists x, (a :: p1), p2, p3; auto.
Qed.

Lemma walk_first_last A u v p x q1 q2 :
  walk A u v p -> p = q1 ++ x :: q2 -> walk A u x (q1 ++ [x]) /\ walk A x v (x :: q2).
Proof.
  intro H. revert q1. induction H as [u|u v w p Ha Hw IH]; intros q1 E.
  - destruct q1 as [|a q1]; simpl in E.
    + inversion E; subst. split; constructor.
    + inversion E. destruct q1; discriminate.
  - destruct q1 as [|a q1]; simpl in E; inversion E; subst.
    + split; [constructor|]. econstructor; eauto.
    + destruct (IH q1 eq_refl) as (H1 & H2). split; auto.
      simpl. econstructor; eauto.
Qed.

(** Every walk contains a simple walk between the same end points, which is no heavier for
    every non-negative weight. *)
Lemma walk_shorten A u v p :
  walk A u v p ->
  exists q, walk A u v q /\ NoDup q /\ incl q p /\ (length q <= length p)%nat /\
    forall w, (forall x y, In (x, y) (arcs p) -> 0 <= w x y) -> path_sum w q <= path_sum w p.
Proof.
  remember (length p) as n eqn:Hn. revert p Hn.
  induction n as [n IH] using lt_wf_ind. intros p Hn Hw.
  destruct (ListDec.NoDup_dec node_eq_dec p) as [Hd|Hd].
  - exists p. repeat split; auto; [apply incl_refl|lia|intros; lra].
  - apply not_NoDup_split in Hd. destruct Hd as (x & p1 & p2 & p3 & ->).
    destruct (walk_first_last _ _ _ _ x p1 (p2 ++ x :: p3) Hw eq_refl) as (H1 & H2).
    destruct (walk_first_last _ _ _ _ x (x :: p2) p3 H2 eq_refl) as (H3 & H4).
    assert (Hq : walk A u v (p1 ++ x :: p3)).
    { replace (p1 ++ x :: p3) with ((p1 ++ [x]) ++ p3) by (rewrite <- app_assoc; auto).
      apply walk_app with x; auto. }
    destruct (IH (length (p1 ++ x :: p3))) with (p := p1 ++ x :: p3) as (q & Q1 & Q2 & Q3 & Q4 & Q5); auto.
    { subst n. rewrite !app_length. simpl. rewrite app_length. simpl. lia. }
    exists q. repeat split; auto.
    + intros y Hy. apply Q3 in Hy. rewrite in_app_iff in *. simpl in *. rewrite in_app_iff. simpl. tauto.
    + subst n. rewrite !app_length in *. simpl in *. rewrite app_length. simpl. lia.
    + intros w Hpos.
      assert (Ep : path_sum w (p1 ++ x :: p2 ++ x :: p3) ==
                   path_sum w (p1 ++ [x]) + path_sum w ((x :: p2) ++ [x]) + path_sum w (x :: p3)).
      { rewrite (path_sum_app_mid w p1 x (p2 ++ x :: p3)).
        change (x :: p2 ++ x :: p3) with ((x :: p2) ++ x :: p3).
        rewrite (path_sum_app_mid w (x :: p2) x p3). lra. }
      assert (Hc : 0 <= path_sum w ((x :: p2) ++ [x])).
      { apply path_sum_nonneg. intros a b Hab. apply Hpos.
        rewrite (arcs_app_mid p1 x (p2 ++ x :: p3)). apply in_or_app. right.
        change (x :: p2 ++ x :: p3) with ((x :: p2) ++ x :: p3).
        rewrite (arcs_app_mid (x :: p2) x p3). apply in_or_app. auto. }
      assert (Hl : path_sum w q <= path_sum w (p1 ++ x :: p3)).
      { apply Q5. intros a b Hab. apply Hpos.
        rewrite (arcs_app_mid p1 x p3) in Hab. apply in_app_or in Hab.
        rewrite (arcs_app_mid p1 x (p2 ++ x :: p3)). apply in_or_app.
        destruct Hab as [Hab|Hab]; [left; auto|right].
        change (x :: p2 ++ x :: p3) with ((x :: p2) ++ x :: p3).
        rewrite (arcs_app_mid (x :: p2) x p3). apply in_or_app. auto. }
      rewrite Ep. rewrite (path_sum_app_mid w p1 x p3) in Hl. lra.
Qed.

Lemma walk_nodes_in {N E} (g : graph N E) u v p :
  wf g -> In u (nodes g) -> walk (arc_list g) u v p -> incl p (nodes g).
Proof.
  intros W Hu H. induction H as [u|u v w p Ha Hw IH].
  - intros x [<-|[]]. auto.
  - destruct (wf_ends g W _ _ Ha) as (H1 & H2). intros x [<-|Hx]; auto. apply IH; auto.
Qed.

Lemma has_path_iff {N E} (g : graph N E) s t :
  wf g -> In s (nodes g) ->
  (has_path g s t = true <-> exists p, walk (arc_list g) s t p).
Proof.
  intros W Hs. unfold has_path. rewrite mem_In, reach_spec. split.
  - intros (u & p & [<-|[]] & Hw & _). eauto.
  - intros (p & Hw). destruct (walk_shorten _ _ _ _ Hw) as (q & Hq & Hd & _).
    exists s, q. repeat split; simpl; auto.
    pose proof (walk_nodes_in g s t q W Hs Hq) as Hi.
    pose proof (NoDup_incl_length Hd Hi). lia.
Qed.

(* ------------------------------------------------------------------ *)
(** * shortest_path_length *)

Section Dist.
  Variable (V : list node) (A : list (arc * Q)) (s : node).
  Hypothesis HV : NoDup V.
  Hypothesis HA : NoDup (map fst A).
  Hypothesis Hends : forall u v, In (u, v) (map fst A) -> In u V /\ In v V.

  Definition wt (u v : node) : Q := match assoc_arc (u, v) A with Some q => q | None => 0 end.

  Lemma wt_in u v q : In ((u, v), q) A -> wt u v = q.
  Proof. intro H. unfold wt. rewrite (assoc_arc_NoDup (u, v) q A HA H). auto. Qed.

  Definition cand (D : list (node * option Q)) (v : node) (a : arc * Q) : option Q :=
    if node_eqb (snd (fst a)) v then option_map (fun d => d + snd a) (dlookup (fst (fst a)) D) else None.

  Lemma omin_none_r o : omin o None = o.
  Proof. destruct o; auto. Qed.

  Definition step_fold D v acc (l : list (arc * Q)) :=
    fold_left (fun acc a =>
       if node_eqb (snd (fst a)) v
       then omin acc (option_map (fun d => d + snd a) (dlookup (fst (fst a)) D))
       else acc) l acc.

  Lemma step_fold_spec D v l acc :
    (step_fold D v acc l = acc \/ exists a, In a l /\ step_fold D v acc l = cand D v a) /\
    (forall x, acc = Some x -> exists y, step_fold D v acc l = Some y /\ y <= x) /\
    (forall a x, In a l -> cand D v a = Some x -> exists y, step_fold D v acc l = Some y /\ y <= x).
  Proof.
    revert acc. induction l as [|a l IH]; intro acc.
    - simpl. repeat split; auto.
      + intros x ->. exists x. split; auto. lra.
      + intros a x [].
    - set (acc' := if node_eqb (snd (fst a)) v
       then omin acc (option_map (fun d => d + snd a) (dlookup (fst (fst a)) D))
       else acc).
      assert (E : acc' = omin acc (cand D v a)).
      { unfold acc', cand. destruct (node_eqb (snd (fst a)) v); auto. rewrite omin_none_r. auto. }
      assert (Hcase : acc' = acc \/ acc' = cand D v a).
      { rewrite E. destruct acc as [x|], (cand D v a) as [y|]; simpl; auto.
        destruct (pymin2_spec x y) as (_ & _ & [->| ->]); auto. }
      assert (Hle1 : forall x, acc = Some x -> exists y, acc' = Some y /\ y <= x).
      { intros x ->. rewrite E. destruct (cand D v a) as [y|]; simpl.
        - exists (pymin2 x y). split; auto. apply pymin2_spec.
        - exists x. split; auto. lra. }
      assert (Hle2 : forall x, cand D v a = Some x -> exists y, acc' = Some y /\ y <= x).
      { intros x Hx. rewrite E, Hx. destruct acc as [y|]; simpl.
        - exists (pymin2 y x). split; auto. apply pymin2_spec.
        - exists x. split; auto. lra. }
      change (step_fold D v acc (a :: l)) with (step_fold D v acc' l).
      destruct (IH acc') as (I1 & I2 & I3). repeat split.
      + destruct I1 as [I1|(b & Hb & I1)].
        * rewrite I1. destruct Hcase as [->| ->]; auto. right. exists a; simpl; auto.
        * right. exists b; simpl; auto.
      + intros x Hx. destruct (Hle1 x Hx) as (y & Hy & Hyx).
        destruct (I2 y Hy) as (z & Hz & Hzy). exists z. split; auto. lra.
      + intros b x [<-|Hb] Hx.
        * destruct (Hle2 x Hx) as (y & Hy & Hyx).
          destruct (I2 y Hy) as (z & Hz & Hzy). exists z. split; auto. lra.
        * apply I3 with b; auto.
  Qed.

  Lemma relax_keys D : map fst (relax A D) = map fst D.
  Proof. unfold relax. rewrite map_map. apply map_ext. auto. Qed.

  Lemma dlookup_map (f : node -> option Q -> option Q) v D :
    In v (map fst D) ->
    dlookup v (map (fun p => (fst p, f (fst p) (snd p))) D) = f v (dlookup v D).
  Proof.
    intro Hin. unfold dlookup. rewrite assoc_node_map.
    destruct (assoc_node v D) as [o|] eqn:E; auto.
    apply assoc_node_None in E. contradiction.
  Qed.

  Lemma dlookup_relax D v :
    In v (map fst D) -> dlookup v (relax A D) = step_fold D v (dlookup v D) A.
  Proof. intro H. unfold relax. rewrite (dlookup_map (fun v o => step_fold D v o A)); auto. Qed.

  Definition D0 := map (fun v => (v, if node_eqb v s then Some 0 else None)) V.
  Definition Dn n := relax_n A n D0.

  Lemma Dn_keys n : map fst (Dn n) = V.
  Proof.
    unfold Dn. induction n as [|n IH]; simpl.
    - unfold D0. rewrite map_map. simpl. apply map_id.
    - rewrite relax_keys. auto.
  Qed.

  Lemma D0_lookup v : In v V -> dlookup v D0 = if node_eqb v s then Some 0 else None.
  Proof.
    intro Hv. unfold dlookup, D0.
    assert (E : assoc_node v (map (fun v0 => (v0, if node_eqb v0 s then Some 0 else None)) V)
                = Some (if node_eqb v s then Some 0 else None)).
    { apply assoc_node_NoDup.
      - rewrite map_map. simpl. rewrite map_id. auto.
      - apply in_map_iff. exists v; auto. }
    rewrite E. auto.
  Qed.

  Lemma walk_snoc B u v w p : walk B u v p -> In (v, w) B -> walk B u w (p ++ [w]).
  Proof.
    intros H Ha. apply walk_app with v; auto. econstructor; eauto. constructor.
  Qed.

  Lemma walk_sum_snoc B u v x p : walk B u v p -> path_sum wt (p ++ [x]) == path_sum wt p + wt v x.
  Proof.
    induction 1 as [u|u v w p Ha Hw IH].
    - simpl. rewrite path_sum_cons2, !path_sum_one. lra.
    - destruct (walk_nonempty _ _ _ _ Hw) as (q & ->). simpl in *.
      rewrite !path_sum_cons2. rewrite IH. lra.
  Qed.

  (** every table entry is the length of a walk *)
  Lemma Dn_sound n v q : In v V -> dlookup v (Dn n) = Some q ->
    exists p, walk (map fst A) s v p /\ path_sum wt p == q.
  Proof.
    revert v q. induction n as [|n IH]; intros v q Hv H.
    - unfold Dn in H. simpl in H. rewrite D0_lookup in H by auto.
      destruct (node_eqb v s) eqn:E; [|discriminate]. apply node_eqb_eq in E. subst.
      inversion H; subst. exists [s]. split; [constructor|reflexivity].
    - change (Dn (S n)) with (relax A (Dn n)) in H.
      rewrite dlookup_relax in H by (rewrite Dn_keys; auto).
      destruct (step_fold_spec (Dn n) v A (dlookup v (Dn n))) as (H1 & _).
      destruct H1 as [H1|(a & Ha & H1)]; rewrite H1 in H; [auto|].
      unfold cand in H. destruct a as [[x y] w]. simpl in H.
      destruct (node_eqb y v) eqn:E; [|discriminate]. apply node_eqb_eq in E. subst y.
      destruct (dlookup x (Dn n)) as [d|] eqn:Ed; [|discriminate]. simpl in H. inversion H; subst.
      assert (Hxv : In (x, v) (map fst A)) by (apply in_map_iff; exists ((x, v), w); auto).
      destruct (Hends _ _ Hxv) as (Hx & _).
      destruct (IH x d Hx Ed) as (p & Hp & Hs). exists (p ++ [v]). split.
      + apply walk_snoc with x; auto.
      + rewrite (walk_sum_snoc _ _ _ _ _ Hp). rewrite (wt_in x v w Ha). lra.
  Qed.

  Lemma walk_snoc_inv B u w p : walk B u w p ->
    (p = [u] /\ u = w) \/ exists v q, p = q ++ [w] /\ walk B u v q /\ In (v, w) B.
  Proof.
    induction 1 as [u|u v w p Ha Hw IH]; auto. right.
    destruct IH as [(-> & ->)|(x & q & -> & Hq & Hx)].
    - exists u, [u]. repeat split; auto. constructor.
    - exists x, (u :: q). repeat split; auto. econstructor; eauto.
  Qed.

  (** every short walk is at least as long as the table entry *)
  Lemma Dn_complete n v p : In v V -> walk (map fst A) s v p -> (length p <= S n)%nat ->
    exists q, dlookup v (Dn n) = Some q /\ q <= path_sum wt p.
  Proof.
    revert v p. induction n as [|n IH]; intros v p Hv Hw Hl.
    - assert (E : v = s /\ p = [s]).
      { inversion Hw as [|? v1 ? p1 Ha Hw1]; subst; auto.
        destruct (walk_nonempty _ _ _ _ Hw1) as (q & ->). simpl in Hl. lia. }
      destruct E as (-> & ->). exists 0. unfold Dn. simpl. rewrite D0_lookup by auto.
      rewrite node_eqb_refl. split; auto. rewrite path_sum_one. lra.
    - change (Dn (S n)) with (relax A (Dn n)).
      rewrite dlookup_relax by (rewrite Dn_keys; auto).
      destruct (step_fold_spec (Dn n) v A (dlookup v (Dn n))) as (_ & H2 & H3).
      destruct (walk_snoc_inv _ _ _ _ Hw) as [(-> & <-)|(x & q & -> & Hq & Hx)].
      + destruct (IH s [s] Hv) as (q & Hq & Hle); [constructor|simpl; lia|].
        destruct (H2 q Hq) as (y & Hy & Hyq). exists y. split; auto. lra.
      + destruct (Hends _ _ Hx) as (HxV & _).
        destruct (IH x q HxV Hq) as (d & Hd & Hle).
        { rewrite app_length in Hl. simpl in Hl. lia. }
        apply in_map_iff in Hx. destruct Hx as ([a w] & Ea & Ha). simpl in Ea. subst a.
        destruct (H3 ((x, v), w) (d + w) Ha) as (y & Hy & Hyq).
        { unfold cand. simpl. rewrite node_eqb_refl, Hd. auto. }
        exists y. split; auto. rewrite (walk_sum_snoc _ _ _ _ _ Hq).
        rewrite (wt_in x v w Ha). lra.
  Qed.

  Lemma spl_sound t q : In t V -> shortest_path_length V A s t = Ok q ->
    exists p, walk (map fst A) s t p /\ path_sum wt p == q.
  Proof.
    intros Ht H. unfold shortest_path_length, of_opt in H.
    destruct (dlookup t (dist_table V A s)) as [d|] eqn:E; [|discriminate]. inversion H; subst.
    apply (Dn_sound (length V)); auto.
  Qed.

  Lemma walk_in_V u v p : In u V -> walk (map fst A) u v p -> incl p V.
  Proof.
    intros Hu H. induction H as [u|u v w p Ha Hw IH].
    - intros x [<-|[]]. auto.
    - destruct (Hends _ _ Ha) as (H1 & H2). intros x [<-|Hx]; auto. apply IH; auto.
  Qed.

  Lemma spl_le t p :
    In s V -> In t V -> (forall u v, 0 <= wt u v) -> walk (map fst A) s t p ->
    exists q, shortest_path_length V A s t = Ok q /\ q <= path_sum wt p.
  Proof.
    intros Hs Ht Hpos Hw.
    destruct (walk_shorten _ _ _ _ Hw) as (q & Hq & Hd & _ & _ & Hsum).
    pose proof (NoDup_incl_length Hd (walk_in_V _ _ _ Hs Hq)) as Hl.
    destruct (Dn_complete (length V) t q Ht Hq ltac:(lia)) as (d & Hd' & Hle).
    exists d. unfold shortest_path_length. change (dist_table V A s) with (Dn (length V)).
    rewrite Hd'. split; auto. specialize (Hsum wt (fun x y _ => Hpos x y)). lra.
  Qed.
End Dist.

(* ------------------------------------------------------------------ *)
(** * shortest_path *)

Lemma walks_to_sound A n s t p : In p (walks_to A n s t) -> walk A s t p /\ length p = S n.
Proof.
  revert s p. induction n as [|n IH]; intros s p H; simpl in H.
  - destruct (node_eqb s t) eqn:E; [|destruct H]. apply node_eqb_eq in E. subst.
    destruct H as [<-|[]]. split; [constructor|auto].
  - apply in_flat_map in H. destruct H as ([x y] & Ha & H). simpl in H.
    destruct (node_eqb x s) eqn:E; [|destruct H]. apply node_eqb_eq in E. subst.
    apply in_map_iff in H. destruct H as (q & <- & Hq). apply IH in Hq.
    destruct Hq as (Hq & Hl). split; [econstructor; eauto|simpl; auto].
Qed.

Lemma walks_to_complete A s t p : walk A s t p -> In p (walks_to A (length p - 1) s t).
Proof.
  induction 1 as [u|u v w p Ha Hw IH]; simpl.
  - rewrite node_eqb_refl. simpl; auto.
  - destruct (walk_nonempty _ _ _ _ Hw) as (q & ->). simpl in *. rewrite Nat.sub_0_r in *.
    apply in_flat_map. exists (u, v). split; auto. simpl. rewrite node_eqb_refl.
    apply in_map. auto.
Qed.

Lemma shortest_from_sound A f n s t p : shortest_from A f n s t = Ok p -> walk A s t p.
Proof.
  revert n. induction f as [|f IH]; intros n H; simpl in H.
  - destruct (walks_to A n s t) as [|q l] eqn:E; [discriminate|]. inversion H; subst.
    apply (walks_to_sound A n). rewrite E. simpl; auto.
  - destruct (walks_to A n s t) as [|q l] eqn:E.
    + apply IH with (S n); auto.
    + inversion H; subst. apply (walks_to_sound A n). rewrite E. simpl; auto.
Qed.

Lemma shortest_path_sound A s t p : shortest_path A s t = Ok p -> walk A s t p.
Proof. apply shortest_from_sound. Qed.

Lemma shortest_from_complete A f n s t k :
  (n <= k <= n + f)%nat -> walks_to A k s t <> [] -> exists p, shortest_from A f n s t = Ok p.
Proof.
  revert n. induction f as [|f IH]; intros n Hk Hne; simpl.
  - replace k with n in Hne by lia. destruct (walks_to A n s t); [congruence|eauto].
  - destruct (walks_to A n s t) as [|q l] eqn:E; [|eauto].
    apply IH; auto. destruct (Nat.eq_dec n k); [subst; congruence|lia].
Qed.

Lemma shortest_path_complete A s t p :
  walk A s t p -> exists q, shortest_path A s t = Ok q.
Proof.
  intro H. destruct (walk_shorten _ _ _ _ H) as (q & Hq & Hd & _).
  apply (shortest_from_complete A (length A) 0 s t (length q - 1)).
  - split; [lia|].
    assert (length (arcs q) <= length A)%nat.
    { apply NoDup_incl_length; [apply arcs_NoDup; auto|].
      intros [u v] Huv. apply (walk_along _ _ _ _ Hq). auto. }
    destruct (walk_nonempty _ _ _ _ Hq) as (q' & ->). rewrite arcs_length in *. simpl. lia.
  - pose proof (walks_to_complete _ _ _ _ Hq) as Hin. intro C. rewrite C in Hin. destruct Hin.
Qed.

(** If every node has at most one outgoing arc and the target none, the walk is unique. *)
Lemma walk_unique A s t p q :
  (forall u v v', In (u, v) A -> In (u, v') A -> v = v') ->
  (forall v, ~ In (t, v) A) ->
  walk A s t p -> walk A s t q -> p = q.
Proof.
  intros Hf Ht Hp. revert q. induction Hp as [u|u v w p Ha Hw IH]; intros q Hq.
  - inversion Hq as [|? v1 ? p1 Ha1 Hw1]; subst; auto. exfalso. eapply Ht; eauto.
  - inversion Hq as [|? v1 ? p1 Ha1 Hw1]; subst.
    + exfalso. eapply Ht; eauto.
    + rewrite (Hf _ _ _ Ha Ha1) in *. f_equal. apply IH; auto.
Qed.

Lemma arcs_unique_succ p : NoDup p -> forall u v v', In (u, v) (arcs p) -> In (u, v') (arcs p) -> v = v'.
Proof.
  intros Hd u v v' H1 H2. apply arcs_in in H1. apply arcs_in in H2.
  destruct H1 as (p1 & p2 & ->). destruct H2 as (q1 & q2 & E).
  assert (p1 = q1).
  { revert q1 E Hd. induction p1 as [|a p1 IH]; intros [|b q1] E Hd; simpl in E; auto.
    - inversion E; subst. inversion Hd as [|? ? Hn _]; subst. exfalso. apply Hn.
      rewrite H1. apply in_or_app. simpl; auto.
    - inversion E; subst. inversion Hd as [|? ? Hn _]; subst. exfalso. apply Hn.
      apply in_or_app. simpl; auto.
    - inversion E; subst. f_equal. apply IH; auto. inversion Hd; auto. }
  subst. apply app_inv_head in E. inversion E; auto.
Qed.

Lemma arcs_last_no_succ p t : NoDup (p ++ [t]) -> forall v, ~ In (t, v) (arcs (p ++ [t])).
Proof.
  intros Hd v H. apply arcs_in in H. destruct H as (p1 & p2 & E).
  apply NoDup_app_inv in Hd. destruct Hd as (_ & _ & Hd).
  assert (Hin : In t p).
  { assert (Hl : exists p3 x, v :: p2 = p3 ++ [x]).
    { exists (removelast (v :: p2)), (last (v :: p2) v). apply app_removelast_last. discriminate. }
    destruct Hl as (p3 & x & Hl).
    assert (E2 : p ++ [t] = (p1 ++ t :: p3) ++ [x]).
    { rewrite E, Hl. rewrite <- app_assoc. reflexivity. }
    apply app_inj_tail in E2. destruct E2 as (-> & _). apply in_or_app. simpl; auto. }
  apply (Hd t); simpl; auto.
Qed.

(** The graph made of the arcs of a simple path: shortest_path returns that path. *)
Lemma shortest_path_simple A p s t :
  NoDup p -> (exists q, p = q ++ [t]) -> (exists q, p = s :: q) ->
  (forall a, In a A <-> In a (arcs p)) ->
  shortest_path A s t = Ok p.
Proof.
  intros Hd (q & Hq) (q' & Hq') HA.
  assert (Hw : walk A s t p).
  { assert (Hl : last p s = t) by (rewrite Hq; apply last_app_single).
    rewrite <- Hl. apply walk_intro with q'; auto. intros u v Huv. apply HA; auto. }
  destruct (shortest_path_complete A s t p Hw) as (r & Hr). rewrite Hr. f_equal.
  apply (walk_unique A s t); auto; [| |apply shortest_path_sound; auto].
  - intros u v v' H1 H2. apply HA in H1. apply HA in H2. eapply arcs_unique_succ; eauto.
  - intros v Hv. apply HA in Hv. rewrite Hq in Hv, Hd. exact (arcs_last_no_succ q t Hd v Hv).
Qed.
