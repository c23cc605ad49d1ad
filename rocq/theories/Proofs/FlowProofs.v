(** Flows of unit arcs: decomposition into a path and closed walks. *)
From Verif.Base Require Import Prelude Graph.
From Verif.Spec Require Import Routes.
From Verif.Proofs Require Import RouteLemmas ReachLemmas.

Definition indeg (A : list arc) (v : node) : Z :=
  Z.of_nat (List.length (filter (fun a => node_eqb (snd a) v) A)).
Definition outdeg (A : list arc) (v : node) : Z :=
  Z.of_nat (List.length (filter (fun a => node_eqb (fst a) v) A)).
Definition one (b : bool) : Z := if b then 1%Z else 0%Z.

(** one unit from [s] to [t] *)
Definition flow (A : list arc) (s t : node) : Prop :=
  forall v, (outdeg A v - indeg A v = one (node_eqb s v) - one (node_eqb t v))%Z.
Definition balanced (A : list arc) : Prop := forall v, outdeg A v = indeg A v.

Lemma filter_perm_length {A} (f : A -> bool) l l' :
  Permutation l l' -> List.length (filter f l) = List.length (filter f l').
Proof.
  induction 1 as [|x l l' Hp IH|x y l|l l' l'' H1 IH1 H2 IH2]; simpl; auto.
  - destruct (f x); simpl; auto.
  - destruct (f x), (f y); simpl; auto.
  - congruence.
Qed.

Lemma indeg_perm A B v : Permutation A B -> indeg A v = indeg B v.
Proof. intro H. unfold indeg. f_equal. apply filter_perm_length; auto. Qed.
Lemma outdeg_perm A B v : Permutation A B -> outdeg A v = outdeg B v.
Proof. intro H. unfold outdeg. f_equal. apply filter_perm_length; auto. Qed.

Lemma indeg_cons a A v : indeg (a :: A) v = (one (node_eqb (snd a) v) + indeg A v)%Z.
Proof. unfold indeg. simpl. destruct (node_eqb (snd a) v); simpl List.length; unfold one; lia. Qed.
Lemma outdeg_cons a A v : outdeg (a :: A) v = (one (node_eqb (fst a) v) + outdeg A v)%Z.
Proof. unfold outdeg. simpl. destruct (node_eqb (fst a) v); simpl List.length; unfold one; lia. Qed.

Lemma indeg_app A B v : indeg (A ++ B) v = (indeg A v + indeg B v)%Z.
Proof. unfold indeg. rewrite filter_app, app_length, Nat2Z.inj_add. reflexivity. Qed.
Lemma outdeg_app A B v : outdeg (A ++ B) v = (outdeg A v + outdeg B v)%Z.
Proof. unfold outdeg. rewrite filter_app, app_length, Nat2Z.inj_add. reflexivity. Qed.

Lemma indeg_nonneg A v : (0 <= indeg A v)%Z.
Proof. unfold indeg. lia. Qed.
Lemma outdeg_nonneg A v : (0 <= outdeg A v)%Z.
Proof. unfold outdeg. lia. Qed.

Lemma outdeg_pos A v : (0 < outdeg A v)%Z -> exists w, In (v, w) A.
Proof.
  unfold outdeg. intro H. destruct (filter (fun a => node_eqb (fst a) v) A) as [|[u w] l] eqn:E; [simpl in H; lia|].
  assert (Hin : In (u, w) (filter (fun a => node_eqb (fst a) v) A)) by (rewrite E; simpl; auto).
  apply filter_In in Hin. destruct Hin as (Hin & Hu). simpl in Hu. apply node_eqb_eq in Hu. subst. eauto.
Qed.

Lemma indeg_in A u v : In (u, v) A -> (0 < indeg A v)%Z.
Proof.
  intro H. unfold indeg.
  assert (Hin : In (u, v) (filter (fun a => node_eqb (snd a) v) A)).
  { apply filter_In. split; auto. simpl. apply node_eqb_refl. }
  destruct (filter (fun a => node_eqb (snd a) v) A); [destruct Hin|simpl; lia].
Qed.

Lemma outdeg_in A u v : In (u, v) A -> (0 < outdeg A u)%Z.
Proof.
  intro H. unfold outdeg.
  assert (Hin : In (u, v) (filter (fun a => node_eqb (fst a) u) A)).
  { apply filter_In. split; auto. simpl. apply node_eqb_refl. }
  destruct (filter (fun a => node_eqb (fst a) u) A); [destruct Hin|simpl; lia].
Qed.

Lemma indeg_pos A v : (0 < indeg A v)%Z -> exists u, In (u, v) A.
Proof.
  unfold indeg. intro H. destruct (filter (fun a => node_eqb (snd a) v) A) as [|[u w] l] eqn:E; [simpl in H; lia|].
  assert (Hin : In (u, w) (filter (fun a => node_eqb (snd a) v) A)) by (rewrite E; simpl; auto).
  apply filter_In in Hin. destruct Hin as (Hin & Hu). simpl in Hu. apply node_eqb_eq in Hu. subst. eauto.
Qed.

Lemma perm_flow A B s t : Permutation A B -> flow A s t -> flow B s t.
Proof. intros H F v. rewrite <- (outdeg_perm A B v H), <- (indeg_perm A B v H). apply F. Qed.
Lemma perm_balanced A B : Permutation A B -> balanced A -> balanced B.
Proof. intros H F v. rewrite <- (outdeg_perm A B v H), <- (indeg_perm A B v H). apply F. Qed.

Lemma flow_same A s : flow A s s -> balanced A.
Proof. intros F v. specialize (F v). lia. Qed.

Lemma flow_step A s w t : flow ((s, w) :: A) s t -> flow A w t.
Proof.
  intros F v. specialize (F v). rewrite outdeg_cons, indeg_cons in F. simpl in F. lia.
Qed.

Lemma balanced_step A u v : balanced ((u, v) :: A) -> flow A v u.
Proof.
  intros F x. specialize (F x). rewrite outdeg_cons, indeg_cons in F. simpl in F. lia.
Qed.

Lemma arcs_flow s p t : flow (arcs (s :: p ++ [t])) s t.
Proof.
  revert s. induction p as [|v p IH]; intros s x.
  - simpl. unfold outdeg, indeg. simpl. destruct (node_eqb s x), (node_eqb t x); simpl; lia.
  - change (s :: (v :: p) ++ [t]) with (s :: v :: (p ++ [t])). rewrite arcs_cons2.
    rewrite outdeg_cons, indeg_cons. simpl fst. simpl snd. specialize (IH v x). lia.
Qed.

Lemma closed_balanced s p : balanced (arcs (s :: p ++ [s])).
Proof. apply flow_same with s. apply arcs_flow. Qed.

Lemma in_perm (a : arc) A : In a A -> exists B, Permutation A (a :: B).
Proof.
  intro H. apply in_split in H. destruct H as (l1 & l2 & ->). exists (l1 ++ l2).
  apply Permutation_sym, Permutation_middle.
Qed.

Lemma flow_out A s t : flow A s t -> s <> t -> exists w, In (s, w) A.
Proof.
  intros F Hn. apply outdeg_pos. specialize (F s). rewrite node_eqb_refl in F.
  assert (E : node_eqb t s = false) by (apply node_eqb_neq; congruence). rewrite E in F.
  pose proof (indeg_nonneg A s). unfold one in F. lia.
Qed.

(** a unit flow is a trail and a balanced rest *)
Lemma flow_trail n A s t :
  (List.length A <= n)%nat -> flow A s t -> s <> t ->
  exists p B, walk A s t p /\ Permutation A (arcs p ++ B) /\ balanced B.
Proof.
  revert A s. induction n as [|n IH]; intros A s Hn F Hst; destruct (flow_out A s t F Hst) as (w & Hw).
  - destruct A; [destruct Hw|simpl in Hn; lia].
  - destruct (in_perm _ _ Hw) as (A' & HA).
    assert (F' : flow A' w t) by (apply (flow_step A' s w t); apply (perm_flow A); auto).
    destruct (node_eq_dec w t) as [->|Hwt].
    + exists [s; t], A'. split; [|split].
      * apply walk_cons with t; auto. constructor.
      * simpl. auto.
      * apply flow_same with t; auto.
    + destruct (IH A' w) as (p & B & Hp & HB & Hb); auto.
      { apply Permutation_length in HA. simpl in HA. lia. }
      exists (s :: p), B. split; [|split]; auto.
      * apply walk_cons with w; auto. apply (walk_sub A'); auto.
        intros a Ha. apply (Permutation_in _ (Permutation_sym HA)). simpl; auto.
      * destruct (walk_nonempty _ _ _ _ Hp) as (q & ->). rewrite arcs_cons2. simpl.
        eapply Permutation_trans; [apply HA|]. apply perm_skip. auto.
Qed.

(** dropping the loops of a trail *)
Lemma trail_simple n A p s t :
  (List.length p <= n)%nat -> walk A s t p -> s <> t ->
  exists q B, walk A s t q /\ NoDup q /\ Permutation (arcs p) (arcs q ++ B) /\ balanced B.
Proof.
  revert p. induction n as [|n IH]; intros p Hn Hw Hst.
  - destruct (walk_nonempty _ _ _ _ Hw) as (q & ->). simpl in Hn. lia.
  - destruct (ListDec.NoDup_dec node_eq_dec p) as [Hd|Hd].
    + exists p, []. rewrite app_nil_r. split; auto. split; auto. split; auto. intro v. reflexivity.
    + destruct (not_NoDup_split p Hd) as (x & p1 & p2 & p3 & ->).
      assert (Hw2 : walk A s t (p1 ++ x :: p3)).
      { destruct (walk_first_last _ _ _ _ x p1 (p2 ++ x :: p3) Hw eq_refl) as (H1 & H2).
        destruct (walk_first_last _ _ _ _ x (x :: p2) p3 H2 eq_refl) as (H3 & H4).
        replace (p1 ++ x :: p3) with ((p1 ++ [x]) ++ p3) by (rewrite <- app_assoc; auto).
        apply walk_app with x; auto. }
      destruct (IH (p1 ++ x :: p3)) as (q & B & Hq & Hnd & HB & Hb); auto.
      { rewrite app_length in *. simpl in *. rewrite app_length in Hn. simpl in Hn. lia. }
      exists q, (arcs (x :: p2 ++ [x]) ++ B). split; auto. split; auto. split.
      * rewrite (arcs_app_mid p1 x (p2 ++ x :: p3)).
        change (x :: p2 ++ x :: p3) with ((x :: p2) ++ x :: p3). rewrite (arcs_app_mid (x :: p2) x p3).
        rewrite (arcs_app_mid p1 x p3) in HB.
        change ((x :: p2) ++ [x]) with (x :: p2 ++ [x]).
        eapply Permutation_trans; [apply Permutation_app_swap_app|].
        eapply Permutation_trans; [apply Permutation_app_head; exact HB|].
        apply Permutation_app_swap_app.
      * intro v. rewrite outdeg_app, indeg_app, (closed_balanced x p2 v), Hb. reflexivity.
Qed.

Lemma flow_decompose A s t : flow A s t -> s <> t ->
  exists p B, walk A s t p /\ NoDup p /\ Permutation A (arcs p ++ B) /\ balanced B.
Proof.
  intros F Hst. destruct (flow_trail (List.length A) A s t) as (p & B & Hp & HB & Hb); auto.
  destruct (trail_simple (List.length p) A p s t) as (q & C & Hq & Hnd & HC & Hc); auto.
  exists q, (C ++ B). split; auto. split; auto. split.
  - eapply Permutation_trans; [apply HB|]. rewrite app_assoc. apply Permutation_app_tail. auto.
  - intro v. rewrite outdeg_app, indeg_app, Hc, Hb. reflexivity.
Qed.

(** balanced arcs weigh nothing if closed walks do *)
Lemma balanced_weight (w : node -> node -> Q) A : forall n B,
  (List.length B <= n)%nat -> balanced B -> (forall a, In a B -> In a A) ->
  (forall u p, walk A u u p -> 0 <= path_sum w p) ->
  0 <= Qsum (map (fun a => w (fst a) (snd a)) B).
Proof.
  induction n as [|n IH]; intros B Hn Hb Hin Hcyc; (destruct B as [|[u v] B]; [simpl; lra|]).
  - simpl in Hn. lia.
  - assert (F : flow B v u) by (apply balanced_step; auto).
    assert (Huv : In (u, v) A) by (apply Hin; simpl; auto).
    destruct (node_eq_dec v u) as [->|Hne].
    + assert (H1 := Hcyc u [u; u] (walk_cons _ _ _ _ _ Huv (walk_one _ u))).
      assert (H2 : 0 <= Qsum (map (fun a => w (fst a) (snd a)) B)).
      { apply IH; auto; [simpl in Hn; lia|apply flow_same with u; auto|intros; apply Hin; simpl; auto]. }
      unfold path_sum in H1. simpl in H1. simpl. lra.
    + destruct (flow_trail (List.length B) B v u) as (p & C & Hp & HC & Hc); auto.
      assert (H1 : 0 <= path_sum w (u :: p)).
      { apply (Hcyc u). apply walk_cons with v; auto. apply (walk_sub B); auto.
        intros; apply Hin; simpl; auto. }
      assert (H2 : 0 <= Qsum (map (fun a => w (fst a) (snd a)) C)).
      { apply IH; auto.
        - apply Permutation_length in HC. rewrite app_length in HC. simpl in Hn. lia.
        - intros a Ha. apply Hin. simpl. right. apply (Permutation_in _ (Permutation_sym HC)).
          apply in_or_app; auto. }
      simpl map. rewrite Qsum_cons.
      rewrite (Qsum_perm _ _ (Permutation_map _ HC)), map_app, Qsum_app.
      destruct (walk_nonempty _ _ _ _ Hp) as (q & ->). rewrite path_sum_cons2 in H1.
      change (Qsum (map (fun a => w (fst a) (snd a)) (arcs (v :: q)))) with (path_sum w (v :: q)).
      simpl fst. simpl snd. rewrite Qplus_assoc.
      apply (Qle_trans _ ((w u v + path_sum w (v :: q)) + 0)); [lra|].
      apply Qplus_le_compat; [apply Qle_refl|exact H2].
Qed.

(** balanced arcs are closed walks *)
Lemma balanced_cycles : forall n B, (List.length B <= n)%nat -> balanced B ->
  exists ws, Permutation B (flat_map arcs ws) /\
    forall w, In w ws -> exists u, walk B u u w /\ arcs w <> [].
Proof.
  induction n as [|n IH]; intros B Hn Hb; (destruct B as [|[u v] B]; [exists []; simpl; split; auto; intros w []|]).
  - simpl in Hn. lia.
  - assert (F : flow B v u) by (apply balanced_step; auto).
    destruct (node_eq_dec v u) as [->|Hne].
    + destruct (IH B) as (ws & HP & Hws); [simpl in Hn; lia|apply flow_same with u; auto|].
      exists ([u; u] :: ws). split; [simpl; auto|].
      intros w [<-|Hw].
      * exists u. split; [|discriminate]. apply walk_cons with u; [simpl; auto|constructor].
      * destruct (Hws w Hw) as (z & Hz & Hz2). exists z. split; auto. apply (walk_sub B); auto. simpl; auto.
    + destruct (flow_trail (List.length B) B v u) as (p & C & Hp & HC & Hc); auto.
      assert (HsubC : forall a, In a C -> In a ((u, v) :: B)).
      { intros a Ha. right. apply (Permutation_in _ (Permutation_sym HC)), in_or_app. auto. }
      destruct (IH C) as (ws & HP & Hws); auto.
      { apply Permutation_length in HC. rewrite app_length in HC. simpl in Hn. lia. }
      exists ((u :: p) :: ws). split.
      * cbn [flat_map]. destruct (walk_nonempty _ _ _ _ Hp) as (q & ->). rewrite arcs_cons2.
        cbn [app]. apply perm_skip. eapply Permutation_trans; [apply HC|]. apply Permutation_app_head. auto.
      * intros w [<-|Hw].
        -- exists u. split.
           ++ apply walk_cons with v; [simpl; auto|]. apply (walk_sub B); auto. simpl; auto.
           ++ destruct (walk_nonempty _ _ _ _ Hp) as (q & ->). rewrite arcs_cons2. discriminate.
        -- destruct (Hws w Hw) as (z & Hz & Hz2). exists z. split; auto. apply (walk_sub C); auto.
Qed.

(* ------------------------------------------------------------------ *)
(** ** With ranks that increase along the arcs *)
Lemma max_key {A} (key : A -> Q) (l : list A) : l <> [] -> exists a, In a l /\ forall b, In b l -> key b <= key a.
Proof.
  induction l as [|a l IH]; intro H; [congruence|].
  destruct l as [|b l].
  - exists a. split; [simpl; auto|]. intros c [<-|[]]. lra.
  - destruct IH as (m & Hm & Hmax); [discriminate|].
    destruct (Qlt_le_dec (key m) (key a)) as [Hl|Hl].
    + exists a. split; [simpl; auto|]. intros c [<-|Hc]; [lra|]. specialize (Hmax c Hc). lra.
    + exists m. split; [right; auto|]. intros c [<-|Hc]; [lra|]. auto.
Qed.

Lemma ranked_balanced_nil (y : node -> Q) A :
  (forall u v, In (u, v) A -> y u + 1 <= y v) -> balanced A -> A = [].
Proof.
  intros Hy Hb. destruct A as [|a A]; auto. exfalso.
  destruct (max_key (fun a : arc => y (snd a)) (a :: A)) as ([u v] & Hin & Hmax); [discriminate|].
  simpl in Hmax. assert (Hi := indeg_in _ _ _ Hin). rewrite <- (Hb v) in Hi.
  destruct (outdeg_pos _ _ Hi) as (w & Hw). specialize (Hmax (v, w) Hw). specialize (Hy v w Hw).
  simpl in Hmax. lra.
Qed.

Lemma ranked_flow_path (y : node -> Q) A s t :
  (forall u v, In (u, v) A -> y u + 1 <= y v) -> flow A s t -> s <> t ->
  exists p, walk A s t p /\ NoDup p /\ Permutation A (arcs p).
Proof.
  intros Hy F Hst. destruct (flow_decompose A s t F Hst) as (p & B & Hp & Hnd & HB & Hb).
  assert (B = []).
  { apply (ranked_balanced_nil y); auto. intros u v Huv. apply Hy.
    apply (Permutation_in _ (Permutation_sym HB)). apply in_or_app; auto. }
  subst. rewrite app_nil_r in HB. eauto.
Qed.
