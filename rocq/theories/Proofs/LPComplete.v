(** Every drivable route is a solution of the pricing MIP. *)
From Verif.Base Require Import Prelude Graph.
From Verif.Spec Require Import Routes Network LinProg Pricing MIP Columns.
From Verif.Model Require Import Args Reach Checks Preprocess ClarkeWright Greedy Initial Pricing LPPricing.
From Verif.Proofs Require Import RouteLemmas ReachLemmas PreLemmas PricingProofs FlowProofs InitialProofs LPProofs LPColumn.

(** the part of [l] before the first occurrence of [v], and the rest *)
Fixpoint upto (v : node) (l : list node) : list node :=
  match l with [] => [] | u :: t => if node_eqb u v then [] else u :: upto v t end.
Fixpoint from (v : node) (l : list node) : list node :=
  match l with [] => [] | u :: t => if node_eqb u v then l else from v t end.

Lemma upto_from v l : l = upto v l ++ from v l.
Proof.
  induction l as [|u t IH]; simpl; auto. destruct (node_eqb u v); simpl; congruence.
Qed.
Lemma upto_split v l1 l2 : ~ In v l1 -> upto v (l1 ++ v :: l2) = l1 /\ from v (l1 ++ v :: l2) = v :: l2.
Proof.
  induction l1 as [|u t IH]; simpl; intro H.
  - rewrite (proj2 (node_eqb_eq v v) eq_refl). auto.
  - destruct (node_eqb u v) eqn:E; [apply node_eqb_eq in E; subst; tauto|].
    destruct IH as (-> & ->); auto.
Qed.
Lemma upto_none v l : ~ In v l -> upto v l = l /\ from v l = [].
Proof.
  induction l as [|u t IH]; simpl; intro H; auto.
  destruct (node_eqb u v) eqn:E; [apply node_eqb_eq in E; subst; tauto|].
  destruct IH as (-> & ->); auto.
Qed.
Lemma upto_length v l : (List.length (upto v l) <= List.length l)%nat.
Proof. induction l as [|u t IH]; simpl; auto. destruct (node_eqb u v); simpl; lia. Qed.

(** departure times by position *)
Fixpoint at_node (p : list node) (T : list Q) (v : node) : option Q :=
  match p, T with
  | u :: p', t :: T' => if node_eqb u v then Some t else at_node p' T' v
  | _, _ => None
  end.

Lemma capacity_at_inv caps k q : capacity_at caps k = Ok q ->
  exists cl c, caps = Some cl /\ nth_error cl k = Some c /\ q = inject_Z c.
Proof.
  unfold capacity_at. destruct caps as [cl|]; [|discriminate]. intro E.
  apply bind_ok in E. destruct E as (c & E1 & E2). inversion E2.
  destruct (nth_error cl k) as [z|] eqn:En; [|discriminate]. inversion E1; subst. eauto.
Qed.
Lemma loads_inv h k caps l : match caps with Some (_ :: _) => load_rows h k caps | _ => Ok [] end = Ok l ->
  forall r, In r l -> exists cl c, caps = Some cl /\ nth_error cl k = Some c /\
    r = mkRow (map (fun a => (demand_of h (snd a), X a)) (edges h)) LE (inject_Z c).
Proof.
  intros E r Hr. destruct caps as [[|c0 cl]|] eqn:Ec; try (inversion E; subst; destruct Hr; fail).
  unfold load_rows in E. apply bind_ok in E. destruct E as (q & E1 & E). inversion E; subst l; clear E.
  apply capacity_at_inv in E1. destruct E1 as (cl' & c & E1 & E2 & ->). destruct Hr as [<-|[]]. eauto.
Qed.

Lemma request_rows_inv h rr : wf h -> request_rows h = Ok rr -> forall r, In r rr ->
  exists v d, pair_of h v d /\
    (r = mkRow (sum_x (out_arcs h v) ++ minus (sum_x (out_arcs h d))) EQ 0 \/
     r = mkRow [(1, Rank v); (- (1), Rank d)] LE 0).
Proof.
  intros W H. unfold request_rows in H.
  refine (foldM_inv _ (fun s => forall r, In r s -> exists v d, pair_of h v d /\
    (r = mkRow (sum_x (out_arcs h v) ++ minus (sum_x (out_arcs h d))) EQ 0 \/
     r = mkRow [(1, Rank v); (- (1), Rank d)] LE 0)) (gnodes h) _ [] rr _ H); [|intros r []].
  intros s [v n] s' Hin IH Hf r Hr. cbn [fst snd] in Hf. destruct (request n) as [d|] eqn:E.
  - apply bind_ok in Hf. destruct Hf as (t & _ & Hf). inversion Hf; subst s'.
    apply in_app_or in Hr. destruct Hr as [Hr|Hr]; auto.
    exists v, d. split.
    + exists n. split; auto. apply assoc_node_NoDup; auto. apply W.
    + destruct Hr as [<-|[<-|[]]]; auto.
  - inversion Hf; subst. auto.
Qed.

Lemma running_loads_in d v r : forall c1 acc,
  exists q, In q (running_loads d acc (c1 ++ v :: r)) /\ q == acc + node_sum d (c1 ++ [v]).
Proof.
  induction c1 as [|u c1 IH]; intro acc.
  - exists (acc + d v). simpl. split; auto. rewrite node_sum_cons, node_sum_nil. lra.
  - destruct (IH (acc + d u)) as (q & Hq & E). exists q. cbn [app running_loads]. split; [simpl; auto|].
    rewrite E, node_sum_cons. lra.
Qed.

(** times of a timetable *)
Lemma at_node_in time service lower upper p : forall T, timetable time service lower upper p T ->
  forall v, In v p -> exists t, at_node p T v = Some t /\ lower v <= t /\ t <= upper v.
Proof.
  induction p as [|u p IH]; intros T HT v Hv; [destruct Hv|].
  destruct T as [|t T]; [destruct p; destruct HT|]. cbn [at_node].
  destruct (node_eqb u v) eqn:E.
  - apply node_eqb_eq in E. subst u. exists t. split; auto.
    destruct p as [|w p]; destruct T as [|t' T]; cbn [timetable] in HT; tauto.
  - assert (Hne : u <> v) by (intro C; apply node_eqb_eq in C; congruence).
    destruct Hv as [Hv|Hv]; [congruence|].
    destruct p as [|w p]; [destruct Hv|]. destruct T as [|t' T]; [destruct HT|].
    apply IH; auto. cbn [timetable] in HT. tauto.
Qed.
Lemma at_node_out p : forall T v, ~ In v p -> at_node p T v = None.
Proof.
  induction p as [|u p IH]; intros T v Hv; [destruct T; auto|]. destruct T as [|t T]; auto. cbn [at_node].
  destruct (node_eqb u v) eqn:E; [apply node_eqb_eq in E; subst; simpl in Hv; tauto|].
  apply IH. simpl in Hv; tauto.
Qed.
Lemma at_node_step time service lower upper p : forall T, timetable time service lower upper p T -> NoDup p ->
  forall u v, In (u, v) (arcs p) -> exists t t', at_node p T u = Some t /\ at_node p T v = Some t' /\
    t + service u + time u v <= t'.
Proof.
  induction p as [|a p IH]; intros T HT Hnd u v Huv; [destruct Huv|].
  destruct p as [|b p]; [destruct Huv|]. destruct T as [|t T]; [destruct HT|].
  destruct T as [|t' T]; [destruct HT|].
  rewrite arcs_cons2 in Huv. inversion Hnd as [|? ? Ha Hp]; subst.
  assert (HT' : timetable time service lower upper (b :: p) (t' :: T)) by (cbn [timetable] in HT; tauto).
  destruct Huv as [Huv|Huv].
  - injection Huv as -> ->. exists t, t'. cbn [at_node].
    rewrite (proj2 (node_eqb_eq u u) eq_refl).
    destruct (node_eqb u v) eqn:E; [apply node_eqb_eq in E; subst; simpl in Ha; tauto|].
    rewrite (proj2 (node_eqb_eq v v) eq_refl). split; auto. split; auto. cbn [timetable] in HT; tauto.
  - destruct (IH _ HT' Hp u v Huv) as (x & y & H1 & H2 & H3).
    exists x, y. change (at_node (a :: b :: p) (t :: t' :: T) u) with (if node_eqb a u then Some t else at_node (b :: p) (t' :: T) u).
    change (at_node (a :: b :: p) (t :: t' :: T) v) with (if node_eqb a v then Some t else at_node (b :: p) (t' :: T) v).
    apply arcs_in_nodes in Huv.
    destruct (node_eqb a u) eqn:E1; [apply node_eqb_eq in E1; subst; tauto|].
    destruct (node_eqb a v) eqn:E2; [apply node_eqb_eq in E2; subst; tauto|]. auto.
Qed.

Section Complete.
  Variables (h : vgraph) (K k : nat) (caps : option (list Z)) (o : options) (ns dur : option Z) (neg : bool).
  Variable p : program pvar.
  Variable cs : list node.
  Variable T : list Q.
  Hypothesis N : network K h.
  Hypothesis F : formulate h k caps o ns dur neg = Ok p.
  Hypothesis D : drivable h o caps k ns dur cs.

  Let onr (v : node) : bool := mem v (trip cs).

  (** the solution that encodes the route *)
  Definition encode (y : pvar) : Q :=
    match y with
    | X a => if mem_arc a (arcs (trip cs)) then 1 else 0
    | Time v => match at_node (trip cs) T v with Some t => t | None => lower_of h v end
    | Rank v => if mem v (cs ++ [Sink]) then inject_Z (1 + Z.of_nat (List.length (upto v cs))) else 0
    | Load v => if mem v (cs ++ [Sink]) then node_sum (demand_of h) (upto v cs ++ [v])
                else if node_eqb v Source then 0 else Qmax 0 (demand_of h v)
    | Unload a => if mem_arc a (arcs (trip cs)) then node_sum (demand_of h) (from (snd a) cs) else 0
    | Collected a => if mem_arc a (arcs (trip cs)) then node_sum (collect_of h) (upto (snd a) cs) else 0
    end.

  Let R : elementary_route h cs := dr_route _ _ _ _ _ _ _ D.
  Let Hnd : NoDup (trip cs) := trip_NoDup h cs R.

  Lemma cs_depots : ~ In Source cs /\ ~ In Sink cs.
  Proof. split; intro C; apply (er_custs _ _ R) in C; tauto. Qed.

  Lemma on_arc a : In a (arcs (trip cs)) -> In a (arc_list h).
  Proof. destruct a as [u v]. apply (er_along _ _ R). Qed.
  Lemma mem_arc_false a l : mem_arc a l = false <-> ~ In a l.
  Proof. rewrite <- mem_arc_In. destruct (mem_arc a l); split; intro H; congruence. Qed.

  Lemma enc_x_in a : In a (arcs (trip cs)) -> encode (X a) == 1.
  Proof. intro H. cbn [encode]. apply mem_arc_In in H. rewrite H. reflexivity. Qed.
  Lemma enc_x_out a : ~ In a (arcs (trip cs)) -> encode (X a) == 0.
  Proof. intro H. cbn [encode]. apply mem_arc_false in H. rewrite H. reflexivity. Qed.

  (** sums over subsets of the arcs *)
  Lemma enc_sum (f : arc -> Q) l : Qsum (map (fun a => f a * encode (X a)) l)
    == Qsum (map f (filter (fun a => mem_arc a (arcs (trip cs))) l)).
  Proof.
    induction l as [|a l IH]; [simpl; lra|].
    cbn [map filter]. rewrite Qsum_cons, IH. cbn [encode].
    destruct (mem_arc a (arcs (trip cs))); cbn [map]; rewrite ?Qsum_cons; lra.
  Qed.

  Lemma filter_edges : Permutation (filter (fun a => mem_arc a (arcs (trip cs))) (edges h)) (arcs (trip cs)).
  Proof.
    apply NoDup_Permutation.
    - apply NoDup_filter, edges_NoDup, N.
    - apply arcs_NoDup; auto.
    - intros [u v]. rewrite filter_In, mem_arc_In, in_edges by apply N. split; [tauto|].
      intro H. split; auto. apply (on_arc (u, v)); auto.
  Qed.

  Lemma enc_chosen : Permutation (chosen h encode) (arcs (trip cs)).
  Proof.
    unfold chosen. rewrite (filter_ext _ (fun a => mem_arc a (arcs (trip cs)))); [apply filter_edges|].
    intro a. cbn [encode]. destruct (mem_arc a (arcs (trip cs))); reflexivity.
  Qed.

  Lemma enc_edges (f : arc -> Q) : value encode (map (fun a => (f a, X a)) (edges h)) == Qsum (map f (arcs (trip cs))).
  Proof.
    unfold value. rewrite map_map. cbn [fst snd]. rewrite enc_sum.
    apply Qsum_perm, Permutation_map, filter_edges.
  Qed.

  Lemma enc_in_sum (f : arc -> Q) u v : In (u, v) (arcs (trip cs)) ->
    Qsum (map (fun a => f a * encode (X a)) (in_arcs h v)) == f (u, v).
  Proof.
    intro Huv. rewrite (sum_single (fun a => f a * encode (X a)) _ (u, v)).
    - rewrite (enc_x_in _ Huv). lra.
    - apply (in_arcs_NoDup h K N).
    - apply (in_arcs_In h). split; auto. apply on_arc; auto.
    - intros [a b] Hb Hne. apply (in_arcs_In h) in Hb. destruct Hb as (Hb & Eb). simpl in Eb. subst b.
      rewrite enc_x_out; [lra|]. intro C. apply Hne. f_equal. apply (arcs_unique_pred _ Hnd a u v); auto.
  Qed.
  Lemma enc_out_sum (f : arc -> Q) v w : In (v, w) (arcs (trip cs)) ->
    Qsum (map (fun a => f a * encode (X a)) (out_arcs h v)) == f (v, w).
  Proof.
    intro Huv. rewrite (sum_single (fun a => f a * encode (X a)) _ (v, w)).
    - rewrite (enc_x_in _ Huv). lra.
    - apply (out_arcs_NoDup h K N).
    - apply (out_arcs_In h). split; auto. apply on_arc; auto.
    - intros [a b] Hb Hne. apply (out_arcs_In h) in Hb. destruct Hb as (Hb & Eb). simpl in Eb. subst a.
      rewrite enc_x_out; [lra|]. intro C. apply Hne. f_equal. apply (arcs_unique_succ _ Hnd v b w); auto.
  Qed.
  Lemma enc_in_zero (f : arc -> Q) v : ~ In v (cs ++ [Sink]) ->
    Qsum (map (fun a => f a * encode (X a)) (in_arcs h v)) == 0.
  Proof.
    intro Hv. apply Qsum_map_zero. intros [a b] Hb. apply (in_arcs_In h) in Hb. destruct Hb as (Hb & Eb).
    simpl in Eb. subst b. rewrite enc_x_out; [lra|]. intro C.
    assert (Hs : In v (map snd (arcs (trip cs)))) by (apply in_map_iff; exists (a, v); auto).
    unfold trip in Hs. rewrite arcs_map_snd in Hs. auto.
  Qed.
  Lemma enc_out_zero (f : arc -> Q) v : ~ In v (Source :: cs) ->
    Qsum (map (fun a => f a * encode (X a)) (out_arcs h v)) == 0.
  Proof.
    intro Hv. apply Qsum_map_zero. intros [a b] Hb. apply (out_arcs_In h) in Hb. destruct Hb as (Hb & Eb).
    simpl in Eb. subst a. rewrite enc_x_out; [lra|]. intro C.
    assert (Hs : In v (map fst (arcs (trip cs)))) by (apply in_map_iff; exists (v, b); auto).
    unfold trip in Hs. rewrite arcs_map_fst in Hs.
    change (Source :: cs ++ [Sink]) with ((Source :: cs) ++ [Sink]) in Hs. rewrite removelast_last in Hs. auto.
  Qed.

  Lemma value_sum (f : arc -> pvar) q l :
    value encode (map (fun a => (q, f a)) l) = Qsum (map (fun a => q * encode (f a)) l).
  Proof. unfold value. rewrite map_map. reflexivity. Qed.

  (** the arcs at a customer of the route *)
  Lemma around v : In v cs -> exists c1 c2 u w, cs = c1 ++ v :: c2 /\
    u = last (Source :: c1) Source /\ (exists r, c2 ++ [Sink] = w :: r) /\
    In (u, v) (arcs (trip cs)) /\ In (v, w) (arcs (trip cs)).
  Proof.
    intro Hv. apply in_split in Hv. destruct Hv as (c1 & c2 & E).
    destruct (c2 ++ [Sink]) as [|w r] eqn:E2; [destruct c2; discriminate|].
    exists c1, c2, (last (Source :: c1) Source), w. split; auto. split; auto. split; [eauto|].
    assert (ET : trip cs = (Source :: c1) ++ v :: w :: r).
    { unfold trip. rewrite E. cbn [app]. rewrite <- app_assoc. cbn [app]. rewrite E2. reflexivity. }
    split; apply arcs_in.
    - exists (removelast (Source :: c1)), (w :: r). rewrite ET.
      rewrite (app_removelast_last (l := Source :: c1) Source) at 1 by discriminate.
      rewrite <- app_assoc. reflexivity.
    - exists (Source :: c1), r. exact ET.
  Qed.
  Lemma last_in : exists u, In (u, Sink) (arcs (trip cs)).
  Proof.
    exists (last (Source :: cs) Source). apply arcs_in. exists (removelast (Source :: cs)), [].
    unfold trip. change (Source :: cs ++ [Sink]) with ((Source :: cs) ++ [Sink]).
    rewrite (app_removelast_last (l := Source :: cs) Source) at 1 by discriminate.
    rewrite <- app_assoc. reflexivity.
  Qed.
  Lemma first_out : exists w, In (Source, w) (arcs (trip cs)).
  Proof.
    destruct (cs ++ [Sink]) as [|w r] eqn:E; [destruct cs; discriminate|].
    exists w. apply arcs_in. exists [], r. unfold trip. rewrite E. reflexivity.
  Qed.

  Lemma upto_on c1 v r2 : cs ++ [Sink] = c1 ++ v :: r2 -> upto v cs = c1.
  Proof.
    intro E. destruct cs_depots as (D1 & D2).
    destruct r2 as [|y r2].
    - apply app_inj_tail in E. destruct E as (<- & <-). apply upto_none; auto.
    - destruct (exists_last (l := y :: r2)) as (c2 & z & E2); [discriminate|]. rewrite E2 in E.
      assert (E3 : cs ++ [Sink] = (c1 ++ v :: c2) ++ [z]) by (rewrite <- app_assoc; exact E).
      apply app_inj_tail in E3. destruct E3 as (E3 & _). rewrite E3. apply upto_split.
      assert (Hn : NoDup cs) by apply R. rewrite E3 in Hn. apply NoDup_remove_2 in Hn.
      rewrite in_app_iff in Hn. tauto.
  Qed.

  Lemma arc_pos u v : In (u, v) (arcs (trip cs)) ->
    exists r2, cs ++ [Sink] = upto v cs ++ v :: r2 /\ u = last (Source :: upto v cs) Source.
  Proof.
    intro H. apply arcs_in in H. destruct H as (r1 & r2 & E). unfold trip in E.
    destruct r1 as [|a r1]; cbn [app] in E; injection E as Ea E.
    - subst u. assert (Eu := upto_on [] v r2 E). rewrite Eu. exists r2. auto.
    - assert (E2 : cs ++ [Sink] = (r1 ++ [u]) ++ v :: r2) by (rewrite <- app_assoc; exact E).
      rewrite (upto_on _ _ _ E2). exists r2. split; auto.
      change (Source :: r1 ++ [u]) with ((Source :: r1) ++ [u]). rewrite last_app_single. auto.
  Qed.

  Lemma source_off : mem Source (cs ++ [Sink]) = false.
  Proof.
    apply mem_false. rewrite in_app_iff. intros [H|[H|[]]]; [|discriminate]. apply (proj1 cs_depots); auto.
  Qed.

  (** the value of a quantity accumulated along the route *)
  Lemma accumulate {A} (start : A) (f : node -> list node -> A) u v :
    In (u, v) (arcs (trip cs)) ->
    (if mem u (cs ++ [Sink]) then f u (upto u cs) else start) =
    match upto v cs with [] => start | _ => f u (removelast (upto v cs)) end /\
    mem v (cs ++ [Sink]) = true /\
    (upto v cs = [] /\ u = Source \/ upto v cs = upto u cs ++ [u] /\ u <> Source /\ mem u (cs ++ [Sink]) = true).
  Proof.
    intro H. destruct (arc_pos u v H) as (r2 & E & Eu).
    assert (Hv : mem v (cs ++ [Sink]) = true) by (apply mem_In; rewrite E; apply in_or_app; simpl; auto).
    destruct (upto v cs) as [|a c] eqn:Ec.
    - simpl in Eu. subst u. rewrite source_off. auto.
    - destruct (exists_last (l := a :: c)) as (c1 & z & Ez); [discriminate|]. rewrite Ez in *.
      change (Source :: c1 ++ [z]) with ((Source :: c1) ++ [z]) in Eu. rewrite last_app_single in Eu. subst z.
      assert (E2 : cs ++ [Sink] = c1 ++ u :: v :: r2) by (rewrite E, <- app_assoc; reflexivity).
      assert (Hu : mem u (cs ++ [Sink]) = true) by (apply mem_In; rewrite E2; apply in_or_app; simpl; auto).
      rewrite Hu, (upto_on _ _ _ E2), removelast_last.
      destruct (c1 ++ [u]) as [|b l] eqn:El; [destruct c1; discriminate|].
      split; auto. split; auto. right. split; auto. split; auto.
      intro C. subst u. rewrite source_off in Hu. discriminate.
  Qed.

  Lemma trip_len : (List.length cs + 2 <= List.length (nodes h))%nat.
  Proof.
    assert (H : (List.length (trip cs) <= List.length (nodes h))%nat).
    { apply NoDup_incl_length; auto. intros v Hv. apply (trip_nodes h K cs N R v Hv). }
    unfold trip in H. simpl in H. rewrite app_length in H. simpl in H. lia.
  Qed.

  Lemma rank_bounds v : 0 <= encode (Rank v) /\ encode (Rank v) + 1 <= size h /\
    encode (Rank v) <= encode (Rank Sink) /\ exists z, encode (Rank v) == inject_Z z.
  Proof.
    assert (HL := trip_len).
    assert (Hm : mem Sink (cs ++ [Sink]) = true) by (apply mem_In, in_or_app; simpl; auto).
    assert (Hs : upto Sink cs = cs) by (apply upto_none, cs_depots).
    cbn [encode]. rewrite Hm, Hs. unfold size.
    assert (Hlen := upto_length v cs).
    destruct (mem v (cs ++ [Sink])).
    - split; [|split; [|split]].
      + change 0 with (inject_Z 0). rewrite <- Zle_Qle. lia.
      + change 1 with (inject_Z 1). rewrite <- inject_Z_plus, <- Zle_Qle. lia.
      + rewrite <- Zle_Qle. lia.
      + eexists. reflexivity.
    - split; [apply Qle_refl|]. split; [|split].
      + change (0 + 1) with (inject_Z 1). rewrite <- Zle_Qle. lia.
      + change 0 with (inject_Z 0). rewrite <- Zle_Qle. lia.
      + exists 0%Z. reflexivity.
  Qed.

  Lemma enc_rank_step u v : In (u, v) (arcs (trip cs)) -> encode (Rank u) + 1 == encode (Rank v).
  Proof.
    intro H. destruct (accumulate 0 (fun u c => inject_Z (1 + Z.of_nat (List.length c))) u v H) as (_ & Hv & Hc).
    cbn [encode]. rewrite Hv. destruct Hc as [(E & ->)|(E & Hu & Hm)].
    - rewrite source_off, E. reflexivity.
    - rewrite Hm, E, app_length. simpl List.length.
      change 1 with (inject_Z 1). rewrite <- inject_Z_plus. apply inject_Z_injective. lia.
  Qed.

  Lemma enc_load_step u v : In (u, v) (arcs (trip cs)) -> encode (Load v) == encode (Load u) + demand_of h v.
  Proof.
    intro H. destruct (accumulate 0 (fun u c => node_sum (demand_of h) (c ++ [u])) u v H) as (_ & Hv & Hc).
    cbn [encode]. rewrite Hv. destruct Hc as [(E & ->)|(E & Hu & Hm)].
    - rewrite source_off, E. cbn [app]. rewrite node_sum_cons, node_sum_nil. simpl. lra.
    - rewrite Hm, E, node_sum_app, node_sum_cons, node_sum_nil. lra.
  Qed.

  (** flow and depot rows *)
  Lemma rows_flow r : In r (flow_rows h) -> holds encode r.
  Proof.
    intro Hr. unfold flow_rows in Hr. apply in_map_iff in Hr. destruct Hr as (v & <- & Hv).
    apply in_custs in Hv. destruct Hv as (_ & V1 & V2).
    unfold holds. cbn [r_sense r_lhs r_rhs]. rewrite value_app, value_minus. unfold sum_x.
    rewrite !value_sum.
    destruct (in_dec node_eq_dec v cs) as [Hin|Hn].
    - destruct (around v Hin) as (c1 & c2 & u & w & _ & _ & _ & A1 & A2).
      rewrite (enc_in_sum (fun _ => 1) u v A1), (enc_out_sum (fun _ => 1) v w A2). lra.
    - rewrite (enc_in_zero (fun _ => 1)), (enc_out_zero (fun _ => 1)); [lra| |].
      + intros [C|C]; congruence.
      + rewrite in_app_iff. intros [C|[C|[]]]; congruence.
  Qed.

  Lemma enc_count : value encode (sum_x (edges h)) == inject_Z (Z.of_nat (S (List.length cs))).
  Proof.
    unfold sum_x. rewrite (enc_edges (fun _ => 1)), Qsum_const. f_equiv. f_equal.
    apply route_arcs_length.
  Qed.

  Lemma rows_depot r :
    In r [mkRow (sum_x (out_arcs h Source)) EQ 1; mkRow (sum_x (in_arcs h Sink)) EQ 1;
          mkRow (sum_x (edges h)) GE 2] -> holds encode r.
  Proof.
    intros [<-|[<-|[<-|[]]]]; unfold holds; cbn [r_sense r_lhs r_rhs].
    - unfold sum_x. rewrite value_sum. destruct first_out as (w & Hw).
      apply (enc_out_sum (fun _ => 1) Source w Hw).
    - unfold sum_x. rewrite value_sum. destruct last_in as (u & Hu).
      apply (enc_in_sum (fun _ => 1) u Sink Hu).
    - rewrite enc_count. change 2 with (inject_Z 2). rewrite <- Zle_Qle.
      assert (cs <> []) by apply R. destruct cs; [congruence|simpl List.length; lia].
  Qed.

  Lemma rows_stops n r : ns = Some n -> n <> 0%Z -> In r (stop_rows h n) -> holds encode r.
  Proof.
    intros E Hn [<-|[]]. unfold holds. cbn [r_sense r_lhs r_rhs]. rewrite enc_count, <- Zle_Qle.
    assert (H := dr_stops _ _ _ _ _ _ _ D n E Hn). lia.
  Qed.

  Lemma rows_load cl c r : caps = Some cl -> nth_error cl k = Some c ->
    r = mkRow (map (fun a => (demand_of h (snd a), X a)) (edges h)) LE (inject_Z c) -> holds encode r.
  Proof.
    intros Ec En ->. unfold holds. cbn [r_sense r_lhs r_rhs].
    rewrite (enc_edges (fun a => demand_of h (snd a))).
    assert (H := dr_load _ _ _ _ _ _ _ D _ _ Ec En).
    assert (EQ := path_sum_heads (demand_of h) Source (cs ++ [Sink])). unfold path_sum in EQ.
    unfold trip. rewrite EQ. exact H.
  Qed.

  Lemma rows_duration d r : dur = Some d -> d <> 0%Z -> In r (duration_rows h d) -> holds encode r.
  Proof.
    intros E Hd [<-|[]]. unfold holds. cbn [r_sense r_lhs r_rhs].
    rewrite (enc_edges (fun a => time_of h (fst a) (snd a) + service_of h (fst a))).
    change (Qsum (map (fun a : arc => time_of h (fst a) (snd a) + service_of h (fst a)) (arcs (trip cs))))
        with (path_sum (fun u v => time_of h u v + service_of h u) (trip cs)).
    rewrite (path_sum_plus (time_of h) (fun u _ => service_of h u)).
    assert (H := dr_duration _ _ _ _ _ _ _ D d E Hd).
    unfold trip in *. change (Source :: cs ++ [Sink]) with ((Source :: cs) ++ [Sink]) at 2.
    rewrite (path_sum_tails (service_of h)). exact H.
  Qed.

  Lemma rows_rank r : In r (rank_rows h) -> holds encode r.
  Proof.
    unfold rank_rows. rewrite !in_app_iff. intros [H|[[<-|[]]|H]].
    - apply in_map_iff in H. destruct H as ([i j] & <- & Hij). unfold holds, value. cbn [r_sense r_lhs r_rhs map Qsum fst snd fold_right].
      destruct (in_dec arc_eq_dec (i, j) (arcs (trip cs))) as [Hin|Hn].
      + rewrite (enc_x_in _ Hin). assert (E := enc_rank_step i j Hin). lra.
      + rewrite (enc_x_out _ Hn). destruct (rank_bounds i) as (_ & B & _). destruct (rank_bounds j) as (B2 & _). lra.
    - unfold holds, value. cbn [r_sense r_lhs r_rhs map Qsum fst snd fold_right encode].
      rewrite source_off. lra.
    - apply in_map_iff in H. destruct H as (v & <- & _). unfold holds, value. cbn [r_sense r_lhs r_rhs map Qsum fst snd fold_right].
      destruct (rank_bounds v) as (_ & _ & B & _). lra.
  Qed.

  Hypothesis MD : mip_data h o caps k.
  Hypothesis HT : o_time_windows o = true ->
    timetable (time_of h) (service_of h) (lower_of h) (upper_of h) (trip cs) T /\ hd 0 T = lower_of h Source.

  Lemma enc_start : o_time_windows o = true -> encode (Time Source) = lower_of h Source.
  Proof.
    intro Htw. cbn [encode trip]. destruct (HT Htw) as (H1 & H2). clear HT.
    unfold trip in *. destruct T as [|t T']; cbn [at_node].
    - destruct cs; destruct H1.
    - cbn [hd] in H2. rewrite (proj2 (node_eqb_eq Source Source) eq_refl). exact H2.
  Qed.

  Lemma enc_time v : o_time_windows o = true -> In v (nodes h) ->
    lower_of h v <= encode (Time v) /\ encode (Time v) <= upper_of h v.
  Proof.
    intros Htw Hv. cbn [encode]. destruct (in_dec node_eq_dec v (trip cs)) as [Hin|Hn].
    - destruct (at_node_in _ _ _ _ _ _ (proj1 (HT Htw)) v Hin) as (t & -> & H1 & H2). auto.
    - rewrite at_node_out by auto. split; [apply Qle_refl|]. apply (md_windows _ _ _ _ MD Htw v Hv).
  Qed.

  Lemma rows_time r : o_time_windows o = true -> In r (time_rows h) -> holds encode r.
  Proof.
    intros Htw. unfold time_rows. rewrite in_app_iff. intros [H|H].
    - apply in_map_iff in H. destruct H as ([i j] & <- & Hij).
      apply in_edges in Hij; [|apply N].
      unfold holds, value. cbn [r_sense r_lhs r_rhs map Qsum fst snd fold_right].
      destruct (in_dec arc_eq_dec (i, j) (arcs (trip cs))) as [Hin|Hn].
      + rewrite (enc_x_in _ Hin).
        destruct (at_node_step _ _ _ _ _ _ (proj1 (HT Htw)) Hnd i j Hin) as (t & t' & E1 & E2 & Hle).
        cbn [encode]. rewrite E1, E2. lra.
      + rewrite (enc_x_out _ Hn). assert (W := wf_ends _ (net_wf _ _ N) i j Hij).
        destruct (enc_time i Htw) as (_ & B1); [tauto|]. destruct (enc_time j Htw) as (B2 & _); [tauto|].
        destruct (node_eq_dec i Source) as [Ei|Hi].
        * subst i. rewrite (enc_start Htw). assert (B3 := md_start _ _ _ _ MD Htw j Hij). lra.
        * assert (B3 := md_bigM _ _ _ _ MD Htw i j Hij Hi). lra.
    - apply in_flat_map in H. destruct H as (v & Hv & H).
      destruct (enc_time v Htw Hv) as (B1 & B2).
      destruct H as [<-|[<-|[]]]; unfold holds, value; cbn [r_sense r_lhs r_rhs map Qsum fst snd fold_right]; lra.
  Qed.

  (** pickups and deliveries *)
  Lemma out_value v : v <> Sink -> value encode (sum_x (out_arcs h v)) == if mem v (Source :: cs) then 1 else 0.
  Proof.
    intro Hv. unfold sum_x. rewrite value_sum. destruct (mem v (Source :: cs)) eqn:E.
    - apply mem_In in E. destruct E as [<-|E].
      + destruct first_out as (w & Hw). apply (enc_out_sum (fun _ => 1) Source w Hw).
      + destruct (around v E) as (c1 & c2 & u & w & _ & _ & _ & A1 & A2).
        apply (enc_out_sum (fun _ => 1) v w A2).
    - apply mem_false in E. apply (enc_out_zero (fun _ => 1) v E).
  Qed.

  Section Pairs.
    Variables (cl : list Z) (c : Z).
    Hypothesis Hpd : o_pickup_delivery o = true.
    Hypothesis Ecl : caps = Some cl.
    Hypothesis Ec : nth_error cl k = Some c.
    Let PO : pairs_ok h (inject_Z c) cs := dr_pairs _ _ _ _ _ _ _ D Hpd cl c Ecl Ec.

    Lemma rows_requests rr r : request_rows h = Ok rr -> In r rr -> holds encode r.
    Proof.
      intros Hrr Hr. destruct (request_rows_inv h rr (net_wf _ _ N) Hrr r Hr) as (v & d & Hp & Hc).
      destruct (md_pairs _ _ _ _ MD Hpd v d Hp) as (V1 & V2 & V3 & V4 & V5).
      assert (Htog := po_together _ _ _ PO v d Hp).
      destruct Hc as [->| ->]; unfold holds; cbn [r_sense r_lhs r_rhs].
      - rewrite value_app, value_minus, !out_value by auto.
        assert (E : mem v (Source :: cs) = mem d (Source :: cs)).
        { destruct (mem v (Source :: cs)) eqn:E1; symmetry.
          - apply mem_In in E1. apply mem_In. right. apply Htog. destruct E1; congruence.
          - apply mem_false in E1. apply mem_false. intros [C|C]; [congruence|]. apply E1. right. apply Htog; auto. }
        rewrite E. lra.
      - unfold value. cbn [map Qsum fst snd fold_right].
        destruct (in_dec node_eq_dec v cs) as [Hin|Hn].
        + destruct (po_before _ _ _ PO v d Hp Hin) as (p1 & p2 & p3 & E).
          assert (E1 : cs ++ [Sink] = p1 ++ v :: (p2 ++ d :: p3 ++ [Sink])).
          { rewrite E. repeat (rewrite <- app_assoc; cbn [app]). reflexivity. }
          assert (E2 : cs ++ [Sink] = (p1 ++ v :: p2) ++ d :: (p3 ++ [Sink])).
          { rewrite E. repeat (rewrite <- app_assoc; cbn [app]). reflexivity. }
          cbn [encode]. rewrite (upto_on _ _ _ E1), (upto_on _ _ _ E2).
          assert (M1 : mem v (cs ++ [Sink]) = true) by (apply mem_In; rewrite E1; apply in_or_app; simpl; auto).
          assert (M2 : mem d (cs ++ [Sink]) = true) by (apply mem_In; rewrite E2; apply in_or_app; simpl; auto).
          rewrite M1, M2.
          assert (L : inject_Z (1 + Z.of_nat (List.length p1)) <= inject_Z (1 + Z.of_nat (List.length (p1 ++ v :: p2)))).
          { rewrite <- Zle_Qle, app_length. lia. }
          lra.
        + assert (Hnd' : ~ In d cs) by tauto. cbn [encode].
          assert (M1 : mem v (cs ++ [Sink]) = false) by (apply mem_false; rewrite in_app_iff; simpl; intros [C|[C|[]]]; congruence).
          assert (M2 : mem d (cs ++ [Sink]) = false) by (apply mem_false; rewrite in_app_iff; simpl; intros [C|[C|[]]]; congruence).
          rewrite M1, M2. lra.
    Qed.

    Lemma cap_nonneg : 0 <= inject_Z c.
    Proof.
      destruct (running_loads_in (demand_of h) Sink [] cs 0) as (q & Hq & _).
      destruct (po_loads _ _ _ PO q Hq). lra.
    Qed.

    Lemma enc_load v : In v (nodes h) -> 0 <= encode (Load v) /\ encode (Load v) <= inject_Z c.
    Proof.
      intro Hv. cbn [encode]. destruct (mem v (cs ++ [Sink])) eqn:E.
      - apply mem_In, in_split in E. destruct E as (c1 & r2 & E). rewrite (upto_on _ _ _ E).
        destruct (running_loads_in (demand_of h) v r2 c1 0) as (q & Hq & Eq). rewrite <- E in Hq.
        destruct (po_loads _ _ _ PO q Hq) as (B1 & B2). split; lra.
      - assert (HC := cap_nonneg).
        destruct (node_eqb v Source); [split; auto; apply Qle_refl|].
        destruct (md_sizes _ _ _ _ MD Hpd cl c v Ecl Ec Hv) as (_ & B). split; [apply Q.le_max_l|].
        apply Q.max_lub; auto.
    Qed.

    Lemma enc_load_head v : In v (nodes h) -> v <> Source ->
      demand_of h v <= encode (Load v) /\ encode (Load v) <= demand_of h v + inject_Z c.
    Proof.
      intros Hv Hs.
      destruct (md_sizes _ _ _ _ MD Hpd cl c v Ecl Ec Hv) as (B1 & B2).
      destruct (mem v (cs ++ [Sink])) eqn:E.
      - assert (Hu : exists u, In (u, v) (arcs (trip cs)) /\ In u (nodes h)).
        { apply mem_In in E. rewrite in_app_iff in E. destruct E as [E|[<-|[]]].
          - destruct (around v E) as (c1 & c2 & u & w & _ & _ & _ & A1 & A2). exists u. split; auto.
            apply (trip_nodes h K cs N R). apply arcs_in_nodes in A1. tauto.
          - destruct last_in as (u & Hu). exists u. split; auto.
            apply (trip_nodes h K cs N R). apply arcs_in_nodes in Hu. tauto. }
        destruct Hu as (u & Hu & Hun). assert (Est := enc_load_step u v Hu).
        destruct (enc_load u Hun). split; lra.
      - cbn [encode]. rewrite E. assert (En : node_eqb v Source = false).
        { destruct (node_eqb v Source) eqn:En; auto. apply node_eqb_eq in En. congruence. }
        rewrite En. split; [apply Q.le_max_r|]. assert (HC := cap_nonneg). apply Q.max_lub; lra.
    Qed.

    Lemma rows_pickup r : In r (pickup_rows h (inject_Z c)) -> holds encode r.
    Proof.
      unfold pickup_rows. rewrite in_app_iff. intros [H|H].
      - apply in_flat_map in H. destruct H as ([i j] & Hij & H). apply in_edges in Hij; [|apply N].
        assert (W := wf_ends _ (net_wf _ _ N) i j Hij).
        assert (Hjs : j <> Source) by (intro C; subst; apply (net_no_in _ _ N i); auto).
        destruct (enc_load i) as (L1 & L2); [tauto|].
        destruct (enc_load_head j) as (L3 & L4); [tauto|auto|].
        destruct (in_dec arc_eq_dec (i, j) (arcs (trip cs))) as [Hin|Hn].
        + assert (E := enc_load_step i j Hin).
          destruct H as [<-|[<-|[]]]; unfold holds, value; cbn [r_sense r_lhs r_rhs map Qsum fst snd fold_right];
            rewrite (enc_x_in _ Hin); lra.
        + destruct H as [<-|[<-|[]]]; unfold holds, value; cbn [r_sense r_lhs r_rhs map Qsum fst snd fold_right];
            rewrite (enc_x_out _ Hn); lra.
      - destruct H as [<-|[<-|[]]]; unfold holds, value; cbn [r_sense r_lhs r_rhs map Qsum fst snd fold_right].
        + cbn [encode]. rewrite source_off. simpl (node_eqb Source Source). cbv iota. lra.
        + assert (E : encode (Load Sink) == 0).
          { cbn [encode]. assert (M : mem Sink (cs ++ [Sink]) = true) by (apply mem_In, in_or_app; simpl; auto).
            rewrite M. rewrite (upto_on cs Sink []) by reflexivity. apply (po_empty _ _ _ PO). }
          lra.
    Qed.
  End Pairs.

  Section Both.
    Variables (cl : list Z) (c : Z).
    Hypothesis Hdc : o_distribution_collection o = true.
    Hypothesis Ecl : caps = Some cl.
    Hypothesis Ec : nth_error cl k = Some c.
    Let BF : both_fit h (inject_Z c) cs := dr_both _ _ _ _ _ _ _ D Hdc cl c Ecl Ec.

    Lemma goods_nonneg v : In v cs -> 0 <= demand_of h v /\ 0 <= collect_of h v.
    Proof.
      intro Hv. apply (md_goods _ _ _ _ MD Hdc). apply in_custs. split; [|apply (er_custs _ _ R v Hv)].
      apply (trip_nodes h K cs N R). unfold trip. right. apply in_or_app. auto.
    Qed.

    Lemma enc_goods a : 0 <= encode (Unload a) /\ 0 <= encode (Collected a) /\
      encode (Collected a) + encode (Unload a) <= inject_Z c * encode (X a).
    Proof.
      cbn [encode]. destruct (mem_arc a (arcs (trip cs))).
      - assert (E := upto_from (snd a) cs). assert (B := BF _ _ E).
        split; [|split; [|lra]].
        + apply node_sum_nonneg. intros v Hv. apply goods_nonneg. rewrite E. apply in_or_app; auto.
        + apply node_sum_nonneg. intros v Hv. apply goods_nonneg. rewrite E. apply in_or_app; auto.
      - split; [apply Qle_refl|]. split; [apply Qle_refl|]. lra.
    Qed.

    Lemma sum_zero (f : arc -> pvar) l : (forall a, In a l -> encode (f a) == 0) ->
      value encode (map (fun a => (1, f a)) l) == 0.
    Proof.
      intro H. rewrite value_sum. apply Qsum_map_zero. intros a Ha. rewrite (H a Ha). lra.
    Qed.
    Lemma off_route (v : node) a : ~ In v cs -> v <> Source -> v <> Sink ->
      (fst a = v \/ snd a = v) -> mem_arc a (arcs (trip cs)) = false.
    Proof.
      intros H1 H2 H3 H4. apply mem_arc_false. intro C. destruct a as [x y]. apply arcs_in_nodes in C.
      cbn [fst snd] in H4. assert (Hv : In v (trip cs)) by (destruct H4; subst; tauto).
      unfold trip in Hv. destruct Hv as [Hv|Hv]; [congruence|]. apply in_app_or in Hv.
      destruct Hv as [Hv|[Hv|[]]]; congruence.
    Qed.

    Lemma one_in (f : arc -> pvar) u v : In (u, v) (arcs (trip cs)) ->
      (forall a, mem_arc a (arcs (trip cs)) = false -> encode (f a) == 0) ->
      value encode (map (fun a => (1, f a)) (in_arcs h v)) == encode (f (u, v)).
    Proof.
      intros Huv Hf. rewrite value_sum. rewrite (sum_single (fun a => 1 * encode (f a)) _ (u, v)).
      - lra.
      - apply (in_arcs_NoDup h K N).
      - apply (in_arcs_In h). split; auto. apply on_arc; auto.
      - intros [a b] Hb Hne. apply (in_arcs_In h) in Hb. destruct Hb as (Hb & Eb). simpl in Eb. subst b.
        rewrite Hf; [lra|]. apply mem_arc_false. intro C. apply Hne. f_equal. apply (arcs_unique_pred _ Hnd a u v); auto.
    Qed.
    Lemma one_out (f : arc -> pvar) v w : In (v, w) (arcs (trip cs)) ->
      (forall a, mem_arc a (arcs (trip cs)) = false -> encode (f a) == 0) ->
      value encode (map (fun a => (1, f a)) (out_arcs h v)) == encode (f (v, w)).
    Proof.
      intros Huv Hf. rewrite value_sum. rewrite (sum_single (fun a => 1 * encode (f a)) _ (v, w)).
      - lra.
      - apply (out_arcs_NoDup h K N).
      - apply (out_arcs_In h). split; auto. apply on_arc; auto.
      - intros [a b] Hb Hne. apply (out_arcs_In h) in Hb. destruct Hb as (Hb & Eb). simpl in Eb. subst a.
        rewrite Hf; [lra|]. apply mem_arc_false. intro C. apply Hne. f_equal. apply (arcs_unique_succ _ Hnd v b w); auto.
    Qed.

    (** what is carried before and after a customer *)
    Lemma goods_step u v w : In v cs -> In (u, v) (arcs (trip cs)) -> In (v, w) (arcs (trip cs)) ->
      encode (Unload (u, v)) == demand_of h v + encode (Unload (v, w)) /\
      encode (Collected (v, w)) == collect_of h v + encode (Collected (u, v)).
    Proof.
      intros Hv Huv Hvw. cbn [encode snd].
      rewrite (proj2 (mem_arc_In _ _) Huv), (proj2 (mem_arc_In _ _) Hvw).
      destruct (accumulate tt (fun _ _ => tt) v w Hvw) as (_ & _ & [(_ & C)|(E & _ & _)]).
      { subst v. exfalso. apply (proj1 cs_depots); auto. }
      assert (E1 := upto_from v cs). assert (E2 := upto_from w cs). rewrite E, <- app_assoc in E2. cbn [app] in E2.
      assert (E3 : from v cs = v :: from w cs).
      { rewrite E1 in E2 at 1. apply app_inv_head in E2. exact E2. }
      rewrite E3, E, node_sum_cons, node_sum_app, node_sum_cons, node_sum_nil. split; lra.
    Qed.

    Lemma rows_sdc r : In r (sdc_rows h (inject_Z c)) -> holds encode r.
    Proof.
      assert (ZU : forall a, mem_arc a (arcs (trip cs)) = false -> encode (Unload a) == 0)
        by (intros a Ha; cbn [encode]; rewrite Ha; reflexivity).
      assert (ZC : forall a, mem_arc a (arcs (trip cs)) = false -> encode (Collected a) == 0)
        by (intros a Ha; cbn [encode]; rewrite Ha; reflexivity).
      unfold sdc_rows. rewrite !in_app_iff. intros [H|[H|H]].
      - apply in_map_iff in H. destruct H as (v & <- & Hv). apply in_custs in Hv. destruct Hv as (_ & V1 & V2).
        unfold holds. cbn [r_sense r_lhs r_rhs]. rewrite !value_app, value_minus, (value_sum X).
        destruct (in_dec node_eq_dec v cs) as [Hin|Hn].
        + destruct (around v Hin) as (c1 & c2 & u & w & _ & _ & _ & A1 & A2).
          rewrite (enc_in_sum (fun _ => demand_of h v) u v A1), (one_in Unload u v A1 ZU), (one_out Unload v w A2 ZU).
          destruct (goods_step u v w Hin A1 A2) as (G & _). lra.
        + rewrite (enc_in_zero (fun _ => demand_of h v)) by (rewrite in_app_iff; intros [C|[C|[]]]; congruence).
          rewrite !sum_zero; [lra| |]; intros a Ha; apply ZU; apply (off_route v); auto.
          * apply (out_arcs_In h) in Ha. tauto.
          * apply (in_arcs_In h) in Ha. tauto.
      - apply in_map_iff in H. destruct H as (v & <- & Hv). apply in_custs in Hv. destruct Hv as (_ & V1 & V2).
        unfold holds. cbn [r_sense r_lhs r_rhs]. rewrite !value_app, value_minus, (value_sum X).
        destruct (in_dec node_eq_dec v cs) as [Hin|Hn].
        + destruct (around v Hin) as (c1 & c2 & u & w & _ & _ & _ & A1 & A2).
          rewrite (enc_in_sum (fun _ => collect_of h v) u v A1), (one_in Collected u v A1 ZC), (one_out Collected v w A2 ZC).
          destruct (goods_step u v w Hin A1 A2) as (_ & G). lra.
        + rewrite (enc_in_zero (fun _ => collect_of h v)) by (rewrite in_app_iff; intros [C|[C|[]]]; congruence).
          rewrite !sum_zero; [lra| |]; intros a Ha; apply ZC; apply (off_route v); auto.
          * apply (in_arcs_In h) in Ha. tauto.
          * apply (out_arcs_In h) in Ha. tauto.
      - apply in_map_iff in H. destruct H as (a & <- & Ha).
        unfold holds, value. cbn [r_sense r_lhs r_rhs map Qsum fst snd fold_right].
        destruct (enc_goods a) as (_ & _ & G). lra.
    Qed.
    Lemma cap_nonneg2 : 0 <= inject_Z c.
    Proof.
      assert (B := BF [] cs eq_refl). rewrite node_sum_nil in B.
      assert (0 <= node_sum (demand_of h) cs) by (apply node_sum_nonneg; intros v Hv; apply goods_nonneg; auto).
      lra.
    Qed.
    Lemma enc_goods_cap a : encode (Unload a) <= inject_Z c /\ encode (Collected a) <= inject_Z c.
    Proof.
      destruct (enc_goods a) as (G1 & G2 & G3). assert (HC := cap_nonneg2).
      assert (Hx : inject_Z c * encode (X a) <= inject_Z c).
      { cbn [encode]. destruct (mem_arc a (arcs (trip cs))); lra. }
      split; lra.
    Qed.
  End Both.

  Theorem encode_feasible : feasible encode p.
  Proof.
    destruct (formulate_inv _ _ _ _ _ _ _ _ F) as (_ & _ & loads & reqs & sdc & Hl & Hr & Hs & Hp).
    assert (Hreq : (forall r, In r (fst reqs) -> holds encode r) /\
                   (forall y b, In (y, b) (snd reqs) -> in_bounds (encode y) b)).
    { destruct (o_pickup_delivery o) eqn:Hpd; [|inversion Hr; subst; split; intros until 1; destruct H].
      apply bind_ok in Hr. destruct Hr as (rr & Hrr & Hr). apply bind_ok in Hr. destruct Hr as (M & HM & Hr).
      apply capacity_at_inv in HM. destruct HM as (cl & c & Ecl & Ec & ->). inversion Hr; subst reqs; clear Hr.
      cbn [fst snd]. split.
      - intros r Hin. apply in_app_or in Hin. destruct Hin as [Hin|Hin].
        + apply (rows_requests cl c Hpd Ecl Ec rr r Hrr Hin).
        + apply (rows_pickup cl c Hpd Ecl Ec r Hin).
      - intros y b Hin. unfold pickup_vars in Hin. apply in_map_iff in Hin. destruct Hin as (v & E & Hv).
        inversion E; subst y b. destruct (enc_load cl c Hpd Ecl Ec v Hv) as (L1 & L2).
        split; [|split]; cbn [b_low b_up b_int]; try discriminate; intros z Hz; inversion Hz; subst; auto. }
    assert (Hsdc : (forall r, In r (fst sdc) -> holds encode r) /\
                   (forall y b, In (y, b) (snd sdc) -> in_bounds (encode y) b)).
    { destruct (o_distribution_collection o) eqn:Hdc; [|inversion Hs; subst; split; intros until 1; destruct H].
      apply bind_ok in Hs. destruct Hs as (M & HM & Hs).
      apply capacity_at_inv in HM. destruct HM as (cl & c & Ecl & Ec & ->). inversion Hs; subst sdc; clear Hs.
      cbn [fst snd]. split.
      - intros r Hin. apply (rows_sdc cl c Hdc Ecl Ec r Hin).
      - intros y b Hin. unfold sdc_vars in Hin. apply in_app_or in Hin.
        destruct Hin as [Hin|Hin]; apply in_map_iff in Hin; destruct Hin as (a & E & _);
          inversion E; subst y b; destruct (enc_goods cl c Hdc Ecl Ec a) as (G1 & G2 & _);
          destruct (enc_goods_cap cl c Hdc Ecl Ec a) as (G3 & G4);
          (split; [|split]); cbn [b_low b_up b_int]; try discriminate; intros z Hz; inversion Hz; subst; auto. }
    constructor.
    - rewrite Hp. cbn [p_rows]. intros r Hin. rewrite !in_app_iff in Hin.
      destruct Hin as [H|[H|[H|[H|[H|[H|[H|[H|H]]]]]]]].
      + apply rows_flow; auto.
      + apply rows_depot; auto.
      + revert H. case_eq (o_time_windows o); intros Htw H; [|destruct H]. apply rows_time; auto.
      + revert H. case_eq ns; [intros n En H|intros _ []]. destruct (n =? 0)%Z eqn:E0; [destruct H|].
        apply (rows_stops n); auto. apply Z.eqb_neq; auto.
      + destruct (loads_inv _ _ _ _ Hl r H) as (cl & c & E1 & E2 & E3). eapply rows_load; eauto.
      + revert H. case_eq dur; [intros d Ed H|intros _ []]. destruct (d =? 0)%Z eqn:E0; [destruct H|].
        apply (rows_duration d); auto. apply Z.eqb_neq; auto.
      + destruct (neg || o_pickup_delivery o); [|destruct H]. apply rows_rank; auto.
      + apply Hreq; auto.
      + apply Hsdc; auto.
    - rewrite Hp. cbn [p_vars]. intros y b Hin. rewrite !in_app_iff in Hin.
      destruct Hin as [H|[H|[H|[H|H]]]].
      + apply in_map_iff in H. destruct H as (a & E & Ha). inversion E; subst y b.
        cbn [encode]. destruct (mem_arc a (arcs (trip cs))); (split; [|split]); cbn [b_low b_up b_int];
          try (intros z Hz; inversion Hz; subst; lra); intros _; [exists 1%Z|exists 0%Z]; reflexivity.
      + revert H. case_eq (o_time_windows o); intros Htw H; [|destruct H]. unfold time_vars in H.
        apply in_map_iff in H. destruct H as (v & E & Hv). inversion E; subst y b.
        destruct (enc_time v Htw Hv) as (B1 & B2). destruct (md_windows _ _ _ _ MD Htw v Hv) as (B3 & _).
        split; [|split]; cbn [b_low b_up b_int]; try discriminate. intros z Hz; inversion Hz; subst. lra.
      + destruct (neg || o_pickup_delivery o); [|destruct H]. unfold rank_vars in H.
        apply in_map_iff in H. destruct H as (v & E & Hv). inversion E; subst y b.
        destruct (rank_bounds v) as (B1 & B2 & _ & B4).
        split; [|split]; cbn [b_low b_up b_int]; auto; intros z Hz; inversion Hz; subst; auto. lra.
      + apply Hreq; auto.
      + apply Hsdc; auto.
  Qed.
End Complete.

Theorem lp_complete h K k caps o ns dur neg p cs :
  network K h -> formulate h k caps o ns dur neg = Ok p -> mip_data h o caps k ->
  drivable h o caps k ns dur cs ->
  exists x, feasible x p /\ Permutation (chosen h x) (arcs (trip cs)) /\
    value x (p_obj p) == path_sum (weight_of h) (trip cs).
Proof.
  intros HN F MD D.
  assert (HT : exists T, o_time_windows o = true ->
    timetable (time_of h) (service_of h) (lower_of h) (upper_of h) (trip cs) T /\ hd 0 T = lower_of h Source).
  { destruct (o_time_windows o) eqn:E; [|exists []; discriminate].
    destruct (dr_windows _ _ _ _ _ _ _ D E) as (T & HT).
    destruct T as [|t T]; [exfalso; unfold within_windows, trip in *; destruct (cs ++ [Sink]); destruct HT|]. exists (lower_of h Source :: T). intros _. split; [|reflexivity].
    unfold trip in *. destruct (cs ++ [Sink]) as [|w q] eqn:Eq; [destruct cs; discriminate|].
    destruct T as [|t' T]; [destruct HT|]. destruct HT as (A1 & A2 & A3 & A4).
    split; [lra|]. split; [lra|]. split; [lra|exact A4]. }
  destruct HT as (T & HT).
  exists (encode h cs T). split; [eapply encode_feasible; eauto|].
  assert (P : Permutation (chosen h (encode h cs T)) (arcs (trip cs))) by (eapply enc_chosen; eauto).
  split; auto. rewrite (formulate_obj _ _ _ _ _ _ _ _ F).
  eapply route_objective; eauto. eapply encode_feasible; eauto.
Qed.

Lemma lp_solve_nothing h k caps o ns dur neg tl solver keys pool pool1 :
  truthyQ tl && match tl with Some q => Qle_bool q 0 | None => false end = false ->
  lp_solve h true k caps o ns dur neg tl true solver keys pool = Ok (pool1, false) ->
  exists p, formulate h k caps o ns dur neg = Ok p /\ nothing_found (solver p).
Proof.
  intros T H. unfold lp_solve in H. cbn [negb] in H. rewrite T in H. apply bind_ok in H. destruct H as (p & Hp & H). exists p.
  split; [exact Hp|]. cbv zeta in H. cbn [andb] in H. rewrite orb_false_r in H. unfold nothing_found.
  destruct (a_objective (solver p)) as [q|]; [|right; discriminate].
  destruct (Qltb q (- (1 # 1000))) eqn:L; cbn [andb] in H.
  - destruct (a_status (solver p)); cbn [status_eqb negb] in H; try (left; reflexivity);
      apply bind_ok in H; destruct H as (x & _ & H); discriminate.
  - right. intros q' E. injection E as <-. apply Qltb_ge in L. exact L.
Qed.

(** If the exact pricing problem is solved to optimality and yields no column, no route of the
    pricing graph has a reduced cost below the threshold. *)
Theorem nothing_below h K k caps o ns dur neg p a :
  network K h -> mip_data h o caps k -> formulate h k caps o ns dur neg = Ok p -> exact_answer p a -> nothing_found a ->
  forall cs, drivable h o caps k ns dur cs -> - (1 # 1000) <= path_sum (weight_of h) (trip cs).
Proof.
  intros HN MD F [HA [(A1 & A2 & A3)|(A1 & A2)]] NF cs Hcs.
  - destruct (lp_complete h K k caps o ns dur neg p cs HN F MD Hcs) as (x & X1 & X2 & X3).
    destruct (a_objective a) as [q|] eqn:Eo; [|congruence].
    assert (Ev := sa_objective _ _ HA q Eo). specialize (A3 x X1).
    destruct NF as [NF|NF]; [congruence|]. specialize (NF q Eo). lra.
  - exfalso. destruct (lp_complete h K k caps o ns dur neg p cs HN F MD Hcs) as (x & X1 & _). apply (A2 x X1).
Qed.
Lemma usable_limit tl : (forall t, tl = Some t -> 0 < t \/ t == 0) ->
  truthyQ tl && match tl with Some t => Qle_bool t 0 | None => false end = false.
Proof.
  intro Htl. destruct tl as [t|]; auto. destruct (Htl t eq_refl) as [Ht|Ht].
  - assert (Hb : Qle_bool t 0 = false) by (apply Qle_bool_false; lra). rewrite Hb. apply andb_false_r.
  - cbn [truthyQ]. apply Qeq_bool_iff in Ht. rewrite Ht. reflexivity.
Qed.
