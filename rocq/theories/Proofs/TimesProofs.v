(** Proofs about arrival and departure times. *)
From Verif.Base Require Import Prelude Graph.
From Verif.Spec Require Import Routes Network Prep Results.
From Verif.Model Require Import Args Reach Checks Preprocess ClarkeWright Greedy Initial Pricing Post.
From Verif.Proofs Require Import RouteLemmas PreLemmas PostProofs.

Lemma arrivals_unhurried h : forall p u t, lower_of h u <= t ->
  unhurried (time_of h) (service_of h) (lower_of h) (u :: p) (t :: arrivals h u t p).
Proof.
  induction p as [|v p IH]; intros u t L; [exact L|]. cbn [arrivals].
  destruct (pymax2_spec (t + service_of h u + time_of h u v) (lower_of h v)) as (M1 & M2 & _).
  split; [exact L|]. split; [exact M1|]. apply IH. exact M2.
Qed.

Lemma arrivals_least h : forall p u t t' T', t <= t' ->
  unhurried (time_of h) (service_of h) (lower_of h) (u :: p) (t' :: T') -> Forall2 Qle (arrivals h u t p) T'.
Proof.
  induction p as [|v p IH]; intros u t t' T' L H.
  - destruct T' as [|x T']; [constructor|destruct H].
  - destruct T' as [|x T']; [destruct H|]. cbn [arrivals]. destruct H as (H1 & H2 & H3).
    assert (X : pymax2 (t + service_of h u + time_of h u v) (lower_of h v) <= x).
    { assert (LV : lower_of h v <= x). { destruct p, T'; cbn in H3; try tauto. }
      destruct (pymax2_spec (t + service_of h u + time_of h u v) (lower_of h v)) as (_ & _ & [-> | ->]); lra. }
    constructor; [exact X|]. eapply IH; [exact X|exact H3].
Qed.

Theorem arrivals_earliest h u p : earliest_times h (u :: p) (lower_of h u :: arrivals h u (lower_of h u) p).
Proof.
  split; [apply arrivals_unhurried; lra|]. intros [|t' T'] H; [destruct p; destruct H|].
  assert (L : lower_of h u <= t') by (destruct p, T'; cbn in H; tauto).
  constructor; [exact L|]. eapply arrivals_least; eassumption.
Qed.

Lemma combine_fst {A B} (l : list A) (m : list B) : List.length l = List.length m -> map fst (combine l m) = l.
Proof. revert m. induction l as [|a l IH]; intros [|b m] H; try discriminate; [reflexivity|]. cbn in *. rewrite IH; [reflexivity|lia]. Qed.
Lemma combine_snd {A B} (l : list A) (m : list B) : List.length l = List.length m -> map snd (combine l m) = m.
Proof. revert m. induction l as [|a l IH]; intros [|b m] H; try discriminate; [reflexivity|]. cbn in *. rewrite IH; [reflexivity|lia]. Qed.

(** the dictionary of one route *)
Definition arrival_dict (h : vgraph) (r : list node) : list (node * Q) :=
  match r with [] => [] | u :: p => combine r (lower_of h u :: arrivals h u (lower_of h u) p) end.

Theorem arrival_ok s d : arrival_time s = Ok d ->
  (no_times s = true -> d = []) /\
  (no_times s = false -> Forall2 (fun p q => fst q = fst p /\
     (forall cs, snd p = Source :: cs -> NoDup (snd p) -> snd q = arrival_dict (sv_copy s) (snd p))) (sv_routes s) d).
Proof.
  unfold arrival_time. intro H. split; intro C; rewrite C in H; [congruence|]. apply per_route_ok in H. eapply Forall2_weaken; [|exact H].
  intros [i r] [j q] _ [H1 H2]. cbn [fst snd] in *. split; [exact H1|]. intros cs -> N.
  apply bind_ok in H2. destruct H2 as (src & Hs & H2). apply get_node_data, nd_data in Hs.
  assert (LS : lower src = lower_of (sv_copy s) Source) by (unfold lower_of; rewrite Hs; reflexivity). rewrite LS in H2.
  destruct (arrival_loop (sv_copy s) cs Source (lower_of (sv_copy s) Source) [(Source, lower_of (sv_copy s) Source)] q N) as (A & _); [reflexivity|exact H2|].
  rewrite A. reflexivity.
Qed.

Theorem arrival_total K s : (forall i r, In (i, r) (sv_routes s) -> knows K (sv_copy s) r /\ route_shape r) -> exists d, arrival_time s = Ok d.
Proof.
  intro H. unfold arrival_time. destruct (no_times s); [eexists; reflexivity|]. apply per_route_total. intros i r Hir.
  destruct (H i r Hir) as ((N & A & _) & R). assert (ND := route_shape_NoDup _ R). destruct R as (cs & -> & _).
  destruct (get_node_ok (sv_copy s) Source (N Source (or_introl eq_refl))) as (src & -> & _). cbn [bind].
  eapply arrival_loop_total; [reflexivity|exact A|exact N|exact ND].
Qed.

Lemma arrival_dict_keys h r : map fst (arrival_dict h r) = r.
Proof. destruct r as [|u p]; [reflexivity|]. apply combine_fst. cbn. rewrite arrivals_length. reflexivity. Qed.
Lemma arrival_dict_values h u p : map snd (arrival_dict h (u :: p)) = lower_of h u :: arrivals h u (lower_of h u) p.
Proof. apply combine_snd. cbn. rewrite arrivals_length. reflexivity. Qed.
Lemma arrival_dict_earliest h r : r <> [] -> earliest_times h r (map snd (arrival_dict h r)).
Proof. destruct r as [|u p]; [congruence|]. intros _. rewrite arrival_dict_values. apply arrivals_earliest. Qed.

(** ** Departures *)

Lemma departure_loop h arr : NoDup (map fst arr) -> forall p u d d', NoDup (map fst d ++ p) -> foldM (departure_step h arr) (arcs (u :: p)) d = Ok d' ->
  exists l, d' = d ++ l /\ map fst l = p /\ forall v t, In (v, t) l -> exists a, In (v, a) arr /\ t = a + service_of h v.
Proof.
  intro NA. induction p as [|v p IH]; intros u d d' N H.
  - cbn in H. injection H as <-. exists []. rewrite app_nil_r. repeat split; auto. intros v t [].
  - rewrite arcs_cons2 in H. cbn [foldM] in H. apply bind_ok in H. destruct H as (d1 & H1 & H). unfold departure_step in H1. cbn [fst snd] in H1.
    apply bind_ok in H1. destruct H1 as (a & Ha & H1). apply bind_ok in H1. destruct H1 as (n & Hn & H1). apply get_node_data, nd_data in Hn.
    assert (NV : ~ In v (map fst d)). { intro C. apply NoDup_remove_2 in N. apply N. apply in_or_app. left. exact C. }
    injection H1 as <-. rewrite (dset_new v _ d NV) in H.
    destruct (IH v (d ++ [(v, a + service n)]) d') as (l & L1 & L2 & L3); [rewrite map_app, <- app_assoc; exact N|exact H|].
    exists ((v, a + service n) :: l). rewrite L1, <- app_assoc. split; [reflexivity|]. cbn. rewrite L2. split; [reflexivity|].
    intros w t [E|Hw]; [|apply L3; exact Hw]. injection E as <- <-. exists a. split; [|unfold service_of; rewrite Hn; reflexivity].
    unfold of_opt in Ha. destruct (dget node_eqb v arr) as [a'|] eqn:G; [|discriminate]. injection Ha as ->.
    clear - G. induction arr as [|[w y] arr IH]; [discriminate|]. cbn in G. destruct (node_eqb w v) eqn:E; [|right; auto].
    apply node_eqb_eq in E. left. congruence.
Qed.

Lemma dget_in_nat {V} i (d : list (nat * V)) x : dget Nat.eqb i d = Some x -> In (i, x) d.
Proof.
  induction d as [|[j y] d IH]; cbn; [discriminate|]. destruct (j =? i)%nat eqn:E; intro H; [|right; auto].
  apply Nat.eqb_eq in E. left. congruence.
Qed.
Lemma dget_found_nat {V} i (x : V) d : NoDup (map fst d) -> In (i, x) d -> dget Nat.eqb i d = Some x.
Proof.
  induction d as [|[w y] d IH]; intros N H; [destruct H|]. cbn. cbn in N. inversion N as [|z l N1 N2]; subst. destruct H as [H|H].
  - injection H as -> ->. rewrite Nat.eqb_refl. reflexivity.
  - destruct (w =? i)%nat eqn:E; [|apply IH; assumption]. apply Nat.eqb_eq in E. subst. exfalso. apply N1. apply (in_map fst) in H. exact H.
Qed.

Lemma F2_in {A B} (P : A -> B -> Prop) l l' b : Forall2 P l l' -> In b l' -> exists a, In a l /\ P a b.
Proof.
  intros F H. induction F as [|x y l l' Hxy F IH]; [destruct H|]. destruct H as [<-|H]; [exists x; split; [left; reflexivity|exact Hxy]|].
  destruct (IH H) as (a & Ha & Pa). exists a. split; [right; exact Ha|exact Pa].
Qed.
Lemma F2_in_l {A B} (P : A -> B -> Prop) l l' a : Forall2 P l l' -> In a l -> exists b, In b l' /\ P a b.
Proof.
  intros F H. induction F as [|x y l l' Hxy F IH]; [destruct H|]. destruct H as [<-|H]; [exists y; split; [left; reflexivity|exact Hxy]|].
  destruct (IH H) as (b & Hb & Pb). exists b. split; [right; exact Hb|exact Pb].
Qed.

Theorem departure_ok s d : departure_time s = Ok d -> NoDup (map fst (sv_routes s)) ->
  (forall i r, In (i, r) (sv_routes s) -> NoDup r /\ exists cs, r = Source :: cs) ->
  (no_times s = true -> d = []) /\
  (no_times s = false -> Forall2 (fun p q => fst q = fst p /\ map fst (snd q) = snd p /\
     (forall v t, In (v, t) (snd q) -> exists a, In (v, a) (arrival_dict (sv_copy s) (snd p)) /\
        t = (if node_eqb v Source then a else a + service_of (sv_copy s) v))) (sv_routes s) d).
Proof.
  unfold departure_time. intros H NR SH. apply bind_ok in H. destruct H as (arr & HA & H). apply arrival_ok in HA. destruct HA as [_ HA].
  split; intro C; rewrite C in H; [congruence|]. specialize (HA C). apply per_route_ok in H. eapply Forall2_weaken; [|exact H].
  intros [i r] [j q] Hir [H1 H2]. cbn [fst snd] in *. split; [exact H1|]. destruct (SH i r Hir) as (ND & cs & ->).
  apply bind_ok in H2. destruct H2 as (src & Hs & H2). apply get_node_data, nd_data in Hs.
  assert (LS : lower src = lower_of (sv_copy s) Source) by (unfold lower_of; rewrite Hs; reflexivity). rewrite LS in H2.
  apply bind_ok in H2. destruct H2 as (a & Ha & H2). unfold of_opt in Ha. destruct (dget Nat.eqb i arr) as [a'|] eqn:G; [|discriminate]. injection Ha as ->.
  apply dget_in_nat in G. destruct (F2_in _ _ _ _ HA G) as ([i' r'] & Hir' & E1 & E2). cbn [fst snd] in *. subst i'.
  assert (r' = Source :: cs).
  { clear - NR Hir Hir'. induction (sv_routes s) as [|[k x] l IH]; [destruct Hir|]. cbn in NR. inversion NR as [|z m N1 N2]; subst.
    destruct Hir as [X|X], Hir' as [Y|Y]; [congruence| | |auto].
    - injection X as -> ->. exfalso. apply N1. apply (in_map fst) in Y. exact Y.
    - injection Y as -> ->. exfalso. apply N1. apply (in_map fst) in X. exact X. }
  subst r'. specialize (E2 cs eq_refl ND). subst a.
  destruct (departure_loop (sv_copy s) (arrival_dict (sv_copy s) (Source :: cs))) with (p := cs) (u := Source) (d := [(Source, lower_of (sv_copy s) Source)]) (d' := q)
    as (l & L1 & L2 & L3).
  - rewrite arrival_dict_keys. exact ND.
  - exact ND.
  - exact H2.
  - rewrite L1. cbn [app map fst]. rewrite L2. split; [reflexivity|]. intros v t [E|Hv].
    + injection E as <- <-. exists (lower_of (sv_copy s) Source). split; [left; reflexivity|reflexivity].
    + destruct (L3 v t Hv) as (a & A1 & A2). exists a. split; [exact A1|].
      assert (In v cs) by (rewrite <- L2; apply (in_map fst) in Hv; exact Hv).
      destruct (node_eqb v Source) eqn:EV; [|exact A2]. apply node_eqb_eq in EV. subst v. inversion ND as [|z m N1 N2]; subst. contradiction.
Qed.

(** ** Checks *)

Theorem check_arrival_iff s d : arrival_time s = Ok d ->
  (check_arrival_time s = Ok tt <->
   forall i a v t, In (i, a) d -> In (v, t) a -> exists n, node_data (sv_graph s) v = Some n /\ lower n <= t /\ t <= upper n).
Proof.
  intro H. unfold check_arrival_time. rewrite H. cbn [bind]. rewrite iterM_ok. split; intro C.
  - intros i a v t H1 H2. specialize (C (i, a) H1). cbn [snd] in C. rewrite iterM_ok in C. specialize (C (v, t) H2). cbn [fst snd] in C.
    apply bind_ok in C. destruct C as (n & Hn & C). apply bind_ok in C. destruct C as (u & C1 & C2). apply raise_if_ok in C1. apply raise_if_ok in C2.
    apply get_node_data in Hn. exists n. split; [exact Hn|]. apply negb_false_iff in C1. apply negb_false_iff in C2. apply Qle_bool_iff in C1. apply Qle_bool_iff in C2. auto.
  - intros [i a] H1. cbn [snd]. rewrite iterM_ok. intros [v t] H2. destruct (C i a v t H1 H2) as (n & Hn & A & B). cbn [fst snd].
    rewrite (proj2 (get_node_data _ _ _) Hn). cbn [bind]. apply Qle_bool_iff in A. apply Qle_bool_iff in B. rewrite A, B. reflexivity.
Qed.

Theorem check_departure_iff s d : departure_time s = Ok d ->
  (check_departure_time s = Ok tt <->
   forall i a v t, In (i, a) d -> In (v, t) a -> exists n, node_data (sv_graph s) v = Some n /\ lower n <= t).
Proof.
  intro H. unfold check_departure_time. rewrite H. cbn [bind]. rewrite iterM_ok. split; intro C.
  - intros i a v t H1 H2. specialize (C (i, a) H1). cbn [snd] in C. rewrite iterM_ok in C. specialize (C (v, t) H2). cbn [fst snd] in C.
    apply bind_ok in C. destruct C as (n & Hn & C). apply raise_if_ok in C.
    apply get_node_data in Hn. exists n. split; [exact Hn|]. apply negb_false_iff in C. apply Qle_bool_iff in C. exact C.
  - intros [i a] H1. cbn [snd]. rewrite iterM_ok. intros [v t] H2. destruct (C i a v t H1 H2) as (n & Hn & A). cbn [fst snd].
    rewrite (proj2 (get_node_data _ _ _) Hn). cbn [bind]. apply Qle_bool_iff in A. rewrite A. reflexivity.
Qed.

(** The earliest times meet the windows exactly if some times do. *)
Lemma timetable_unhurried time service low up : forall p T, timetable time service low up p T <->
  unhurried time service low p T /\ Forall2 (fun v t => t <= up v) p T.
Proof.
  induction p as [|u p IH]; intros [|t T]; cbn [timetable unhurried].
  - split; [intros _; split; [exact I|constructor]|auto].
  - split; [intros []|intros [[] _]].
  - destruct p; split; [intros []|intros [[] _]|intros []|intros [[] _]].
  - destruct p as [|v p].
    + destruct T as [|t' T]; [split|split].
      * intros [A B]. split; [exact A|]. constructor; [exact B|constructor].
      * intros [A B]. inversion B; subst. auto.
      * intros [].
      * intros [[] _].
    + destruct T as [|t' T]; [split; [intros []|intros [[] _]]|]. rewrite IH. split.
      * intros (A & B & C & D & E). split; [auto|]. constructor; assumption.
      * intros ((A & B & C) & D). inversion D; subst. auto.
Qed.

Lemma earliest_feasible h up r T : earliest_times h r T ->
  (tw_feasible (time_of h) (service_of h) (lower_of h) up r <-> Forall2 (fun v t => t <= up v) r T).
Proof.
  intros [E1 E2]. split.
  - intros (T' & H). apply timetable_unhurried in H. destruct H as [H1 H2]. specialize (E2 T' H1). clear - H2 E2. revert T E2.
    induction H2 as [|v t p T' H F IH]; intros T E; inversion E as [|x y l l' X Y]; subst; constructor; [lra|apply IH; assumption].
  - intro H. exists T. apply timetable_unhurried. auto.
Qed.

Lemma unhurried_lower time service low : forall p T, unhurried time service low p T -> Forall2 (fun v t => low v <= t) p T.
Proof.
  induction p as [|u p IH]; intros [|t T] H; [constructor|destruct H|destruct p; destruct H|].
  destruct p as [|v p]; destruct T as [|t' T]; try (destruct H; fail); cbn [unhurried] in H.
  - constructor; [exact H|constructor].
  - destruct H as (A & B & C). constructor; [exact A|]. apply IH. exact C.
Qed.
