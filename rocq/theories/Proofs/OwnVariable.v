(** Every column of the pool has a variable of its own in the master problem, and no other route has one. *)
From Verif.Base Require Import Prelude Graph.
From Verif.Spec Require Import Routes Network LinProg MIP Columns Pool Master Run.
From Verif.Model Require Import Initial Pricing Cspy LPPricing Master ColGen.
From Verif.Proofs Require Import MasterProofs ColGenProofs RunProofs ColGenCor.

Definition route_names (m : master) : list cname :=
  flat_map (fun y => match mc_var y with Y n => [n] | _ => [] end) (ms_cols m).

Lemma no_routes {A} (f : A -> mcol) l : (forall a n, mc_var (f a) <> Y n) ->
  flat_map (fun y => match mc_var y with Y n => [n] | _ => [] end) (map f l) = [].
Proof.
  intro H. induction l as [|a l IH]; [reflexivity|]. cbn [map flat_map]. rewrite IH, app_nil_r.
  destruct (mc_var (f a)) eqn:E; try reflexivity. destruct (H a _ E).
Qed.

Lemma built_names g o cs m : built g o cs m -> Permutation (route_names m) (map c_name cs).
Proof.
  intro B. destruct (sh_cols _ _ _ _ (built_shape _ _ _ _ B)) as (ys & F & P). unfold route_names.
  rewrite (Permutation_flat_map _ P). rewrite !flat_map_app.
  replace (flat_map _ (drop_cols g o)) with (@nil cname).
  2: { unfold drop_cols. destruct (mo_drop o); [|reflexivity]. destruct (truthyQ _); [|reflexivity]. symmetry. apply no_routes. discriminate. }
  replace (flat_map _ (dummy_cols g o)) with (@nil cname).
  2: { unfold dummy_cols. destruct (mo_periodic o); [|reflexivity]. symmetry. apply no_routes. discriminate. }
  replace (flat_map _ (extra_cols o)) with (@nil cname).
  2: { unfold extra_cols. destruct (mo_fleet o); [|reflexivity]. symmetry. apply no_routes. discriminate. }
  replace (flat_map _ (span_cols o)) with (@nil cname).
  2: { unfold span_cols. destruct (mo_span o); reflexivity. }
  rewrite !app_nil_r. clear P B. induction F as [|c y cs ys H F IH]; [reflexivity|]. cbn [flat_map map].
  assert (E : mc_var y = Y (c_name c)).
  { unfold new_variable, route_variable, span_route_variable in H. destruct (mo_span o); repeat (apply bind_ok in H; destruct H as (? & _ & H)); injection H as <-; reflexivity. }
  rewrite E. cbn [app]. constructor. exact IH.
Qed.

Theorem own_variable E C g f s s' : fresh C g s -> column_generation E C f s = Ok s' ->
  NoDup (map c_name (s_pool s')) /\
  Permutation (flat_map (fun y => match mc_var y with Y n => [n] | _ => [] end) (ms_cols (s_master s'))) (map c_name (s_pool s')).
Proof.
  intros F R. apply generation_is_run in R. destruct R as (n & _ & R). destruct (run_ok E C g n s s' R (fresh_inv C g s F)) as (I & _). split.
  - apply names_NoDup. exact (iv_numbered _ _ _ I).
  - exact (built_names _ _ _ _ (iv_built _ _ _ I)).
Qed.
