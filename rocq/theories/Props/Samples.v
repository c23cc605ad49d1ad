(** Concrete problems used to show that the hypotheses of the theorems can be met. *)
From Verif.Base Require Import Prelude Graph.
From Verif.Spec Require Import Routes Network Inputs Feasible.
From Verif.Model Require Import Args.
From Verif.Proofs Require Import Deciders.

(** The user's graph: three customers, no arc from customer 3 to Sink, one inter-customer arc. *)
Definition raw1 : rgraph :=
  let nr d := mkNR (Some d) None None None None None None false in
  let er c := mkER (Some (Scalar c)) (Some 1) in
  mkGraph [(Source, nr 0); (Cust 1, nr 3); (Cust 2, nr 4); (Cust 3, nr 5); (Sink, nr 0)]
          [((Source, Cust 1), er 10); ((Source, Cust 2), er 11); ((Source, Cust 3), er 12);
           ((Cust 1, Cust 2), er 2); ((Cust 2, Cust 3), er 3);
           ((Cust 1, Sink), er 10); ((Cust 2, Sink), er 11)].

Lemma raw1_wf : wf raw1. Proof. apply wfb_ok. vm_compute. reflexivity. Qed.
Lemma raw1_costed : costed raw1. Proof. apply costedb_ok. vm_compute. reflexivity. Qed.
Lemma raw1_accepted : accepted_graph raw1.
Proof.
  constructor.
  - simpl; auto.
  - simpl; tauto.
  - intros u H. simpl in H. intuition discriminate.
  - intros u H. simpl in H. intuition discriminate.
  - exists [Source; Cust 1; Sink]. apply walk_cons with (Cust 1); [simpl; auto|].
    apply walk_cons with Sink; [simpl; tauto|constructor].
  - apply raw1_costed.
Qed.

(** A prepared network: four customers with demands, service times and windows. *)
Definition net1 : vgraph :=
  mkGraph [(Source, mk_node 0 0 0 100); (Cust 1, mk_node 3 1 0 50); (Cust 2, mk_node 4 1 0 50);
           (Cust 3, mk_node 5 1 5 60); (Cust 4, mk_node 2 1 0 60); (Sink, mk_node 0 0 0 100)]
          [mk_arc Source (Cust 1) 10 5; mk_arc Source (Cust 2) 11 6; mk_arc Source (Cust 3) 12 7;
           mk_arc Source (Cust 4) 13 8;
           mk_arc (Cust 1) (Cust 2) 2 1; mk_arc (Cust 2) (Cust 1) 2 1;
           mk_arc (Cust 2) (Cust 3) 3 2; mk_arc (Cust 3) (Cust 2) 3 2;
           mk_arc (Cust 3) (Cust 4) 4 2; mk_arc (Cust 4) (Cust 1) 5 3;
           mk_arc (Cust 1) Sink 10 5; mk_arc (Cust 2) Sink 11 6; mk_arc (Cust 3) Sink 12 7;
           mk_arc (Cust 4) Sink 13 8].

Lemma net1_network : network 1 net1. Proof. apply networkb_ok. vm_compute. reflexivity. Qed.
Lemma net1_round : round_trips net1. Proof. apply round_tripsb_ok. vm_compute. reflexivity. Qed.
Lemma net1_times : nonneg_times net1. Proof. apply nonneg_timesb_ok. vm_compute. reflexivity. Qed.
Lemma net1_services : nonneg_services net1. Proof. apply nonneg_servicesb_ok. vm_compute. reflexivity. Qed.
Lemma net1_demands : nonneg_demands net1. Proof. apply nonneg_demandsb_ok. vm_compute. reflexivity. Qed.
