(** The restricted master problem as documented (docs/mathematical_background.rst): which
    combinations of columns it admits and what they cost. *)
From Verif.Base Require Import Prelude Graph.
From Verif.Spec Require Import Routes Network LinProg.
From Verif.Model Require Import Initial Master.

(** The stops of a column, with repetitions, and how often it serves [v]. *)
Definition served (c : column) : list node :=
  match c_path c with Some p => p | None => c_nodes c end.
Definition times (v : node) (c : column) : nat := count_occ node_eq_dec (served c) v.

(** A column carries its path exactly if the labelling algorithm made it, and then its name says so. *)
Definition labelled (c : column) : Prop :=
  match c_name c with CNat _ => c_path c = None | _ => c_path c <> None end.

(** Customers to be visited: nodes that are no depots of any kind; how often. *)
Definition customer (g : vgraph) (v : node) (d : ndata) : Prop :=
  In (v, d) (gnodes g) /\ v <> Source /\ v <> Sink /\ is_aux_depot d = false.
Definition required (o : moptions) (d : ndata) : Q := if mo_periodic o then inject_Z (freq d) else 1.

(** Dropping is allowed and costs [p]; the fleet is bounded by [l]. *)
Definition drops (o : moptions) (p : Q) : Prop := mo_drop o = Some p /\ ~ p == 0.
Definition fleet_bound (o : moptions) (l : list Q) : Prop :=
  mo_fleet o = Some l /\ l <> [] /\ mo_periodic o = false.

Definition Qsum_over {A} (l : list A) (f : A -> Q) : Q := Qsum (map f l).

(** Visits to [v] counted by an assignment: by the columns, by dropping it, and artificial ones. *)
Definition count_visits (g : vgraph) (o : moptions) (cs : list column) (x : mvar -> Q) (v : node) (d : ndata) : Q :=
  Qsum_over cs (fun c => inject_Z (Z.of_nat (times v c)) * x (Y (c_name c)))
  + (if truthyQ (mo_drop o) then x (Drop v) else 0)
  + (if mo_periodic o && (1 <? freq d)%Z then x (Dummy v) else 0).

(** Columns of vehicle type [k] counted by an assignment. *)
Definition count_type (cs : list column) (x : mvar -> Q) (k : nat) : Q :=
  Qsum_over (filter (fun c => (c_type c =? k)%nat) cs) (fun c => x (Y (c_name c))).

Definition whole (q : Q) : Prop := exists z, q == inject_Z z.

(** [x] is a solution of the master problem over the columns [cs]: of its relaxation, or
    ([final = true]) of the integer program that is solved in the end. *)
Record solution (g : vgraph) (o : moptions) (cs : list column) (final : bool) (x : mvar -> Q) : Prop := {
  so_visits : forall v d, customer g v d ->
    required o d <= count_visits g o cs x v d /\
    (final = true -> count_visits g o cs x v d == required o d);
  so_fleet : forall l, fleet_bound o l -> forall k n, nth_error l k = Some n ->
    count_type cs x k - x (Extra k) <= n /\
    (mo_all o = true -> count_type cs x k - x (Extra k) == n);
  so_span : mo_span o = true -> forall i, (1 <= i <= 999)%nat ->
    Qsum_over (filter (fun c => match c_name c with CNat n => (n =? i)%nat | _ => false end) cs)
              (fun c => c_cost c * x (Y (c_name c)))
    <= (if (i <=? 74)%nat then x Span else 0);
  so_routes : forall c, In c cs ->
    0 <= x (Y (c_name c)) /\ x (Y (c_name c)) <= 1 /\
    (final = true \/ mo_span o = true -> whole (x (Y (c_name c)))) /\
    (final = true -> (exists i, c_name c = CNonElem i) -> x (Y (c_name c)) == 0);
  so_drop : forall p, drops o p -> forall v, In v (custs g) ->
    0 <= x (Drop v) /\ x (Drop v) <= 1 /\ whole (x (Drop v));
  so_dummy : mo_periodic o = true -> forall v d, In (v, d) (gnodes g) -> v <> Source -> (1 < freq d)%Z ->
    0 <= x (Dummy v) /\ (final = true -> whole (x (Dummy v)));
  so_extra : forall l, mo_fleet o = Some l -> forall k, (k < List.length l)%nat ->
    0 <= x (Extra k) /\ (final = true -> x (Extra k) == 0);
  so_makespan : mo_span o = true -> 0 <= x Span
}.

(** What an assignment costs. *)
Definition total_cost (g : vgraph) (o : moptions) (cs : list column) (x : mvar -> Q) : Q :=
  (if mo_span o then x Span else Qsum_over cs (fun c => c_cost c * x (Y (c_name c))))
  + match mo_drop o with Some p => p * (if truthyQ (mo_drop o) then Qsum_over (custs g) (fun v => x (Drop v)) else 0) | None => 0 end
  + (if mo_periodic o then
       (10000000000 # 1) * Qsum_over (filter has_dummy (gnodes g)) (fun p => x (Dummy (fst p))) else 0)
  + (10000000000 # 1) * Qsum_over (seq 0 (match mo_fleet o with Some l => List.length l | None => 0 end)) (fun k => x (Extra k)).

(** The master problem after it was formulated with some columns and updated with others. *)
Inductive built (g : vgraph) (o : moptions) : list column -> master -> Prop :=
| b_formulate cs m : formulate g o cs = Ok m -> built g o cs m
| b_update cs c m m1 : built g o cs m -> update o m c = Ok m1 -> built g o (cs ++ [c]) m1.

(** The selection [sel] of columns serves [v] exactly once: by exactly one of its columns, and
    there once. *)
Definition once (v : node) (sel : list column) : Prop :=
  exists c, In c sel /\ times v c = 1%nat /\
    forall c', In c' sel -> (0 < times v c')%nat -> c' = c.
Definition never (v : node) (sel : list column) : Prop :=
  forall c, In c sel -> times v c = 0%nat.

(** Number of columns of [sel] serving [v] / of type [k]. *)
Definition columns_with (v : node) (sel : list column) : nat :=
  List.length (filter (fun c => (0 <? times v c)%nat) sel).
Definition of_type (k : nat) (sel : list column) : nat :=
  List.length (filter (fun c => (c_type c =? k)%nat) sel).

(** The end of a run: the final integer program over the columns [cs] was solved (with result
    Optimal), and its solution was read off: total value [t], columns [sel], dropped customers. *)
Definition concluded (g : vgraph) (o : moptions) (cs : list column)
    (solver resolver : program mvar -> answer mvar) (t : Q) (sel : list column) (dropped : list node) : Prop :=
  exists m m1 pi D q, built g o cs m /\
    solve_master g o false cs solver pi m = Ok (m1, D, q) /\
    get_total_cost_and_routes o m1 (a_value (solver (program_of m1)))
      (a_objective (resolver (program_of m1))) cs = Ok (t, sel, dropped).

(** Columns whose name does not say otherwise visit no node twice. *)
Definition honest (c : column) : Prop := (forall i, c_name c <> CNonElem i) -> NoDup (served c).

(** [sel] and [dropped] are a way to serve everybody with the columns [cs]: each customer by
    exactly one column, or dropped if that is allowed, within the fleet bounds. *)
Record valid_selection (g : vgraph) (o : moptions) (cs sel : list column) (dropped : list node) : Prop := {
  va_cols : forall c, In c sel -> In c cs;
  va_NoDup : NoDup sel;
  va_elem : forall c i, In c sel -> c_name c <> CNonElem i;
  va_once : forall v d, customer g v d ->
    (once v sel /\ ~ In v dropped) \/ (never v sel /\ In v dropped);
  va_dropped : NoDup dropped /\ forall v, In v dropped -> In v (custs g);
  va_nodrop : (forall p, ~ drops o p) -> dropped = [];
  va_fleet : forall l, fleet_bound o l -> forall k n, nth_error l k = Some n ->
    inject_Z (Z.of_nat (of_type k sel)) <= n /\
    (mo_all o = true -> inject_Z (Z.of_nat (of_type k sel)) == n)
}.

Definition price (o : moptions) (sel : list column) (dropped : list node) : Q :=
  Qsum_over sel c_cost +
  match mo_drop o with Some p => p * inject_Z (Z.of_nat (List.length dropped)) | None => 0 end.

(** The cost of the most expensive column of a selection (0 if nothing costs anything), and the
    value of a selection when that is minimised. *)
Definition span_of (sel : list column) : Q :=
  fold_right (fun c s => if Qltb s (c_cost c) then c_cost c else s) 0 sel.
Definition span_price (o : moptions) (sel : list column) (dropped : list node) : Q :=
  span_of sel + match mo_drop o with Some p => p * inject_Z (Z.of_nat (List.length dropped)) | None => 0 end.

(** What the master problem asks of a column before it can be added: its stops (every node of it
    that is not a depot) are customers that have to be visited; when the global span is minimised
    its name is a number from 1 to 999. *)
Record addable (g : vgraph) (o : moptions) (c : column) : Prop := {
  ad_stops : forall v, In v (if mo_span o then c_nodes c else served c) -> v <> Source -> v <> Sink ->
    exists d, customer g v d;
  ad_name : mo_span o = true -> exists i, c_name c = CNat i /\ (1 <= i <= 999)%nat
}.
