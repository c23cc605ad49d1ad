(** User input: the raw graph and the raw arguments, before any checking or formatting. *)
From Coq Require Export String.
From Verif.Base Require Import Prelude Graph.
From Verif.Spec Require Import Network.
Open Scope string_scope.
Open Scope list_scope.

(** Python numbers, and the values solver arguments take: None, a number or a list.
    Simplification: strings, bools (an [int] subclass) and nested lists are not modelled
    (vrp.py 82-98, checks.py 26-33) *)
Inductive pynum := PInt (z : Z) | PFloat (q : Q).
(** the value of num_stops, load_capacity, fixed_cost or num_vehicles, None, a number or a list: vrp.py 82-98. Strings, tuples and other types are not modelled *)
Inductive pyval := PNone | PNum (n : pynum) | PList (l : list pynum).

(** the value of a number, whatever its type: checks.py 26-33 *)
Definition num_val (n : pynum) : Q := match n with PInt z => inject_Z z | PFloat q => q end.
(** a number that is falsy: checks.py 26-33 *)
Definition num_zero (n : pynum) : bool := Qeq_bool (num_val n) 0.

(** [if x] (checks.py 26-50) *)
Definition py_truthy (v : pyval) : bool :=
  match v with
  | PNone => false
  | PNum n => negb (num_zero n)
  | PList l => nonempty l
  end.

(** [len(x)], TypeError for a number or None (checks.py 41-52) *)
Definition py_len (v : pyval) : res nat :=
  match v with PList l => Ok (List.length l) | _ => Err TypeError end.

(** A cost attribute: a number or a list of numbers (checks.py 53-62, 105-108) *)
Inductive pycost := Scalar (q : Q) | Vec (l : list Q).

(** Node and arc attributes as given by the user: every attribute may be missing
    (vrp.py 1068-1091, checks.py 184-187, master_solve_pulp.py 297-298) *)
Record nraw := mkNR {
  r_demand : option Q; r_collect : option Q; r_service : option Q;
  r_lower : option Q; r_upper : option Q; r_freq : option Z;
  r_request : option node; r_aux_depot : bool
}.
(** the attributes an edge may carry: vrp.py 1093-1098, checks.py 112-115 *)
Record eraw := mkER { r_cost : option pycost; r_time : option Q }.

(** the graph as the user gave it: vrp.py 84 *)
Definition rgraph := graph nraw eraw.

(** The arguments of the constructor and of solve() that the checks look at
    (vrp.py 82-98, 153-167). [num_vehicles] None is replaced by [[]] (vrp.py 109). *)
Record rargs := mkArgs {
  a_num_stops : pyval;
  a_load_capacity : pyval;
  a_duration : pyval;
  a_fixed_cost : pyval;
  a_num_vehicles : pyval;
  a_mixed_fleet : bool;
  a_strategy : string
}.

(** Arguments once checking has succeeded. [cf_load_capacity] None: falsy scalar.
    [cf_num_vehicles] None: a falsy scalar, on which [len] raises TypeError (vrp.py 430-447, 1160-1182) *)
Record config := mkConfig {
  cf_num_stops : option Z;
  cf_load_capacity : option (list Z);
  cf_duration : option Z;
  cf_fixed_cost : list Q;
  cf_num_vehicles : option (list Q);
  cf_vehicle_types : nat
}.
