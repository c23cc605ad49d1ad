(** Linear programs with bounds and integrality, and what it means to satisfy one. *)
From Verif.Base Require Import Prelude.

Inductive sense := LE | GE | EQ.

(** [lhs] (coefficient, variable) [sense] [rhs] *)
Record row (V : Type) := mkRow { r_lhs : list (Q * V); r_sense : sense; r_rhs : Q }.
Arguments mkRow {V} _ _ _.
Arguments r_lhs {V} _.
Arguments r_sense {V} _.
Arguments r_rhs {V} _.

(** lower bound, upper bound, integrality of a variable *)
Record bounds := mkBounds { b_low : option Q; b_up : option Q; b_int : bool }.

Record program (V : Type) := mkProgram {
  p_obj : list (Q * V);               (* minimised *)
  p_rows : list (row V);
  p_vars : list (V * bounds)
}.
Arguments mkProgram {V} _ _ _.
Arguments p_obj {V} _.
Arguments p_rows {V} _.
Arguments p_vars {V} _.

Section Meaning.
  Context {V : Type}.
  Variable x : V -> Q.

  Definition value (e : list (Q * V)) : Q := Qsum (map (fun t => fst t * x (snd t)) e).

  Definition holds (r : row V) : Prop :=
    match r_sense r with
    | LE => value (r_lhs r) <= r_rhs r
    | GE => r_rhs r <= value (r_lhs r)
    | EQ => value (r_lhs r) == r_rhs r
    end.

  Definition in_bounds (q : Q) (b : bounds) : Prop :=
    (forall l, b_low b = Some l -> l <= q) /\
    (forall u, b_up b = Some u -> q <= u) /\
    (b_int b = true -> exists z, q == inject_Z z).

  (** [x] satisfies all rows, bounds and integrality requirements. *)
  Record feasible (p : program V) : Prop := {
    feas_rows : forall r, In r (p_rows p) -> holds r;
    feas_vars : forall v b, In (v, b) (p_vars p) -> in_bounds (x v) b
  }.
End Meaning.

(** What a solver reports: LpStatus, the value of the objective ([None] without a solution) and
    the values of the variables. *)
Inductive status := Optimal | Infeasible | NotSolved | Unbounded | Undefined.
Record answer (V : Type) := mkAnswer { a_status : status; a_objective : option Q; a_value : V -> Q }.
Arguments mkAnswer {V} _ _ _.
Arguments a_status {V} _.
Arguments a_objective {V} _.
Arguments a_value {V} _.

Definition status_eqb (a b : status) : bool :=
  match a, b with
  | Optimal, Optimal | Infeasible, Infeasible | NotSolved, NotSolved
  | Unbounded, Unbounded | Undefined, Undefined => true
  | _, _ => false
  end.


(** The answer [a] to [p] can be trusted: reported values satisfy the program, and the reported
    objective is theirs. *)
Record sound_answer {V} (p : program V) (a : answer V) : Prop := {
  sa_feasible : a_status a = Optimal \/ (a_objective a <> None /\ a_status a <> Infeasible) ->
    feasible (a_value a) p;
  sa_objective : forall q, a_objective a = Some q -> q == value (a_value a) (p_obj p)
}.

(** The solver says "Optimal" only of solutions that are. *)
Record right_answer {V} (p : program V) (a : answer V) : Prop := {
  ra_sound : sound_answer p a;
  ra_least : a_status a = Optimal -> forall y, feasible y p -> value (a_value a) (p_obj p) <= value y (p_obj p)
}.

(** The program was solved to optimality. *)
Record exact_answer {V} (p : program V) (a : answer V) : Prop := {
  ea_sound : sound_answer p a;
  ea_cases : (a_status a = Optimal /\ a_objective a <> None /\
              forall y, feasible y p -> value (a_value a) (p_obj p) <= value y (p_obj p)) \/
             (a_status a = Infeasible /\ forall y, ~ feasible y p)
}.
