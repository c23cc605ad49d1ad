(** What the hyper-heuristic knows about the pricing strategies: the history of their applications,
    and the score of a strategy as a function of it. *)
From Verif.Base Require Import Prelude Graph.
From Verif.Spec Require Import Routes Network LinProg Master Run.
From Verif.Model Require Import Args Initial Pricing GreedyPricing LPPricing Cspy Master Dive Hyper ColGen.

(** One application of a strategy: how long it took, by how much the value of the relaxation went
    down, and whether a column was found. A history lists the latest application first. *)
Record event := mkEv { ev_strategy : strat; ev_runtime : Q; ev_gain : Q; ev_column : bool }.

Definition strat_dec (a b : strat) : {a = b} + {a <> b}.
Proof. decide equality. Defined.

(** The applications of [x]. *)
Definition uses (x : strat) (l : list event) : list event :=
  filter (fun e => if strat_dec (ev_strategy e) x then true else false) l.

Definition how_many {A} (l : list A) : Q := inject_Z (Z.of_nat (List.length l)).

(** How much was won: falling values count, rising values do not. *)
Definition won (l : list event) : Q :=
  Qsum (map (fun e => if Qltb 0 (ev_gain e) then ev_gain e else 0) l).

(** The part of all applications that took longer than the latest one of [x]. *)
Definition slower (x : strat) (l : list event) : Q :=
  match uses x l with
  | [] => 0
  | e :: _ => how_many (filter (fun f => Qltb (ev_runtime e) (ev_runtime f)) l) / how_many l
  end.

(** How much the past success counts: 99% after a success, and then 10 points less after each
    failure, but at least 10%. *)
Fixpoint intensity (l : list event) : Q :=
  match l with
  | [] => 1
  | e :: t => if Qltb 0 (ev_gain e) && ev_column e then 99 # 100
              else if Qltb (intensity t - (1 # 10)) (1 # 10) then 1 # 10 else intensity t - (1 # 10)
  end.

Section Score.
  (** [ucb n i] is sqrt(2 log n / i) *)
  Variable ucb : nat -> nat -> Q.

  (** How worthwhile it is to try [x] again because it was seldom tried. *)
  Definition curiosity (x : strat) (l : list event) : Q :=
    match uses x l with [] => 0 | u => ucb (List.length l) (List.length u) end.

  (** The score of [x], when [a] of the [n] columns in use were found by [x]. (In Q, a quotient by 0
      is 0: then nothing was won, or nothing was tried twice.) *)
  Definition score (l : list event) (a n : nat) (x : strat) : Q :=
    match uses x l with
    | [] => 10000000000 # 1
    | _ =>
        let A := inject_Z (Z.of_nat a) in
        intensity l *
          ((1 # 2) * (A / inject_Z (Z.of_nat n)) + (1 # 10) * slower x l
           + (1 # 20) * (won (uses x l) / won l)
           + (1 # 20) * (A / how_many (filter ev_column (uses x l))))
        + (1 - intensity l) * (3 # 10) *
          (curiosity x l / (curiosity BestPaths l + curiosity BestEdges1 l + curiosity BestEdges2 l + curiosity Exact l))
    end.
End Score.

(** A column carries the mark of the strategy that found it, if any; 4 means that it was in use
    without a mark. *)
Definition mark (x : strat) : nat :=
  match x with BestPaths => 0 | BestEdges1 => 1 | BestEdges2 => 2 | Exact => 3 end.

(** The columns in use, and those of them found by [x]. *)
Definition in_use (x : mvar -> Q) (pool : list column) : list column :=
  filter (fun c => Qltb 0 (x (Y (c_name c)))) pool.
Definition found_by (x : strat) (pool : list column) : list column :=
  filter (fun c => match c_tag c with
                   | Some t => Nat.eqb t (mark x)
                   | None => false
                   end) pool.

(** In iteration [st], exact pricing is applied without asking. *)
Definition forced (C : cgconfig) (st : state) : Prop := Z.of_nat (s_noimp st) = cg_run_exact C.

(** The strategy applied last is not noted until the next choice: [last] is this strategy, the value
    of the relaxation for which it was chosen, and the moment (the number of a reading of the clock)
    from which its time is measured. *)
Definition pending : Type := option (strat * option Q * nat).

(** In an iteration from [st], the relaxation was solved in [s1] with value [v]: what is noted then.
    While diving it is not the strategy applied last. *)
Inductive note (E : env) (st : state) (last : pending) (s1 : state) (v : Q) : event -> Prop :=
| nt_last p0 v0 i0 : s_dive st = false -> last = Some (p0, Some v0, i0) ->
    note E st last s1 v (mkEv p0 (e_clock E (s_tick s1) - e_clock E i0) (v0 - v) true)
| nt_dive i0 : s_dive st = true -> s_tick s1 = S i0 ->
    note E st last s1 v (mkEv BestPaths (e_clock E (S i0) - e_clock E i0) (v - v) true).

(** Time is measured from the moment [i0] of the choice or, if the pricing problem of a vehicle type
    was solved without success, from the end of that. *)
Definition moment (C : cgconfig) (i0 : nat) (s3 : state) (i : nat) : Prop :=
  (i0 <= i <= s_tick s3)%nat /\ (cg_types C = 1%nat -> s_more s3 = true -> i = i0).

(** The iteration from [st] to [s3]: the history [l] becomes [l']. When exact pricing is forced,
    nothing is noted. *)
Inductive noted (E : env) (C : cgconfig) (st : state) (last : pending) (l : list event) (s3 : state)
  : pending -> list event -> Prop :=
| no_first s1 D q s2 p i : s_iter st = 0%nat -> ~ forced C st ->
    solve_relaxed E C st = Ok (s1, D, q) -> next_strategy E C q s1 = Ok (s2, p) ->
    moment C (s_tick s1) s3 i -> noted E C st last l s3 (Some (p, q, i)) l
| no_next s1 D v s2 p e i : (0 < s_iter st)%nat -> ~ forced C st ->
    solve_relaxed E C st = Ok (s1, D, Some v) -> next_strategy E C (Some v) s1 = Ok (s2, p) ->
    note E st last s1 v e ->
    moment C (s_tick s1) s3 i -> noted E C st last l s3 (Some (p, Some v, i)) (e :: l)
| no_forced p0 q0 i0 i : forced C st -> s_dive st = false -> last = Some (p0, q0, i0) ->
    moment C i0 s3 i -> noted E C st last l s3 (Some (p0, q0, i)) l
| no_forced_dive s1 D q i0 i : forced C st -> s_dive st = true ->
    solve_relaxed E C st = Ok (s1, D, q) -> s_tick s1 = S i0 ->
    moment C i0 s3 i -> noted E C st last l s3 (Some (BestPaths, q, i)) l.

(** [history st last l]: an iteration of a run from [s], possibly with a dive after column
    generation, starts in [st], and [l] is what was noted so far. *)
Inductive history (E : env) (C : cgconfig) (s : state) : state -> pending -> list event -> Prop :=
| hi_start : s_more s = true -> history E C s s None []
| hi_next st last l s1 last1 l1 : history E C s st last l -> find_columns E C st = Ok s1 ->
    noted E C st last l s1 last1 l1 ->
    time_up E C s1 = false -> limit_reached C s1 = false -> s_more s1 = true ->
    history E C s (tick (tick s1)) last1 l1
| hi_dive f st last l s1 last1 l1 : history E C s st last l -> find_columns E C st = Ok s1 ->
    noted E C st last l s1 last1 l1 -> column_generation E C f s = Ok (tick (tick s1)) ->
    history E C s (start_dive (tick (tick s1))) last1 l1.

(** What an iteration may do with a column it has already: at most the mark changes, from none to
    4, when the column is in use. *)
Definition remarked (x : mvar -> Q) (a b : column) : Prop :=
  untag a = untag b /\ (c_tag b = c_tag a \/ c_tag a = None /\ 0 < x (Y (c_name a)) /\ c_tag b = Some 4%nat).
Definition unmarked (l : list column) : Prop := Forall (fun c => c_tag c = None) l.
