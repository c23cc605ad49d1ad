(** restricted_master_heuristics.py: the diving heuristic. *)
From Verif.Base Require Import Prelude Graph.
From Verif.Spec Require Import Routes Network LinProg.
From Verif.Model Require Import Args Reach Checks Preprocess ClarkeWright Greedy Initial Pricing Master.
From Coq Require Qround.

(** restricted_master_heuristics.py 51-52, equality of variable names *)
Definition mvar_eqb (a b : mvar) : bool :=
  match a, b with
  | Y n, Y m => cname_eqb n m
  | Drop u, Drop v => node_eqb u v
  | Dummy u, Dummy v => node_eqb u v
  | Extra j, Extra k => (j =? k)%nat
  | Span, Span => true
  | _, _ => false
  end.
(** restricted_master_heuristics.py 51-52, membership in a tabu list *)
Definition mem_var (v : mvar) (l : list mvar) : bool := existsb (mvar_eqb v) l.

(** The attributes of _DivingHeuristic (25-30) that change. The nodes (95-98) form a chain of
    which only the length matters: [dv_level] is the number of nodes above current_node. The
    parent of the first node is an LpProblem (36-37). All nodes share one tabu_list, the default
    argument at 96: it lives as long as the process. *)
Record diving := mkDive { dv_depth : nat; dv_level : nat; dv_tabu : list mvar }.

(** 25: the defaults *)
Definition max_depth : nat := 3.
(** restricted_master_heuristics.py 25, the default; the code never passes another value *)
Definition max_discrepancy : nat := 1.

(** 63-71: the two constraints fixing a variable *)
Definition fix_rows (v : mvar) : list (row mvar) := [mkRow [(1, v)] LE 1; mkRow [(1, v)] GE 1].
(** restricted_master_heuristics.py 64-71, the two constraints y <= 1 and y >= 1 *)
Definition fixing (fixed : list mvar) (p : program mvar) : program mvar :=
  mkProgram (p_obj p) (p_rows p ++ flat_map fix_rows fixed) (p_vars p).

(** abs(x - round(x)): the distance to the nearest integer (restricted_master_heuristics.py 41-45) *)
Definition fractional (q : Q) : Q :=
  let f := q - inject_Z (Qround.Qfloor q) in if Qle_bool f (1 - f) then f else 1 - f.

(** 58-60: min(vars, key=...), the first one of least key *)
Fixpoint least (key : mvar -> Q) (best : mvar) (l : list mvar) : mvar :=
  match l with
  | [] => best
  | v :: t => if Qltb (key v) (key best) then least key v t else least key best t
  end.

(** The loop 40-91. [n] is max_discrepancy - len(tabu_list); [vars] are the variables of the
    problem in the order of their names; [run] are the variables of [constrs]; [start] is the
    level of the node at the beginning of the dive, below which lp_node (38) hangs; [x] are the
    values of the variables. The [i]-th call of relax.resolve() is answered by [resolve i].
    Returned: the diving state, tabu_list, and the variables fixed in [prob]. *)
Fixpoint dive_loop (resolve : nat -> program mvar -> answer mvar) (p : program mvar) (vars : list mvar)
    (start : nat) (n : nat) (i : nat) (run tabu added : list mvar) (x : mvar -> Q) (d : diving)
  : res (diving * list mvar * list mvar) :=
  match n with
  | O => Ok (d, tabu, added)
  | S n' =>
      if (dv_depth d <=? max_depth)%nat then
        let non_integer := filter (fun v => negb (Qeq_bool (fractional (x v)) 0)) vars in
        match filter (fun v => negb (mem_var v (dv_tabu d)) && negb (mem_var v tabu)) non_integer with
        | [] => Ok (d, tabu, added)
        | v0 :: vs =>
            let v := least (fun w => fractional (x w)) v0 vs in
            let run' := run ++ [v] in
            let a := resolve i (fixing run' p) in
            let d1 := mkDive (S (dv_depth d)) (dv_level d) (dv_tabu d) in
            if status_eqb (a_status a) Optimal
            then dive_loop resolve p vars start n' (S i) run' (tabu ++ [v]) run' (a_value a)
                           (mkDive (dv_depth d1) (S start) (dv_tabu d1))
            else match dv_level d1 with
                 | O => Err AttributeError
                 | S l => dive_loop resolve p vars start n' (S i) run' (tabu ++ [v]) added (a_value a)
                                    (mkDive (dv_depth d1) l (dv_tabu d1))
                 end
        end
      else Ok (d, tabu, added)
  end.

(** 32-92 run_dive on the problem [p] whose variables have the values [x] *)
Definition run_dive (resolve : nat -> program mvar -> answer mvar) (p : program mvar) (vars : list mvar)
    (x : mvar -> Q) (d : diving) : res (diving * list mvar) :=
  let* r := dive_loop resolve p vars (dv_level d) max_discrepancy 0 [] [] [] x d in
  let '(d1, tabu, added) := r in
  Ok (mkDive (dv_depth d1) (dv_level d1) (dv_tabu d1 ++ tabu), added).

(** master_solve_pulp.py 65-69 solve_and_dive: [fixed] are the variables fixed by earlier dives;
    [solver] answers the call in _solve, [resolve] those of the dive, [again] the call at 68; no
    status is looked at. [order] sorts the variables by name. *)
Definition solve_and_dive (g : vgraph) (o : moptions) (cs : list column)
    (solver again : program mvar -> answer mvar) (resolve : nat -> program mvar -> answer mvar)
    (order : list mvar -> list mvar) (pi : mrow -> Q) (m : master) (fixed : list mvar) (d : diving)
  : res (diving * list mvar * dual_dict * answer mvar) :=
  let p := fixing fixed (program_of m) in
  let* r := run_dive resolve p (order (map mc_var (ms_cols m))) (a_value (solver p)) d in
  let '(d1, added) := r in
  let fixed1 := fixed ++ added in
  let* D := get_duals g o m cs pi in
  Ok (d1, fixed1, D, again (fixing fixed1 (program_of m))).
