(** master_solve_pulp.py: the restricted master problem, built column by column. *)
From Verif.Base Require Import Prelude Graph.
From Verif.Spec Require Import Routes Network LinProg.
From Verif.Model Require Import Args Reach Checks Preprocess ClarkeWright Greedy Initial Pricing.

(* ------------------------------------------------------------------ *)
(** ** Variables, rows, and the problem as a data structure *)

(** Variables (master_solve_pulp.py 27-31): y[name], drop[v] "drop_v", dummy[v] "periodic_v",
    dummy_bound[k] "artificial_bound_k" and makespan. *)
Inductive mvar := Y (n : cname) | Drop (v : node) | Dummy (v : node) | Extra (k : nat) | Span.

(** Constraints (master_solve_pulp.py 33-36): "visit_node_v", "upper_bound_vehicles_k" and
    "makespan_n". *)
Inductive mrow := Visit (v : node) | Fleet (k : nat) | SpanOf (n : nat).

(** master_solve_pulp.py 239-285, equality of constraint names *)
Definition mrow_eqb (a b : mrow) : bool :=
  match a, b with
  | Visit u, Visit v => node_eqb u v
  | Fleet j, Fleet k => (j =? k)%nat
  | SpanOf n, SpanOf m => (n =? m)%nat
  | _, _ => false
  end.

(** A pulp.LpVariable: its bounds, its coefficient in the objective, and its coefficients in the
    rows, as given by the argument [e] of the constructor. Repeated rows add up (pulp's lpSum)
    (master_solve_pulp.py 311-394) *)
Record mcol := mkMCol {
  mc_var : mvar;
  mc_bounds : bounds;
  mc_cost : Q;
  mc_coefs : list (mrow * Q)
}.

(** self.prob: rows with sense and right-hand side, and variables in order of creation
    (master_solve_pulp.py 21-43) *)
Record master := mkMaster {
  ms_rows : list (mrow * (sense * Q));
  ms_cols : list mcol
}.

(** The linear program pulp hands to the solver (master_solve_pulp.py 272-275, 311-394) *)
Definition row_lhs (cols : list mcol) (r : mrow) : list (Q * mvar) :=
  flat_map (fun c => map (fun t => (snd t, mc_var c))
                         (filter (fun t => mrow_eqb r (fst t)) (mc_coefs c))) cols.
(** master_solve_pulp.py 239-285, the pulp problem as data *)
Definition program_of (m : master) : program mvar :=
  mkProgram (map (fun c => (mc_cost c, mc_var c)) (ms_cols m))
            (map (fun r => mkRow (row_lhs (ms_cols m) (fst r)) (fst (snd r)) (snd (snd r))) (ms_rows m))
            (map (fun c => (mc_var c, mc_bounds c)) (ms_cols m)).

(** The arguments of the constructor (masterproblem.py 16-36). [mo_fleet] None: num_vehicles is a
    scalar without [len]. *)
Record moptions := mkMO {
  mo_drop : option Q;
  mo_fleet : option (list Q);
  mo_all : bool;
  mo_periodic : bool;
  mo_span : bool
}.

(** [len(self.num_vehicles)] (master_solve_pulp.py 102, 328, 349, 357, 398) *)
Definition fleet_size (o : moptions) : res nat :=
  of_opt TypeError (option_map (@List.length Q) (mo_fleet o)).

(** [if self.num_vehicles]: a list with an element (scalars reaching this point are 0 or None) *)
Definition has_fleet (o : moptions) : bool :=
  match mo_fleet o with Some l => nonempty l | None => false end.

(** [self.set_covering_constrs[n]] etc.: a dict lookup (master_solve_pulp.py 325-330, 380, 393) *)
Definition row_at (rows : list (mrow * (sense * Q))) (r : mrow) : res mrow :=
  if existsb (fun p => mrow_eqb r (fst p)) rows then Ok r else Err KeyError.

(* ------------------------------------------------------------------ *)
(** ** Rows *)

(** the condition at 83-87, 177-181, 294-298 *)
Definition must_visit (p : node * ndata) : bool :=
  negb (is_depot (fst p)) && negb (is_aux_depot (snd p)).

(** 287-309 _add_set_covering_constraints *)
Definition covering_rows (g : vgraph) (o : moptions) : list (mrow * (sense * Q)) :=
  map (fun p => (Visit (fst p), (GE, if mo_periodic o then inject_Z (freq (snd p)) else 1)))
      (filter must_visit (gnodes g)).

(** 396-402 _add_bound_vehicles, called at 247-248 *)
Definition bound_rows (o : moptions) : list (mrow * (sense * Q)) :=
  match mo_fleet o with
  | Some l =>
      if nonempty l && negb (mo_periodic o) then
        map (fun p => (Fleet (fst p), (if mo_all o then EQ else LE, snd p)))
            (combine (seq 0 (List.length l)) l)
      else []
  | None => []
  end.

(** 421-428 _add_maximum_makespan_constraints, called at 250-251; self._n_columns is 1000 (41) *)
Definition span_rows (o : moptions) : list (mrow * (sense * Q)) :=
  if mo_span o then map (fun n => (SpanOf n, (LE, 0))) (seq 1 (Z.to_nat 999)) else [].

(** master_solve_pulp.py 239-285 *)
Definition all_rows (g : vgraph) (o : moptions) : list (mrow * (sense * Q)) :=
  covering_rows g o ++ bound_rows o ++ span_rows o.

(* ------------------------------------------------------------------ *)
(** ** Columns *)

(** master_solve_pulp.py 321-322, 338-339, 375-376, bounds of a route variable *)
Definition zero_one (int : bool) : bounds := mkBounds (Some 0) (Some 1) int.
(** master_solve_pulp.py 360, 390, 415, a lower bound of 0 *)
Definition nonneg : bounds := mkBounds (Some 0) None false.

(** 320-326, 344-349: the part of [e] for the bound on the number of vehicles *)
Definition fleet_coefs rows (o : moptions) (k : nat) : res (list (mrow * Q)) :=
  let* K := fleet_size o in
  mapM (fun j => let* r := row_at rows (Fleet j) in Ok (r, 1)) (filter (fun j => (k =? j)%nat) (seq 0 K)).

(** master_solve_pulp.py 325, 342-346 *)
Definition visit_coefs rows (vs : list node) : res (list (mrow * Q)) :=
  mapM (fun v => let* r := row_at rows (Visit v) in Ok (r, 1)) (filter is_cust vs).

(** 311-333 _add_route_selection_variable *)
Definition route_variable rows (o : moptions) (c : column) : res mcol :=
  let vs := match c_path c with Some p => p | None => c_nodes c end in
  let* cover := visit_coefs rows vs in
  let* fleet := fleet_coefs rows o (c_type c) in
  Ok (mkMCol (Y (c_name c)) (zero_one false) (c_cost c) (cover ++ fleet)).

(** [self.makespan_constr[route.graph["name"]]]: the keys are integers (master_solve_pulp.py 352) *)
Definition span_row rows (n : cname) : res mrow :=
  match n with CNat i => row_at rows (SpanOf i) | _ => Err KeyError end.

(** 335-354 _add_route_selection_variable_for_global_span *)
Definition span_route_variable rows (o : moptions) (c : column) : res mcol :=
  let* cover := visit_coefs rows (c_nodes c) in
  let* fleet := fleet_coefs rows o (c_type c) in
  let* r := span_row rows (c_name c) in
  Ok (mkMCol (Y (c_name c)) (zero_one true) 0 (cover ++ fleet ++ [(r, c_cost c)])).

(** 71-76 update, and the loops 255-262 *)
Definition new_variable rows (o : moptions) (c : column) : res mcol :=
  if mo_span o then span_route_variable rows o c else route_variable rows o c.

(** 366-382 _add_drop_variables, called at 265-266 *)
Definition drop_variables (g : vgraph) rows (o : moptions) : res (list mcol) :=
  match mo_drop o with
  | Some p =>
      if truthyQ (mo_drop o) then
        mapM (fun v => let* r := row_at rows (Visit v) in
                       Ok (mkMCol (Drop v) (zero_one true) p [(r, 1)])) (custs g)
      else Ok []
  | None => Ok []
  end.

(** 1e10 *)
Definition big : Q := 10000000000 # 1.

(** 384-394 _add_artificial_variables, called at 269-270 *)
Definition has_dummy (p : node * ndata) : bool := (1 <? freq (snd p))%Z && negb (node_eqb (fst p) Source).
(** master_solve_pulp.py 384-394 *)
Definition dummy_variables (g : vgraph) rows (o : moptions) : res (list mcol) :=
  if mo_periodic o then
    mapM (fun p => let* r := row_at rows (Visit (fst p)) in
                   Ok (mkMCol (Dummy (fst p)) nonneg big [(r, 1)]))
         (filter has_dummy (gnodes g))
  else Ok [].

(** 356-364 _add_vehicle_dummy_variables, called at 278 *)
Definition extra_variables rows (o : moptions) : res (list mcol) :=
  let* K := fleet_size o in
  mapM (fun k => let* r := row_at rows (Fleet k) in
                 Ok (mkMCol (Extra k) nonneg big [(r, - (1))])) (seq 0 K).

(** 404-419 _add_makespan_variable, called at 280-281: makespan_constr[x] for x in range(1, 75) *)
Definition span_variables rows (o : moptions) : res (list mcol) :=
  if mo_span o then
    let* l := mapM (fun n => let* r := row_at rows (SpanOf n) in Ok (r, - (1))) (seq 1 74) in
    Ok [mkMCol Span nonneg 1 l]
  else Ok [].

(* ------------------------------------------------------------------ *)
(** ** The problem *)

(** 239-285 _formulate *)
Definition formulate (g : vgraph) (o : moptions) (cs : list column) : res master :=
  let rows := all_rows g o in
  let* ys := mapM (new_variable rows o) cs in
  let* ds := drop_variables g rows o in
  let* ps := dummy_variables g rows o in
  let* es := extra_variables rows o in
  let* ss := span_variables rows o in
  Ok (mkMaster rows (ys ++ ds ++ ps ++ es ++ ss)).

(** 71-76 update. Names of columns are never used twice (C37), so the dict self.y has one
    variable per column. *)
Definition update (o : moptions) (m : master) (c : column) : res master :=
  let* y := new_variable (ms_rows m) o c in
  Ok (mkMaster (ms_rows m) (ms_cols m ++ [y])).

(** 172-208 _solve(relax=False): changes the problem for good. The loop at 176-195 sets the sense
    of all "visit_node" rows once a node with such a row exists, and the type of all periodic
    dummies. *)
Definition integral_row (r : mrow * (sense * Q)) : mrow * (sense * Q) :=
  match fst r with Visit _ => (fst r, (EQ, snd (snd r))) | _ => r end.
(** master_solve_pulp.py 193-198 *)
Definition integral_col (c : mcol) : mcol :=
  let b := mc_bounds c in
  let b' := match mc_var c with
            | Y (CNonElem _) => mkBounds (Some 0) (Some 0) true
            | Y _ => mkBounds (b_low b) (b_up b) true
            | Dummy _ => mkBounds (b_low b) (b_up b) true
            | Extra _ => mkBounds (Some 0) (Some 0) (b_int b)
            | _ => b
            end in
  mkMCol (mc_var c) b' (mc_cost c) (mc_coefs c).
(** master_solve_pulp.py 171-203 *)
Definition integral (m : master) : master :=
  mkMaster (map integral_row (ms_rows m)) (map integral_col (ms_cols m)).

(** 78-122 get_duals, [pi] being the attribute pi of the constraints *)
Definition get_duals (g : vgraph) (o : moptions) (m : master) (cs : list column) (pi : mrow -> Q)
  : res dual_dict :=
  let* ns := mapM (fun p => let* r := row_at (ms_rows m) (Visit (fst p)) in Ok (fst p, pi r))
                  (filter must_visit (gnodes g)) in
  let* fl := (if has_fleet o && negb (mo_periodic o) then
                let* K := fleet_size o in
                let* l := mapM (fun k => let* r := row_at (ms_rows m) (Fleet k) in Ok (pi r)) (seq 0 K) in
                Ok (Some l)
              else Ok None) in
  let* sp := (if mo_span o then
                mapM (fun c => let* r := span_row (ms_rows m) (c_name c) in Ok (c_name c, pi r)) cs
              else Ok []) in
  Ok (mkDuals ns fl sp).

(** 45-63 solve: the (possibly changed) problem, the duals and the value of the objective.
    [solver] and [pi] are what the LP/MIP solver returns. *)
Definition solve_master (g : vgraph) (o : moptions) (relax : bool) (cs : list column)
    (solver : program mvar -> answer mvar) (pi : mrow -> Q) (m : master)
  : res (master * dual_dict * option Q) :=
  let m1 := if relax then m else integral m in
  let a := solver (program_of m1) in
  let* _ := raise_if (negb (status_eqb (a_status a) Optimal)) GenericException in
  let* D := get_duals g o m1 cs pi in
  Ok (m1, D, a_objective a).

(** the variable of a column: [self.y[r.graph["name"]]] (master_solve_pulp.py 127, vrp.py 582) *)
Definition has_variable (m : master) (n : cname) : bool :=
  existsb (fun c => match mc_var c with Y n' => cname_eqb n' n | _ => false end) (ms_cols m).

(** the keys of self.drop (master_solve_pulp.py 136-139) *)
Definition drop_keys (m : master) : list node :=
  flat_map (fun c => match mc_var c with Drop v => [v] | _ => [] end) (ms_cols m).

(** 124-147 get_total_cost_and_routes: [x] are the values of the variables, [total] the value of
    the objective after the call of resolve() at 141. Also returns dropped_nodes. *)
Definition get_total_cost_and_routes (o : moptions) (m : master) (x : mvar -> Q) (total : option Q)
    (cs : list column) : res (Q * list column * list node) :=
  let* sel := foldM (fun acc c =>
                if has_variable m (c_name c)
                then Ok (if Qltb 0 (x (Y (c_name c))) then acc ++ [c] else acc)
                else Err KeyError) cs [] in
  let dropped := if truthyQ (mo_drop o)
                 then filter (fun v => Qltb (1 # 2) (x (Drop v))) (drop_keys m) else [] in
  Ok (match total with Some q => q | None => 0 end, sel, dropped).
