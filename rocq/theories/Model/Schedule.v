(** schedule.py: assigning the routes of a periodic problem to days. *)
From Verif.Base Require Import Prelude Graph.
From Verif.Spec Require Import Routes Network LinProg.
From Verif.Model Require Import Args Reach Checks Preprocess ClarkeWright Greedy Initial Pricing Post.

(** schedule.py 33-46: y[r][t], load_max, load_min *)
Inductive svar := OnDay (r t : nat) | LoadMax | LoadMin.

(** range(time_span) (schedule.py 37, 65, 72, 85) *)
Definition days (span : Z) : list nat := seq 0 (Z.to_nat span).

(** y[r][t] over the routes [rs] (schedule.py 67, 74, 90, 100-106) *)
Definition day_sum (rs : list nat) (t : nat) : list (Q * svar) := map (fun r => (1, OnDay r t)) rs.

(** schedule.py 65-76; the model writes the variable on the left *)
Definition max_row (rs : list nat) (t : nat) : row svar := mkRow (day_sum rs t ++ [(- (1), LoadMax)]) LE 0.
(** schedule.py 72-76 *)
Definition min_row (rs : list nat) (t : nat) : row svar := mkRow (day_sum rs t ++ [(- (1), LoadMin)]) GE 0.
(** schedule.py 79-83 *)
Definition route_row (span : Z) (r : nat) : row svar :=
  mkRow (map (fun t => (1, OnDay r t)) (days span)) EQ 1.
(** schedule.py 85-95 *)
Definition visit_row (routes : list (nat * list node)) (t : nat) (v : node) : row svar :=
  mkRow (day_sum (map fst (filter (fun p => mem v (snd p)) routes)) t) LE 1.
(** schedule.py 85-94 *)
Definition visit_rows (g : vgraph) (span : Z) (routes : list (nat * list node)) : list (row svar) :=
  flat_map (fun t => flat_map (fun p => if Qltb 0 (demand (snd p)) then [visit_row routes t (fst p)] else [])
                              (gnodes g)) (days span).
(** schedule.py 97-109; a route without a type raises KeyError *)
Definition fleet_row (types : list (nat * nat)) (routes : list (nat * list node)) (k t : nat) (n : Q)
  : res (row svar) :=
  let* rs := foldM (fun acc p =>
               let* j := of_opt KeyError (dget Nat.eqb (fst p) types) in
               Ok (if (j =? k)%nat then acc ++ [fst p] else acc)) routes [] in
  Ok (mkRow (day_sum rs t) LE n).
(** schedule.py 96-109 *)
Definition fleet_rows (span : Z) (types : list (nat * nat)) (routes : list (nat * list node)) (nv : list Q)
  : res (list (row svar)) :=
  let* l := mapM (fun kn => mapM (fun t => fleet_row types routes (fst kn) t (snd kn)) (days span))
                 (combine (seq 0 (List.length nv)) nv) in
  Ok (List.concat l).

(** schedule.py 19-46, 58-109 *)
Definition formulate_schedule (g : vgraph) (span : Z) (routes : list (nat * list node))
    (types : list (nat * nat)) (nv : list Q) : res (program svar) :=
  let rs := map fst routes in
  let* fl := (if nonempty nv then fleet_rows span types routes nv else Ok []) in
  Ok (mkProgram [(1, LoadMax); (- (1), LoadMin)]
        (map (max_row rs) (days span) ++ map (min_row rs) (days span) ++ map (route_row span) rs
         ++ visit_rows g span routes ++ fl)
        (flat_map (fun r => map (fun t => (OnDay r t, mkBounds (Some 0) (Some 1) true)) (days span)) rs
         ++ [(LoadMax, mkBounds (Some 0) None false); (LoadMin, mkBounds (Some 0) None false)])).

(** schedule.py 136-139 *)
Definition put_day (d : list (nat * list nat)) (rt : nat * nat) : list (nat * list nat) :=
  match dget Nat.eqb (snd rt) d with
  | None => dset Nat.eqb (snd rt) [fst rt] d
  | Some l => dset Nat.eqb (snd rt) (l ++ [fst rt]) d
  end.

(** schedule.py 128-142 routes_per_day *)
Definition routes_per_day (span : Z) (rs : list nat) (a : answer svar) : list (nat * list nat) :=
  if status_eqb (a_status a) Optimal then
    fold_left put_day
      (filter (fun rt => Qltb (9 # 10) (a_value a (OnDay (fst rt) (snd rt))))
              (flat_map (fun r => map (fun t => (r, t)) (days span)) rs)) []
  else [].

(** vrp.py 1193-1203: the schedule of _post_process; the time limit is given to the solver, which
    is the oracle [solver] *)
Definition schedule_routes (g : vgraph) (span : Z) (routes : list (nat * list node))
    (types : list (nat * nat)) (nv : list Q) (solver : program svar -> answer svar)
  : res (list (nat * list nat)) :=
  let* p := formulate_schedule g span routes types nv in
  Ok (routes_per_day span (map fst routes) (solver p)).
