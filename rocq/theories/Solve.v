(** * The two phases and the top level: model of
    /repo/src/algorithm/two_phase/phase_one.rs, phase_two.rs and mod.rs *)
From Verif Require Export PivotRule.

(** /repo/src/algorithm/mod.rs:12-35 `OptimizationResult` *)
Inductive opt_result :=
| Infeasible
| FiniteOptimum (x : svec)
| Unbounded.

(** phase_one.rs:196-211 `enum Rank`, 179-194 `enum RankedFeasibilityResult` *)
Inductive rank := RankFull | RankDeficient (rows : list nat).

Section Solve.
Variable O : BIOps.
Variable R : Rule O.

(** One turn of the loops in phase_one.rs:136-175 and phase_two.rs:36-58 up to the point where they
    differ: select a column and a row, change the basis. *)
Inductive step_result :=
| StepNoColumn                              (* `select_primal_pivot_column` returned `None` *)
| StepNoRow                                 (* `select_primal_pivot_row` returned `None` *)
| StepPivot (t : tableau O) (s : r_state R).
Definition simplex_step (k : kind) (t : tableau O) (s : r_state R) : res step_result :=
  let* sel := r_select R s k t in
  let (choice, s) := sel in
  match choice with
  | None => Ok StepNoColumn
  | Some (q, cost) =>
      let* cc := generate_column k t q in
      let* row := select_row t (cci_col O cc) in
      match row with
      | None => Ok StepNoRow
      | Some p =>
          let* ti := bring_into_basis k t q p cc cost in
          let (t', info) := ti in
          let* s' := r_after R s info k t' in
          Ok (StepPivot t' s')
      end
  end.

Inductive loop_result :=
| LoopOptimal (t : tableau O)
| LoopUnbounded (t : tableau O).
(** the `loop` of both phases *)
Fixpoint simplex_loop (fuel : nat) (k : kind) (t : tableau O) (s : r_state R) : res loop_result :=
  match fuel with
  | 0%nat => Fuel
  | S fuel' =>
      let* r := simplex_step k t s in
      match r with
      | StepNoColumn => Ok (LoopOptimal t)
      | StepNoRow => Ok (LoopUnbounded t)
      | StepPivot t' s' => simplex_loop fuel' k t' s'
      end
  end.

(** phase_two.rs:22-60 `primal` *)
Definition phase_two (fuel : nat) (k : kind) (t : tableau O) : res opt_result :=
  let* s := r_new R k t in
  let* r := simplex_loop fuel k t s in
  match r with
  | LoopOptimal t' => Ok (FiniteOptimum (current_bfs t'))
  | LoopUnbounded _ => Ok Unbounded
  end.

(** phase_one.rs:244-263: the columns considered for replacing an artificial variable; the predicate
    is evaluated lazily, column by column *)
Definition removal_ok (k : kind) (t : tableau O) (row : nat) (value : Qc) (j : nat) : res bool :=
  if in_basis t j then Ok false else
  if qzero value then
    let* e := generate_element k t row j in
    Ok (match e with Some x => negb (qzero x) | None => false end)
  else
    if qzero (relative_cost k t j) then
      let* e := generate_element k t row j in
      Ok (match e with Some x => qpos x | None => false end)
    else Ok false.
(** phase_one.rs:232-283 `remove_artificial_basis_variables` *)
Definition removal_step (k : kind) (st : tableau O * list nat) (e : nat * nat)
  : res (tableau O * list nat) :=
  let (t, rows) := st in
  let (row, artificial) := e in
  let* value := variable_value k t artificial in
  let* found := findM (removal_ok k t row value) (range (k_art k) (k_cols k)) in
  match found with
  | Some q =>
      let cost := relative_cost k t q in
      let* cc := generate_column k t q in
      let* ti := bring_into_basis k t q row cc cost in
      Ok (fst ti, rows)
  | None => Ok (t, rows ++ [row])
  end.
Definition remove_artificials (k : kind) (t : tableau O) : res (tableau O * list nat) :=
  let* arts := artificial_basis_columns k t in
  foldM (removal_step k) arts (t, []).

Inductive feasibility :=
| PhaseOneFeasible (r : rank) (t : tableau O)
| PhaseOneInfeasible.
(** phase_one.rs:123-177 `primal` *)
Definition phase_one (fuel : nat) (k : kind) (t : tableau O) : res feasibility :=
  let* s := r_new R k t in
  let* r := simplex_loop fuel k t s in
  match r with
  | LoopUnbounded _ => Panic  (* "Artificial cost can not be unbounded." *)
  | LoopOptimal t' =>
      if qzero (objective_value t') then
        if has_artificial k t' then
          let* tr := remove_artificials k t' in
          let (t'', rows) := tr in
          match rows with
          | [] => Ok (PhaseOneFeasible RankFull t'')
          | _ => Ok (PhaseOneFeasible (RankDeficient rows) t'')
          end
        else Ok (PhaseOneFeasible RankFull t')
      else Ok PhaseOneInfeasible
  end.

(** phase_one.rs:45-60 and 86-105 `compute_bfs_giving_im`: choice of the artificial kind *)
Definition compute_bfs (fuel : nat) (p : provider) : res (feasibility * nat) :=
  match p_init p with
  | NoInit =>
      let k := fully p in
      let* t := new_fully O p in
      let* f := phase_one fuel k t in
      Ok (f, k_art k)
  | PartialInit real | FullInit real =>
      let* ta := new_partially O p real in
      let (t, arts) := ta in
      let k := partially p arts in
      let* f := phase_one fuel k t in
      Ok (f, k_art k)
  end.

(** two_phase/mod.rs:30-73 (default) and 87-113 (FullInitialBasis) `solve_relaxation`.  The pivot
    rule is a parameter here; the code uses `SteepestDescentAlongObjective` in both phases. *)
Definition solve_two_phase (fuel : nat) (p : provider) : res opt_result :=
  let* fa := compute_bfs fuel p in
  let (f, a) := fa in
  match f with
  | PhaseOneInfeasible => Ok Infeasible
  | PhaseOneFeasible (RankDeficient ((_ :: _) as rows)) t =>
      let p' := remove_rows p rows in
      let* t' := tab_from_artificial_remove (t_im t) a (t_cols t) p' rows in
      phase_two fuel (non_artificial p') t'
  | PhaseOneFeasible _ t =>
      let* t' := tab_from_artificial (t_im t) a (t_cols t) p in
      phase_two fuel (non_artificial p) t'
  end.
Definition solve_full_basis (fuel : nat) (p : provider) (pivots : list (nat * nat)) : res opt_result :=
  let* c := from_basis_pivots O pivots p in
  phase_two fuel (non_artificial p) (mk_tab c (map snd pivots)).
Definition solve (fuel : nat) (p : provider) : res opt_result :=
  match p_init p with
  | FullInit pivots => solve_full_basis fuel p pivots
  | _ => solve_two_phase fuel p
  end.

End Solve.

(** `solve_relaxation::<Carry<_, BI>>` *)
Definition solve_relaxation (O : BIOps) (fuel : nat) (p : provider) : res opt_result :=
  solve O (steepest_objective O) fuel p.
