(** * Properties of presolving (C22 - C27)

    [general_ok] and [fresh] (SpecGeneral.v) say that a program is consistent and as a user writes it
    down; [gfeasible], [goptimal] are about points of a program, and [completed g' x val] says that [val]
    gives all original variables the values that belong to the point [x] of the remaining program [g'].
    [presolve fuel g] is the model of `GeneralForm::presolve`: it goes on with a smaller program, or stops
    with a verdict or a panic.

    On the code as it is, C22, C23, C24 and C27 are false, and so is a part of C26.  The theorems [.._refuted] give programs on
    which they fail, one for each different cause. *)
From Verif Require Import Examples ExPresolve ExEndless PreRules PreTerm.
Local Open Scope Qc_scope.

(** ** C22: optimality and feasibility are kept *)
(** The right-hand side of a range constraint is wrong after an upper bounded slack variable has been
    removed: an optimal point of the presolved program is not optimal for the program itself. *)
Theorem C22_optimality_refuted : exists g fuel g' x val, general_ok g /\ fresh g /\
  presolve fuel g = Go g' /\ goptimal g' x /\ completed g' x val /\ ~ goptimal g val.
Proof.
  exact (ex_intro _ w_range (ex_intro _ 100%nat (ex_intro _ w_range_after (ex_intro _ w_range_best (ex_intro _ w_range_value
    (conj (proj1 w_range_ok) (conj (proj2 w_range_ok) (conj w_range_run (conj w_range_best_ok (conj w_range_completed w_range_not_optimal)))))))))).
Qed.
Print Assumptions C22_optimality_refuted.
(** A row is removed together with a slack variable that has one bound: the reported point violates that
    bound. *)
Theorem C22_feasibility_refuted : exists g fuel s, general_ok g /\ fresh g /\
  presolve fuel g = Stop (VOptimum s) /\ ~ gfeasible g (solution_point s).
Proof. exact (ex_intro _ w_slack (ex_intro _ 100%nat (ex_intro _ w_slack_solution (conj (proj1 w_slack_ok) (conj (proj2 w_slack_ok) (conj w_slack_run w_slack_wrong)))))). Qed.
Print Assumptions C22_feasibility_refuted.
(** Two slack variables of one equality: the value that the first gets later can be anything in the sum of
    both domains. *)
Theorem C22_two_slacks_refuted : exists g fuel s, general_ok g /\ fresh g /\
  presolve fuel g = Stop (VOptimum s) /\ ~ gfeasible g (solution_point s) /\ (forall i, (i < g_rows g)%nat -> row_type g i = Equal).
Proof.
  exact (ex_intro _ w_two (ex_intro _ 100%nat (ex_intro _ w_two_solution (conj (proj1 w_two_ok) (conj (proj2 w_two_ok) (conj w_two_run (conj w_two_wrong w_two_rows))))))).
Qed.
Print Assumptions C22_two_slacks_refuted.
(** A constraint is dropped because of bounds that are not part of the presolved program: an infeasible
    program becomes feasible.  No variable and no slack variable is removed here. *)
Theorem C22_dropped_row_refuted : exists g fuel g', general_ok g /\ fresh g /\
  presolve fuel g = Go g' /\ (exists x, gfeasible g' x) /\ ~ exists x, gfeasible g x.
Proof.
  exact (match w_dropped_run with ex_intro _ g' (conj R F) =>
    ex_intro _ w_dropped (ex_intro _ 100%nat (ex_intro _ g' (conj (proj1 w_dropped_ok) (conj (proj2 w_dropped_ok) (conj R (conj F w_dropped_empty)))))) end).
Qed.
Print Assumptions C22_dropped_row_refuted.

(** ** C23: verdicts *)
(** The activity of a row is remembered, but not adapted to all later changes. *)
Theorem C23_infeasible_refuted : exists g fuel, general_ok g /\ fresh g /\
  presolve fuel g = Stop VInfeasible /\ exists x, gfeasible g x.
Proof. exact (ex_intro _ w_stale (ex_intro _ 100%nat (conj (proj1 w_stale_ok) (conj (proj2 w_stale_ok) (conj w_stale_run (ex_intro _ _ w_stale_point)))))). Qed.
Print Assumptions C23_infeasible_refuted.
(** A variable whose cost can be improved for ever says nothing when there is no feasible point. *)
Theorem C23_unbounded_refuted : exists g fuel, general_ok g /\ fresh g /\
  presolve fuel g = Stop VUnbounded /\ ~ exists x, gfeasible g x.
Proof. exact (ex_intro _ w_unbounded (ex_intro _ 100%nat (conj (proj1 w_unbounded_ok) (conj (proj2 w_unbounded_ok) (conj w_unbounded_run w_unbounded_empty))))). Qed.
Print Assumptions C23_unbounded_refuted.

(** ** C24: panics *)
Theorem C24_refuted : exists g fuel, general_ok g /\ fresh g /\ (exists x, gfeasible g x) /\ presolve fuel g = PPanic.
Proof. exact (ex_intro _ w_panic (ex_intro _ 100%nat (conj (proj1 w_panic_ok) (conj (proj2 w_panic_ok) (conj (ex_intro _ _ w_panic_point) w_panic_run))))). Qed.
Print Assumptions C24_refuted.

(** ** C27: presolving twice *)
(** The numbers of the remaining variables are used as if they were those of the original variables. *)
Theorem C27_refuted : exists g fuel g1 s1 s2, general_ok g /\ fresh g /\ presolve fuel g = Go g1 /\
  solve_general UseRows FirstProfitable fuel g1 = Ok (Solved_to s1) /\ gfeasible g (solution_point s1) /\
  presolve_and_solve UseRows FirstProfitable fuel g1 = Ok (Solved_to s2) /\ ~ gfeasible g (solution_point s2).
Proof.
  exact (match w_twice_run with ex_intro _ g1 (conj R (conj A B)) =>
    ex_intro _ w_twice (ex_intro _ 100%nat (ex_intro _ g1 (ex_intro _ w_twice_first (ex_intro _ w_twice_second
      (conj (proj1 w_twice_ok) (conj (proj2 w_twice_ok) (conj R (conj A (conj w_twice_right (conj B w_twice_wrong)))))))))) end).
Qed.
Print Assumptions C27_refuted.
(** For some programs the second call never returns: a variable becomes a function of itself, and the recursion that
    looks for its value does not end. *)
Theorem C27_endless_refuted : exists g fuel g1 x, general_ok g /\ fresh g /\ gfeasible g x /\ presolve fuel g = Go g1 /\ forall fuel', presolve fuel' g1 = PFuel.
Proof.
  exact (match w_endless_run with ex_intro _ g1 (conj R E) =>
    ex_intro _ w_endless (ex_intro _ 100%nat (ex_intro _ g1 (ex_intro _ w_endless_point
      (conj (proj1 w_endless_ok) (conj (proj2 w_endless_ok) (conj w_endless_feasible (conj R E))))))) end).
Qed.
Print Assumptions C27_endless_refuted.

(** ** C25: the loop ends *)
(** For every program, no matter whether it is well formed, there is a number of iterations after which the
    loop has ended, with the changes to make, with a verdict or with a panic. *)
Theorem C25_loop_ends : forall g, exists result fuel0, result <> PFuel /\
  forall fuel, (fuel0 <= fuel)%nat -> presolve_changes fuel g = result.
Proof. exact changes_end. Qed.
Print Assumptions C25_loop_ends.
(** and from every state of the queues, counters and changes *)
Theorem C25_loop_ends_from_every_state : forall g rows s stale,
  length (c_var (i_c s)) = length (g_vars g) -> length (c_con (i_c s)) = g_rows g ->
  exists fuel0, forall fuel, (fuel0 <= fuel)%nat -> presolve_loop g rows fuel stale s <> PFuel.
Proof. exact loop_ends. Qed.
Print Assumptions C25_loop_ends_from_every_state.

(** ** C26: the rules, one by one *)
(** A constraint with one variable holds exactly when the bounds made from it do. *)
Theorem C26_bound_constraint : forall b t c x, c <> 0 ->
  (rel_holds t b (c * x) <-> forall d v, In (d, v) (bounds_from b t c) -> bound_holds d v x).
Proof. exact bounds_from_ok. Qed.
Print Assumptions C26_bound_constraint.
(** Entering a bound, from a constraint or from propagation, changes the interval of that variable to its
    intersection with the new bound, and nothing else. *)
Theorem C26_new_bound : forall g u j d new u' ch, apart u -> update_bound g u j d new = (u', ch) ->
  (forall x, within g u' j x <-> within g u j x /\ bound_holds d new x) /\ (forall k x, k <> j -> (within g u' k x <-> within g u k x)).
Proof. exact update_bound_within. Qed.
Print Assumptions C26_new_bound.
Theorem C26_new_activity_bound : forall g u j d new u' ch, apart u -> update_activity_bound g u j d new = (u', ch) ->
  (forall x, within g u' j x <-> within g u j x /\ bound_holds d new x) /\ (forall k x, k <> j -> (within g u' k x <-> within g u k x)).
Proof. exact update_activity_bound_within. Qed.
Print Assumptions C26_new_activity_bound.
(** The value of a fixed variable is its only value, and subtracting it from the right-hand side does not
    change which values of the rest are allowed. *)
Theorem C26_fixed_variable : forall g u j v t b c rest, fixed_value g u j = Some v ->
  (forall x, within g u j x <-> x = v) /\ (rel_holds t (b + - c * v) rest <-> rel_holds t b (rest + c * v)).
Proof. exact fixed_value_moved. Qed.
Print Assumptions C26_fixed_variable.
(** The activity bound of a row is a bound on its value, reached only with all variables at their bounds. *)
Theorem C26_activity : forall g u d row a x, activity_sum g u d row = Go a -> all_within g u row x ->
  bound_holds d a (combination row x) /\ (combination row x = a -> at_bound g u d row x).
Proof. exact activity_ok. Qed.
Print Assumptions C26_activity.
(** What is done with a row because of its activity: it is dropped only when it always holds, replaced by an
    equivalent one, set to its bounds only when that is the one way to satisfy it, and called infeasible only
    when it is.  [V] is the value of the row, [a] a bound on it. *)
Theorem C26_row_decision : forall d t b a V, bound_holds d a V -> (forall r, t = Range r -> 0 <= r) ->
  match decide d t b a with
  | Go None => True
  | Go (Some Drop) => rel_holds t b V
  | Go (Some (ReplaceBy t' shift)) => rel_holds t b V <-> rel_holds t' (b + shift) V
  | Go (Some SetToBound) => rel_holds t b V <-> V = a
  | Stop v => v = VInfeasible /\ ~ rel_holds t b V
  | PPanic => d = Lower /\ b = a /\ exists r, t = Range r
  | PFuel => False
  end.
Proof. exact decide_ok. Qed.
Print Assumptions C26_row_decision.
(** Bounds on a variable found from a row hold at every point that satisfies the row and the bounds. *)
Theorem C26_propagated_bound : forall g u d i row a x rhs j c v, activity_sum g u d row = Go a -> all_within g u row x ->
  usable_side g u i d = Some rhs -> (forall r, type_of g u i = Range r -> 0 <= r) ->
  rel_holds (type_of g u i) (b_of g u i) (combination row x) -> In (j, c) row -> bound_of g u j (bmul d c) = Some v ->
  bound_holds (bmul (bnot d) c) ((rhs - (a - c * v)) / c) (x j).
Proof. exact propagated_bound_ok. Qed.
Print Assumptions C26_propagated_bound.
Theorem C26_first_bound : forall g u d i row x rhs j c, all_within g u row x ->
  usable_side g u i d = Some rhs -> (forall r, type_of g u i = Range r -> 0 <= r) ->
  rel_holds (type_of g u i) (b_of g u i) (combination row x) -> missing_entry g u d row = Some (j, c) ->
  length (filter (lacks_bound g u d) row) = 1%nat ->
  bound_holds (bmul (bnot d) c) ((rhs - known_activity g u d row) / c) (x j).
Proof. exact first_bound_ok. Qed.
Print Assumptions C26_first_bound.
(** A constraint without variables is accepted exactly when it holds. *)
Theorem C26_empty_constraint : forall b t, empty_feasible b t = true <-> rel_holds t b 0.
Proof. exact empty_feasible_ok. Qed.
Print Assumptions C26_empty_constraint.
(** A variable without constraints gets its best value; the program is called unbounded only when that variable
    can improve the cost without limit. *)
Theorem C26_independent_column : forall g cost lower upper v, optimize_column g cost lower upper = Go v ->
  (forall x, obound_holds Lower lower x -> obound_holds Upper upper x -> better (g_objective g) (cost * v) (cost * x)) /\
  ((exists x, obound_holds Lower lower x /\ obound_holds Upper upper x) -> obound_holds Lower lower v /\ obound_holds Upper upper v).
Proof. exact optimize_column_go. Qed.
Print Assumptions C26_independent_column.
Theorem C26_unbounded_column : forall g cost lower upper v, optimize_column g cost lower upper = Stop v ->
  v = VUnbounded /\ forall x limit, obound_holds Lower lower x -> obound_holds Upper upper x ->
    exists y, obound_holds Lower lower y /\ obound_holds Upper upper y /\
      match g_objective g with Minimize => cost * y < limit | Maximize => limit < cost * y end.
Proof. exact optimize_column_stop. Qed.
Print Assumptions C26_unbounded_column.
Theorem C26_free_column : forall g u j v, feasible_value g u j = Some v -> within g u j v.
Proof. exact feasible_value_some. Qed.
Print Assumptions C26_free_column.
Theorem C26_no_value : forall g u j, feasible_value g u j = None -> forall x, ~ within g u j x.
Proof. exact (fun g u j H x => feasible_value_none g u j x H). Qed.
Print Assumptions C26_no_value.
(** A slack variable, in the cases listed by [slack_sound] only. *)
Theorem C26_slack_row_partial : forall t lower upper b c, c <> 0 -> (forall r, t = Range r -> 0 <= r) -> slack_sound t lower upper c = true ->
  slack_case t lower upper c = None ->
  forall V, in_domain lower upper ((b - V) / c) /\ rel_holds t b (c * ((b - V) / c) + V).
Proof. exact slack_row_ok. Qed.
Print Assumptions C26_slack_row_partial.
Theorem C26_slack_bound_partial : forall t lower upper b c t' bound V, c <> 0 -> (forall r, t = Range r -> 0 <= r) -> slack_sound t lower upper c = true ->
  (exists x, in_domain lower upper x) -> slack_case t lower upper c = Some (t', bound) ->
  (rel_holds t' (b - c * bound) V -> in_domain lower upper (slack_solution t b c bound V) /\
     rel_holds t b (c * slack_solution t b c bound V + V)) /\
  (forall s, in_domain lower upper s -> rel_holds t b (c * s + V) -> rel_holds t' (b - c * bound) V).
Proof. exact slack_bound_ok. Qed.
Print Assumptions C26_slack_bound_partial.
(** In the other cases it is wrong: a row x + s >= 1 with s >= 0 goes away with s = 1 - x, also for x = 2. *)
Theorem C26_slack_refuted : exists t lower upper b c V, c <> 0 /\ slack_case t lower upper c = None /\ ~ in_domain lower upper ((b - V) / c).
Proof. exact slack_unsound. Qed.
Print Assumptions C26_slack_refuted.

(** ** The hypotheses are met *)
(** the loop ends on a program of which it removes rows and columns *)
Example C25_met : exists u, presolve_changes 100 w_range = Go u /\ u_removed u <> [].
Proof. destruct (presolve_changes 100 w_range) as [u| | |] eqn:E; vm_compute in E; [|discriminate..]. exists u. split; [reflexivity|]. injection E as <-. discriminate. Qed.
(** -2 x between 2 and 6 *)
Example C26_bounds_met : zq (-2) <> 0 /\
  forallb (fun '(a, b) => bdir_eqb (fst a) (fst b) && qeqb (snd a) (snd b))
    (combine (bounds_from (zq 6) (Range (zq 4)) (zq (-2))) [(Lower, zq (-3)); (Upper, zq (-1))]) = true.
Proof. split; [intros E; apply (f_equal (fun q => qeqb q 0)) in E; vm_compute in E; discriminate|vm_compute; reflexivity]. Qed.
(** the third row of [w_stale], 3 a + 2 b + d = 6 with a >= 0, 1 <= b <= 5, 0 <= d <= 3: it is at least 2, and
    from this follows that b <= 3 *)
Definition C26_row : svec := zcol [(0%nat, 3%Z); (1%nat, 2%Z); (3%nat, 1%Z)].
Example C26_activity_met : exists a, activity_sum w_stale no_updates Lower C26_row = Go a /\ a = zq 2 /\
  all_within w_stale no_updates C26_row (fun _ => 1) /\ rel_holds (type_of w_stale no_updates 2) (b_of w_stale no_updates 2) (combination C26_row (fun _ => 1)) /\
  usable_side w_stale no_updates 2 Lower = Some (zq 6) /\ bound_of w_stale no_updates 1 (bmul Lower (zq 2)) = Some (zq 1) /\
  qeqb ((zq 6 - (a - zq 2 * zq 1)) / zq 2) (zq 3) = true.
Proof. exact w_stale_activity. Qed.
