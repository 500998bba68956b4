(** * Presolving in a debug build: model of the assertions of
    /repo/src/data/linear_program/general_form/presolve and of
    /repo/src/data/linear_program/general_form/mod.rs:138-203, 351-496

    Presolve.v models a release build, in which `debug_assert!` is not executed.  This file repeats its
    definitions with every assertion at its place.  [on k] says whether the assertion [k] is compiled in: a
    debug build has all of them, a release build none.  An assertion that fails is a panic. *)
From Verif Require Export Presolve.
Local Open Scope Qc_scope.

(** the assertions, by file and line *)
Inductive site :=
| RowOfTwo            (* presolve/mod.rs:155 *)
| ChangedRemoved      (* presolve/mod.rs:185 *)
| ChangedSign         (* presolve/mod.rs:186-189 *)
| ShiftedSign         (* presolve/mod.rs:220-223 *)
| ShiftedCounter      (* presolve/mod.rs:237-240 *)
| RowEmptied          (* presolve/mod.rs:296 *)
| ValueLeft           (* presolve/mod.rs:309 *)
| MarkedRow           (* presolve/mod.rs:371 *)
| MarkedVariable      (* presolve/mod.rs:382 *)
| EmptyColumn         (* presolve/updates.rs:117 *)
| ReadB               (* presolve/updates.rs:165 *)
| ChangeB             (* presolve/updates.rs:172 *)
| ReadType            (* presolve/updates.rs:188 *)
| ReadFixed           (* presolve/updates.rs:197 *)
| ReadFeasible        (* presolve/updates.rs:209 *)
| ReadBound           (* presolve/updates.rs:233 *)
| BoundsApart         (* presolve/updates.rs:234-240 *)
| NewBoundRemoved     (* presolve/updates.rs:273 *)
| NewActivityRemoved  (* presolve/updates.rs:328 *)
| ColumnCost          (* presolve/updates.rs:372 *)
| RowActive           (* presolve/counters.rs:115 *)
| MatrixColumn        (* linear_algebra/matrix.rs:346 *)
| MatrixRow           (* linear_algebra/matrix.rs:221 *)
| FixedRemoved        (* rule/fixed_variable.rs:26 *)
| FixedFixed          (* rule/fixed_variable.rs:27 *)
| BoundCounter        (* rule/bound_constraint.rs:34 *)
| BoundEntries        (* rule/bound_constraint.rs:35 *)
| BoundVariable       (* rule/bound_constraint.rs:38 *)
| SlackCounter        (* rule/slack.rs:72 *)
| SlackEntries        (* rule/slack.rs:73 *)
| SlackCost           (* rule/slack.rs:74 *)
| SlackFixed          (* rule/slack.rs:75 *)
| MissingBounds       (* rule/domain_propagation.rs:50 *)
| WholeRow            (* rule/domain_propagation.rs:74-80 *)
| WholeActivity       (* rule/domain_propagation.rs:131-134 *)
| SetFixed            (* rule/domain_propagation.rs:196 *)
| OneMissing          (* rule/domain_propagation.rs:391-397 *)
| Transposed          (* linear_algebra/matrix.rs:425, 427 *)
| RemovedColumns      (* linear_algebra/matrix.rs:306-310, 480-484 *)
| RemovedRows         (* linear_algebra/matrix.rs:321, 496-500 *)
| RemovedB            (* linear_algebra/vector/dense.rs:142-146 *)
| Consistent.         (* general_form/mod.rs:370, 495 *)

Definition is_some {A} (o : option A) : bool := match o with Some _ => true | None => false end.

Section Debug.
Variable on : site -> bool.
(** `debug_assert!(b)`, and the same for a condition with assertions in it *)
Definition assert_that {A} (k : site) (b : bool) (x : pr A) : pr A := if on k && negb b then PPanic else x.
Definition assert_run {A} (k : site) (b : pr bool) (x : pr A) : pr A :=
  if on k then let+ b := b in if b then x else PPanic else x.

Section Presolve.
Variable g : general.
Variable rows : list svec.

(** ** Reading: presolve/updates.rs, presolve/counters.rs *)
(** updates.rs:163-168, 170-179, 186-192 *)
Definition b_of_d (u : updates) (i : nat) : pr Qc := assert_that ReadB (negb (is_gone u i)) (Go (b_of g u i)).
Definition change_b_d (u : updates) (i : nat) (change : Qc) : pr updates :=
  assert_that ChangeB (negb (is_gone u i)) (Go (change_b g u i change)).
Definition type_of_d (u : updates) (i : nat) : pr rel := assert_that ReadType (negb (is_gone u i)) (Go (type_of g u i)).
(** updates.rs:232-251 *)
Definition apart_at (u : updates) (j : nat) (d : bdir) : bool := negb (is_some (u_bounds u j d) && is_some (u_acts u j d)).
Definition bound_of_d (u : updates) (j : nat) (d : bdir) : pr (option Qc) :=
  assert_that ReadBound (negb (is_removed u j)) (assert_that BoundsApart (apart_at u j d) (Go (bound_of g u j d))).
(** updates.rs:195-205, 207-229 *)
Definition fixed_value_d (u : updates) (j : nat) : pr (option Qc) :=
  assert_that ReadFixed (negb (is_removed u j))
    (let+ l := bound_of_d u j Lower in
     let+ h := bound_of_d u j Upper in
     Go (match l, h with Some l, Some h => if qeqb l h then Some l else None | _, _ => None end)).
Definition feasible_value_d (u : updates) (j : nat) : pr (option Qc) :=
  assert_that ReadFeasible (negb (is_removed u j))
    (let+ l := bound_of_d u j Lower in
     let+ h := bound_of_d u j Upper in
     Go (match l, h with
         | None, None => Some 0
         | None, Some h => Some h
         | Some l, None => Some l
         | Some l, Some h => if qleb l h then Some h else None
         end)).
(** updates.rs:267-306, 322-365 *)
Definition update_bound_d (u : updates) (j : nat) (d : bdir) (new : Qc) : pr (updates * bound_change) :=
  assert_that NewBoundRemoved (negb (is_removed u j)) (Go (update_bound g u j d new)).
Definition update_activity_bound_d (u : updates) (j : nat) (d : bdir) (new : Qc) : pr (updates * bound_change) :=
  assert_that NewActivityRemoved (negb (is_removed u j)) (Go (update_activity_bound g u j d new)).
(** counters.rs:92-99, 114-120 *)
Definition active_column_d (c : counters) (j : nat) : pr svec :=
  assert_that MatrixColumn (Nat.ltb j (length (g_cols g))) (Go (active_column g c j)).
Definition active_row_d (c : counters) (i : nat) : pr svec :=
  assert_that RowActive (con_active c i) (assert_that MatrixRow (Nat.ltb i (length rows)) (Go (active_row rows c i))).

(** ** presolve/mod.rs *)
(** presolve/mod.rs:370-374, 381-385 *)
Definition mark_constraint_d (s : pindex) (i : nat) : pr pindex :=
  assert_that MarkedRow (Nat.eqb (nth i (c_con (i_c s)) 0%nat) 0) (Go (mark_constraint s i)).
Definition mark_variable_d (s : pindex) (j : nat) (r : removed) : pr pindex :=
  assert_that MarkedVariable (Nat.eqb (nth j (c_var (i_c s)) 0%nat) 0) (Go (mark_variable s j r)).
(** presolve/mod.rs:303-325; updates.rs:368-388 *)
Definition queue_variable_d (s : pindex) (j : nat) : pr pindex :=
  match nth j (c_var (i_c s)) 0%nat with
  | 0%nat =>
      assert_run ValueLeft (let+ v := feasible_value_d (i_u s) j in Go (is_some v))
        (if qzero (v_cost (gvar g j)) then
           let+ v := feasible_value_d (i_u s) j in
           let+ v := unwrap v in
           mark_variable_d s j (Solved v)
         else
           assert_that ColumnCost (negb (qzero (v_cost (gvar g j))))
             (let+ l := bound_of_d (i_u s) j Lower in
              let+ h := bound_of_d (i_u s) j Upper in
              let+ v := optimize_column g (v_cost (gvar g j)) l h in
              mark_variable_d (with_u s (add_cost (i_u s) (v_cost (gvar g j) * v))) j (Solved v)))
  | 1%nat => Go (if qzero (v_cost (gvar g j)) then push_slack s j else s)
  | _ => Go s
  end.
(** presolve/mod.rs:345-363 *)
Definition queue_constraint_d (s : pindex) (i : nat) : pr pindex :=
  match nth i (c_con (i_c s)) 0%nat with
  | 0%nat =>
      let+ b := b_of_d (i_u s) i in
      let+ t := type_of_d (i_u s) i in
      if empty_feasible b t then mark_constraint_d s i else Stop VInfeasible
  | 1%nat => Go (push_bound s i)
  | _ => Go s
  end.
(** presolve/mod.rs:214-244 *)
Definition right_sign (d : bdir) (change : Qc) : bool := match d with Lower => qpos change | Upper => qneg change end.
Definition shift_activity_d (d : bdir) (change : Qc) (s : pindex) (e : nat * Qc) : pr pindex :=
  let (i, c) := e in
  if con_active (i_c s) i then
    let d' := bmul d c in
    let p := nth i (i_act s) (None, None) in
    match side d' p with
    | Some x =>
        assert_that ShiftedCounter (Nat.leb (side d' (nth i (c_act (i_c s)) (0, 0)%nat)) 1)
          (Go (push_act (with_act s (upd (i_act s) i (set_side d' p (Some (x + change * c))))) (i, d')))
    | None => Go s
    end
  else Go s.
Definition update_activity_bounds_d (s : pindex) (j : nat) (d : bdir) (change : Qc) : pr pindex :=
  assert_that ShiftedSign (right_sign d change)
    (let+ l := active_column_d (i_c s) j in foldP (shift_activity_d d change) l s).
(** presolve/mod.rs:252-271 *)
Definition update_activity_counters_d (s : pindex) (j : nat) (d : bdir) : pr pindex :=
  let+ l := active_column_d (i_c s) j in foldP (lower_counter d) l s.
(** presolve/mod.rs:179-199 *)
Definition after_bound_change_d (s : pindex) (j : nat) (d : bdir) (change : option Qc) : pr pindex :=
  assert_that ChangedRemoved (negb (is_removed (i_u s) j))
    (assert_that ChangedSign (match change with Some x => right_sign d x | None => true end)
       (let+ f := fixed_value_d (i_u s) j in
        let s := match f with Some _ => if var_active (i_c s) j then push_sub s j else s | None => s end in
        match change with
        | Some difference => update_activity_bounds_d s j d difference
        | None => update_activity_counters_d s j d
        end)).
Definition apply_change_d (s : pindex) (j : nat) (d : bdir) (c : bound_change) : pr pindex :=
  match c with
  | NoChange => Go s
  | NewBound => after_bound_change_d s j d None
  | BoundShift x => after_bound_change_d s j d (Some x)
  end.
(** presolve/mod.rs:282-298 *)
Definition remove_constraint_values_d (s : pindex) (i : nat) : pr pindex :=
  let+ row := active_row_d (i_c s) i in
  let+ s := foldP (fun s '(j, _) => let+ s := dec_con s i in let+ s := dec_var s j in queue_variable_d s j) row s in
  assert_that RowEmptied (Nat.eqb (nth i (c_con (i_c s)) 0%nat) 0) (Go s).

(** ** The rules *)
(** rule/fixed_variable.rs:22-49 *)
Definition fixed_variable_rule_d (s : pindex) (j : nat) : pr pindex :=
  assert_that FixedRemoved (negb (is_removed (i_u s) j))
    (assert_run FixedFixed (let+ f := fixed_value_d (i_u s) j in Go (is_some f))
       (let+ f := fixed_value_d (i_u s) j in
        let+ value := unwrap f in
        let+ l := active_column_d (i_c s) j in
        let+ u := foldP (fun u '(i, c) => change_b_d u i (- c * value)) l (i_u s) in
        let s := with_u s (add_cost u (v_cost (gvar g j) * value)) in
        let+ l := active_column_d (i_c s) j in
        let+ s := foldP (fun s '(i, _) => let+ s := dec_var s j in let+ s := dec_con s i in queue_constraint_d s i) l s in
        mark_variable_d s j (Solved value))).
(** rule/bound_constraint.rs:28-86 *)
Definition bound_constraint_rule_d (s : pindex) (i : nat) : pr pindex :=
  assert_that BoundCounter (Nat.eqb (nth i (c_con (i_c s)) 0%nat) 1)
    (assert_run BoundEntries (let+ l := active_row_d (i_c s) i in Go (Nat.eqb (length l) 1))
       (let+ l := active_row_d (i_c s) i in
        let+ e := unwrap (hd_error l) in
        let (j, c) := e in
        assert_that BoundVariable (negb (Nat.eqb (nth j (c_var (i_c s)) 0%nat) 0))
          (let+ b := b_of_d (i_u s) i in
           let+ t := type_of_d (i_u s) i in
           let changes := bounds_from b t c in
           let+ s := dec_var s j in
           let+ s := dec_con s i in
           let+ s := mark_constraint_d s i in
           let+ s := foldP (fun s '(d, x) => let+ r := update_bound_d (i_u s) j d x in apply_change_d (with_u s (fst r)) j d (snd r)) changes s in
           let+ v := feasible_value_d (i_u s) j in
           match v with
           | None => Stop VInfeasible
           | Some _ => queue_variable_d s j
           end))).
(** rule/slack.rs:202-216 *)
Definition slack_value_d (s : pindex) (i j : nat) (c : Qc) : pr removed :=
  let+ b := b_of_d (i_u s) i in
  let+ l := active_row_d (i_c s) i in
  Go (FunctionOf (b / c) (map (fun '(k, a) => (nth k (g_from g) 0%nat, a / c)) (filter (fun '(k, _) => negb (Nat.eqb k j)) l))).
(** rule/slack.rs:66-200 *)
Definition slack_rule_d (s : pindex) (j : nat) : pr pindex :=
  assert_that SlackCounter (Nat.eqb (nth j (c_var (i_c s)) 0%nat) 1)
    (assert_run SlackEntries (let+ l := active_column_d (i_c s) j in Go (Nat.eqb (length l) 1))
       (assert_that SlackCost (qzero (v_cost (gvar g j)))
          (assert_run SlackFixed (let+ f := fixed_value_d (i_u s) j in Go (negb (is_some f)))
             (let+ l := active_column_d (i_c s) j in
              let+ e := unwrap (hd_error l) in
              let (i, c) := e in
              let+ t := type_of_d (i_u s) i in
              let+ lower := bound_of_d (i_u s) j Lower in
              let+ upper := bound_of_d (i_u s) j Upper in
              let lacks := fun d => match d with Lower => negb (is_some lower) | Upper => negb (is_some upper) end in
              match slack_case t lower upper c with
              | None =>
                  let+ solution := slack_value_d s i j c in
                  let+ row := active_row_d (i_c s) i in
                  let+ s := foldP (fun s '(k, _) =>
                      let+ s := dec_con s i in
                      let+ s := dec_var s k in
                      if Nat.eqb k j then Go s else queue_variable_d s k) row s in
                  let+ s := mark_variable_d s j solution in
                  mark_constraint_d s i
              | Some (t', bound) =>
                  let+ solution := match t with Equal | Range _ => slack_value_d s i j c | Greater | Less => Go (Solved bound) end in
                  let+ s := dec_var s j in
                  let+ s := mark_variable_d s j solution in
                  let+ s := slack_activity s i lacks c in
                  let+ s := dec_con s i in
                  let+ s := queue_constraint_d s i in
                  let+ u := change_b_d (i_u s) i (- c * bound) in
                  Go (with_u s (set_type u i t'))
              end)))).
(** rule/domain_propagation.rs:126-158 *)
Definition activity_sum_d (u : updates) (d : bdir) (row : svec) : pr Qc :=
  foldP (fun acc '(j, c) => let+ x := bound_of_d u j (bmul d c) in let+ x := unwrap x in Go (acc + c * x)) row 0.
Definition activity_bound_d (s : pindex) (i : nat) (d : bdir) : pr (pindex * Qc) :=
  assert_that WholeActivity (Nat.eqb (side d (nth i (c_act (i_c s)) (0, 0)%nat)) 0)
    (let p := nth i (i_act s) (None, None) in
     match side d p with
     | Some x => Go (s, x)
     | None =>
         let+ row := active_row_d (i_c s) i in
         let+ x := activity_sum_d (i_u s) d row in
         Go (with_act s (upd (i_act s) i (set_side d p (Some x))), x)
     end).
(** rule/domain_propagation.rs:177-206 *)
Definition set_to_bound_d (s : pindex) (i : nat) (d : bdir) : pr pindex :=
  let+ row := active_row_d (i_c s) i in
  let+ r := foldP (fun '(s, todo) '(j, c) =>
      let d' := bmul d c in
      let+ x := bound_of_d (i_u s) j d' in
      let+ x := unwrap x in
      let u := match u_acts (i_u s) j d' with
               | Some y => insert_bound j d' (remove_act j d' (i_u s)) y
               | None => i_u s
               end in
      let+ r := update_bound_d u j (bnot d') x in
      let todo := match snd r with NewBound => todo ++ [(j, bnot d')] | _ => todo end in
      assert_run SetFixed (let+ f := fixed_value_d (fst r) j in Go (is_some f))
        (Go (push_sub (with_u s (fst r)) j, todo))) row (s, []) in
  foldP (fun s '(j, d) => update_activity_counters_d s j d) (snd r) (fst r).
(** rule/domain_propagation.rs:160-214, 239-250 *)
Definition constraint_part_d (s : pindex) (i : nat) (d : bdir) (activity : Qc) : pr (pindex * (bool * bool * change)) :=
  let+ b := b_of_d (i_u s) i in
  let+ t := type_of_d (i_u s) i in
  let+ todo := decide d t b activity in
  match todo with
  | None => Go (s, (false, true, NoneMade))
  | Some Drop => Go (s, (true, true, Meaningful))
  | Some (ReplaceBy t shift) => let+ u := change_b_d (set_type (i_u s) i t) i shift in Go (with_u s u, (false, true, Meaningful))
  | Some SetToBound => let+ s := set_to_bound_d s i d in Go (s, (true, false, Meaningful))
  end.
(** rule/domain_propagation.rs:434-451 *)
Definition usable_side_d (u : updates) (i : nat) (d : bdir) : pr (option Qc) :=
  let+ b := b_of_d u i in
  let+ t := type_of_d u i in
  Go (match t, d with
      | Equal, _ => Some b
      | Range _, Lower => Some b
      | Range r, Upper => Some (b - r)
      | Less, Lower => Some b
      | Less, Upper => None
      | Greater, Lower => None
      | Greater, Upper => Some b
      end).
(** rule/domain_propagation.rs:334-375 *)
Definition variable_part_d (s : pindex) (i : nat) (rhs activity : Qc) (d : bdir) (made : change) : pr (pindex * change) :=
  let+ row := active_row_d (i_c s) i in
  foldP (fun '(s, made) '(j, c) =>
      let+ x := bound_of_d (i_u s) j (bmul d c) in
      let+ x := unwrap x in
      let residual := activity - c * x in
      let+ r := update_activity_bound_d (i_u s) j (bmul (bnot d) c) ((rhs - residual) / c) in
      let+ s := apply_change_d (with_u s (fst r)) j (bmul (bnot d) c) (snd r) in
      Go (s, upgrade made (snd r))) row (s, made).
(** rule/domain_propagation.rs:69-112 *)
Definition propagate_row_d (s : pindex) (i : nat) (d : bdir) : pr (pindex * change) :=
  assert_that WholeRow (Nat.eqb (side d (nth i (c_act (i_c s)) (0, 0)%nat)) 0)
    (let+ r := activity_bound_d s i d in
     let (s, activity) := r in
     let+ r := constraint_part_d s i d activity in
     let '(s, (remove, variables, made)) := r in
     let+ r := (if variables then
                  let+ side := usable_side_d (i_u s) i d in
                  match side with
                  | Some rhs => variable_part_d s i rhs activity d made
                  | None => Go (s, made)
                  end
                else Go (s, made)) in
     let (s, made) := r in
     if remove then
       let+ s := remove_constraint_values_d s i in
       let+ s := mark_constraint_d s i in
       Go (s, made)
     else Go (s, made)).
(** rule/domain_propagation.rs:384-432 *)
Definition known_activity_d (u : updates) (d : bdir) (row : svec) : pr Qc :=
  foldP (fun acc '(j, c) => let+ x := bound_of_d u j (bmul d c) in Go (match x with Some x => acc + c * x | None => acc end)) row 0.
Fixpoint missing_entry_d (u : updates) (d : bdir) (row : svec) : pr (option (nat * Qc)) :=
  match row with
  | [] => Go None
  | (j, c) :: t => let+ x := bound_of_d u j (bmul d c) in if is_some x then missing_entry_d u d t else Go (Some (j, c))
  end.
Definition bound_one_d (s : pindex) (i : nat) (d : bdir) : pr (pindex * change) :=
  assert_that OneMissing (Nat.eqb (side d (nth i (c_act (i_c s)) (0, 0)%nat)) 1)
    (let+ side := usable_side_d (i_u s) i d in
     match side with
     | None => Go (s, NoneMade)
     | Some rhs =>
         let+ row := active_row_d (i_c s) i in
         let+ known := known_activity_d (i_u s) d row in
         let+ e := missing_entry_d (i_u s) d row in
         let+ e := unwrap e in
         let (j, c) := e in
         let value := (rhs - known) / c in
         let+ r := update_activity_bound_d (i_u s) j (bmul (bnot d) c) value in
         let+ s := apply_change_d (with_u s (fst r)) j (bmul (bnot d) c) (snd r) in
         Go (s, upgrade NoneMade (snd r))
     end).
(** rule/domain_propagation.rs:35-57; the bounds are counted also in a release build *)
Fixpoint count_missing_d (u : updates) (d : bdir) (row : svec) : pr nat :=
  match row with
  | [] => Go 0%nat
  | (j, c) :: t => let+ x := bound_of_d u j (bmul d c) in let+ k := count_missing_d u d t in Go (if is_some x then k else S k)
  end.
Definition domain_propagation_rule_d (s : pindex) (i : nat) (d : bdir) : pr (pindex * change) :=
  let counter := side d (nth i (c_act (i_c s)) (0, 0)%nat) in
  let+ row := active_row_d (i_c s) i in
  let+ missing := count_missing_d (i_u s) d row in
  assert_that MissingBounds (Nat.eqb missing counter)
    (match counter with
     | 0%nat => propagate_row_d s i d
     | 1%nat => bound_one_d s i d
     | _ => PPanic
     end).

(** ** The main loop *)
(** presolve/mod.rs:127-164 *)
Definition presolve_step_d (s : pindex) : pr (pindex * change) :=
  let q := i_q s in
  let sub := match q_sub q with
             | [] => (None, [])
             | j :: t => (if var_active (i_c s) j then Some j else None, t)
             end in
  match fst sub with
  | Some j =>
      let+ s := fixed_variable_rule_d (with_q s (mk_queues (snd sub) (q_bound q) (q_slack q) (q_act q))) j in
      Go (s, Meaningful)
  | None =>
      let bound := drain (con_active (i_c s)) (q_bound q) in
      match fst bound with
      | Some i =>
          let+ s := bound_constraint_rule_d (with_q s (mk_queues (snd sub) (snd bound) (q_slack q) (q_act q))) i in
          Go (s, Meaningful)
      | None =>
          let slack := drain (var_active (i_c s)) (q_slack q) in
          match fst slack with
          | Some j =>
              let+ s := slack_rule_d (with_q s (mk_queues (snd sub) (snd bound) (snd slack) (q_act q))) j in
              Go (s, Meaningful)
          | None =>
              let act := drain (fun e => con_active (i_c s) (fst e)) (q_act q) in
              let s := with_q s (mk_queues (snd sub) (snd bound) (snd slack) (snd act)) in
              match fst act with
              | Some (i, d) =>
                  assert_that RowOfTwo (Nat.ltb 1 (nth i (c_con (i_c s)) 0%nat)) (domain_propagation_rule_d s i d)
              | None => Go (s, NotMeaningful)
              end
          end
      end
  end.
(** mod.rs:391-406 *)
Fixpoint presolve_loop_d (fuel : nat) (stale : nat) (s : pindex) : pr pindex :=
  if queues_empty (i_q s) then Go s else
  let+ remaining := nr_remaining g (i_u s) in
  if Nat.leb remaining stale then Go s else
  match fuel with
  | 0%nat => PFuel
  | S fuel' =>
      let+ r := presolve_step_d s in
      match snd r with
      | Meaningful => presolve_loop_d fuel' 0 (fst r)
      | NoneMade => presolve_loop_d fuel' stale (fst r)
      | NotMeaningful => presolve_loop_d fuel' (S stale) (fst r)
      end
  end.
(** updates.rs:106-160, presolve/mod.rs:79-93 *)
Definition empty_column_d (u : updates) (j : nat) : pr updates :=
  assert_that EmptyColumn (is_some (feasible_value g no_updates j)) (empty_column g u j).
Definition updates_new_d (c : counters) : pr updates :=
  let+ u := foldP empty_column_d (filter (fun j => negb (var_active c j)) (range 0 (length (g_vars g)))) no_updates in
  foldP (empty_row g) (filter (fun i => negb (con_active c i)) (range 0 (g_rows g))) u.
Definition index_new_d : pr pindex :=
  let c := counters_new g rows in
  let+ u := updates_new_d c in
  Go (mk_pindex (queues_new g c) u c (repeat (None, None) (g_rows g))).
End Presolve.

(** ** Before and after the loop *)
(** linear_algebra/matrix.rs:420-445 `from_minor_ordered_tuples` *)
Fixpoint sorted_by {A} (key : A -> nat) (l : list A) : bool :=
  match l with
  | x :: (y :: _) as t => Nat.leb (key x) (key y) && sorted_by key t
  | _ => true
  end.
Definition transposed_ok (g : general) : bool :=
  forallb (sorted_by fst) (g_cols g) && forallb (fun col => forallb (fun e => Nat.ltb (fst e) (g_rows g)) col) (g_cols g).
(** the four conditions on a list of indices to remove *)
Fixpoint distinct (l : list nat) : bool := match l with [] => true | x :: t => negb (memb x t) && distinct t end.
Definition removable (l : list nat) (size : nat) : bool :=
  Nat.leb (length l) size && sorted_by (fun x => x) l && distinct l && forallb (fun i => Nat.ltb i size) l.
(** mod.rs:138-203 `is_consistent`; 944-963: the numbers of rows and columns are those of the matrix.  A subtraction of unsigned numbers below zero or a slice out of range in it
    is a panic as well, here [false] *)
Definition is_free (e : string * original) : bool := match snd e with ActiveFree _ _ => true | _ => false end.
Definition kept_index (e : string * original) : list nat :=
  match snd e with Active k => [k] | ActiveFree k _ => [k] | Removed _ => [] end.
Definition is_consistent (g : general) : bool :=
  let rows := g_rows g in
  let vars := length (g_cols g) in
  let free := length (filter is_free (g_orig g)) in
  Nat.leb free vars &&
  Nat.eqb (length (g_b g)) rows && Nat.eqb (length (g_types g)) rows && Nat.eqb (length (g_vars g)) vars &&
  Nat.leb (vars - free) (length (g_orig g)) && sorted_by (fun x => x) (flat_map kept_index (g_orig g)) &&
  Nat.eqb (length (g_from g)) vars &&
  sorted_by (fun x => x) (firstn (vars - free) (g_from g)) && sorted_by (fun x => x) (skipn (vars - free) (g_from g)) &&
  (Nat.eqb vars 0 || Nat.ltb (nth (vars - 1) (g_from g) 0%nat) (length (g_orig g))).
(** mod.rs:386-409 *)
Definition presolve_changes_d (fuel : nat) (g : general) : pr updates :=
  assert_that Transposed (transposed_ok g)
    (let+ rows := lift (transpose_from 0 (g_cols g) (repeat [] (g_rows g))) in
     let+ s := index_new_d g rows in
     let+ s := presolve_loop_d g rows fuel 0 s in
     Go (i_u s)).
(** mod.rs:463-496 *)
Definition remove_rows_and_columns_d (g : general) (constraints variables : list nat) : pr general :=
  let rs := sort_by (fun x => x) constraints in
  let vs := sort_by (fun x => x) variables in
  assert_that RemovedColumns (removable vs (length (g_cols g)))
    (let+ g' := lift (remove_rows_and_columns g constraints variables) in
     assert_that RemovedRows (removable rs (g_rows g))
       (assert_that RemovedB (removable rs (length (g_b g)))
          (assert_that Consistent (is_consistent g') (Go g')))).
(** mod.rs:351-375 *)
Definition presolve_d (fuel : nat) (g : general) : pr general :=
  let+ u := presolve_changes_d fuel g in
  let+ g1 := lift (values_that_remain g u) in
  let+ g2 := remove_rows_and_columns_d g1 (u_gone u) (map fst (u_removed u)) in
  assert_that Consistent (is_consistent g2)
    (let+ g3 := lift (solution_where_possible fuel g2) in
     match get_solution g3 with
     | Some s => Stop (VOptimum s)
     | None => Go g3
     end).
End Debug.

(** a debug build, and a release build *)
Definition all_sites (k : site) : bool := true.
Definition no_sites (k : site) : bool := false.
Definition presolve_debug := presolve_d all_sites.
