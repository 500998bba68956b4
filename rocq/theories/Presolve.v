(** * Presolving: model of /repo/src/data/linear_program/general_form/presolve and of
    /repo/src/data/linear_program/general_form/mod.rs:351-496

    Conventions.  As everywhere, `debug_assert!` is not executed, `unwrap` on `None`, `unreachable!` and
    the subtraction of an unsigned number below zero are panics.  Row and column numbers inside the
    presolver come from enumerating the rows and columns of the problem, so reads of the matrix and of
    the counters are total ([nth]) here.  The `HashMap`s of `Updates` are functions to `option`; nothing
    depends on their iteration order.  The `Vec`s that are used as a stack are lists with the top first. *)
From Verif Require Export Pipeline.

(** elements.rs:122-138 `BoundDirection` with `Not`, and 149-158 its product with the sign of a
    coefficient *)
Inductive bdir := Lower | Upper.
Definition bnot (d : bdir) : bdir := match d with Lower => Upper | Upper => Lower end.
Definition bmul (d : bdir) (c : Qc) : bdir := if qneg c then bnot d else d.
Definition bdir_eqb (a b : bdir) : bool := match a, b with Lower, Lower | Upper, Upper => true | _, _ => false end.
(** the component of a (lower, upper) tuple *)
Definition side {A} (d : bdir) (p : A * A) : A := match d with Lower => fst p | Upper => snd p end.
Definition set_side {A} (d : bdir) (p : A * A) (x : A) : A * A := match d with Lower => (x, snd p) | Upper => (fst p, x) end.

(** elements.rs:182-186 `LinearProgramType`, the error type of presolving *)
Inductive verdict := VInfeasible | VUnbounded | VOptimum (s : solution).
(** a computation that may panic, run out of fuel, or stop with a verdict *)
Inductive pr (A : Type) := Go (a : A) | Stop (v : verdict) | PPanic | PFuel.
Arguments Go {A}. Arguments Stop {A}. Arguments PPanic {A}. Arguments PFuel {A}.
Definition pbind {A B} (x : pr A) (f : A -> pr B) : pr B :=
  match x with Go a => f a | Stop v => Stop v | PPanic => PPanic | PFuel => PFuel end.
Notation "'let+' x ':=' e1 'in' e2" := (pbind e1 (fun x => e2))
  (at level 200, x name, e1 at level 100, e2 at level 200).
Definition lift {A} (x : res A) : pr A := match x with Ok a => Go a | Panic => PPanic | Fuel => PFuel end.
Definition unwrap {A} (x : option A) : pr A := match x with Some a => Go a | None => PPanic end.
Fixpoint foldP {A S} (f : S -> A -> pr S) (l : list A) (s : S) : pr S :=
  match l with [] => Go s | a :: t => let+ s' := f s a in foldP f t s' end.

(** presolve/queues.rs:15-82 `Queues`; [q_act] is a `FIFOSet` (external crate fifo_set): a queue to which
    an element it already contains is not added again *)
Record queues := mk_queues {
  q_sub : list nat;
  q_bound : list nat;
  q_slack : list nat;
  q_act : list (nat * bdir)
}.
(** presolve/updates.rs:28-68 `Updates` *)
Record updates := mk_updates {
  u_b : nat -> option Qc;
  u_types : nat -> option rel;
  u_fixed : Qc;
  u_bounds : nat -> bdir -> option Qc;
  u_acts : nat -> bdir -> option Qc;
  u_removed : list (nat * removed);
  u_gone : list nat
}.
(** presolve/counters.rs:13-29 `Counters` *)
Record counters := mk_pcounters {
  c_var : list nat;
  c_con : list nat;
  c_act : list (nat * nat)
}.
(** presolve/mod.rs:31-44 `Index` *)
Record pindex := mk_pindex {
  i_q : queues;
  i_u : updates;
  i_c : counters;
  i_act : list (option Qc * option Qc)
}.
Definition with_q (s : pindex) (q : queues) : pindex := mk_pindex q (i_u s) (i_c s) (i_act s).
Definition with_u (s : pindex) (u : updates) : pindex := mk_pindex (i_q s) u (i_c s) (i_act s).
Definition with_c (s : pindex) (c : counters) : pindex := mk_pindex (i_q s) (i_u s) c (i_act s).
Definition with_act (s : pindex) (a : list (option Qc * option Qc)) : pindex := mk_pindex (i_q s) (i_u s) (i_c s) a.
Definition push_sub (s : pindex) (j : nat) : pindex :=
  with_q s (mk_queues (j :: q_sub (i_q s)) (q_bound (i_q s)) (q_slack (i_q s)) (q_act (i_q s))).
Definition push_bound (s : pindex) (i : nat) : pindex :=
  with_q s (mk_queues (q_sub (i_q s)) (i :: q_bound (i_q s)) (q_slack (i_q s)) (q_act (i_q s))).
Definition push_slack (s : pindex) (j : nat) : pindex :=
  with_q s (mk_queues (q_sub (i_q s)) (q_bound (i_q s)) (j :: q_slack (i_q s)) (q_act (i_q s))).
Definition queued (e : nat * bdir) (l : list (nat * bdir)) : bool :=
  existsb (fun '(i, d) => Nat.eqb i (fst e) && bdir_eqb d (snd e)) l.
Definition push_act (s : pindex) (e : nat * bdir) : pindex :=
  if queued e (q_act (i_q s)) then s
  else with_q s (mk_queues (q_sub (i_q s)) (q_bound (i_q s)) (q_slack (i_q s)) (q_act (i_q s) ++ [e])).
(** `*counter -= 1` for an unsigned number *)
Definition dec (l : list nat) (i : nat) : pr (list nat) :=
  match nth i l 0%nat with 0%nat => PPanic | S k => Go (upd l i k) end.
Definition dec_var (s : pindex) (j : nat) : pr pindex :=
  let+ l := dec (c_var (i_c s)) j in Go (with_c s (mk_pcounters l (c_con (i_c s)) (c_act (i_c s)))).
Definition dec_con (s : pindex) (i : nat) : pr pindex :=
  let+ l := dec (c_con (i_c s)) i in Go (with_c s (mk_pcounters (c_var (i_c s)) l (c_act (i_c s)))).
Definition dec_act (s : pindex) (i : nat) (d : bdir) : pr pindex :=
  let p := nth i (c_act (i_c s)) (0, 0)%nat in
  match side d p with
  | 0%nat => PPanic
  | S k => Go (with_c s (mk_pcounters (c_var (i_c s)) (c_con (i_c s)) (upd (c_act (i_c s)) i (set_side d p k))))
  end.
Definition put {A} (f : nat -> option A) (k : nat) (x : option A) : nat -> option A := fun i => if Nat.eqb i k then x else f i.
Definition put2 {A} (f : nat -> bdir -> option A) (k : nat) (d : bdir) (x : option A) : nat -> bdir -> option A :=
  fun i e => if Nat.eqb i k && bdir_eqb e d then x else f i e.

(** [g] is `general_form`, [rows] the row major copy of its matrix (counters.rs:28, 48) *)
Section Presolve.
Variable g : general.
Variable rows : list svec.

(** ** Reading the latest version of the problem: presolve/updates.rs *)
Definition gvar (j : nat) : variable := nth j (g_vars g) (mk_var false 0 None None 0 false).
Definition vbound (v : variable) (d : bdir) : option Qc := match d with Lower => v_lower v | Upper => v_upper v end.
(** updates.rs:163-168 `b` and 170-179 `change_b` *)
Definition b_of (u : updates) (i : nat) : Qc := match u_b u i with Some v => v | None => nthq (g_b g) i end.
Definition set_b (u : updates) (i : nat) (v : Qc) : updates :=
  mk_updates (put (u_b u) i (Some v)) (u_types u) (u_fixed u) (u_bounds u) (u_acts u) (u_removed u) (u_gone u).
Definition change_b (u : updates) (i : nat) (change : Qc) : updates := set_b u i (b_of u i + change).
(** updates.rs:186-192 `constraint_type` *)
Definition type_of (u : updates) (i : nat) : rel := match u_types u i with Some t => t | None => nth i (g_types g) Equal end.
Definition set_type (u : updates) (i : nat) (t : rel) : updates :=
  mk_updates (u_b u) (put (u_types u) i (Some t)) (u_fixed u) (u_bounds u) (u_acts u) (u_removed u) (u_gone u).
Definition add_cost (u : updates) (c : Qc) : updates :=
  mk_updates (u_b u) (u_types u) (u_fixed u + c) (u_bounds u) (u_acts u) (u_removed u) (u_gone u).
Definition set_bounds (u : updates) (f : nat -> bdir -> option Qc) : updates :=
  mk_updates (u_b u) (u_types u) (u_fixed u) f (u_acts u) (u_removed u) (u_gone u).
Definition set_acts (u : updates) (f : nat -> bdir -> option Qc) : updates :=
  mk_updates (u_b u) (u_types u) (u_fixed u) (u_bounds u) f (u_removed u) (u_gone u).
(** updates.rs:232-251 `variable_bound` *)
Definition bound_of (u : updates) (j : nat) (d : bdir) : option Qc :=
  match u_acts u j d with
  | Some x => Some x
  | None => match u_bounds u j d with Some x => Some x | None => vbound (gvar j) d end
  end.
(** updates.rs:195-205 `is_variable_fixed` *)
Definition fixed_value (u : updates) (j : nat) : option Qc :=
  match bound_of u j Lower, bound_of u j Upper with
  | Some l, Some h => if qeqb l h then Some l else None
  | _, _ => None
  end.
(** updates.rs:207-229 `variable_feasible_value` *)
Definition feasible_value (u : updates) (j : nat) : option Qc :=
  match bound_of u j Lower, bound_of u j Upper with
  | None, None => Some 0
  | None, Some h => Some h
  | Some l, None => Some l
  | Some l, Some h => if qleb l h then Some h else None
  end.

(** ** New bounds *)
(** updates.rs:74-85 `BoundChange` *)
Inductive bound_change := NoChange | NewBound | BoundShift (difference : Qc).
(** updates.rs:500-522 `bound_compare_and_update`; [insert] writes to the map given as an argument *)
Definition compare_update (u : updates) (insert : updates -> Qc -> updates) (d : bdir) (new existing : Qc) : updates * bound_change :=
  if (match d with Lower => qltb existing new | Upper => qltb new existing end)
  then (insert u new, BoundShift (new - existing))
  else (u, NoChange).
Definition insert_bound (j : nat) (d : bdir) (u : updates) (x : Qc) : updates := set_bounds u (put2 (u_bounds u) j d (Some x)).
Definition insert_act (j : nat) (d : bdir) (u : updates) (x : Qc) : updates := set_acts u (put2 (u_acts u) j d (Some x)).
Definition remove_act (j : nat) (d : bdir) (u : updates) : updates := set_acts u (put2 (u_acts u) j d None).
(** updates.rs:267-306 `update_bound` *)
Definition update_bound (u : updates) (j : nat) (d : bdir) (new : Qc) : updates * bound_change :=
  match u_bounds u j d with
  | Some existing => compare_update u (insert_bound j d) d new existing
  | None =>
      match u_acts u j d with
      | Some existing => compare_update (insert_bound j d (remove_act j d u) existing) (insert_bound j d) d new existing
      | None =>
          match vbound (gvar j) d with
          | None => (insert_bound j d u new, NewBound)
          | Some existing => compare_update u (insert_bound j d) d new existing
          end
      end
  end.
(** updates.rs:322-365 `update_activity_variable_bound` *)
Definition update_activity_bound (u : updates) (j : nat) (d : bdir) (new : Qc) : updates * bound_change :=
  match u_acts u j d with
  | Some existing => compare_update u (insert_act j d) d new existing
  | None =>
      match u_bounds u j d with
      | Some existing => compare_update u (insert_bound j d) d new existing
      | None =>
          match vbound (gvar j) d with
          | None => (insert_act j d u new, NewBound)
          | Some existing => compare_update u (insert_act j d) d new existing
          end
      end
  end.
(** updates.rs:540-560 `optimize_independent_column` *)
Definition optimize_column (cost : Qc) (lower upper : option Qc) : pr Qc :=
  if qzero cost then PPanic else
  let side := match g_objective g, qpos cost with
              | Minimize, true | Maximize, false => lower
              | Minimize, false | Maximize, true => upper
              end in
  match side with Some v => Go v | None => Stop VUnbounded end.
(** mod.rs:1046-1050 `get_feasible_value` and 1024-1029 `is_fixed` of a `Variable` are [feasible_value] and
    [fixed_value] on unchanged bounds *)

(** ** What is still active: presolve/counters.rs *)
(** counters.rs:127-134 `is_constraint_still_active`, `is_variable_still_active` *)
Definition con_active (c : counters) (i : nat) : bool := negb (Nat.eqb (nth i (c_con c) 0%nat) 0).
Definition var_active (c : counters) (j : nat) : bool := negb (Nat.eqb (nth j (c_var c) 0%nat) 0).
(** counters.rs:92-99 `iter_active_column`, 114-120 `iter_active_row` *)
Definition active_column (c : counters) (j : nat) : svec := filter (fun '(i, _) => con_active c i) (nth j (g_cols g) []).
Definition active_row (c : counters) (i : nat) : svec := filter (fun '(j, _) => var_active c j) (nth i rows []).

(** ** Removing, queueing: presolve/mod.rs *)
(** presolve/mod.rs:370-374 `remove_constraint`, 381-385 `remove_variable` *)
Definition mark_constraint (s : pindex) (i : nat) : pindex :=
  let u := i_u s in
  with_u s (mk_updates (u_b u) (u_types u) (u_fixed u) (u_bounds u) (u_acts u) (u_removed u) (u_gone u ++ [i])).
Definition mark_variable (s : pindex) (j : nat) (r : removed) : pindex :=
  let u := i_u s in
  with_u s (mk_updates (u_b u) (u_types u) (u_fixed u) (u_bounds u) (u_acts u) (u_removed u ++ [(j, r)]) (u_gone u)).
(** presolve/mod.rs:403-425 `is_empty_constraint_feasible` *)
Definition empty_feasible (b : Qc) (t : rel) : bool :=
  match t with
  | Equal => qzero b
  | Range r => qleb 0 b && qleb (b - r) 0
  | Less => qleb 0 b
  | Greater => qleb b 0
  end.
(** presolve/mod.rs:303-325 `queue_variable_by_counter`; updates.rs:368-388
    `optimize_column_independently` *)
Definition queue_variable (s : pindex) (j : nat) : pr pindex :=
  match nth j (c_var (i_c s)) 0%nat with
  | 0%nat =>
      if qzero (v_cost (gvar j)) then
        let+ v := unwrap (feasible_value (i_u s) j) in Go (mark_variable s j (Solved v))
      else
        let+ v := optimize_column (v_cost (gvar j)) (bound_of (i_u s) j Lower) (bound_of (i_u s) j Upper) in
        Go (mark_variable (with_u s (add_cost (i_u s) (v_cost (gvar j) * v))) j (Solved v))
  | 1%nat => Go (if qzero (v_cost (gvar j)) then push_slack s j else s)
  | _ => Go s
  end.
(** presolve/mod.rs:345-363 `queue_constraint_by_counter`; its return value is never used *)
Definition queue_constraint (s : pindex) (i : nat) : pr pindex :=
  match nth i (c_con (i_c s)) 0%nat with
  | 0%nat => if empty_feasible (b_of (i_u s) i) (type_of (i_u s) i) then Go (mark_constraint s i) else Stop VInfeasible
  | 1%nat => Go (push_bound s i)
  | _ => Go s
  end.
(** presolve/mod.rs:214-244 `update_activity_bounds` *)
Definition shift_activity (d : bdir) (change : Qc) (s : pindex) (e : nat * Qc) : pindex :=
  let (i, c) := e in
  if con_active (i_c s) i then
    let d' := bmul d c in
    let p := nth i (i_act s) (None, None) in
    match side d' p with
    | Some x => push_act (with_act s (upd (i_act s) i (set_side d' p (Some (x + change * c))))) (i, d')
    | None => s
    end
  else s.
Definition update_activity_bounds (s : pindex) (j : nat) (d : bdir) (change : Qc) : pindex :=
  fold_left (shift_activity d change) (active_column (i_c s) j) s.
(** presolve/mod.rs:252-271 `update_activity_counters` *)
Definition lower_counter (d : bdir) (s : pindex) (e : nat * Qc) : pr pindex :=
  let (i, c) := e in
  let d' := bmul d c in
  let+ s := dec_act s i d' in
  Go (if Nat.leb (side d' (nth i (c_act (i_c s)) (0, 0)%nat)) 1 then push_act s (i, d') else s).
Definition update_activity_counters (s : pindex) (j : nat) (d : bdir) : pr pindex :=
  foldP (lower_counter d) (active_column (i_c s) j) s.
(** presolve/mod.rs:179-199 `after_bound_change` *)
Definition after_bound_change (s : pindex) (j : nat) (d : bdir) (change : option Qc) : pr pindex :=
  let s := match fixed_value (i_u s) j with
           | Some _ => if var_active (i_c s) j then push_sub s j else s
           | None => s
           end in
  match change with
  | Some difference => Go (update_activity_bounds s j d difference)
  | None => update_activity_counters s j d
  end.
Definition apply_change (s : pindex) (j : nat) (d : bdir) (c : bound_change) : pr pindex :=
  match c with
  | NoChange => Go s
  | NewBound => after_bound_change s j d None
  | BoundShift x => after_bound_change s j d (Some x)
  end.
(** presolve/mod.rs:282-298 `remove_constraint_values` *)
Definition remove_constraint_values (s : pindex) (i : nat) : pr pindex :=
  foldP (fun s '(j, _) => let+ s := dec_con s i in let+ s := dec_var s j in queue_variable s j) (active_row (i_c s) i) s.

(** ** Rule: substitute a fixed variable (presolve/rule/fixed_variable.rs:22-49) *)
Definition fixed_variable_rule (s : pindex) (j : nat) : pr pindex :=
  let+ value := unwrap (fixed_value (i_u s) j) in
  let u := fold_left (fun u '(i, c) => change_b u i (- c * value)) (active_column (i_c s) j) (i_u s) in
  let s := with_u s (add_cost u (v_cost (gvar j) * value)) in
  let+ s := foldP (fun s '(i, _) => let+ s := dec_var s j in let+ s := dec_con s i in queue_constraint s i)
              (active_column (i_c s) j) s in
  Go (mark_variable s j (Solved value)).

(** ** Rule: a constraint that is a bound (presolve/rule/bound_constraint.rs:28-86) *)
Definition bounds_from (b : Qc) (t : rel) (c : Qc) : list (bdir * Qc) :=
  match t with
  | Greater => [(bmul Lower c, b / c)]
  | Less => [(bmul Upper c, b / c)]
  | Equal => [(Lower, b / c); (Upper, b / c)]
  | Range r => if qneg c then [(Lower, b / c); (Upper, (b - r) / c)] else [(Lower, (b - r) / c); (Upper, b / c)]
  end.
Definition bound_constraint_rule (s : pindex) (i : nat) : pr pindex :=
  let+ e := unwrap (hd_error (active_row (i_c s) i)) in
  let (j, c) := e in
  let changes := bounds_from (b_of (i_u s) i) (type_of (i_u s) i) c in
  let+ s := dec_var s j in
  let+ s := dec_con s i in
  let s := mark_constraint s i in
  let+ s := foldP (fun s '(d, x) => let (u, change) := update_bound (i_u s) j d x in apply_change (with_u s u) j d change) changes s in
  match feasible_value (i_u s) j with
  | None => Stop VInfeasible
  | Some _ => queue_variable s j
  end.

(** ** Rule: slack variables (presolve/rule/slack.rs:66-216) *)
(** slack.rs:202-216 `compute_removed_variable_solution` *)
Definition slack_value (s : pindex) (i j : nat) (c : Qc) : removed :=
  FunctionOf (b_of (i_u s) i / c)
    (map (fun '(k, a) => (nth k (g_from g) 0%nat, a / c)) (filter (fun '(k, _) => negb (Nat.eqb k j)) (active_row (i_c s) i))).
(** slack.rs:94-158: the new constraint type and the bound to use, or [None] when row and column disappear *)
Definition slack_case (t : rel) (lower upper : option Qc) (c : Qc) : option (rel * Qc) :=
  if qneg c then
    match t, lower, upper with
    | _, None, None => None
    | Less, Some _, None => None
    | Greater, None, Some _ => None
    | Equal, Some l, Some h => Some (Range (c * (l - h)), h)
    | (Equal | Greater | Range _), Some l, None => Some (Greater, l)
    | Greater, Some l, Some _ => Some (Greater, l)
    | (Less | Equal | Range _), None, Some h => Some (Less, h)
    | Less, Some _, Some h => Some (Less, h)
    | Range r, Some l, Some h => Some (Range (r + c * (l - h)), h)
    end
  else
    match t, lower, upper with
    | _, None, None => None
    | Greater, Some _, None => None
    | Less, None, Some _ => None
    | Equal, Some l, Some h => Some (Range (c * (h - l)), l)
    | (Less | Equal | Range _), Some l, None => Some (Less, l)
    | Less, Some l, Some _ => Some (Less, l)
    | (Equal | Greater | Range _), None, Some h => Some (Greater, h)
    | Greater, Some _, Some h => Some (Greater, h)
    | Range r, Some l, Some h => Some (Range (r + c * (h - l)), l)
    end.
(** slack.rs:181-200 `update_activity_queues_if_needed`: [lacks d] says that bound [d] of the variable is
    missing *)
Definition slack_activity (s : pindex) (i : nat) (lacks : bdir -> bool) (c : Qc) : pr pindex :=
  foldP (fun s d =>
    if lacks (bmul d c) then
      let+ s := dec_act s i d in
      Go (if Nat.leb (side d (nth i (c_act (i_c s)) (0, 0)%nat)) 1 then push_act s (i, d) else s)
    else Go s) [Lower; Upper] s.
Definition slack_rule (s : pindex) (j : nat) : pr pindex :=
  let+ e := unwrap (hd_error (active_column (i_c s) j)) in
  let (i, c) := e in
  let t := type_of (i_u s) i in
  let lower := bound_of (i_u s) j Lower in
  let upper := bound_of (i_u s) j Upper in
  let lacks := fun d => match bound_of (i_u s) j d with None => true | Some _ => false end in
  match slack_case t lower upper c with
  | None =>
      let solution := slack_value s i j c in
      let+ s := foldP (fun s '(k, _) =>
          let+ s := dec_con s i in
          let+ s := dec_var s k in
          if Nat.eqb k j then Go s else queue_variable s k) (active_row (i_c s) i) s in
      Go (mark_constraint (mark_variable s j solution) i)
  | Some (t', bound) =>
      let solution := match t with Equal | Range _ => slack_value s i j c | Greater | Less => Solved bound end in
      let+ s := dec_var s j in
      let s := mark_variable s j solution in
      let+ s := slack_activity s i lacks c in
      let+ s := dec_con s i in
      let+ s := queue_constraint s i in
      Go (with_u s (set_type (change_b (i_u s) i (- c * bound)) i t'))
  end.

(** ** Rule: domain propagation (presolve/rule/domain_propagation.rs) *)
(** presolve/mod.rs:53-57 `Change` *)
Inductive change := Meaningful | NotMeaningful | NoneMade.
(** domain_propagation.rs:454-458 `ConstraintUpdate` *)
Inductive constraint_update := Drop | ReplaceBy (t : rel) (shift : Qc) | SetToBound.
(** domain_propagation.rs:239-315 `constraint_update` *)
Definition decide (d : bdir) (t : rel) (b activity : Qc) : pr (option constraint_update) :=
  match b ?= activity, d, t with
  | Lt, Lower, (Equal | Range _ | Less) => Stop VInfeasible
  | Gt, Upper, (Equal | Greater) => Stop VInfeasible
  | Eq, Lower, (Equal | Less) => Go (Some SetToBound)
  | Eq, Upper, (Equal | Greater) => Go (Some SetToBound)
  | (Eq | Gt), Upper, Less => Go (Some Drop)
  | (Lt | Eq), Lower, Greater => Go (Some Drop)
  | Eq, Upper, Range r => Go (Some (ReplaceBy Greater (- r)))
  | Gt, Lower, Range r =>
      match activity ?= b - r with
      | Lt => Go None
      | Eq | Gt => Go (Some (ReplaceBy Less 0))
      end
  | Gt, Upper, Range r =>
      match activity ?= b - r with
      | Lt => Stop VInfeasible
      | Eq => Go (Some SetToBound)
      | Gt => Go (Some (ReplaceBy Greater (- r)))
      end
  | Gt, Lower, (Equal | Less | Greater) => Go None
  | Lt, Upper, _ => Go None
  | Eq, Lower, Range _ => PPanic
  end.
(** domain_propagation.rs:434-451 `can_variable_rule_be_applied` *)
Definition usable_side (u : updates) (i : nat) (d : bdir) : option Qc :=
  match type_of u i, d with
  | Equal, _ => Some (b_of u i)
  | Range _, Lower => Some (b_of u i)
  | Range r, Upper => Some (b_of u i - r)
  | Less, Lower => Some (b_of u i)
  | Less, Upper => None
  | Greater, Lower => None
  | Greater, Upper => Some (b_of u i)
  end.
(** domain_propagation.rs:126-158 `compute_activity_bound_if_needed` *)
Definition activity_sum (u : updates) (d : bdir) (row : svec) : pr Qc :=
  foldP (fun acc '(j, c) => let+ x := unwrap (bound_of u j (bmul d c)) in Go (acc + c * x)) row 0.
Definition activity_bound (s : pindex) (i : nat) (d : bdir) : pr (pindex * Qc) :=
  let p := nth i (i_act s) (None, None) in
  match side d p with
  | Some x => Go (s, x)
  | None =>
      let+ x := activity_sum (i_u s) d (active_row (i_c s) i) in
      Go (with_act s (upd (i_act s) i (set_side d p (Some x))), x)
  end.
(** domain_propagation.rs:177-206: all variables of the row get the value of their bound *)
Definition set_to_bound (s : pindex) (i : nat) (d : bdir) : pr pindex :=
  let+ r := foldP (fun '(s, todo) '(j, c) =>
      let d' := bmul d c in
      let+ x := unwrap (bound_of (i_u s) j d') in
      let u := match u_acts (i_u s) j d' with
               | Some y => insert_bound j d' (remove_act j d' (i_u s)) y
               | None => i_u s
               end in
      let (u, change) := update_bound u j (bnot d') x in
      let todo := match change with NewBound => todo ++ [(j, bnot d')] | _ => todo end in
      Go (push_sub (with_u s u) j, todo)) (active_row (i_c s) i) (s, []) in
  foldP (fun s '(j, d) => update_activity_counters s j d) (snd r) (fst r).
(** domain_propagation.rs:160-214 `constraint_part`: whether to remove the constraint, whether to go on
    with the variables, and whether something changed *)
Definition constraint_part (s : pindex) (i : nat) (d : bdir) (activity : Qc) : pr (pindex * (bool * bool * change)) :=
  let+ todo := decide d (type_of (i_u s) i) (b_of (i_u s) i) activity in
  match todo with
  | None => Go (s, (false, true, NoneMade))
  | Some Drop => Go (s, (true, true, Meaningful))
  | Some (ReplaceBy t shift) => Go (with_u s (change_b (set_type (i_u s) i t) i shift), (false, true, Meaningful))
  | Some SetToBound => let+ s := set_to_bound s i d in Go (s, (true, false, Meaningful))
  end.
(** domain_propagation.rs:334-375 `variable_part` *)
Definition upgrade (made : change) (c : bound_change) : change :=
  match c, made with
  | NoChange, _ => made
  | NewBound, _ => Meaningful
  | BoundShift _, Meaningful => Meaningful
  | BoundShift _, _ => NotMeaningful
  end.
Definition variable_part (s : pindex) (i : nat) (rhs activity : Qc) (d : bdir) (made : change) : pr (pindex * change) :=
  foldP (fun '(s, made) '(j, c) =>
      let+ x := unwrap (bound_of (i_u s) j (bmul d c)) in
      let residual := activity - c * x in
      let (u, change) := update_activity_bound (i_u s) j (bmul (bnot d) c) ((rhs - residual) / c) in
      let+ s := apply_change (with_u s u) j (bmul (bnot d) c) change in
      Go (s, upgrade made change)) (active_row (i_c s) i) (s, made).
(** domain_propagation.rs:69-112 `for_entire_constraint` *)
Definition propagate_row (s : pindex) (i : nat) (d : bdir) : pr (pindex * change) :=
  let+ r := activity_bound s i d in
  let (s, activity) := r in
  let+ r := constraint_part s i d activity in
  let '(s, (remove, variables, made)) := r in
  let+ r := (if variables then
               match usable_side (i_u s) i d with
               | Some rhs => variable_part s i rhs activity d made
               | None => Go (s, made)
               end
             else Go (s, made)) in
  let (s, made) := r in
  if remove then
    let+ s := remove_constraint_values s i in Go (mark_constraint s i, made)
  else Go (s, made).
(** domain_propagation.rs:384-432 `create_variable_bound` *)
Definition missing_entry (u : updates) (d : bdir) (row : svec) : option (nat * Qc) :=
  find (fun '(j, c) => match bound_of u j (bmul d c) with None => true | Some _ => false end) row.
Definition known_activity (u : updates) (d : bdir) (row : svec) : Qc :=
  fold_left (fun acc '(j, c) => match bound_of u j (bmul d c) with Some x => acc + c * x | None => acc end) row 0.
Definition bound_one (s : pindex) (i : nat) (d : bdir) : pr (pindex * change) :=
  match usable_side (i_u s) i d with
  | None => Go (s, NoneMade)
  | Some rhs =>
      let row := active_row (i_c s) i in
      let+ e := unwrap (missing_entry (i_u s) d row) in
      let (j, c) := e in
      let value := (rhs - known_activity (i_u s) d row) / c in
      let (u, change) := update_activity_bound (i_u s) j (bmul (bnot d) c) value in
      let+ s := apply_change (with_u s u) j (bmul (bnot d) c) change in
      Go (s, upgrade NoneMade change)
  end.
(** domain_propagation.rs:35-57 `presolve_domain_propagation` *)
Definition domain_propagation_rule (s : pindex) (i : nat) (d : bdir) : pr (pindex * change) :=
  match side d (nth i (c_act (i_c s)) (0, 0)%nat) with
  | 0%nat => propagate_row s i d
  | 1%nat => bound_one s i d
  | _ => PPanic
  end.

(** ** The main loop *)
(** the `while let Some(..) = queue.pop()` loops of presolve/mod.rs:137-156 *)
Fixpoint drain {A} (active : A -> bool) (l : list A) : option A * list A :=
  match l with [] => (None, []) | x :: t => if active x then (Some x, t) else drain active t end.
(** presolve/mod.rs:127-164 `presolve_step` *)
Definition presolve_step (s : pindex) : pr (pindex * change) :=
  let q := i_q s in
  let sub := match q_sub q with
             | [] => (None, [])
             | j :: t => (if var_active (i_c s) j then Some j else None, t)
             end in
  match fst sub with
  | Some j =>
      let+ s := fixed_variable_rule (with_q s (mk_queues (snd sub) (q_bound q) (q_slack q) (q_act q))) j in
      Go (s, Meaningful)
  | None =>
      let bound := drain (con_active (i_c s)) (q_bound q) in
      match fst bound with
      | Some i =>
          let+ s := bound_constraint_rule (with_q s (mk_queues (snd sub) (snd bound) (q_slack q) (q_act q))) i in
          Go (s, Meaningful)
      | None =>
          let slack := drain (var_active (i_c s)) (q_slack q) in
          match fst slack with
          | Some j =>
              let+ s := slack_rule (with_q s (mk_queues (snd sub) (snd bound) (snd slack) (q_act q))) j in
              Go (s, Meaningful)
          | None =>
              let act := drain (fun e => con_active (i_c s) (fst e)) (q_act q) in
              let s := with_q s (mk_queues (snd sub) (snd bound) (snd slack) (snd act)) in
              match fst act with
              | Some (i, d) => domain_propagation_rule s i d
              | None => Go (s, NotMeaningful)
              end
          end
      end
  end.
(** queues.rs:139-145 `are_empty` *)
Definition queues_empty (q : queues) : bool :=
  match q_act q, q_slack q, q_bound q, q_sub q with [], [], [], [] => true | _, _, _, _ => false end.
(** updates.rs:454-460 `nr_variables_remaining` and `nr_constraints_remaining`: both subtract *)
Definition nr_remaining (u : updates) : pr nat :=
  if Nat.ltb (length (g_vars g)) (length (u_removed u)) || Nat.ltb (g_rows g) (length (u_gone u)) then PPanic
  else Go ((length (g_vars g) - length (u_removed u)) + (g_rows g - length (u_gone u)))%nat.
(** mod.rs:391-406: the loop of `compute_presolve_changes`; [stale] counts the iterations without
    meaningful change *)
Fixpoint presolve_loop (fuel : nat) (stale : nat) (s : pindex) : pr pindex :=
  if queues_empty (i_q s) then Go s else
  let+ remaining := nr_remaining (i_u s) in
  if Nat.leb remaining stale then Go s else
  match fuel with
  | 0%nat => PFuel
  | S fuel' =>
      let+ r := presolve_step s in
      match snd r with
      | Meaningful => presolve_loop fuel' 0 (fst r)
      | NoneMade => presolve_loop fuel' stale (fst r)
      | NotMeaningful => presolve_loop fuel' (S stale) (fst r)
      end
  end.

(** ** Start *)
(** counters.rs:48-79 `new` *)
Definition is_missing (o : option Qc) : nat := match o with Some _ => 0 | None => 1 end.
Definition count_missing (row : svec) : nat * nat :=
  fold_left (fun '(l, h) '(j, c) =>
    ((l + is_missing (vbound (gvar j) (bmul Lower c)))%nat, (h + is_missing (vbound (gvar j) (bmul Upper c)))%nat)) row (0, 0)%nat.
Definition counters_new : counters :=
  mk_pcounters (map (fun j => length (nth j (g_cols g) [])) (range 0 (length (g_vars g))))
    (map (fun i => length (nth i rows [])) (range 0 (g_rows g)))
    (map (fun i => count_missing (nth i rows [])) (range 0 (g_rows g))).
(** updates.rs:106-160 `new` *)
Definition no_updates : updates := mk_updates (fun _ => None) (fun _ => None) 0 (fun _ _ => None) (fun _ _ => None) [] [].
Definition empty_column (u : updates) (j : nat) : pr updates :=
  let v := gvar j in
  let+ r := (if qzero (v_cost v) then let+ x := unwrap (feasible_value no_updates j) in Go (x, 0)
             else let+ x := optimize_column (v_cost v) (v_lower v) (v_upper v) in Go (x, v_cost v * x)) in
  Go (mk_updates (u_b u) (u_types u) (u_fixed u + snd r) (u_bounds u) (u_acts u) (u_removed u ++ [(j, Solved (fst r))]) (u_gone u)).
Definition empty_row (u : updates) (i : nat) : pr updates :=
  if empty_feasible (nthq (g_b g) i) (nth i (g_types g) Equal)
  then Go (mk_updates (u_b u) (u_types u) (u_fixed u) (u_bounds u) (u_acts u) (u_removed u) (u_gone u ++ [i]))
  else Stop VInfeasible.
Definition updates_new (c : counters) : pr updates :=
  let+ u := foldP empty_column (filter (fun j => negb (var_active c j)) (range 0 (length (g_vars g)))) no_updates in
  foldP empty_row (filter (fun i => negb (con_active c i)) (range 0 (g_rows g))) u.
(** queues.rs:100-134 `new` *)
Definition is_one (l : list nat) (k : nat) : bool := Nat.eqb (nth k l 0%nat) 1.
Definition queues_new (c : counters) : queues :=
  mk_queues
    (rev (filter (fun j => var_active c j && match fixed_value no_updates j with Some _ => true | None => false end)
            (range 0 (length (g_vars g)))))
    (rev (filter (is_one (c_con c)) (range 0 (g_rows g))))
    (rev (filter (fun j => is_one (c_var c) j && qzero (v_cost (gvar j))) (range 0 (length (g_vars g)))))
    (flat_map (fun i =>
        let '(l, h) := nth i (c_act c) (0, 0)%nat in
        if Nat.ltb 1 (nth i (c_con c) 0%nat) then
          (if Nat.leb l 1 then [(i, Lower)] else []) ++ (if Nat.leb h 1 then [(i, Upper)] else [])
        else []) (range 0 (g_rows g))).
(** presolve/mod.rs:79-93 `new` *)
Definition index_new : pr pindex :=
  let c := counters_new in
  let+ u := updates_new c in
  Go (mk_pindex (queues_new c) u c (repeat (None, None) (g_rows g))).

(** ** Applying the changes *)
(** updates.rs:398-452 `into_changes` and mod.rs:423-452 `update_values_that_remain`.  A bound found by
    domain propagation only is kept when the variable was free and got no other bound. *)
Definition is_gone (u : updates) (i : nat) : bool := memb i (u_gone u).
Definition is_removed (u : updates) (j : nat) : bool := existsb (fun '(k, _) => Nat.eqb k j) (u_removed u).
Definition final_bound (u : updates) (j : nat) (d : bdir) : option Qc :=
  match u_bounds u j d with
  | Some x => Some x
  | None =>
      match vbound (gvar j) Lower, vbound (gvar j) Upper, u_bounds u j Lower, u_bounds u j Upper with
      | None, None, None, None => u_acts u j d
      | _, _, _, _ => vbound (gvar j) d
      end
  end.
Definition final_variable (u : updates) (j : nat) (v : variable) : variable :=
  if is_removed u j then v
  else mk_var (v_integer v) (v_cost v) (final_bound u j Lower) (final_bound u j Upper) (v_shift v) (v_flipped v).
Definition set_removed (orig : list (string * original)) (e : nat * removed) : res (list (string * original)) :=
  let* entry := index orig (fst e) in set_index orig (fst e) (fst entry, Removed (snd e)).
Definition values_that_remain (u : updates) : res general :=
  let* orig := foldM set_removed (sort_by fst (u_removed u)) (g_orig g) in
  Ok (mk_general (g_objective g) (g_fixed g + u_fixed u) (g_rows g) (g_cols g)
        (map (fun '(i, t) => if is_gone u i then t else type_of u i) (number_from 0 (g_types g)))
        (map (fun '(i, b) => if is_gone u i then b else b_of u i) (number_from 0 (g_b g)))
        (map (fun '(j, v) => final_variable u j v) (number_from 0 (g_vars g))) orig (g_from g)).
End Presolve.

(** mod.rs:471-479: the loop that rewrites `from_active_to_original`; [skip] is the inner `while` *)
Fixpoint skip (fuel : nat) (variables : list nat) (j skipped : nat) : nat :=
  match fuel with
  | 0%nat => skipped
  | S fuel' =>
      match nth_error variables skipped with
      | Some v => if Nat.eqb v (j + skipped) then skip fuel' variables j (S skipped) else skipped
      | None => skipped
      end
  end.
Definition rename_step (variables : list nat) (st : list nat * nat) (j : nat) : res (list nat * nat) :=
  let (from, skipped) := st in
  let skipped := skip (length variables) variables j skipped in
  let* o := index from (j + skipped) in
  let* from := set_index from j o in
  Ok (from, skipped).
Definition rename (from variables : list nat) : res (list nat) :=
  match variables with
  | [] => Ok from
  | first :: _ =>
      if Nat.ltb (length from) (length variables) then Panic else
      let new_length := (length from - length variables)%nat in
      let* st := foldM (rename_step variables) (range first new_length) (from, 1%nat) in
      Ok (firstn new_length (fst st))
  end.
(** mod.rs:482-488: the reverse map *)
Definition renumber (orig : list (string * original)) (e : nat * nat) : res (list (string * original)) :=
  let* entry := index orig (snd e) in
  match snd entry with
  | Active _ => set_index orig (snd e) (fst entry, Active (fst e))
  | ActiveFree _ _ => Panic
  | Removed _ => Panic
  end.
(** mod.rs:463-496 `remove_rows_and_columns` *)
Definition remove_rows_and_columns (g : general) (constraints variables : list nat) : res general :=
  let constraints := sort_by (fun x => x) constraints in
  let variables := sort_by (fun x => x) variables in
  let* from := rename (g_from g) variables in
  let* orig := (match variables with [] => Ok (g_orig g) | _ => foldM renumber (number_from 0 from) (g_orig g) end) in
  if Nat.ltb (g_rows g) (length constraints) then Panic else
  Ok (mk_general (g_objective g) (g_fixed g) (g_rows g - length constraints)
        (map (fun c => sremove c constraints) (remove_indices (g_cols g) variables))
        (remove_indices (g_types g) constraints) (remove_indices (g_b g) constraints)
        (remove_indices (g_vars g) variables) orig from).

(** mod.rs:386-409 `compute_presolve_changes`; counters.rs:48 makes the row major copy *)
Definition presolve_changes (fuel : nat) (g : general) : pr updates :=
  let+ rows := lift (transpose_from 0 (g_cols g) (repeat [] (g_rows g))) in
  let+ s := index_new g rows in
  let+ s := presolve_loop g rows fuel 0 s in
  Go (i_u s).
(** mod.rs:351-375 `presolve` *)
Definition presolve (fuel : nat) (g : general) : pr general :=
  let+ u := presolve_changes fuel g in
  let+ g1 := lift (values_that_remain g u) in
  let+ g2 := lift (remove_rows_and_columns g1 (u_gone u) (map fst (u_removed u))) in
  let+ g3 := lift (solution_where_possible fuel g2) in
  match get_solution g3 with
  | Some s => Stop (VOptimum s)
  | None => Go g3
  end.
(** tests/netlib/mod.rs:47-71: presolve, and solve what remains *)
Definition presolve_and_solve (r : representation) (n : rule_name) (fuel : nat) (g : general) : res answer :=
  match presolve fuel g with
  | Go g' => solve_general r n fuel g'
  | Stop VInfeasible => Ok NoSolution
  | Stop VUnbounded => Ok NoBound
  | Stop (VOptimum s) => Ok (Solved_to s)
  | PPanic => Panic
  | PFuel => Fuel
  end.
