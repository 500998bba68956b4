(** * General form linear programs: model of /repo/src/data/linear_program/general_form/mod.rs

    The struct `GeneralForm`, its standardization (`standardize`, mod.rs:325-332) and the translation
    of solutions back to the original variables (mod.rs:719-933).  Presolving and scaling, which work on
    the same struct, are modelled elsewhere. *)
From Coq Require Export String.
From Verif Require Export Carry.
Local Close Scope string_scope.

(** elements.rs:44-59 `RangedConstraintRelation` *)
Inductive rel :=
| Equal
| Range (r : Qc)
| Less
| Greater.

(** general_form/mod.rs:988-1025 `Variable`; [v_integer] is `variable_type` (elements.rs:92-99) *)
Record variable := mk_var {
  v_integer : bool;
  v_cost : Qc;
  v_lower : option Qc;
  v_upper : option Qc;
  v_shift : Qc;
  v_flipped : bool
}.

(** general_form/mod.rs:104-132 `RemovedVariable` *)
Inductive removed :=
| Solved (value : Qc)
| FunctionOf (constant : Qc) (coefficients : svec).
(** general_form/mod.rs:80-102 `OriginalVariable` *)
Inductive original :=
| Active (j : nat)
| ActiveFree (positive negative : nat)
| Removed (r : removed).

(** elements.rs `Objective` *)
Inductive direction := Minimize | Maximize.

(** general_form/mod.rs:40-77 `GeneralForm`.  The matrix `constraints` is a column major
    `SparseMatrix`: [g_cols] is its `data`, [g_rows] its number of rows; its stored number of columns
    always equals `data.len()`. *)
Record general := mk_general {
  g_objective : direction;
  g_fixed : Qc;
  g_rows : nat;
  g_cols : list svec;
  g_types : list rel;
  g_b : list Qc;
  g_vars : list variable;
  g_orig : list (string * original);
  g_from : list nat
}.

(** general_form/mod.rs:211-237 `new` *)
Fixpoint number_from {A} (k : nat) (l : list A) : list (nat * A) :=
  match l with [] => [] | x :: t => (k, x) :: number_from (S k) t end.
Definition new_general (o : direction) (rows : nat) (cols : list svec) (types : list rel)
    (b : list Qc) (vars : list variable) (names : list string) (fixed : Qc) : general :=
  mk_general o fixed rows cols types b vars
    (map (fun '(j, name) => (name, Active j)) (number_from 0 names)) (range 0 (length vars)).

(** ** Splitting free variables *)
(** general_form/mod.rs:1032-1034 `is_free`, and the closure at mod.rs:557-560 *)
Definition is_free (v : variable) : bool :=
  match v_lower v, v_upper v with None, None => true | _, _ => false end.
(** mod.rs:561: the negated copy of a column *)
Definition snegate (l : svec) : svec := map (fun '(i, v) => (i, - v)) l.

Definition set_lower_zero (v : variable) : variable :=
  mk_var (v_integer v) (v_cost v) (Some 0) (v_upper v) (v_shift v) (v_flipped v).
(** body of the loop at mod.rs:574-586 *)
Definition split_one (g : general) (j : nat) : res general :=
  let* o := index (g_from g) j in
  let* entry := index (g_orig g) o in
  let* orig := set_index (g_orig g) o (fst entry, ActiveFree j (length (g_from g))) in
  let* v := index (g_vars g) j in
  let vars := g_vars g ++ [mk_var (v_integer v) (- v_cost v) (Some 0) None 0 false] in
  let* vars' := set_index vars j (set_lower_zero v) in
  Ok (mk_general (g_objective g) (g_fixed g) (g_rows g) (g_cols g) (g_types g) (g_b g)
        vars' orig (g_from g ++ [o])).
(** mod.rs:554-587 `split_free_variables`; [filterM] is the iterator's `filter`, which may panic *)
Fixpoint filterM {A} (f : A -> res bool) (l : list A) : res (list A) :=
  match l with
  | [] => Ok []
  | x :: t => let* b := f x in let* r := filterM f t in Ok (if b then x :: r else r)
  end.
Definition split_free (g : general) : res general :=
  let* dup := filterM (fun j => let* v := index (g_vars g) j in Ok (is_free v)) (range 0 (length (g_cols g))) in
  let* cols := mapM (fun j => let* c := index (g_cols g) j in Ok (snegate c)) dup in
  foldM split_one dup
    (mk_general (g_objective g) (g_fixed g) (g_rows g) (g_cols g ++ cols) (g_types g) (g_b g)
       (g_vars g) (g_orig g) (g_from g)).

(** ** Flipping and shifting *)
(** mod.rs:514-526: flip variable [j] when it has only an upper bound *)
Definition flip_one (g : general) (j : nat) : res general :=
  let* v := index (g_vars g) j in
  match v_lower v, v_upper v with
  | None, Some upper =>
      let* vars := set_index (g_vars g) j
        (mk_var (v_integer v) (v_cost v * - (1)) (Some (- upper)) None (v_shift v * - (1)) (negb (v_flipped v))) in
      let* c := index (g_cols g) j in
      let* cols := set_index (g_cols g) j (smul c (- (1))) in
      Ok (mk_general (g_objective g) (g_fixed g) (g_rows g) cols (g_types g) (g_b g) vars (g_orig g) (g_from g))
  | _, _ => Ok g
  end.
(** mod.rs:536-538: `self.b[*i] -= coefficient * lower` *)
Definition shift_b (lower : Qc) (b : list Qc) (e : nat * Qc) : res (list Qc) :=
  let* old := index b (fst e) in set_index b (fst e) (old - snd e * lower).
(** mod.rs:529-541: shift variable [j] such that its lower bound is zero *)
Definition shift_one (g : general) (j : nat) : res general :=
  let* v := index (g_vars g) j in
  match v_lower v with
  | None => Ok g
  | Some lower =>
      let upper := match v_upper v with Some u => Some (u - lower) | None => None end in
      let* c := index (g_cols g) j in
      let* b := foldM (shift_b lower) c (g_b g) in
      let* vars := set_index (g_vars g) j
        (mk_var (v_integer v) (v_cost v) (Some 0) upper (v_shift v - lower) (v_flipped v)) in
      Ok (mk_general (g_objective g) (g_fixed g + lower * v_cost v) (g_rows g) (g_cols g) (g_types g) b
            vars (g_orig g) (g_from g))
  end.
Definition transform_one (g : general) (j : nat) : res general :=
  let* g1 := flip_one g j in shift_one g1 j.
(** mod.rs:506-546 `transform_variables` *)
Definition transform_variables (g : general) : res general :=
  let* g1 := split_free g in foldM transform_one (range 0 (length (g_vars g1))) g1.

(** ** Right-hand sides *)
(** linear_algebra/matrix.rs:264-274 `change_row_signs` *)
Definition change_row_signs (rows : list nat) (cols : list svec) : list svec :=
  map (map (fun '(i, v) => (i, if memb i rows then v * - (1) else v))) cols.
(** body of the loop at mod.rs:599-616 *)
Definition negate_row (st : list rel * list Qc) (row : nat) : res (list rel * list Qc) :=
  let (types, b) := st in
  let* t := index types row in
  let* old := index b row in
  match t with
  | Less => let* types' := set_index types row Greater in let* b' := set_index b row (old * - (1)) in Ok (types', b')
  | Equal => let* b' := set_index b row (old * - (1)) in Ok (types, b')
  | Greater => let* types' := set_index types row Less in let* b' := set_index b row (old * - (1)) in Ok (types', b')
  | Range r => let* b' := set_index b row (r - old) in Ok (types, b')
  end.
(** mod.rs:592-620 `make_b_non_negative`.  The code iterates a `HashSet` in unspecified order; the
    rows are distinct and treated independently, the model goes through them in increasing order. *)
Definition make_b_non_negative (g : general) : res general :=
  let rows := map fst (filter (fun '(_, v) => qltb v 0) (number_from 0 (g_b g))) in
  let* st := foldM negate_row rows (g_types g, g_b g) in
  Ok (mk_general (g_objective g) (g_fixed g) (g_rows g) (change_row_signs rows (g_cols g))
        (fst st) (snd st) (g_vars g) (g_orig g) (g_from g)).

(** ** Objective *)
Definition negate_cost (v : variable) : variable :=
  mk_var (v_integer v) (v_cost v * - (1)) (v_lower v) (v_upper v) (v_shift v) (v_flipped v).
(** mod.rs:623-631 `make_minimization_problem` *)
Definition make_minimization (g : general) : general :=
  match g_objective g with
  | Minimize => g
  | Maximize => mk_general Minimize (g_fixed g) (g_rows g) (g_cols g) (g_types g) (g_b g)
                  (map negate_cost (g_vars g)) (g_orig g) (g_from g)
  end.

(** ** Grouping the constraints by type *)
Record counts := mk_counts { n_equal : nat; n_range : nat; n_less : nat; n_greater : nat }.
(** the closure at mod.rs:653-660 *)
Definition bump (c : counts) (t : rel) : nat * counts :=
  let (e, r, l, g) := c in
  match t with
  | Equal => (e, mk_counts (S e) r l g)
  | Range _ => (r, mk_counts e (S r) l g)
  | Less => (l, mk_counts e r (S l) g)
  | Greater => (g, mk_counts e r l (S g))
  end.
(** mod.rs:652-660: the place of every constraint among those of its type, and the four counters *)
Fixpoint number_types (c : counts) (ts : list rel) : list nat * counts :=
  match ts with
  | [] => ([], c)
  | t :: ts' => let (k, c1) := bump c t in let (ks, c2) := number_types c1 ts' in (k :: ks, c2)
  end.
(** mod.rs:665-689: the order of the comparison function is the order of these numbers *)
Definition type_rank (t : rel) : nat :=
  match t with Equal => 0 | Range _ => 1 | Less => 2 | Greater => 3 end.
(** mod.rs:691-698 `get_destination` *)
Definition destination (old : list rel) (ks : list nat) (c : counts) (i : nat) : res nat :=
  let* t := index old i in
  let* k := index ks i in
  Ok (match t with
      | Equal => k
      | Range _ => n_equal c + k
      | Less => n_equal c + n_range c + k
      | Greater => n_equal c + n_range c + n_less c + k
      end)%nat.
(** mod.rs:651-716 `reorder_constraints_by_type`.  `Vec::sort_by` is a stable sort; `sort_unstable_by_key`
    on the entries of a column gives the sorted list because their keys are distinct. *)
Definition reorder (g : general) : res (general * counts) :=
  let (ks, c) := number_types (mk_counts 0 0 0 0) (g_types g) in
  let dest := destination (g_types g) ks c in
  let* nb := foldM (fun nb i => let* d := dest i in let* v := index (g_b g) i in set_index nb d (Some v))
               (range 0 (length (g_b g))) (repeat (None (A := Qc)) (length (g_b g))) in
  let* b := mapM ofopt nb in
  let* cols := mapM (fun col => let* col' := mapM (fun '(i, v) => let* d := dest i in Ok (d, v)) col in
                                Ok (sort_by fst col')) (g_cols g) in
  Ok (mk_general (g_objective g) (g_fixed g) (g_rows g) cols (sort_by type_rank (g_types g)) b
        (g_vars g) (g_orig g) (g_from g), c).

(** mod.rs:325-332 `standardize` *)
Definition standardize (g : general) : res (general * counts) :=
  let* g1 := transform_variables g in
  let* g2 := make_b_non_negative g1 in
  reorder (make_minimization g2).

(** ** Solutions *)
(** data/linear_program/solution.rs:14-21 `Solution` *)
Record solution := mk_solution { s_objective : Qc; s_values : list (string * Qc) }.

(** mod.rs:816-824: the body of the loop of `reshift_solution` *)
Definition reshift_one (z : svec) (jv : nat * variable) : svec :=
  let (j, v) := jv in
  let z1 := shift_value z j (- v_shift v) in
  if v_flipped v then
    match sget z1 j with
    | Some x => sset z1 j (- x)
    | None => z1
    end
  else z1.
(** mod.rs:808-825 `reshift_solution` *)
Definition reshift (vars : list variable) (z : svec) : svec :=
  fold_left reshift_one (number_from 0 vars) z.

(** mod.rs:889-933 `compute_solution_value_with_bfs`.  Simplification: values that were computed before
    are computed again instead of being read from the cache `new_solutions`.  [fuel] bounds the depth of
    the recursion through `FunctionOfOthers`. *)
Fixpoint value_with_bfs (fuel : nat) (orig : list (string * original)) (z : svec) (o : nat) : res Qc :=
  match fuel with
  | 0%nat => Fuel
  | S fuel' =>
      let* entry := index orig o in
      match snd entry with
      | Active j => Ok (match sget z j with Some v => v | None => 0 end)
      | ActiveFree jp jn =>
          Ok (match sget z jp, sget z jn with
              | None, None => 0
              | Some p, None => p
              | None, Some n => - n
              | Some p, Some n => p - n
              end)
      | Removed (Solved v) => Ok v
      | Removed (FunctionOf constant coefficients) =>
          let* parts := mapM (fun '(j, c) => let* v := value_with_bfs fuel' orig z j in Ok (v * c)) coefficients in
          Ok (- fold_left Qcplus parts 0 + constant)
      end
  end.

(** mod.rs:840-870 `compute_full_solution_with_reduced_solution` *)
Definition full_solution (fuel : nat) (g : general) (z : svec) : res solution :=
  let* parts := mapM (fun '(j, x) => let* v := index (g_vars g) j in Ok (x * v_cost v)) z in
  let cost := fold_left Qcplus parts 0 + g_fixed g in
  let z' := reshift (g_vars g) z in
  let* values := mapM (value_with_bfs fuel (g_orig g) z') (range 0 (length (g_orig g))) in
  Ok (mk_solution cost (combine (map fst (g_orig g)) values)).

(** mod.rs:755-776 `compute_solution_value`, again without the cache *)
Fixpoint value_if_known (fuel : nat) (orig : list (string * original)) (o : nat) : res (option Qc) :=
  match fuel with
  | 0%nat => Fuel
  | S fuel' =>
      let* entry := index orig o in
      match snd entry with
      | Active _ | ActiveFree _ _ => Ok None
      | Removed (Solved v) => Ok (Some v)
      | Removed (FunctionOf constant coefficients) =>
          let* parts := foldM (fun acc '(j, c) =>
              match acc with
              | None => Ok None
              | Some s => let* v := value_if_known fuel' orig j in
                          Ok (match v with Some v => Some (s + c * v) | None => None end)
              end) coefficients (Some 0) in
          Ok (match parts with Some s => Some (constant - s) | None => None end)
      end
  end.
(** mod.rs:719-740 `compute_solution_where_possible` *)
Definition solution_where_possible (fuel : nat) (g : general) : res general :=
  let* orig := mapM (fun '(o, (name, entry)) =>
      match entry with
      | Removed (FunctionOf _ _) =>
          let* v := value_if_known fuel (g_orig g) o in
          Ok (name, match v with Some v => Removed (Solved v) | None => entry end)
      | _ => Ok (name, entry)
      end) (number_from 0 (g_orig g)) in
  Ok (mk_general (g_objective g) (g_fixed g) (g_rows g) (g_cols g) (g_types g) (g_b g) (g_vars g) orig (g_from g)).
(** mod.rs:786-797 `get_solution` *)
Fixpoint all_solved (l : list (string * original)) : option (list (string * Qc)) :=
  match l with
  | [] => Some []
  | (name, Removed (Solved v)) :: t => option_map (cons (name, v)) (all_solved t)
  | _ :: _ => None
  end.
Definition get_solution (g : general) : option solution :=
  option_map (mk_solution (g_fixed g)) (all_solved (g_orig g)).
