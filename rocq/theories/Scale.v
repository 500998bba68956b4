(** * Scaling: model of /repo/src/data/linear_program/general_form/presolve/scale

    The factorization of numbers (`NonZeroFactorizable::factorize` of the external crate relp_num) is the parameter
    [fac]: a list of factors with their powers.  Powers are integers: overflow of `i32` is not modelled.  A
    `FIFOSet` (external crate fifo_set) is a queue to which an element it already contains is not added again.
    Indices of rows that occur in the columns are checked once, in [build_index]; reads at indices that come from
    enumerating rows and columns are total ([nth]). *)
From Verif Require Export Pipeline.

(** ** Applying a scaling *)
(** scale/mod.rs:87-97 `Scaling` *)
Record scaling := mk_scaling { sc_cost : Qc; sc_rows : list Qc; sc_cols : list Qc }.
(** scale/mod.rs:104-114 `Scaling::scale_back` on the entries of a sparse vector *)
Definition scale_back_solution (sc : scaling) (v : svec) : res svec :=
  mapM (fun '(j, x) => let* f := index (sc_cols sc) j in Ok (j, x * f)) v.
(** scale/mod.rs:138-157: one column and its variable *)
Definition scale_column (op inverse_op : Qc -> Qc -> Qc) (sc : scaling) (f : Qc) (column : svec) : res svec :=
  mapM (fun '(i, x) => let* r := index (sc_rows sc) i in Ok (i, op x (r * f))) column.
Definition scale_variable (op inverse_op : Qc -> Qc -> Qc) (sc : scaling) (f : Qc) (v : variable) : variable :=
  mk_var (v_integer v) (op (v_cost v) (sc_cost sc * f)) (option_map (fun x => inverse_op x f) (v_lower v))
    (option_map (fun x => inverse_op x f) (v_upper v)) (v_shift v) (v_flipped v).
Fixpoint scale_columns (op inverse_op : Qc -> Qc -> Qc) (sc : scaling) (j : nat) (columns : list svec) (vars : list variable) :
    res (list svec * list variable) :=
  match columns with
  | [] => Ok ([], vars)
  | column :: columns =>
      let* f := index (sc_cols sc) j in
      match vars with
      | [] => Panic
      | v :: vars =>
          let* column := scale_column op inverse_op sc f column in
          let* r := scale_columns op inverse_op sc (S j) columns vars in
          Ok (column :: fst r, scale_variable op inverse_op sc f v :: snd r)
      end
  end.
(** scale/mod.rs:159-166: the rows *)
Definition scale_type (op : Qc -> Qc -> Qc) (f : Qc) (t : rel) : rel := match t with Range r => Range (op r f) | _ => t end.
Fixpoint scale_rows (op : Qc -> Qc -> Qc) (sc : scaling) (i : nat) (b : list Qc) (types : list rel) : res (list Qc * list rel) :=
  match b with
  | [] => Ok ([], types)
  | x :: b =>
      let* f := index (sc_rows sc) i in
      match types with
      | [] => Panic
      | t :: types => let* r := scale_rows op sc (S i) b types in Ok (op x f :: fst r, scale_type op f t :: snd r)
      end
  end.
(** scale/mod.rs:122-167 `scale` *)
Definition apply_scaling (op inverse_op : Qc -> Qc -> Qc) (g : general) (sc : scaling) : res general :=
  let* c := scale_columns op inverse_op sc 0 (g_cols g) (g_vars g) in
  let* r := scale_rows op sc 0 (g_b g) (g_types g) in
  Ok (mk_general (g_objective g) (g_fixed g) (g_rows g) (fst c) (snd r) (fst r) (snd c) (g_orig g) (g_from g)).

(** ** Factorization *)
(** rational/mod.rs:72-76 `Factorization` *)
Definition factorization := list (Z * Z).
(** rational/mod.rs:78-112 `GeneralFormFactorization` *)
Record factored := mk_factored {
  fa_factors : list Z;
  fa_b : list (option factorization);
  fa_c : list (option factorization);
  fa_bounds : list (option factorization * option factorization);
  fa_constraints : list (list (nat * factorization))
}.
(** collecting in a `HashSet` and sorting (rational/mod.rs:596-598, 644-645) *)
Fixpoint add_factor (f : Z) (l : list Z) : list Z :=
  match l with [] => [f] | a :: t => if (f =? a)%Z then l else if (f <? a)%Z then f :: l else a :: add_factor f t end.
Definition collect (l : list factorization) : list Z := fold_right add_factor [] (map fst (concat l)).
Definition entries {A} (l : list (option A)) : list A := flat_map (fun o => match o with Some x => [x] | None => [] end) l.
(** rational/mod.rs:595-648 `factorize` *)
Section Factorize.
Variable fac : Qc -> factorization.
Definition factorize_value (v : Qc) : option factorization := if qzero v then None else Some (fac v).
Definition factorize_bound (v : option Qc) : option factorization := match v with Some v => factorize_value v | None => None end.
Definition factorize (g : general) : factored :=
  let b := map factorize_value (g_b g) in
  let c := map (fun v => factorize_value (v_cost v)) (g_vars g) in
  let bounds := map (fun v => (factorize_bound (v_lower v), factorize_bound (v_upper v))) (g_vars g) in
  let constraints := map (map (fun '(i, v) => (i, fac v))) (g_cols g) in
  mk_factored (collect (entries b ++ entries c ++ entries (map fst bounds) ++ entries (map snd bounds) ++ concat (map (map snd) constraints)))
    b c bounds constraints.
End Factorize.

(** ** The search for one factor *)
(** rational/mod.rs:521-531 `initial_exponent`: the power of the factor, which is the last one if it occurs *)
Definition last_entry (l : factorization) : option (Z * Z) := nth_error l (length l - 1).
Definition initial_exponent (factor : Z) (l : factorization) : Z :=
  match last_entry l with Some (f, p) => if (f =? factor)%Z then p else 0%Z | None => 0%Z end.
(** rational/mod.rs:466-487 `count_positive` and 384-407 `count_negative`, for the new exponent [e]; both weights are
    one (rational/mod.rs:507-516) *)
Definition count_positive (e : Z) (acc : Z * Z) : Z * Z :=
  let (inc, dec) := acc in
  match (e ?= 0)%Z with Lt => (inc - 1, dec + 1) | Eq => (inc + 1, dec + 1) | Gt => (inc + 1, dec - 1) end%Z.
Definition count_negative (e : Z) (acc : Z * Z) : Z * Z :=
  let (inc, dec) := acc in
  match (e ?= 0)%Z with Lt => (inc + 1, dec - 1) | Eq => (inc + 1, dec + 1) | Gt => (inc - 1, dec + 1) end%Z.
(** the loops at rational/mod.rs:259-311, 335-374 and 422-455: [count] gives the changes in penalty *)
Fixpoint improve (fuel : nat) (count : Z -> Z * Z) (change : Z) (made : bool) : res (Z * bool) :=
  match fuel with
  | O => Fuel
  | S fuel =>
      let (inc, dec) := count change in
      let change' := if (inc <? 0)%Z then (change + 1)%Z else change in
      let change' := if (dec <? 0)%Z then (change' - 1)%Z else change' in
      if (inc <? 0)%Z || (dec <? 0)%Z then improve fuel count change' true else Ok (change, made)
  end.
(** rational/mod.rs:580-585 `RowToIncrement`; [None] is the cost row *)
Definition row_item := option nat.
Definition row_item_eqb (a b : row_item) : bool :=
  match a, b with None, None => true | Some i, Some j => Nat.eqb i j | _, _ => false end.
Definition push_row (r : row_item) (q : list row_item) : list row_item := if existsb (row_item_eqb r) q then q else q ++ [r].
Definition push_column (j : nat) (q : list nat) : list nat := if memb j q then q else q ++ [j].
(** the changes in power and the queues (rational/mod.rs:180-190) *)
Record search := mk_search { se_cost : Z; se_rows : list Z; se_cols : list Z; se_rowq : list row_item; se_colq : list nat }.
Section Single.
Variable factor : Z.
Variable fa : factored.
Variable row_index : list (list (nat * nat)).
Notation exponent := (initial_exponent factor).
Definition zat (l : list Z) (i : nat) : Z := nth i l 0%Z.
Definition column_of (j : nat) : list (nat * factorization) := nth j (fa_constraints fa) [].
(** rational/mod.rs:259-292 *)
Definition count_bound (o : option factorization) (change : Z) (acc : Z * Z) : Z * Z :=
  match o with Some l => count_negative (exponent l - change) acc | None => acc end.
Definition count_column (j : nat) (cost_change : Z) (rows : list Z) (change : Z) : Z * Z :=
  let acc := match nth j (fa_c fa) None with Some l => count_positive (exponent l + cost_change + change) (0, 0)%Z | None => (0, 0)%Z end in
  let acc := fold_left (fun acc '(i, l) => count_positive (exponent l + zat rows i + change) acc) (column_of j) acc in
  let bounds := nth j (fa_bounds fa) (None, None) in
  count_bound (snd bounds) change (count_bound (fst bounds) change acc).
(** rational/mod.rs:247-318 `update_column` *)
Definition update_column (fuel : nat) (s : search) (j : nat) : res search :=
  let* r := improve fuel (count_column j (se_cost s) (se_rows s)) (zat (se_cols s) j) false in
  let rowq := if snd r then fold_left (fun q '(i, _) => push_row (Some i) q) (column_of j) (se_rowq s) else se_rowq s in
  Ok (mk_search (se_cost s) (se_rows s) (upd (se_cols s) j (fst r)) rowq (se_colq s)).
(** rational/mod.rs:336-356 *)
Definition entry_at (j k : nat) : factorization := snd (nth k (column_of j) (0%nat, [])).
Definition count_row (i : nat) (cols : list Z) (change : Z) : Z * Z :=
  let acc := fold_left (fun acc '(j, k) => count_positive (exponent (entry_at j k) + change + zat cols j) acc) (nth i row_index []) (0, 0)%Z in
  match nth i (fa_b fa) None with Some l => count_positive (exponent l + change + 0) acc | None => acc end.
(** rational/mod.rs:324-381 `do_constraint` *)
Definition do_constraint (fuel : nat) (s : search) (i : nat) : res search :=
  let* r := improve fuel (count_row i (se_cols s)) (zat (se_rows s) i) false in
  let colq := if snd r then fold_left (fun q '(j, _) => push_column j q) (nth i row_index []) (se_colq s) else se_colq s in
  Ok (mk_search (se_cost s) (upd (se_rows s) i (fst r)) (se_cols s) (se_rowq s) colq).
(** rational/mod.rs:423-437 *)
Definition count_cost (cols : list Z) (change : Z) : Z * Z :=
  fold_left (fun acc '(j, o) => match o with Some l => count_positive (exponent l + change + zat cols j) acc | None => acc end) (number_from 0 (fa_c fa)) (0, 0)%Z.
(** rational/mod.rs:413-463 `do_cost` *)
Definition do_cost (fuel : nat) (s : search) : res search :=
  let* r := improve fuel (count_cost (se_cols s)) (se_cost s) false in
  let colq := if snd r then fold_left (fun q '(j, o) => match o with Some _ => push_column j q | None => q end) (number_from 0 (fa_c fa)) (se_colq s) else se_colq s in
  Ok (mk_search (fst r) (se_rows s) (se_cols s) (se_rowq s) colq).
(** rational/mod.rs:223-241 `constraint_or_variable` and the body of the loop at 193-212; [None] when both queues are
    empty *)
Definition search_step (fuel : nat) (s : search) : res (option search) :=
  match se_rowq s, se_colq s with
  | [], [] => Ok None
  | rowq, colq =>
      if (length colq * length (fa_b fa) <? length rowq * length (fa_c fa))%nat then
        match rowq with
        | [] => Panic
        | r :: rowq =>
            let s := mk_search (se_cost s) (se_rows s) (se_cols s) rowq colq in
            let* s := match r with Some i => do_constraint fuel s i | None => do_cost fuel s end in
            Ok (Some s)
        end
      else
        match colq with
        | [] => Panic
        | j :: colq => let* s := update_column fuel (mk_search (se_cost s) (se_rows s) (se_cols s) rowq colq) j in Ok (Some s)
        end
  end.
Fixpoint search_loop (fuel : nat) (s : search) : res search :=
  match fuel with
  | O => Fuel
  | S fuel' => let* r := search_step fuel s in match r with None => Ok s | Some s => search_loop fuel' s end
  end.
(** rational/mod.rs:175-216 `solve_single` *)
Definition start_search : search :=
  mk_search 0 (repeat 0%Z (length (fa_b fa))) (repeat 0%Z (length (fa_c fa)))
    (map Some (range 0 (length (fa_b fa))) ++ [None]) (range 0 (length (fa_c fa))).
Definition solve_single (fuel : nat) : res search := search_loop fuel start_search.
End Single.

(** ** All factors *)
(** rational/mod.rs:155-165 `build_index` *)
Definition build_index (fa : factored) : res (list (list (nat * nat))) :=
  foldM (fun ix '(j, column) =>
      foldM (fun ix '(k, (i, _)) => let* row := index ix i in set_index ix i (row ++ [(j, k)])) (number_from 0 column) ix)
    (number_from 0 (fa_constraints fa)) (repeat [] (length (fa_b fa))).
(** rational/mod.rs:533-573 `remove_factor_info` *)
Definition remove_factor (factor : Z) (l : factorization) : factorization :=
  match last_entry l with Some (f, _) => if (f =? factor)%Z then removelast l else l | None => l end.
Definition remove_factor_info (factor : Z) (fa : factored) : factored :=
  let r := option_map (remove_factor factor) in
  mk_factored (removelast (fa_factors fa)) (map r (fa_b fa)) (map r (fa_c fa)) (map (fun '(l, u) => (r l, r u)) (fa_bounds fa))
    (map (map (fun '(i, l) => (i, remove_factor factor l))) (fa_constraints fa)).
(** rational/mod.rs:136-148 `solve`: the last factor first.  The third argument is the list of the factors in
    the opposite order. *)
Definition factor_result : Type := Z * ((Z * list Z) * list Z).
Fixpoint solve_factors (fuel : nat) (row_index : list (list (nat * nat))) (factors : list Z) (fa : factored) : res (list factor_result) :=
  match factors with
  | [] => Ok []
  | factor :: factors =>
      let* s := solve_single factor fa row_index fuel in
      let* rest := solve_factors fuel row_index factors (remove_factor_info factor fa) in
      Ok ((factor, ((se_cost s, se_rows s), se_cols s)) :: rest)
  end.
Definition solve_scaling (fuel : nat) (fa : factored) : res (list factor_result) :=
  let* row_index := build_index fa in solve_factors fuel row_index (rev (fa_factors fa)) fa.

(** ** Combining: rational/mod.rs:652-731 `combine_factors` *)
(** multiplying, or dividing for a negative power, one factor at a time *)
Definition times_power (factor : Z) (power : Z) (x : Qc) : Qc :=
  match power with
  | Z0 => x
  | Zpos p => Nat.iter (Pos.to_nat p) (fun x => x * zq factor) x
  | Zneg p => Nat.iter (Pos.to_nat p) (fun x => x / zq factor) x
  end.
Fixpoint zip_with {A B C} (f : A -> B -> C) (a : list A) (b : list B) : list C :=
  match a, b with x :: a, y :: b => f x y :: zip_with f a b | _, _ => [] end.
(** columns are divided by the factor when the power is positive (lines 706-722) *)
Definition combine_one (sc : scaling) (r : factor_result) : scaling :=
  let '(factor, ((cost, rows), cols)) := r in
  mk_scaling (times_power factor cost (sc_cost sc)) (zip_with (fun x p => times_power factor p x) (sc_rows sc) rows)
    (zip_with (fun x p => times_power factor (- p) x) (sc_cols sc) cols).
Definition combine_factors (l : list factor_result) : res scaling :=
  match l with
  | [] => Panic
  | (_, ((_, rows), cols)) :: _ => Ok (fold_left combine_one l (mk_scaling 1 (repeat 1 (length rows)) (repeat 1 (length cols))))
  end.

(** ** rational/mod.rs:52-67 `Scalable::scale` and `Scalable::scale_back` *)
Definition scale (fac : Qc -> factorization) (fuel : nat) (g : general) : res (general * scaling) :=
  let* l := solve_scaling fuel (factorize fac g) in
  let* sc := combine_factors l in
  let* g := apply_scaling Qcmult Qcdiv g sc in
  Ok (g, sc).
Definition scale_back (g : general) (sc : scaling) : res general := apply_scaling Qcdiv Qcmult g sc.
