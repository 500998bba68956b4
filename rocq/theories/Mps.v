(** * MPS programs: model of /repo/src/io/mps/mod.rs, /repo/src/io/mps/number/parse.rs and
      /repo/src/io/mps/convert.rs

    Reading numbers and turning the content of an MPS file into a general form program.  Error messages are
    left out.  Strings are the bytes of their UTF-8 encoding, as in Rust. *)
From Coq Require Export Ascii.
From Verif Require Export GeneralForm.
Local Open Scope Qc_scope.

(** ** Results: io/error.rs.  [Syntax] is `Parse`, [Inconsistent] is `Inconsistency`; [Crashed] is a panic. *)
Inductive error := Syntax | Inconsistent.
Inductive out (A : Type) := Got (a : A) | Rejected (e : error) | Crashed.
Arguments Got {A} a. Arguments Rejected {A} e. Arguments Crashed {A}.
Definition obind {A B} (x : out A) (f : A -> out B) : out B :=
  match x with Got a => f a | Rejected e => Rejected e | Crashed => Crashed end.
Notation "'let~' x ':=' a 'in' b" := (obind a (fun x => b)) (at level 200, x pattern, a at level 100, b at level 200).
Fixpoint foldO {A S} (f : S -> A -> out S) (l : list A) (s : S) : out S :=
  match l with [] => Got s | a :: t => let~ s := f s a in foldO f t s end.
(** indexing a slice *)
Definition oindex {A} (l : list A) (i : nat) : out A := match nth_error l i with Some a => Got a | None => Crashed end.

(** ** Numbers: number/parse.rs *)
(** Whether arithmetic overflow is checked (debug builds: a panic) or wraps around (release builds). *)
Inductive build := Checked | Wrapping.
Definition two64 : Z := 18446744073709551616%Z.
Definition u64 (b : build) (z : Z) : out Z :=
  if (z <? two64)%Z then Got z else match b with Checked => Crashed | Wrapping => Got (z mod two64)%Z end.
(** `str::parse::<u64>` of the standard library: an optional plus, then digits only; too large numbers are
    refused *)
Definition digit_of (c : ascii) : option Z :=
  let k := Z.of_N (N_of_ascii c) in if ((48 <=? k) && (k <=? 57))%Z then Some (k - 48)%Z else None.
Fixpoint digits (acc : Z) (text : string) : option Z :=
  match text with
  | EmptyString => Some acc
  | String c t => match digit_of c with Some d => digits (10 * acc + d)%Z t | None => None end
  end.
Definition in_u64 (o : option Z) : option Z := match o with Some z => if (z <? two64)%Z then Some z else None | None => None end.
Definition str_to_u64 (text : string) : option Z :=
  match text with
  | EmptyString => None
  | String c t => if Ascii.eqb c "+" then match t with EmptyString => None | _ => in_u64 (digits 0 t) end else in_u64 (digits 0 text)
  end.
(** parse.rs:83-93: the closure `parse` *)
Definition parse_part (text : string) : out Z :=
  match text with
  | EmptyString => Got 0%Z
  | _ => match str_to_u64 text with Some z => Got z | None => Rejected Syntax end
  end.
(** `str::find('.')`, giving the texts before and after *)
Fixpoint split_point (text : string) : string * option string :=
  match text with
  | EmptyString => (EmptyString, None)
  | String c t => if Ascii.eqb c "." then (EmptyString, Some t) else let (a, b) := split_point t in (String c a, b)
  end.
(** parse.rs:67-75 `Raw`; its sign `Zero` is the case [r_integer = 0] *)
Record raw := mk_raw { r_minus : bool; r_integer : Z; r_steps : nat }.
(** parse.rs:77-118 `Raw::try_from`.  `&text[0..1]` panics when the text is empty or starts with a character
    of more than one byte.  Texts of 2^32 bytes and more are not considered. *)
Definition raw_from (b : build) (text : string) : out raw :=
  match text with
  | EmptyString => Crashed
  | String c t =>
      if (128 <=? Z.of_N (N_of_ascii c))%Z then Crashed else
      let (minus, text) := if Ascii.eqb c "-" then (true, t) else (false, text) in
      match split_point text with
      | (whole, None) => let~ z := parse_part whole in Got (mk_raw minus z 0)
      | (whole, Some rest) =>
          let steps := String.length rest in
          let~ integer := parse_part whole in
          let~ mantissa := parse_part rest in
          let~ power := u64 b (10 ^ Z.of_nat steps) in
          let~ product := u64 b (integer * power) in
          let~ sum := u64 b (product + mantissa) in
          Got (mk_raw minus sum steps)
      end
  end.
(** parse.rs:55-65 `From<Raw> for Rational64`.  `new_signed` of the number library is taken to give the exact
    fraction, and to panic when the denominator is zero. *)
Definition zq_ (z : Z) : Qc := Q2Qc (inject_Z z).
Definition raw_to_number (b : build) (r : raw) : out Qc :=
  let~ denominator := u64 b (10 ^ Z.of_nat (r_steps r)) in
  if (denominator =? 0)%Z then Crashed else
  let v := zq_ (r_integer r) / zq_ denominator in
  Got (if r_minus r then - v else v).
(** parse.rs:46-53 `Rational64::parse` *)
Definition parse_number (b : build) (text : string) : out Qc := let~ r := raw_from b text in raw_to_number b r.

(** ** The content of a file: io/mps/mod.rs *)
(** elements.rs:28-41 `ConstraintRelation` *)
Inductive relation_kind := KLess | KEqual | KGreater.
(** mps/mod.rs:154-183 `BoundType` *)
Inductive bound_type :=
| LowerContinuous (v : Qc) | UpperContinuous (v : Qc) | Fixed (v : Qc) | Free | LowerMinusInfinity | UpperInfinity
| Binary | LowerInteger (v : Qc) | UpperInteger (v : Qc) | SemiContinuous (l u : Qc).
(** mps/mod.rs:186-192 `Row`, 197-205 `Column`; 211-219 `Rhs`, 232-239 `Range` and 243-250 `Bound` are groups *)
Record mrow := mk_mrow { row_name : string; row_kind : relation_kind }.
Record mcolumn := mk_mcolumn { col_name : string; col_integer : bool; col_values : list (nat * Qc) }.
Record group (A : Type) := mk_group { grp_name : string; grp_values : list (nat * A) }.
Arguments mk_group {A}. Arguments grp_name {A}. Arguments grp_values {A}.
(** mps/mod.rs:50-80 `MPS` *)
Record mps := mk_mps {
  m_name : string;
  m_objective : direction;
  m_cost_name : string;
  m_costs : list (nat * Qc);
  m_rows : list mrow;
  m_columns : list mcolumn;
  m_rhss : list (group Qc);
  m_ranges : list (group Qc);
  m_bounds : list (group bound_type)
}.
Definition ungroup {A} (l : list (group A)) : list (nat * A) := flat_map grp_values l.

(** ** Conversion: io/mps/convert.rs.  The numbers are exact, so that `into` is the identity. *)
(** `next_if` on a peekable iterator over index value pairs *)
Definition next_if {A} (k : nat) (l : list (nat * A)) : option A * list (nat * A) :=
  match l with (j, v) :: t => if Nat.eqb j k then (Some v, t) else (None, l) | [] => (None, []) end.
(** convert.rs:105-121: the variables, with the costs that come next *)
Fixpoint variables_from (j : nat) (columns : list mcolumn) (costs : list (nat * Qc)) : list variable :=
  match columns with
  | [] => []
  | c :: t =>
      let (cost, rest) := next_if j costs in
      mk_var (col_integer c) (match cost with Some v => v | None => 0 end) None None 0 false :: variables_from (S j) t rest
  end.
(** convert.rs:271-282 `replace_existing_with`; [d] is `Greater` for lower bounds and `Less` for upper ones *)
Inductive side_of := LowerSide | UpperSide.
Definition replace_existing_with (o : option Qc) (new : Qc) (d : side_of) : Qc :=
  match o with
  | Some old => if (match d with LowerSide => qltb old new | UpperSide => qltb new old end) then new else old
  | None => new
  end.
Definition lower_with (v : variable) (x : Qc) : variable :=
  mk_var (v_integer v) (v_cost v) (Some (replace_existing_with (v_lower v) x LowerSide)) (v_upper v) (v_shift v) (v_flipped v).
Definition upper_with (v : variable) (x : Qc) : variable :=
  mk_var (v_integer v) (v_cost v) (v_lower v) (Some (replace_existing_with (v_upper v) x UpperSide)) (v_shift v) (v_flipped v).
Definition make_integer (v : variable) : variable :=
  mk_var true (v_cost v) (v_lower v) (v_upper v) (v_shift v) (v_flipped v).
(** convert.rs:202-261 `process_bound`: the variable, whether it still needs a default lower bound, and whether
    it is free *)
Definition process_bound (t : bound_type) (v : variable) : out (variable * bool * bool) :=
  match t with
  | LowerContinuous x => Got (lower_with v x, false, false)
  | UpperContinuous x => Got (upper_with v x, true, false)
  | Fixed x => Got (upper_with (lower_with v x) x, false, false)
  | Free => match v_lower v, v_upper v with None, None => Got (v, false, true) | _, _ => Rejected Inconsistent end
  | LowerMinusInfinity => Got (upper_with v 0, false, false)
  | UpperInfinity => Got (lower_with v 0, false, false)
  | Binary => Got (make_integer (upper_with (lower_with v 0) 1), false, false)
  | LowerInteger x => Got (make_integer (lower_with v x), false, false)
  | UpperInteger x => Got (make_integer (upper_with v x), true, false)
  | SemiContinuous _ _ => Crashed
  end.
(** convert.rs:157-169: a variable with its `needs_default_lower_bound` and `variable_is_free` flags *)
Definition bound_state : Type := variable * bool * bool.
Definition process_entry (s : list bound_state) (e : nat * bound_type) : out (list bound_state) :=
  let (j, t) := e in
  let~ st := oindex s j in
  let '(v, needs, free) := st in
  let~ r := process_bound t v in
  let '(v', needs', free') := r in
  Got (upd s j (v', needs && needs', free || free')%bool).
Definition has_bound (v : variable) : bool := match v_lower v, v_upper v with None, None => false | _, _ => true end.
(** convert.rs:290-305 `fill_in_default_lower_bounds` *)
Definition fill_default (st : bound_state) : variable :=
  let '(v, needs, _) := st in
  if (needs : bool) then mk_var (v_integer v) (v_cost v) (Some 0) (v_upper v) (v_shift v) (v_flipped v) else v.
(** convert.rs:145-182 `process_bounds` *)
Definition process_bounds (vars : list variable) (bounds : list (group bound_type)) : out (list variable) :=
  let~ s := foldO process_entry (ungroup bounds) (map (fun v => (v, true, false)) vars) in
  if existsb (fun '(v, _, free) => free && has_bound v)%bool s then Rejected Inconsistent
  else Got (map fill_default s).
(** convert.rs:338-388 `compute_ranges` *)
Fixpoint has_duplicate (l : list nat) : bool := match l with a :: t => memb a t || has_duplicate t | [] => false end.
Definition values_at {A} (i : nat) (l : list (nat * A)) : list A := map snd (filter (fun e => Nat.eqb (fst e) i) l).
Definition all_same (l : list Qc) : bool := match l with [] => true | a :: t => forallb (qeqb a) t end.
Definition compute_ranges (rhss ranges : list (group Qc)) (nr_rows : nat) : out (list (nat * Qc)) :=
  match ranges with
  | [] => Got []
  | _ =>
      let range_rows := sort_by fst (ungroup ranges) in
      if has_duplicate (map fst range_rows) then Rejected Inconsistent else
      if existsb (fun e => Nat.leb nr_rows (fst e)) (ungroup rhss) then Crashed else
      if existsb (fun e => negb (all_same (values_at (fst e) (ungroup rhss)))) range_rows
      then Rejected Inconsistent else Got range_rows
  end.
(** convert.rs:401-423 `compute_constraint_types` *)
Definition plain (k : relation_kind) : rel := match k with KLess => Less | KEqual => Equal | KGreater => Greater end.
Fixpoint types_from (i : nat) (rows : list mrow) (ranges : list (nat * Qc)) : list rel :=
  match rows with
  | [] => []
  | row :: t =>
      let (o, rest) := next_if i ranges in
      match o with Some r => if qzero r then Equal else Range r | None => plain (row_kind row) end :: types_from (S i) t rest
  end.
(** convert.rs:445-509 `compute_b`: the loop, on the right-hand sides found so far and the constraint types *)
Definition b_step (rows : list mrow) (st : list (option Qc) * list rel) (e : nat * Qc) : out (list (option Qc) * list rel) :=
  let (b, types) := st in
  let (i, value) := e in
  let~ current := oindex b i in
  let~ row := oindex rows i in
  match current with
  | None =>
      let~ t := oindex types i in
      match t with
      | Range r =>
          let size := if qneg r then - r else r in
          let bound := match row_kind row with
                       | KGreater => value + size
                       | KLess => value
                       | KEqual => if qneg r then value else value + size
                       end in
          Got (upd b i (Some bound), upd types i (Range size))
      | _ => Got (upd b i (Some value), types)
      end
  | Some current =>
      match row_kind row with
      | KEqual => if qeqb value current then Got st else Rejected Inconsistent
      | KGreater => Got (if qltb current value then upd b i (Some value) else b, types)
      | KLess => Got (if qltb value current then upd b i (Some value) else b, types)
      end
  end.
Definition compute_b (rhss : list (group Qc)) (types : list rel) (rows : list mrow) : out (list Qc * list rel) :=
  let~ st := foldO (b_step rows) (ungroup rhss) (repeat None (length rows), types) in
  Got (map (fun o => match o with Some v => v | None => 0 end) (fst st), snd st).
(** convert.rs:315-332 `compute_constraint_info` *)
Definition compute_constraint_info (rows : list mrow) (rhss ranges : list (group Qc)) : out (list rel * list Qc) :=
  let~ ranges := compute_ranges rhss ranges (length rows) in
  let~ r := compute_b rhss (types_from 0 rows ranges) rows in
  Got (snd r, fst r).
(** convert.rs:51-73 `try_into`, 92-132 `compute_variable_info` *)
Definition to_general (m : mps) : out general :=
  let~ vars := process_bounds (variables_from 0 (m_columns m) (m_costs m)) (m_bounds m) in
  let~ info := compute_constraint_info (m_rows m) (m_rhss m) (m_ranges m) in
  Got (new_general (m_objective m) (length (m_rows m)) (map col_values (m_columns m)) (fst info) (snd info) vars
         (map col_name (m_columns m)) 0).
