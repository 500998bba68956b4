(** * What MPS files mean: the specification side *)
From Verif Require Export SpecGeneral Mps.
Local Open Scope Qc_scope.

(** ** Decimal literals *)
Definition digit_char (d : nat) : ascii := ascii_of_nat (48 + d).
Definition digit_text (l : list nat) : string := fold_right (fun d t => String (digit_char d) t) EmptyString l.
(** the number that a list of decimal digits stands for *)
Definition decimal (l : list nat) : Z := fold_left (fun acc d => 10 * acc + Z.of_nat d)%Z l 0%Z.
Definition all_digits (l : list nat) : Prop := forall d, In d l -> (d < 10)%nat.
(** an optional minus, digits, and optionally a point and more digits *)
Record literal := mk_literal { lit_minus : bool; lit_whole : list nat; lit_fraction : option (list nat) }.
Definition fraction_of (l : literal) : list nat := match lit_fraction l with Some f => f | None => [] end.
Definition literal_text (l : literal) : string :=
  ((if lit_minus l then "-" else "") ++ digit_text (lit_whole l) ++
   match lit_fraction l with Some f => "." ++ digit_text f | None => "" end)%string.
Definition literal_value (l : literal) : Qc :=
  let v := zq_ (decimal (lit_whole l)) + zq_ (decimal (fraction_of l)) / zq_ (10 ^ Z.of_nat (length (fraction_of l))) in
  if lit_minus l then - v else v.
(** at least one digit, and numerator and denominator fit in 64 bits *)
Definition literal_ok (l : literal) : Prop :=
  all_digits (lit_whole l) /\ all_digits (fraction_of l) /\ (lit_whole l <> [] \/ fraction_of l <> []) /\
  (decimal (lit_whole l ++ fraction_of l) < two64)%Z /\ (10 ^ Z.of_nat (length (fraction_of l)) < two64)%Z.

(** what the code accepts for one of the two parts: nothing, or digits that may follow a plus *)
Definition part (text : string) (z : Z) : Prop :=
  (text = EmptyString /\ z = 0%Z) \/
  exists (plus : bool) l, all_digits l /\ l <> [] /\ text = ((if plus then "+" else "") ++ digit_text l)%string /\ z = decimal l /\ (z < two64)%Z.
(** the texts that the code accepts, without those on which it overflows *)
Definition accepted (text : string) (v : Qc) : Prop :=
  exists (minus : bool) whole z, part whole z /\
    ((text = ((if minus then "-" else "") ++ whole)%string /\ v = (if minus then - zq_ z else zq_ z)) \/
     exists rest y, part rest y /\ text = ((if minus then "-" else "") ++ whole ++ "." ++ rest)%string /\
       let power := (10 ^ Z.of_nat (String.length rest))%Z in
       (power < two64)%Z /\ (z * power + y < two64)%Z /\
       v = (let w := zq_ z + zq_ y / zq_ power in if minus then - w else w)).

(** the texts that consist of acceptable parts, whether or not the arithmetic overflows on them *)
Definition number_shaped (text : string) : Prop :=
  exists (minus : bool) whole z, part whole z /\
    (text = ((if minus then "-" else "") ++ whole)%string \/
     exists rest y, part rest y /\ text = ((if minus then "-" else "") ++ whole ++ "." ++ rest)%string).

(** ** Bounds: mps/mod.rs:159-183 and the comments at convert.rs:207-236 *)
(** what a bound statement asks of a value *)
Definition allows (t : bound_type) (x : Qc) : Prop :=
  match t with
  | LowerContinuous v | LowerInteger v => v <= x
  | UpperContinuous v | UpperInteger v => x <= v
  | Fixed v => x = v
  | Free => True
  | LowerMinusInfinity => x <= 0
  | UpperInfinity => 0 <= x
  | Binary => 0 <= x /\ x <= 1
  | SemiContinuous l u => x = 0 \/ (l <= x /\ x <= u)
  end.
(** the bounds that a statement mentions *)
Definition low_of (t : bound_type) : option Qc :=
  match t with LowerContinuous v | LowerInteger v | Fixed v => Some v | UpperInfinity | Binary => Some 0 | _ => None end.
Definition up_of (t : bound_type) : option Qc :=
  match t with UpperContinuous v | UpperInteger v | Fixed v => Some v | LowerMinusInfinity => Some 0 | Binary => Some 1 | _ => None end.
(** only an upper bound leaves the default lower bound zero in place *)
Definition leaves_lower (t : bound_type) : Prop := match t with UpperContinuous _ | UpperInteger _ => True | _ => False end.
Definition makes_integer (t : bound_type) : Prop := match t with Binary | LowerInteger _ | UpperInteger _ => True | _ => False end.
Definition is_semi (t : bound_type) : Prop := match t with SemiContinuous _ _ => True | _ => False end.
(** the bound statements about a variable *)
Definition stated (m : mps) (j : nat) (t : bound_type) : Prop := In (j, t) (ungroup (m_bounds m)).
(** the right-hand sides and ranges given for a row *)
Definition given_rhs (m : mps) (i : nat) (b : Qc) : Prop := In (i, b) (ungroup (m_rhss m)).
Definition given_range (m : mps) (i : nat) (r : Qc) : Prop := In (i, r) (ungroup (m_ranges m)).
Definition kind_of (m : mps) (i : nat) : relation_kind := row_kind (nth i (m_rows m) (mk_mrow "" KEqual)).

(** ** Rows without a range: every right-hand side holds *)
Definition plain_holds (k : relation_kind) (b v : Qc) : Prop :=
  match k with KLess => v <= b | KEqual => v = b | KGreater => b <= v end.
(** ** Ranges: the table at mps/mod.rs:225-231 *)
Definition range_holds (k : relation_kind) (b r v : Qc) : Prop :=
  match k with
  | KGreater => b <= v /\ v <= b + qabs r
  | KLess => b - qabs r <= v /\ v <= b
  | KEqual => if qneg r then b - qabs r <= v /\ v <= b else b <= v /\ v <= b + qabs r
  end.

(** ** Programs that a parser produces: all indices exist and are in order, no semi-continuous bounds *)
Record mps_ok (m : mps) : Prop := mk_mps_ok {
  mo_costs : increasing_from 0 (map fst (m_costs m));
  mo_cost : forall j c, In (j, c) (m_costs m) -> (j < length (m_columns m))%nat;
  mo_rhs : forall i b, given_rhs m i b -> (i < length (m_rows m))%nat;
  mo_range : forall i r, given_range m i r -> (i < length (m_rows m))%nat;
  mo_bound : forall j t, stated m j t -> (j < length (m_columns m))%nat /\ ~ is_semi t
}.
(** the rules that a program has to meet *)
Record mps_consistent (m : mps) : Prop := mk_mps_consistent {
  mc_free : forall j t, stated m j Free -> stated m j t -> t = Free;
  mc_one_range : NoDup (map fst (ungroup (m_ranges m)));
  mc_range_rhs : forall i r b b', given_range m i r -> given_rhs m i b -> given_rhs m i b' -> b = b';
  mc_equal_rhs : forall i b b', kind_of m i = KEqual -> given_rhs m i b -> given_rhs m i b' -> b = b'
}.
(** equality rows with a positive range and two (equal) right-hand sides *)
Definition repeated_range_rhs (m : mps) : Prop :=
  exists i r, kind_of m i = KEqual /\ given_range m i r /\ 0 < r /\ (1 < length (filter (fun e => Nat.eqb (fst e) i) (ungroup (m_rhss m))))%nat.

(** ** What a program asks *)
Definition mcoefficient (m : mps) (i j : nat) : Qc := den (col_values (nth j (m_columns m) (mk_mcolumn "" false []))) i.
Definition mrow_value (m : mps) (x : vec) (i : nat) : Qc := sum (length (m_columns m)) (fun j => mcoefficient m i j * x j).
Definition mcost (m : mps) (x : vec) : Qc := sum (length (m_columns m)) (fun j => den (m_costs m) j * x j).
(** a row is read with every right-hand side given for it, or zero when there is none *)
Definition mrow_holds (m : mps) (i : nat) (v : Qc) : Prop :=
  forall b, (given_rhs m i b \/ (b = 0 /\ forall b', ~ given_rhs m i b')) ->
    ((forall r, ~ given_range m i r) -> plain_holds (kind_of m i) b v) /\ (forall r, given_range m i r -> range_holds (kind_of m i) b r v).
Definition mvalue_allowed (m : mps) (j : nat) (x : Qc) : Prop :=
  (forall t, stated m j t -> allows t x) /\ ((forall t, stated m j t -> leaves_lower t) -> 0 <= x).
Definition mfeasible (m : mps) (x : vec) : Prop :=
  (forall i, (i < length (m_rows m))%nat -> mrow_holds m i (mrow_value m x i)) /\
  (forall j, (j < length (m_columns m))%nat -> mvalue_allowed m j (x j)).

(** programs that the solver's contract covers: coefficients are non-zero and in order, every range has a right-hand
    side, and no variable has contradictory bounds *)
Record mps_solvable (m : mps) : Prop := mk_mps_solvable {
  ms_ok : mps_ok m;
  ms_columns : forall c, In c (m_columns m) -> wfs (length (m_rows m)) (col_values c);
  ms_ranges : forall i r, given_range m i r -> exists b, given_rhs m i b;
  ms_domain : forall j, (j < length (m_columns m))%nat -> exists x, mvalue_allowed m j x
}.
(** the optimum of a program *)
Definition moptimal (m : mps) (x : vec) : Prop := mfeasible m x /\ forall y, mfeasible m y -> better (m_objective m) (mcost m x) (mcost m y).
Definition munbounded (m : mps) : Prop := (exists x, mfeasible m x) /\ forall bound, exists y, mfeasible m y /\
  match m_objective m with Minimize => mcost m y < bound | Maximize => bound < mcost m y end.
