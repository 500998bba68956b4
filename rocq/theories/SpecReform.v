(** * Other formulations of a program: the specification side (C67) *)
From Verif Require Export SpecUnits.
Local Open Scope Qc_scope.

(** [f2] is [f] with an equation instead of the inequality [r] and a new column [c], at no cost and not negative, that makes
    up the difference *)
Record with_slack (k : relation_kind) (r c : string) (f f2 : file) : Prop := mk_with_slack {
  sk_kind : k <> KEqual;
  sk_row : In (Some k, r) (f_rows f);
  sk_plain : forall w, ~ frange f r w;
  sk_new : ~ In c (names_of_columns f);
  sk_sense : fsense f2 = fsense f;
  sk_rows : f_rows f2 = map (fun '(k', r') => if String.eqb r' r then (Some KEqual, r') else (k', r')) (f_rows f);
  sk_columns : forall c', In c' (names_of_columns f2) <-> c' = c \/ In c' (names_of_columns f);
  sk_coefficients : Permutation ((c, r, match k with KGreater => - (1) | _ => 1 end) :: coefficients f) (coefficients f2);
  sk_rhs : f_rhs f2 = f_rhs f;
  sk_ranges : f_ranges f2 = f_ranges f;
  sk_bounds : f_bounds f2 = f_bounds f
}.
(** [f2] is [f] with the difference of two new columns [p] and [n], which are not negative, instead of the free column [c] *)
Record with_parts (c p n : string) (f f2 : file) : Prop := mk_with_parts {
  pt_column : In c (names_of_columns f);
  pt_free : exists g, In (Free, g, c) (f_bounds f);
  pt_new_p : ~ In p (names_of_columns f);
  pt_new_n : ~ In n (names_of_columns f);
  pt_differ : p <> n;
  pt_sense : fsense f2 = fsense f;
  pt_rows : f_rows f2 = f_rows f;
  pt_columns : forall c', In c' (names_of_columns f2) <-> c' = p \/ c' = n \/ (c' <> c /\ In c' (names_of_columns f));
  pt_coefficients : Permutation (flat_map (fun '(c', r, v) => if String.eqb c' c then [(p, r, v); (n, r, - v)] else [(c', r, v)]) (coefficients f)) (coefficients f2);
  pt_rhs : f_rhs f2 = f_rhs f;
  pt_ranges : f_ranges f2 = f_ranges f;
  pt_bounds : forall t g c', In (t, g, c') (f_bounds f2) <-> c' <> c /\ In (t, g, c') (f_bounds f)
}.
(** [f2] is [f] with two inequalities [r] and [r'] instead of the constraint [r], which keeps the value of the row between [lo] and [hi] *)
Record with_two_rows (k : relation_kind) (r r' : string) (lo hi : Qc) (f f2 : file) : Prop := mk_with_two_rows {
  tr_row : In (Some k, r) (f_rows f);
  tr_between : forall v, frow_holds f k r v <-> lo <= v /\ v <= hi;
  tr_new : ~ In r' (names_of_rows f);
  tr_sense : fsense f2 = fsense f;
  tr_rows : forall k' n, In (k', n) (f_rows f2) <-> (k' = Some KLess /\ n = r) \/ (k' = Some KGreater /\ n = r') \/ (n <> r /\ In (k', n) (f_rows f));
  tr_columns : forall c, In c (names_of_columns f2) <-> In c (names_of_columns f);
  tr_coefficients : Permutation (coefficients f ++ map (fun '(c, _, v) => (c, r', v)) (filter (fun '(_, n, _) => String.eqb n r) (coefficients f))) (coefficients f2);
  tr_rhs_hi : frhs f2 r hi;
  tr_rhs_lo : frhs f2 r' lo;
  tr_rhs : forall n b, n <> r -> n <> r' -> frhs f2 n b <-> frhs f n b;
  tr_ranges : forall n w, frange f2 n w <-> n <> r /\ frange f n w;
  tr_bounds : f_bounds f2 = f_bounds f
}.
(** [f2] is [f] with an inequality [r] for the column [c] alone instead of its upper bound [u] *)
Record with_bound_row (c r : string) (u : Qc) (f f2 : file) : Prop := mk_with_bound_row {
  br_column : In c (names_of_columns f);
  br_bound : exists g, In (UpperContinuous u, g, c) (f_bounds f);
  br_new : ~ In r (names_of_rows f);
  br_sense : fsense f2 = fsense f;
  br_rows : forall k n, In (k, n) (f_rows f2) <-> (k = Some KLess /\ n = r) \/ In (k, n) (f_rows f);
  br_columns : forall c', In c' (names_of_columns f2) <-> In c' (names_of_columns f);
  br_coefficients : Permutation ((c, r, 1) :: coefficients f) (coefficients f2);
  br_rhs_new : frhs f2 r u;
  br_rhs : forall n b, n <> r -> frhs f2 n b <-> frhs f n b;
  br_ranges : forall n w, frange f2 n w <-> frange f n w;
  br_bounds : forall t g c', In (t, g, c') (f_bounds f2) <-> In (t, g, c') (f_bounds f) /\ ~ (c' = c /\ t = UpperContinuous u)
}.
(** [f2] is [f] with the number [v] instead of the column [c], which is fixed at [v]: what it adds to a row is subtracted from
    the right-hand side *)
Record with_value (c : string) (v : Qc) (f f2 : file) : Prop := mk_with_value {
  wv_column : In c (names_of_columns f);
  wv_fixed : forall x, fallowed f c x <-> x = v;
  wv_sense : fsense f2 = fsense f;
  wv_rows : f_rows f2 = f_rows f;
  wv_columns : forall c', In c' (names_of_columns f2) <-> c' <> c /\ In c' (names_of_columns f);
  wv_coefficients : Permutation (filter (fun '(c', _, _) => negb (String.eqb c' c)) (coefficients f)) (coefficients f2);
  wv_rhs : forall k r b, In (Some k, r) (f_rows f) -> frhs f2 r (b - coefficient_of f r c * v) <-> frhs f r b;
  wv_ranges : forall r w, frange f2 r w <-> frange f r w;
  wv_bounds : forall t g c', In (t, g, c') (f_bounds f2) <-> c' <> c /\ In (t, g, c') (f_bounds f)
}.
