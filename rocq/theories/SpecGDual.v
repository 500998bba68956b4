(** * Certificates for the answers to a general form program: the specification side

    A certificate is one number for each constraint, or a direction.  What it proves can be checked by multiplying and
    adding numbers. *)
From Verif Require Export SpecGeneral.
Local Open Scope Qc_scope.

(** the least value of [y z] over all [z] between the bounds, if there is one *)
Definition least (lower upper : option Qc) (y : Qc) : option Qc :=
  if Qc_eq_dec y 0 then Some 0
  else if Qclt_le_dec 0 y then option_map (Qcmult y) lower else option_map (Qcmult y) upper.
(** the values that a constraint allows for its left-hand side *)
Definition row_lower (t : rel) (b : Qc) : option Qc :=
  match t with Equal => Some b | Range r => Some (b - r) | Less => None | Greater => Some b end.
Definition row_upper (t : rel) (b : Qc) : option Qc :=
  match t with Equal => Some b | Range _ => Some b | Less => Some b | Greater => None end.

(** [c x] is the sum of [y_i] times the value of row [i], over all rows, and of [(c_j - sum_i y_i a_ij) x_j], over all
    variables.  With the least values of all these products added up, [y] proves that [c x >= v]. *)
Definition gproves (g : general) (c y : vec) (v : Qc) : Prop :=
  exists rows vars : vec,
    (forall i, (i < g_rows g)%nat -> least (row_lower (row_type g i) (nthq (g_b g) i)) (row_upper (row_type g i) (nthq (g_b g) i)) (y i) = Some (rows i)) /\
    (forall j, (j < nr_vars g)%nat ->
       least (v_lower (var g j)) (v_upper (var g j)) (c j - sum (g_rows g) (fun i => y i * coefficient g i j)) = Some (vars j)) /\
    sum (g_rows g) rows + sum (nr_vars g) vars = v.

(** a maximum is proved like the minimum of the opposite *)
Definition toward (d : direction) (a : Qc) : Qc := match d with Minimize => a | Maximize => - a end.
Definition gproves_bound (g : general) (y : vec) (v : Qc) : Prop :=
  gproves g (fun j => toward (g_objective g) (v_cost (var g j))) y (toward (g_objective g) (v - g_fixed g)).
(** [0 >= v > 0] holds for no point at all *)
Definition gproves_infeasible (g : general) (y : vec) : Prop := exists v, 0 < v /\ gproves g (fun _ => 0) y v.
(** a direction in which one never leaves a constraint or a bound, and in which the cost gets better *)
Definition gray (g : general) (d : vec) : Prop :=
  (forall i, (i < g_rows g)%nat -> (row_lower (row_type g i) (nthq (g_b g) i) <> None -> 0 <= row_value g d i) /\
     (row_upper (row_type g i) (nthq (g_b g) i) <> None -> row_value g d i <= 0)) /\
  (forall j, (j < nr_vars g)%nat -> (v_lower (var g j) <> None -> 0 <= d j) /\ (v_upper (var g j) <> None -> d j <= 0)) /\
  sum (nr_vars g) (fun j => toward (g_objective g) (v_cost (var g j)) * d j) < 0.
