(** * How many rows a program gives rise to *)
From Verif Require Export SpecGeneral Pipeline.

(** the inequalities that get a row of their own: inequality constraints, with two for a range, and bounds that are not
    the only one of a variable *)
Definition inequality (t : rel) : bool := match t with Equal => false | _ => true end.
Definition is_range (t : rel) : bool := match t with Range _ => true | _ => false end.
Definition bounded_twice (v : variable) : bool := match v_lower v, v_upper v with Some _, Some _ => true | _, _ => false end.
Definition inequality_rows (g : general) : nat :=
  (length (filter inequality (g_types g)) + length (filter is_range (g_types g)) + length (filter bounded_twice (g_vars g)))%nat.
(** the number of coefficients *)
Definition entries (g : general) : nat := length (concat (g_cols g)).
(** Enough of them for a basis inverse: with the rows of the inverse some constraint or bound has to say something,
    with the LU decomposition there have to be two inequalities. *)
Definition enough (r : representation) (g : general) : Prop :=
  match r with UseRows => (1 <= entries g + inequality_rows g)%nat | UseLU => (2 <= inequality_rows g)%nat end.
