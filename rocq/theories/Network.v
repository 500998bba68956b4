(** * Networks: model of /repo/src/data/linear_program/network/representation.rs *)
From Verif Require Export Filter Carry.

(** representation.rs:140-144 `ArcDirection` *)
Inductive arc_direction := Incoming | Outgoing.
(** representation.rs:162-180 `From<ArcDirection> for RationalBig` *)
Definition arc_value (d : arc_direction) : Qc := match d with Incoming => 1 | Outgoing => - (1) end.
(** representation.rs:182-347: the arithmetic of a number with a direction *)
Definition dir_add (x : Qc) (d : arc_direction) : Qc := match d with Incoming => x + 1 | Outgoing => x - 1 end.
Definition dir_sub (x : Qc) (d : arc_direction) : Qc := match d with Incoming => x - 1 | Outgoing => x + 1 end.
Definition dir_mul (x : Qc) (d : arc_direction) : Qc := match d with Incoming => x | Outgoing => - x end.
Definition dir_div (x : Qc) (d : arc_direction) : Qc := match d with Incoming => x | Outgoing => - x end.

(** representation.rs:24-27 `IncidenceMatrix`: the columns, the number of rows, and `removed` *)
Record incidence := mk_incidence {
  im_cols : list (list (nat * arc_direction));
  im_rows : nat;
  im_removed : list nat
}.

(** representation.rs:46-70: the column of the arc [from] -> [to] *)
Definition arc_column (removed : list nat) (from to : nat) : list (nat * arc_direction) :=
  match nsearch from removed, nsearch to removed with
  | (true, _), (true, _) => []
  | (true, _), (false, to_shift) => [((to - to_shift)%nat, Incoming)]
  | (false, from_shift), (true, _) => [((from - from_shift)%nat, Outgoing)]
  | (false, from_shift), (false, to_shift) =>
      let f := (from - from_shift)%nat in
      let t := (to - to_shift)%nat in
      if Nat.ltb f t then [(f, Outgoing); (t, Incoming)] else [(t, Incoming); (f, Outgoing)]
  end.
(** representation.rs:41-73: `enumerate` and `flat_map` over the adjacency matrix; column [from] holds
    the arcs leaving vertex [from] *)
Fixpoint arc_columns (removed : list nat) (from : nat) (adjacency : list svec)
  : list (list (nat * arc_direction) * Qc) :=
  match adjacency with
  | [] => []
  | out :: rest =>
      map (fun '(to, v) => (arc_column removed from to, v)) out ++ arc_columns removed (S from) rest
  end.
(** representation.rs:30-84 `new`; `sort_unstable` on numbers *)
Definition incidence_new (adjacency : list svec) (removed : list nat) : res (incidence * list Qc) :=
  let removed := sort_by (fun x => x) removed in
  let l := arc_columns removed 0 adjacency in
  if Nat.ltb (length adjacency) (length removed) then Panic else
  Ok (mk_incidence (map fst l) (length adjacency - length removed) removed, map snd l).
(** representation.rs:86-91 `column`, 93-95 `nr_vertices`, 97-99 `nr_edges` *)
Definition im_column (im : incidence) (j : nat) : list (nat * arc_direction) := nth j (im_cols im) [].
Definition im_vertices (im : incidence) : nat := (im_rows im + length (im_removed im))%nat.
Definition im_edges (im : incidence) : nat := length (im_cols im).
(** the entries as numbers: what the solver computes with *)
Definition arc_entries (c : list (nat * arc_direction)) : svec := map (fun '(i, d) => (i, arc_value d)) c.
(** representation.rs:131-138 `into_filtered` for `ArcIncidenceColumn` *)
Definition arc_filtered (c : list (nat * arc_direction)) (rm : list nat) : list (nat * arc_direction) :=
  map (fun '(i, d) => ((i - count_below i rm)%nat, d)) (filter (fun '(i, _) => negb (memb i rm)) c).
