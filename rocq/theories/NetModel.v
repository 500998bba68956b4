(** * Network problems as linear programs: model of /repo/examples/shortest_path.rs and /repo/examples/max_flow.rs *)
From Verif Require Export Network Provider.
Local Open Scope Qc_scope.

(** examples/shortest_path.rs:34-55 `Primal::new` and 67-114, its implementation of `MatrixProvider`.
    `adjacency` holds the arcs leaving each vertex.  The right-hand side (88-94) is computed by the solver
    when it starts; a panic there is a panic of this function in the model.  `t - 1` is unsigned. *)
Definition t_index (s t : nat) : res nat :=
  if Nat.ltb t s then Ok t else match t with 0%nat => Panic | S k => Ok k end.
Definition shortest_path (adjacency : list svec) (s t : nat) : res provider :=
  let* new := incidence_new adjacency [s] in
  let (im, cost) := new in
  let rows := (im_vertices im - 1)%nat in
  let* i := t_index s t in
  let* b := set_index (repeat 0 rows) i 1 in
  Ok (mk_provider rows (im_edges im) (fun j => arc_entries (im_column im j)) (fun j => nthq cost j) b NoInit
        (fun rm j => arc_entries (arc_filtered (im_column im j) rm))).

(** ** Maximum flow: examples/max_flow.rs *)
(** 149-163 `column`: for an arc the entries of the incidence matrix followed by the entry in its capacity row
    (`iter` of `Column`, 96-99), for a slack only the latter.  [c] is `nr_constraints` (194-196). *)
Definition flow_column (im : incidence) (c j : nat) : svec :=
  if Nat.ltb j (im_edges im) then arc_entries (im_column im j) ++ [((c + j)%nat, arc_value Incoming)]
  else [((c + j - im_edges im)%nat, arc_value Incoming)].
(** 122-130 `into_filtered`: the entry in the capacity row keeps its index *)
Definition flow_filtered (im : incidence) (c : nat) (rm : list nat) (j : nat) : svec :=
  if Nat.ltb j (im_edges im) then arc_entries (arc_filtered (im_column im j) rm) ++ [((c + j)%nat, arc_value Incoming)]
  else [((c + j - im_edges im)%nat, arc_value Incoming)].
(** 54-76 `Primal::new`, 141-223 its implementation of `MatrixProvider` and `PartialInitialBasis`; costs 165-173 with
    the arithmetic of `Cost` (225-258); `nr_vertices() - 2` is unsigned. *)
Definition max_flow (adjacency : list svec) (s t : nat) : res provider :=
  if Nat.ltb (length adjacency) s then Panic else
  let before := list_sum (map (@length _) (firstn s adjacency)) in
  let* out := index adjacency s in
  let* new := incidence_new adjacency [s; t] in
  let (im, capacity) := new in
  if Nat.ltb (im_vertices im) 2 then Panic else
  let c := (im_vertices im - 2)%nat in
  let e := im_edges im in
  Ok (mk_provider (c + e) (e + e) (flow_column im c)
        (fun j => if Nat.leb before j && Nat.ltb j (before + length out) then - (1) else 0)
        (repeat 0 c ++ capacity) (PartialInit (map (fun j => ((j + c)%nat, (e + j)%nat)) (seq 0 e)))
        (flow_filtered im c)).
