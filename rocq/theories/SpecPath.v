(** * Walks in a network: the specification side

    A network is given by the list of its arcs (tail, head, length); an arc is denoted by its number in that
    list.  Nothing here refers to linear programs. *)
From Verif Require Export NetworkP.
Local Open Scope Qc_scope.

(** [walk A u w l]: the arcs with the numbers [l] lead from [u] to [w] *)
Inductive walk (A : list (nat * nat * Qc)) : nat -> nat -> list nat -> Prop :=
| walk_stay : forall u, walk A u u []
| walk_go : forall u v w len k l, nth_error A k = Some (u, v, len) -> walk A v w l -> walk A u w (k :: l).
Definition arc_tail (A : list (nat * nat * Qc)) (k : nat) : nat := fst (fst (nth k A (0%nat, 0%nat, 0))).
Definition arc_head (A : list (nat * nat * Qc)) (k : nat) : nat := snd (fst (nth k A (0%nat, 0%nat, 0))).
Definition arc_length (A : list (nat * nat * Qc)) (k : nat) : Qc := match nth_error A k with Some (_, _, len) => len | None => 0 end.
Fixpoint walk_length (A : list (nat * nat * Qc)) (l : list nat) : Qc :=
  match l with [] => 0 | k :: t => arc_length A k + walk_length A t end.
(** the vertices the walk along the arcs [l] from [u] comes through *)
Definition visited (A : list (nat * nat * Qc)) (u : nat) (l : list nat) : list nat := u :: map (arc_head A) l.
(** no shorter way to go from [s] to [t] *)
Definition shortest (A : list (nat * nat * Qc)) (s t : nat) (l : list nat) : Prop :=
  walk A s t l /\ forall l', walk A s t l' -> walk_length A l <= walk_length A l'.

(** An adjacency matrix as the code wants it (representation.rs:35-38): square, sorted columns without
    zeros, no arc from a vertex to itself. *)
Definition graph_ok (adjacency : list svec) : Prop :=
  (forall f, (f < length adjacency)%nat -> wfs (length adjacency) (nth f adjacency [])) /\
  (forall f v, In (f, v) (nth f adjacency []) -> False).
