(** * Flows in a network with capacities: the specification side

    The arcs of the network are given as in SpecPath.v, the number of an arc being its capacity.  A flow gives each
    arc, by its number in the list of arcs, an amount.  Nothing here refers to linear programs. *)
From Verif Require Export SpecPath LinAlg.
Local Open Scope Qc_scope.

Section Flows.
Variable A : list (nat * nat * Qc).
Definition entering (x : vec) (v : nat) : Qc := sum (length A) (fun k => if Nat.eqb (arc_head A k) v then x k else 0).
Definition leaving (x : vec) (v : nat) : Qc := sum (length A) (fun k => if Nat.eqb (arc_tail A k) v then x k else 0).
(** amounts within the capacities; what enters a vertex other than [s] and [t] leaves it *)
Definition flow (s t : nat) (x : vec) : Prop :=
  (forall k, (k < length A)%nat -> 0 <= x k /\ x k <= arc_length A k) /\
  forall v, v <> s -> v <> t -> entering x v = leaving x v.
Definition flow_value (s : nat) (x : vec) : Qc := leaving x s - entering x s.
Definition maximum_flow (s t : nat) (x : vec) : Prop := flow s t x /\ forall y, flow s t y -> flow_value s y <= flow_value s x.
(** the total capacity of the arcs that leave a set of vertices *)
Definition cut_capacity (S : nat -> bool) : Qc :=
  sum (length A) (fun k => if S (arc_tail A k) && negb (S (arc_head A k)) then arc_length A k else 0).
(** [v] can be reached from [s] or [t] when the direction of the arcs does not matter *)
Inductive joined (s t : nat) : nat -> Prop :=
| joined_s : joined s t s
| joined_t : joined s t t
| joined_head : forall k, (k < length A)%nat -> joined s t (arc_tail A k) -> joined s t (arc_head A k)
| joined_tail : forall k, (k < length A)%nat -> joined s t (arc_head A k) -> joined s t (arc_tail A k).
End Flows.
