(** * Properties of the shortest path program (C39)

    [shortest_path adjacency s t] is `Primal::new` of examples/shortest_path.rs as a matrix provider, [run] is
    `solve_relaxation`.  The specification is SpecPath.v: walks in the network with the arcs [arcs adjacency]
    (NetworkP.v), their lengths, and shortest walks.  Lengths may be negative. *)
From Verif Require Import SolverQ SpecPath NetModel PathP VertexP ExPath.
Local Open Scope Qc_scope.

(** The program can be built and is one the solver accepts. *)
Theorem C39_builds : forall adjacency s t, graph_ok adjacency -> (s < length adjacency)%nat -> (t < length adjacency)%nat -> s <> t ->
  exists p, shortest_path adjacency s t = Ok p /\ provider_ok p.
Proof. exact path_exists. Qed.
Print Assumptions C39_builds.
(** An optimum means: the reported value is the length of a shortest walk, and the reported solution is positive on
    all arcs of such a walk.  No closed walk has negative length. *)
Theorem C39_shortest : forall adjacency s t, graph_ok adjacency -> (s < length adjacency)%nat -> (t < length adjacency)%nat -> s <> t ->
  forall p, shortest_path adjacency s t = Ok p -> forall r n fuel x, run r n fuel p = Ok (FiniteOptimum x) ->
  exists l, shortest (arcs adjacency) s t l /\ (forall k, In k l -> 0 < den x k) /\ objective p (den x) = walk_length (arcs adjacency) l.
Proof. exact path_optimum. Qed.
Print Assumptions C39_shortest.
(** The reported solution is exactly a shortest path: one on the arcs of a shortest walk that comes through no vertex
    twice, and zero on all others. *)
Theorem C39_path : forall adjacency s t, graph_ok adjacency -> (s < length adjacency)%nat -> (t < length adjacency)%nat -> s <> t ->
  forall p, shortest_path adjacency s t = Ok p -> forall r n fuel x, run r n fuel p = Ok (FiniteOptimum x) ->
  exists l, shortest (arcs adjacency) s t l /\ NoDup (visited (arcs adjacency) s l) /\ forall k, den x k = if existsb (Nat.eqb k) l then 1 else 0.
Proof. exact path_exact. Qed.
Print Assumptions C39_path.
Theorem C39_optimum_no_negative_cycle : forall adjacency s t, graph_ok adjacency -> (s < length adjacency)%nat -> (t < length adjacency)%nat -> s <> t ->
  forall p, shortest_path adjacency s t = Ok p -> forall r n fuel x, run r n fuel p = Ok (FiniteOptimum x) ->
  forall v l, walk (arcs adjacency) v v l -> 0 <= walk_length (arcs adjacency) l.
Proof. exact path_optimum_cycle. Qed.
Print Assumptions C39_optimum_no_negative_cycle.
(** "Infeasible" means that [t] cannot be reached. *)
Theorem C39_no_path : forall adjacency s t, graph_ok adjacency -> (s < length adjacency)%nat -> (t < length adjacency)%nat -> s <> t ->
  forall p, shortest_path adjacency s t = Ok p -> forall r n fuel, run r n fuel p = Ok Infeasible -> forall l, ~ walk (arcs adjacency) s t l.
Proof. exact path_infeasible. Qed.
Print Assumptions C39_no_path.
(** "Unbounded" means that [t] can be reached and that there is a closed walk of negative length. *)
Theorem C39_negative_cycle : forall adjacency s t, graph_ok adjacency -> (s < length adjacency)%nat -> (t < length adjacency)%nat -> s <> t ->
  forall p, shortest_path adjacency s t = Ok p -> forall r n fuel, run r n fuel p = Ok Unbounded ->
  (exists l, walk (arcs adjacency) s t l) /\ exists v l, walk (arcs adjacency) v v l /\ walk_length (arcs adjacency) l < 0.
Proof. exact path_unbounded. Qed.
Print Assumptions C39_negative_cycle.
(** With the explicit inverse there is no panic, and with Bland's rule each of the three cases gets its answer. *)
Theorem C39_rows_never_panics : forall adjacency s t, graph_ok adjacency -> (s < length adjacency)%nat -> (t < length adjacency)%nat -> s <> t ->
  forall p, shortest_path adjacency s t = Ok p -> forall n fuel, run UseRows n fuel p <> Panic.
Proof. exact path_no_panic. Qed.
Print Assumptions C39_rows_never_panics.
Theorem C39_decided : forall adjacency s t p, graph_ok adjacency -> (s < length adjacency)%nat -> (t < length adjacency)%nat -> s <> t ->
  shortest_path adjacency s t = Ok p ->
  exists fuel, forall fuel', (fuel <= fuel')%nat ->
   ((exists l, walk (arcs adjacency) s t l) /\ (forall v l, walk (arcs adjacency) v v l -> 0 <= walk_length (arcs adjacency) l) ->
      exists x, run UseRows FirstProfitable fuel' p = Ok (FiniteOptimum x)) /\
   ((exists l, walk (arcs adjacency) s t l) /\ (exists v l, walk (arcs adjacency) v v l /\ walk_length (arcs adjacency) l < 0) ->
      run UseRows FirstProfitable fuel' p = Ok Unbounded) /\
   ((forall l, ~ walk (arcs adjacency) s t l) -> run UseRows FirstProfitable fuel' p = Ok Infeasible).
Proof. exact path_decided. Qed.
Print Assumptions C39_decided.

(** the network of examples/shortest_path.rs:151-169 from the first to the last vertex and back; a negative cycle *)
Example C39_case : graph_ok ex_graph /\ shortest (arcs ex_graph) 0 3 [1; 4]%nat /\
  (forall r n, path_run ex_graph 0 3 r n = Ok (FiniteOptimum [(1%nat, 1); (4%nat, 1)]) /\ path_run ex_graph 3 0 r n = Ok Infeasible).
Proof. exact (conj ex_path_ok (conj ex_path_shortest ex_path_runs)). Qed.
Example C39_cycle_case : graph_ok ex_cyclic /\ forall r n, path_run ex_cyclic 0 2 r n = Ok Unbounded.
Proof. exact ex_cyclic_runs. Qed.

(** ** From a vertex to itself *)
(** The walk without arcs has length zero, but the program asks for one unit to arrive at the vertex after [t]. *)
Theorem C39_same_vertex_refuted : exists adjacency s x, graph_ok adjacency /\ (s < length adjacency)%nat /\ shortest (arcs adjacency) s s [] /\
  exists p, shortest_path adjacency s s = Ok p /\ (forall r n, run r n 30 p = Ok (FiniteOptimum x)) /\ 0 < objective p (den x).
Proof. exact same_vertex. Qed.
Print Assumptions C39_same_vertex_refuted.
(** For the first vertex the index underflows. *)
Theorem C39_first_vertex_refuted : exists adjacency, graph_ok adjacency /\ (0 < length adjacency)%nat /\ shortest_path adjacency 0 0 = Panic.
Proof. exact first_vertex. Qed.
Print Assumptions C39_first_vertex_refuted.
