(** * The number of steps for paths, flows and column ranges is known in advance (C60)

    As in PropSteps.v, for the programs of examples/shortest_path.rs, examples/max_flow.rs and
    examples/column_range.rs: from the numbers of vertices and arcs, or of rows and columns, alone
    ([path_steps], [flow_steps] and [range_steps] of SpecNetSteps.v). *)
From Verif Require Import SolverQ SpecPath SpecFlow SpecNetSteps NetModel PathP FlowP RangeR NetStepsP.
From Verif Require Import ExPath ExFlow ExRange.
Local Open Scope nat_scope.

(** The three outcomes of C39: a shortest walk, a closed walk of negative length, no walk. *)
Theorem C60_shortest_path : forall adjacency s t p, graph_ok adjacency -> s < length adjacency -> t < length adjacency -> s <> t -> shortest_path adjacency s t = Ok p ->
  forall fuel, path_steps (length adjacency) (length (arcs adjacency)) < fuel ->
   ((exists l, walk (arcs adjacency) s t l) /\ (forall v l, walk (arcs adjacency) v v l -> (0 <= walk_length (arcs adjacency) l)%Qc) ->
      exists x l, run UseRows FirstProfitable fuel p = Ok (FiniteOptimum x) /\ shortest (arcs adjacency) s t l /\
        objective p (den x) = walk_length (arcs adjacency) l /\ (forall k, In k l -> (0 < den x k)%Qc)) /\
   ((exists l, walk (arcs adjacency) s t l) /\ (exists v l, walk (arcs adjacency) v v l /\ (walk_length (arcs adjacency) l < 0)%Qc) ->
      run UseRows FirstProfitable fuel p = Ok Unbounded) /\
   ((forall l, ~ walk (arcs adjacency) s t l) -> run UseRows FirstProfitable fuel p = Ok Infeasible).
Proof. exact path_known. Qed.
Print Assumptions C60_shortest_path.
Theorem C60_shortest_path_settled : forall adjacency s t p, graph_ok adjacency -> s < length adjacency -> t < length adjacency -> s <> t -> shortest_path adjacency s t = Ok p ->
  exists res, forall fuel, path_steps (length adjacency) (length (arcs adjacency)) < fuel -> run UseRows FirstProfitable fuel p = Ok res.
Proof. exact path_settled. Qed.
Print Assumptions C60_shortest_path_settled.
(** under the conditions of C40 *)
Theorem C60_max_flow : forall adjacency s t, graph_ok adjacency -> s < length adjacency -> t < length adjacency -> s <> t ->
  (forall k, k < length (arcs adjacency) -> (0 <= arc_length (arcs adjacency) k)%Qc) -> (forall v, v < length adjacency -> joined (arcs adjacency) s t v) ->
  (forall k, k < length (arcs adjacency) -> arc_head (arcs adjacency) k <> s) ->
  forall p, max_flow adjacency s t = Ok p -> forall r, (r = UseLU -> 2 <= length adjacency - 2 + length (arcs adjacency)) ->
  exists x, (forall fuel, flow_steps (length adjacency) (length (arcs adjacency)) < fuel -> run r FirstProfitable fuel p = Ok (FiniteOptimum x)) /\
    maximum_flow (arcs adjacency) s t (den x) /\ flow_value (arcs adjacency) s (den x) = (- objective p (den x))%Qc.
Proof. exact flow_known. Qed.
Print Assumptions C60_max_flow.
Theorem C60_column_range : forall r a, input_ok a ->
  exists l, (forall fuel, range_steps (height a) (width a) <= fuel -> column_range r FirstProfitable fuel a = Ok l) /\ length l = height a /\ best_shifts a (nthq l).
Proof. exact range_known. Qed.
Print Assumptions C60_column_range.

(** the networks and the matrix of C39, C40 and C43 *)
Example C60_path_case : graph_ok ex_graph /\ length ex_graph = 4 /\ length (arcs ex_graph) = 5 /\ path_steps 4 5 = 9 ^ 4 /\ exists p, shortest_path ex_graph 0 3 = Ok p.
Proof. exact (conj ex_path_ok (conj eq_refl (conj eq_refl (conj eq_refl (ex_intro _ _ eq_refl))))). Qed.
Example C60_flow_case : graph_ok ex_flow /\ length ex_flow = 4 /\ length (arcs ex_flow) = 5 /\ (forall v, v < length ex_flow -> joined (arcs ex_flow) 0 3 v) /\
  (forall k, k < length (arcs ex_flow) -> arc_head (arcs ex_flow) k <> 0) /\ exists p, max_flow ex_flow 0 3 = Ok p.
Proof. exact (conj (proj1 ex_flow_ok) (conj eq_refl (conj eq_refl (conj (proj1 (proj2 (proj2 ex_flow_ok))) (conj (proj2 (proj2 (proj2 ex_flow_ok))) (ex_intro _ _ eq_refl)))))). Qed.
Example C60_range_case : input_ok ex_input /\ height ex_input = 3 /\ width ex_input = 3.
Proof. exact (conj ex_input_ok (conj eq_refl eq_refl)). Qed.
