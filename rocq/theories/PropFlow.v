(** * Properties of the maximum flow program (C40)

    [max_flow adjacency s t] is `Primal::new` of examples/max_flow.rs as a matrix provider, [run] is
    `solve_relaxation`.  The specification is SpecFlow.v: flows in the network with the arcs [arcs adjacency]
    (NetworkP.v) and their values, cuts.  The theorems ask for two things that the code does not check: no arc leads
    into the source, and every vertex is joined to the source or the sink.  Without either the program fails, see
    the refutations at the end. *)
From Verif Require Import SolverQ SpecFlow NetModel FlowP FlowI ExFlow.
Local Open Scope Qc_scope.

Theorem C40_builds_partial : forall adjacency s t, graph_ok adjacency -> (s < length adjacency)%nat -> (t < length adjacency)%nat -> s <> t ->
  (forall k, (k < length (arcs adjacency))%nat -> 0 <= arc_length (arcs adjacency) k) ->
  (forall v, (v < length adjacency)%nat -> joined (arcs adjacency) s t v) ->
  exists p, max_flow adjacency s t = Ok p /\ provider_ok p.
Proof. exact flow_exists. Qed.
Print Assumptions C40_builds_partial.
(** The first values of the solution reported are a maximum flow, its value is the negated objective. *)
Theorem C40_maximum_partial : forall adjacency s t, graph_ok adjacency -> (s < length adjacency)%nat -> (t < length adjacency)%nat -> s <> t ->
  (forall k, (k < length (arcs adjacency))%nat -> 0 <= arc_length (arcs adjacency) k) ->
  (forall v, (v < length adjacency)%nat -> joined (arcs adjacency) s t v) ->
  forall p, max_flow adjacency s t = Ok p -> (forall k, (k < length (arcs adjacency))%nat -> arc_head (arcs adjacency) k <> s) ->
  forall r n fuel x, run r n fuel p = Ok (FiniteOptimum x) ->
  maximum_flow (arcs adjacency) s t (den x) /\ flow_value (arcs adjacency) s (den x) = - objective p (den x).
Proof. exact flow_optimum. Qed.
Print Assumptions C40_maximum_partial.
(** There is no other answer. *)
Theorem C40_never_infeasible_partial : forall adjacency s t, graph_ok adjacency -> (s < length adjacency)%nat -> (t < length adjacency)%nat -> s <> t ->
  (forall k, (k < length (arcs adjacency))%nat -> 0 <= arc_length (arcs adjacency) k) ->
  (forall v, (v < length adjacency)%nat -> joined (arcs adjacency) s t v) ->
  forall p, max_flow adjacency s t = Ok p -> forall r n fuel, run r n fuel p <> Ok Infeasible.
Proof. exact flow_not_infeasible. Qed.
Print Assumptions C40_never_infeasible_partial.
Theorem C40_never_unbounded_partial : forall adjacency s t, graph_ok adjacency -> (s < length adjacency)%nat -> (t < length adjacency)%nat -> s <> t ->
  (forall k, (k < length (arcs adjacency))%nat -> 0 <= arc_length (arcs adjacency) k) ->
  (forall v, (v < length adjacency)%nat -> joined (arcs adjacency) s t v) ->
  forall p, max_flow adjacency s t = Ok p -> forall r n fuel, run r n fuel p <> Ok Unbounded.
Proof. exact flow_not_unbounded. Qed.
Print Assumptions C40_never_unbounded_partial.
Theorem C40_never_panics_partial : forall adjacency s t, graph_ok adjacency -> (s < length adjacency)%nat -> (t < length adjacency)%nat -> s <> t ->
  (forall k, (k < length (arcs adjacency))%nat -> 0 <= arc_length (arcs adjacency) k) ->
  (forall v, (v < length adjacency)%nat -> joined (arcs adjacency) s t v) ->
  forall p, max_flow adjacency s t = Ok p -> forall r n fuel, (r = UseLU -> (2 <= length adjacency - 2 + length (arcs adjacency))%nat) ->
  run r n fuel p <> Panic.
Proof. exact flow_no_panic. Qed.
Print Assumptions C40_never_panics_partial.
(** With Bland's rule there is an answer. *)
Theorem C40_decided_partial : forall adjacency s t, graph_ok adjacency -> (s < length adjacency)%nat -> (t < length adjacency)%nat -> s <> t ->
  (forall k, (k < length (arcs adjacency))%nat -> 0 <= arc_length (arcs adjacency) k) ->
  (forall v, (v < length adjacency)%nat -> joined (arcs adjacency) s t v) ->
  forall p, max_flow adjacency s t = Ok p -> forall r, (r = UseLU -> (2 <= length adjacency - 2 + length (arcs adjacency))%nat) ->
  exists fuel x, forall fuel', (fuel <= fuel')%nat -> run r FirstProfitable fuel' p = Ok (FiniteOptimum x).
Proof. exact flow_decided. Qed.
Print Assumptions C40_decided_partial.
(** With whole capacities all amounts are whole numbers. *)
Theorem C40_whole_partial : forall adjacency s t, graph_ok adjacency -> (s < length adjacency)%nat -> (t < length adjacency)%nat -> s <> t ->
  forall p, max_flow adjacency s t = Ok p -> (forall k, (k < length (arcs adjacency))%nat -> whole (arc_length (arcs adjacency) k)) ->
  (forall k, (k < length (arcs adjacency))%nat -> 0 <= arc_length (arcs adjacency) k) ->
  (forall v, (v < length adjacency)%nat -> joined (arcs adjacency) s t v) ->
  forall r n fuel x, run r n fuel p = Ok (FiniteOptimum x) -> forall k, whole (den x k).
Proof. exact flow_whole. Qed.
Print Assumptions C40_whole_partial.
(** The value of a maximum flow is the smallest capacity of a cut: with the theorems above, the solver finds it. *)
Theorem C40_minimum_cut : forall n A s t, (forall f u v, In (f, u, v) A -> (f < n)%nat /\ (u < n)%nat) -> (s < n)%nat ->
  forall x, s <> t -> maximum_flow A s t x -> exists S, S s = true /\ S t = false /\ flow_value A s x = cut_capacity A S.
Proof. exact maximum_cut. Qed.
Print Assumptions C40_minimum_cut.
Theorem C40_cuts_bound : forall n A s t, (forall f u v, In (f, u, v) A -> (f < n)%nat /\ (u < n)%nat) -> (s < n)%nat ->
  forall x S, flow A s t x -> S s = true -> S t = false -> flow_value A s x <= cut_capacity A S.
Proof. exact value_below_cut. Qed.
Print Assumptions C40_cuts_bound.

(** the network of examples/max_flow.rs:260-283 *)
Example C40_case : graph_ok ex_flow /\ (forall k, (k < length (arcs ex_flow))%nat -> 0 <= arc_length (arcs ex_flow) k) /\
  (forall v, (v < length ex_flow)%nat -> joined (arcs ex_flow) 0 3 v) /\ (forall k, (k < length (arcs ex_flow))%nat -> arc_head (arcs ex_flow) k <> 0%nat).
Proof. exact ex_flow_ok. Qed.
Example C40_whole_case : forall k, (k < length (arcs ex_flow))%nat -> whole (arc_length (arcs ex_flow) k).
Proof. exact ex_flow_whole. Qed.
Example C40_run_case : forall r n, flow_run ex_flow 0 3 r n = Ok (FiniteOptimum [(0%nat, zq 2); (1%nat, zq 1); (2%nat, zq 1); (3%nat, zq 1); (4%nat, zq 2)]).
Proof. exact ex_flow_runs. Qed.

(** ** What goes wrong otherwise *)
(** Flow back into the source is counted as if it did not return: the optimum is more than any flow has. *)
Theorem C40_arcs_into_source_refuted : exists adjacency s t x, graph_ok adjacency /\ (s < length adjacency)%nat /\ (t < length adjacency)%nat /\ s <> t /\
  (forall k, (k < length (arcs adjacency))%nat -> 0 <= arc_length (arcs adjacency) k) /\ (forall v, (v < length adjacency)%nat -> joined (arcs adjacency) s t v) /\
  exists p, max_flow adjacency s t = Ok p /\ (forall r n, run r n 40 p = Ok (FiniteOptimum x)) /\
  forall y, flow (arcs adjacency) s t y -> flow_value (arcs adjacency) s y < - objective p (den x).
Proof. exact arcs_into_source. Qed.
Print Assumptions C40_arcs_into_source_refuted.
(** A vertex out of reach makes a row redundant; filtering it out leaves the indices of the capacity rows as they
    were, so that the answer exceeds a capacity, or the solver panics. *)
Theorem C40_vertex_alone_refuted : exists adjacency s t x, graph_ok adjacency /\ (s < length adjacency)%nat /\ (t < length adjacency)%nat /\ s <> t /\
  (forall k, (k < length (arcs adjacency))%nat -> 0 <= arc_length (arcs adjacency) k) /\ (forall k, (k < length (arcs adjacency))%nat -> arc_head (arcs adjacency) k <> s) /\
  exists p, max_flow adjacency s t = Ok p /\ (forall n, run UseRows n 40 p = Ok (FiniteOptimum x)) /\ (forall n, run UseLU n 40 p = Panic) /\
  exists k, (k < length (arcs adjacency))%nat /\ arc_length (arcs adjacency) k < den x k.
Proof. exact vertex_alone. Qed.
Print Assumptions C40_vertex_alone_refuted.
