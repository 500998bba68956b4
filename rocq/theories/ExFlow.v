(** * Examples for maximum flows *)
From Verif Require Export SolverQ FlowP Whole ExPath.
Local Open Scope Qc_scope.

Definition flow_run (adjacency : list svec) (s t : nat) (r : representation) (n : rule_name) : res opt_result :=
  let* p := max_flow adjacency s t in run r n 40 p.
Definition capacities_okb (adjacency : list svec) : bool := forallb (fun '(_, _, v) => qleb 0 v) (arcs adjacency).
Lemma capacities_ok adjacency : capacities_okb adjacency = true -> forall k, (k < length (arcs adjacency))%nat -> 0 <= arc_length (arcs adjacency) k.
Proof.
  unfold capacities_okb. rewrite forallb_forall. intros H k L. unfold arc_length. destruct (nth_error (arcs adjacency) k) as [[[f u] v]|] eqn:E; [|qlra].
  apply nth_error_In in E. apply H in E. now apply qleb_true.
Qed.
(** the network of examples/max_flow.rs:260-283 *)
Definition ex_flow : list svec := [[(1%nat, zq 2); (2%nat, zq 1)]; [(2%nat, zq 1); (3%nat, zq 1)]; [(3%nat, zq 2)]; []].
Lemma ex_flow_ok : graph_ok ex_flow /\ (forall k, (k < length (arcs ex_flow))%nat -> 0 <= arc_length (arcs ex_flow) k) /\
  (forall v, (v < length ex_flow)%nat -> joined (arcs ex_flow) 0 3 v) /\ (forall k, (k < length (arcs ex_flow))%nat -> arc_head (arcs ex_flow) k <> 0%nat).
Proof.
  split; [apply graph_okb_ok; vm_compute; reflexivity|]. split; [apply capacities_ok; vm_compute; reflexivity|]. split.
  - intros v L. destruct v as [|[|[|[|v]]]]; [constructor|apply (joined_head (arcs ex_flow) 0 3 0)|apply (joined_head (arcs ex_flow) 0 3 1)|apply joined_t|cbn in L; lia]; try (cbn; lia); apply joined_s.
  - intros k L. destruct k as [|[|[|[|[|k]]]]]; cbn in L |- *; try discriminate. lia.
Qed.
Lemma ex_flow_whole k : (k < length (arcs ex_flow))%nat -> whole (arc_length (arcs ex_flow) k).
Proof.
  intros L. apply wholeb_ok. assert (H : forallb (fun k => wholeb (arc_length (arcs ex_flow) k)) (seq 0 (length (arcs ex_flow))) = true) by (vm_compute; reflexivity).
  rewrite forallb_forall in H. apply H. apply in_seq. lia.
Qed.
Lemma ex_flow_runs r n : flow_run ex_flow 0 3 r n = Ok (FiniteOptimum [(0%nat, zq 2); (1%nat, zq 1); (2%nat, zq 1); (3%nat, zq 1); (4%nat, zq 2)]).
Proof. apply result_is_ok; destruct r, n; vm_compute; reflexivity. Qed.

(** ** An arc into the source: 0 -> 1 with capacity 2, 1 -> 0 with capacity 1, 1 -> 2 with capacity 1 *)
Definition ex_back : list svec := [[(1%nat, zq 2)]; [(0%nat, zq 1); (2%nat, zq 1)]; []].
Lemma arcs_into_source : exists adjacency s t x, graph_ok adjacency /\ (s < length adjacency)%nat /\ (t < length adjacency)%nat /\ s <> t /\
  (forall k, (k < length (arcs adjacency))%nat -> 0 <= arc_length (arcs adjacency) k) /\ (forall v, (v < length adjacency)%nat -> joined (arcs adjacency) s t v) /\
  exists p, max_flow adjacency s t = Ok p /\ (forall r n, run r n 40 p = Ok (FiniteOptimum x)) /\
  forall y, flow (arcs adjacency) s t y -> flow_value (arcs adjacency) s y < - objective p (den x).
Proof.
  exists ex_back, 0%nat, 2%nat, [(0%nat, zq 2); (1%nat, zq 1); (2%nat, zq 1)]. split; [apply graph_okb_ok; vm_compute; reflexivity|]. split; [cbn; lia|]. split; [cbn; lia|]. split; [lia|].
  split; [apply capacities_ok; vm_compute; reflexivity|]. split.
  { intros v L. destruct v as [|[|[|v]]]; [constructor|apply (joined_head (arcs ex_back) 0 2 0); [cbn; lia|constructor]|apply joined_t|cbn in L; lia]. }
  assert (R : forall r n, result_is (flow_run ex_back 0 2 r n) (FiniteOptimum [(0%nat, zq 2); (1%nat, zq 1); (2%nat, zq 1)]) = true) by (intros r n; destruct r, n; vm_compute; reflexivity).
  assert (O : (match max_flow ex_back 0 2 with Ok p => qeqb (objective p (den [(0%nat, zq 2); (1%nat, zq 1); (2%nat, zq 1)])) (zq (-2)) | _ => false end) = true) by (vm_compute; reflexivity).
  unfold flow_run in R. destruct (max_flow ex_back 0 2) as [p| |]; try discriminate. exists p. split; [reflexivity|]. split; [intros r n; apply result_is_ok, R|]. qb. rewrite O.
  intros y F. set (S := fun v => Nat.ltb v 2). apply Qcle_lt_trans with (cut_capacity (arcs ex_back) S); [|vm_compute; reflexivity].
  apply (value_below_cut 3 (arcs ex_back) 0 2); [intros f u v I; now apply (arcs_ends ex_back (graph_okb_ok ex_back eq_refl) f u v)|lia|assumption|reflexivity|reflexivity].
Qed.

(** ** A vertex without arcs: 0 -> 2 with capacity 2, 2 -> 3 with capacity 1 *)
Definition ex_alone : list svec := [[(2%nat, zq 2)]; []; [(3%nat, zq 1)]; []].
Lemma vertex_alone : exists adjacency s t x, graph_ok adjacency /\ (s < length adjacency)%nat /\ (t < length adjacency)%nat /\ s <> t /\
  (forall k, (k < length (arcs adjacency))%nat -> 0 <= arc_length (arcs adjacency) k) /\ (forall k, (k < length (arcs adjacency))%nat -> arc_head (arcs adjacency) k <> s) /\
  exists p, max_flow adjacency s t = Ok p /\ (forall n, run UseRows n 40 p = Ok (FiniteOptimum x)) /\ (forall n, run UseLU n 40 p = Panic) /\
  exists k, (k < length (arcs adjacency))%nat /\ arc_length (arcs adjacency) k < den x k.
Proof.
  exists ex_alone, 0%nat, 3%nat, [(0%nat, zq 2); (1%nat, zq 2); (3%nat, zq 1)]. split; [apply graph_okb_ok; vm_compute; reflexivity|]. split; [cbn; lia|]. split; [cbn; lia|]. split; [lia|].
  split; [apply capacities_ok; vm_compute; reflexivity|]. split; [intros k L; destruct k as [|[|k]]; cbn in L |- *; try discriminate; lia|].
  assert (R : forall n, result_is (flow_run ex_alone 0 3 UseRows n) (FiniteOptimum [(0%nat, zq 2); (1%nat, zq 2); (3%nat, zq 1)]) = true) by (intros n; destruct n; vm_compute; reflexivity).
  assert (R' : forall n, flow_run ex_alone 0 3 UseLU n = Panic) by (intros n; destruct n; vm_compute; reflexivity).
  unfold flow_run in R, R'. destruct (max_flow ex_alone 0 3) as [p| |]; [|specialize (R FirstProfitable); discriminate|specialize (R FirstProfitable); discriminate]. exists p. split; [reflexivity|].
  split; [intros n; apply result_is_ok, R|]. split; [exact R'|]. exists 1%nat. split; [cbn; lia|vm_compute; reflexivity].
Qed.
