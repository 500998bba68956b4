(** * Examples for shortest paths *)
From Verif Require Export SolverQ SpecPath NetModel PathP DataP.
Local Open Scope Qc_scope.

Definition path_run (adjacency : list svec) (s t : nat) (r : representation) (n : rule_name) : res opt_result :=
  let* p := shortest_path adjacency s t in run r n 30 p.
Definition graph_okb (adjacency : list svec) : bool :=
  forallb (fun f => fwfb 0 (length adjacency) (nth f adjacency []) && forallb (fun '(i, _) => negb (Nat.eqb i f)) (nth f adjacency [])) (seq 0 (length adjacency)).
Lemma graph_okb_ok adjacency : graph_okb adjacency = true -> graph_ok adjacency.
Proof.
  unfold graph_okb. rewrite forallb_forall. intros H. split.
  - intros f L. specialize (H f). rewrite in_seq, andb_true_iff in H. destruct H as [H _]; [lia|]. now apply fwfb_ok.
  - intros f v I. destruct (Nat.lt_ge_cases f (length adjacency)) as [L|L]; [|rewrite nth_overflow in I by assumption; destruct I].
    specialize (H f). rewrite in_seq, andb_true_iff in H. destruct H as [_ H]; [lia|]. rewrite forallb_forall in H. specialize (H _ I). cbn in H. now rewrite Nat.eqb_refl in H.
Qed.
Lemma ex_path_ok : graph_ok ex_graph.
Proof. apply graph_okb_ok. vm_compute. reflexivity. Qed.
Lemma ex_path_runs r n : path_run ex_graph 0 3 r n = Ok (FiniteOptimum [(1%nat, 1); (4%nat, 1)]) /\ path_run ex_graph 3 0 r n = Ok Infeasible.
Proof. split; apply result_is_ok; destruct r, n; vm_compute; reflexivity. Qed.
Lemma ex_path_shortest : shortest (arcs ex_graph) 0 3 [1; 4]%nat.
Proof.
  destruct (path_exists ex_graph 0 3 ex_path_ok) as (p & E & _); [cbn; lia|cbn; lia|lia|].
  destruct (ex_path_runs UseRows FirstProfitable) as [R _]. unfold path_run in R. pose proof E as E'. rewrite E in R. cbn [bind] in R.
  assert (W : walk (arcs ex_graph) 0 3 [1; 4]%nat). { eapply walk_go; [vm_compute; reflexivity|]. eapply walk_go; [vm_compute; reflexivity|]. constructor. }
  destruct (path_optimum ex_graph 0 3 ex_path_ok) with (p := p) (r := UseRows) (n := FirstProfitable) (fuel := 30%nat) (x := [(1%nat, 1); (4%nat, 1)]) as (l & [_ M] & _ & O); [cbn; lia|cbn; lia|lia|assumption|assumption|].
  split; [assumption|]. intros l' W'. specialize (M l' W'). rewrite <- O in M. replace (walk_length (arcs ex_graph) [1; 4]%nat) with (objective p (den [(1%nat, 1); (4%nat, 1)])); [assumption|].
  assert (Q : option_map (fun p => qeqb (objective p (den [(1%nat, 1); (4%nat, 1)])) (walk_length (arcs ex_graph) [1; 4]%nat)) (match shortest_path ex_graph 0 3 with Ok p => Some p | _ => None end) = Some true) by (vm_compute; reflexivity).
  rewrite E' in Q. cbn [option_map] in Q. injection Q as Q. now qb.
Qed.
(** 0 -> 1 -> 2 and 1 <-> 3 with a cycle of length -1 *)
Definition ex_cyclic : list svec := [[(1%nat, zq 1)]; [(2%nat, zq 1); (3%nat, zq 2)]; []; [(1%nat, zq (-3))]].
Lemma ex_cyclic_runs : graph_ok ex_cyclic /\ forall r n, path_run ex_cyclic 0 2 r n = Ok Unbounded.
Proof. split; [apply graph_okb_ok; vm_compute; reflexivity|]. intros r n. apply result_is_ok; destruct r, n; vm_compute; reflexivity. Qed.

(** ** The same vertex twice *)
Definition ex_same : list svec := [[]; [(0%nat, zq 5); (2%nat, zq 1)]; []].
Lemma same_vertex : exists adjacency s x, graph_ok adjacency /\ (s < length adjacency)%nat /\ shortest (arcs adjacency) s s [] /\
  exists p, shortest_path adjacency s s = Ok p /\ (forall r n, run r n 30 p = Ok (FiniteOptimum x)) /\ 0 < objective p (den x).
Proof.
  exists ex_same, 1%nat, [(0%nat, 1)]. split; [apply graph_okb_ok; vm_compute; reflexivity|]. split; [cbn; lia|]. split.
  - split; [constructor|]. intros l' W. apply (nonneg_length (arcs ex_same) 1 1 l'); [|assumption]. intros [|[|k]]; [vm_compute; discriminate|vm_compute; discriminate|]. unfold arc_length. destruct k; cbn; qlra.
  - assert (R : forall r n, result_is (path_run ex_same 1 1 r n) (FiniteOptimum [(0%nat, 1)]) = true) by (intros r n; destruct r, n; vm_compute; reflexivity).
    assert (O : (match shortest_path ex_same 1 1 with Ok p => qpos (objective p (den [(0%nat, 1)])) | _ => false end) = true) by (vm_compute; reflexivity).
    unfold path_run in R. destruct (shortest_path ex_same 1 1) as [p| |]; try discriminate. exists p. split; [reflexivity|]. split; [intros r n; apply result_is_ok, R|now qb].
Qed.
Lemma first_vertex : exists adjacency, graph_ok adjacency /\ (0 < length adjacency)%nat /\ shortest_path adjacency 0 0 = Panic.
Proof. exists ex_same. split; [apply graph_okb_ok; vm_compute; reflexivity|]. split; [cbn; lia|vm_compute; reflexivity]. Qed.
