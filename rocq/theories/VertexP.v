(** * Answers are vertices *)
From Verif Require Export SolverQ WarmP PathP.
Local Open Scope Qc_scope.

(** a vertex is the only solution that is zero where it is zero *)
Lemma vertex_unique p x z : vertex p x -> feasible p x -> feasible p z -> (forall j, (j < p_cols p)%nat -> x j = 0 -> z j = 0) ->
  forall j, (j < p_cols p)%nat -> z j = x j.
Proof.
  intros V [F1 F2] [G1 G2] Z j Lj. assert (Q : (fun j => z j - x j) j = 0); [|cbv beta in Q; qlra]. revert j Lj. apply V.
  - intros j Lj E. rewrite (Z j Lj E), E. ring.
  - intros i Li. rewrite (sum_ext _ _ (fun j => den (p_col p j) i * z j - den (p_col p j) i * x j)) by (intros; ring). rewrite sum_minus. rewrite (F1 i Li), (G1 i Li). ring.
Qed.
(** and not between two other solutions *)
Lemma vertex_extreme p x : vertex p x -> feasible p x -> extreme p x.
Proof.
  intros V F y z a Fy Fz P1 P2 E. assert (H : forall w, feasible p w -> (forall j, (j < p_cols p)%nat -> x j = 0 -> w j = 0) -> forall j, (j < p_cols p)%nat -> w j = x j) by (intros w Fw; now apply vertex_unique).
  assert (D : forall j, (j < p_cols p)%nat -> x j = 0 -> y j = 0 /\ z j = 0).
  { intros j Lj X. specialize (E j Lj). rewrite X in E. destruct Fy as [_ Fy], Fz as [_ Fz]. specialize (Fy j Lj). specialize (Fz j Lj).
    assert (Q1 : 0 <= a * y j) by (apply Qc_mul_nonneg; qlra). assert (Q2 : 0 <= (1 - a) * z j) by (apply Qc_mul_nonneg; qlra).
    assert (E1 : a * y j = 0) by qlra. assert (E2 : (1 - a) * z j = 0) by qlra. split.
    - apply Qcmult_integral in E1. destruct E1 as [E1|E1]; [rewrite E1 in P1; discriminate|assumption].
    - apply Qcmult_integral in E2. destruct E2 as [E2|E2]; [|assumption]. exfalso. qlra. }
  intros j Lj. split; apply H; try assumption; intros i Li X; now apply D.
Qed.

Lemma run_extreme r n fuel p x : provider_ok p -> run r n fuel p = Ok (FiniteOptimum x) -> extreme p (den x).
Proof. intros Pok E. apply vertex_extreme; [apply (run_vertex r n fuel p x Pok E)|]. apply (run_optimum r n fuel p x Pok E). Qed.
Lemma start_extreme r n fuel p basis x : well_sized p -> feasible_basis p basis -> start_from r n fuel p basis = Ok (FiniteOptimum x) -> extreme p (den x).
Proof. intros S F E. apply vertex_extreme; [apply (start_vertex r n fuel p basis x S F E)|]. apply (start_optimum r n fuel p basis x S F E). Qed.

(** ** Shortest paths *)
Section Path.
Variables (adjacency : list svec) (s t : nat).
Local Notation A := (arcs adjacency).
Hypothesis GO : graph_ok adjacency.
Hypothesis Ls : (s < length adjacency)%nat.
Hypothesis Lt : (t < length adjacency)%nat.
Hypothesis N : s <> t.
Variable p : provider.
Hypothesis E : shortest_path adjacency s t = Ok p.
Lemma walk_exact r n fuel x : run r n fuel p = Ok (FiniteOptimum x) -> forall l, walk A s t l -> (forall k, In k l -> 0 < den x k) -> forall k, den x k = uses l k.
Proof using GO Ls Lt N E.
  intros R l W P k. destruct (path_provider adjacency s t GO Ls Lt N p E) as (Pok & _ & C & F & O). destruct (run_optimum r n fuel p x Pok R) as [[F1 M] Wf].
  destruct (run_vertex r n fuel p x Pok R) as [V _]. destruct (Nat.lt_ge_cases k (p_cols p)) as [L|L].
  - symmetry. apply (vertex_unique p (den x) (uses l) V F1); [now apply F, walk_flow| |assumption]. intros j Lj Z. apply uses_0. intros I. specialize (P j I). rewrite Z in P. discriminate.
  - rewrite (den_above 0 (p_cols p)) by assumption. symmetry. apply uses_0. intros I. pose proof (walk_arcs A s t l k W I). lia.
Qed.
Lemma uses_app l l' k : uses (l ++ l') k = uses l k + uses l' k.
Proof. induction l as [|j l IH]; cbn; [ring|rewrite IH; ring]. Qed.
Lemma uses_In l k : In k l -> 1 <= uses l k.
Proof. induction l as [|j l IH]; [intros []|]. cbn. intros [->|I]; [|specialize (IH I)]; pose proof (uses_nonneg l k); unfold delta; [rewrite Nat.eqb_refl|destruct (Nat.eqb j k)]; qlra. Qed.
Lemma uses_NoDup l k : NoDup l -> uses l k = if existsb (Nat.eqb k) l then 1 else 0.
Proof.
  induction 1 as [|j l NI ND IH]; [reflexivity|]. cbn [uses existsb]. rewrite Nat.eqb_sym. unfold delta. rewrite Nat.eqb_sym. destruct (Nat.eqb_spec j k) as [->|Nk]; cbn [orb].
  - rewrite Nat.eqb_refl. cbn [orb]. rewrite uses_0 by assumption. ring.
  - destruct (Nat.eqb_spec k j); [congruence|]. cbn [orb]. rewrite IH. ring.
Qed.
Lemma path_exact r n fuel x : run r n fuel p = Ok (FiniteOptimum x) ->
  exists l, shortest A s t l /\ NoDup (visited A s l) /\ forall k, den x k = if existsb (Nat.eqb k) l then 1 else 0.
Proof using GO Ls Lt N E.
  intros R. destruct (path_optimum adjacency s t GO Ls Lt N p E r n fuel x R) as (l & Sh & P & _). exists l. split; [assumption|]. destruct Sh as [W _].
  assert (X := walk_exact r n fuel x R l W P). assert (ND : NoDup (visited A s l)).
  { destruct (walk_splits A s t l W) as [ND|(v & l1 & l2 & l3 & -> & N2 & W1 & W2 & W3)]; [exact ND|]. exfalso. destruct l2 as [|k l2]; [congruence|].
    assert (X' : forall k, den x k = uses (l1 ++ l3) k). { apply (walk_exact r n fuel x R); [now apply (walk_app A s v t)|]. intros j I. apply P. rewrite !in_app_iff in *. tauto. }
    specialize (X k). specialize (X' k). rewrite X in X'. rewrite !uses_app in X'. pose proof (uses_In (k :: l2) k (or_introl eq_refl)). qlra. }
  split; [assumption|]. intros k. rewrite X. apply uses_NoDup. unfold visited in ND. apply NoDup_cons_iff in ND. destruct ND as [_ ND]. now apply NoDup_map_inv in ND.
Qed.
End Path.

Lemma run_determined r n fuel p x z : provider_ok p -> run r n fuel p = Ok (FiniteOptimum x) ->
  feasible p z -> (forall j, (j < p_cols p)%nat -> den x j = 0 -> z j = 0) -> forall j, (j < p_cols p)%nat -> z j = den x j.
Proof. intros Pok E F Z. apply vertex_unique; [apply (run_vertex r n fuel p x Pok E)|apply (run_optimum r n fuel p x Pok E)|assumption|assumption]. Qed.
