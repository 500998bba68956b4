(** * Systems of linear inequalities: the alternative that a run of the solver decides *)
From Verif Require Export DualP.
Local Open Scope Qc_scope.

Lemma run_optimum_certified r n fuel p x : provider_ok p -> run r n fuel p = Ok (FiniteOptimum x) -> exists y, proves_bound p y (objective p (den x)).
Proof. exact (solve_optimum_certified (ops r) (laws r) _ (rule_laws n (ops r) (laws r)) fuel p x). Qed.
Lemma run_infeasible_certified r n fuel p : provider_ok p -> run r n fuel p = Ok Infeasible -> exists y, proves_infeasible p y.
Proof. exact (solve_infeasible_certified (ops r) (laws r) _ (rule_laws n (ops r) (laws r)) fuel p). Qed.
Lemma run_unbounded_certified r n fuel p : provider_ok p -> run r n fuel p = Ok Unbounded -> exists d, ray p d.
Proof. exact (solve_unbounded_certified (ops r) (laws r) _ (rule_laws n (ops r) (laws r)) fuel p). Qed.

Lemma strong_duality p : provider_ok p -> (forall l, p_init p = FullInit l -> (1 <= p_rows p)%nat) ->
  (exists x y, feasible p x /\ proves_bound p y (objective p x)) \/ (exists y, proves_infeasible p y) \/ (exists x d, feasible p x /\ ray p d).
Proof.
  intros Pok H. destruct (run_first_profitable UseRows p Pok (sizes_rows p H)) as (fuel & res & E). specialize (E fuel (le_n _)). destruct res as [| |x].
  - right; left. exact (run_infeasible_certified _ _ _ _ Pok E).
  - left. destruct (run_optimum_certified _ _ _ _ _ Pok E) as (y & Y). exists (den x), y. split; [|exact Y]. now destruct (run_optimum _ _ _ _ _ Pok E) as [[F _] _].
  - right; right. destruct (run_unbounded_certified _ _ _ _ Pok E) as (d & D). destruct (run_unbounded _ _ _ _ Pok E) as [(x & F) _]. now exists x, d.
Qed.

Section Alternative.
Variables M N : nat.
Variable G : mat.
Variables h c : vec.
Variable v : Qc.
(** unknowns: the multipliers of the inequalities [G x <= h], and one slack; one equation for each [x], and one for the value *)
Definition target (j : nat) : Qc := if Nat.ltb j N then - c j else v.
Definition entry (i j : nat) : Qc := if Nat.ltb i M then (if Nat.ltb j N then G i j else - h i) else (if Nat.ltb j N then 0 else - (1)).
Definition sgn (j : nat) : Qc := if Qclt_le_dec (target j) 0 then - (1) else 1.
Definition system : provider :=
  mk_provider (S N) (S M) (fun i => sfrom (map (fun j => sgn j * entry i j) (seq 0 (S N)))) (fun _ => 0) (map (fun j => sgn j * target j) (seq 0 (S N))) NoInit
    (fun rm i => sremove (sfrom (map (fun j => sgn j * entry i j) (seq 0 (S N)))) rm).
Lemma nthq_table n (f : vec) i : (i < n)%nat -> nthq (map f (seq 0 n)) i = f i.
Proof. intros Li. unfold nthq. rewrite (nth_indep _ 0 (f 0%nat)) by (now rewrite map_length, seq_length). rewrite map_nth, seq_nth by assumption. reflexivity. Qed.
Lemma sgn_sq j a : sgn j * (sgn j * a) = a.
Proof. unfold sgn. destruct (Qclt_le_dec _ _); ring. Qed.
Lemma system_ok : provider_ok system.
Proof.
  split; cbn [system p_rows p_cols p_col p_rhs p_init p_filtered].
  - now rewrite map_length, seq_length.
  - intros j Lj. rewrite nthq_table by assumption. unfold sgn. destruct (Qclt_le_dec (target j) 0); set (t := target j) in *; clearbody t; qlra.
  - intros i Li. pose proof (proj1 (sfrom_spec (map (fun j => sgn j * entry i j) (seq 0 (S N))))) as W. now rewrite map_length, seq_length in W.
  - exact I.
  - reflexivity.
Qed.
Lemma system_entry i j : (j < S N)%nat -> den (p_col system i) j = sgn j * entry i j.
Proof. intros Lj. cbn [system p_col]. rewrite (proj2 (sfrom_spec _)). now apply nthq_table. Qed.
Lemma alternative :
  (exists l : vec, (forall i, (i < M)%nat -> 0 <= l i) /\ (forall j, (j < N)%nat -> sum M (fun i => l i * G i j) = - c j) /\ v <= - sum M (fun i => l i * h i)) \/
  (exists (y : vec) y0, 0 <= y0 /\ (forall i, (i < M)%nat -> sum N (fun j => G i j * y j) <= y0 * h i) /\ sum N (fun j => c j * y j) < y0 * v).
Proof.
  assert (Feas : forall x, feasible system x -> exists l : vec, (forall i, (i < M)%nat -> 0 <= l i) /\ (forall j, (j < N)%nat -> sum M (fun i => l i * G i j) = - c j) /\ v <= - sum M (fun i => l i * h i)).
  { intros x [F P]. cbn [system p_rows p_cols] in F, P. exists x.
    assert (F' : forall j, (j < S N)%nat -> sum M (fun i => x i * entry i j) + x M * entry M j = target j).
    { intros j Lj. rewrite <- (sgn_sq j (target j)). specialize (F j Lj). cbn [system p_rhs] in F. rewrite nthq_table in F by assumption. rewrite <- F.
      rewrite (sum_ext (S M) _ (fun i => sgn j * (x i * entry i j))) by (intros i Li; change (sfrom (map _ (seq 0 (S N)))) with (p_col system i); rewrite system_entry by assumption; ring).
      rewrite sum_scal_l, sgn_sq. reflexivity. }
    split; [intros i Li; apply P; lia|]. split.
    - intros j Lj. specialize (F' j ltac:(lia)). unfold target, entry in F'. rewrite (proj2 (Nat.ltb_lt j N) Lj), (proj2 (Nat.ltb_ge M M) (le_n _)) in F'. rewrite <- F'.
      rewrite (sum_ext M (fun i => x i * (if Nat.ltb i M then G i j else 0)) (fun i => x i * G i j)) by (intros i Li; now rewrite (proj2 (Nat.ltb_lt i M) Li)). ring.
    - specialize (F' N ltac:(lia)). unfold target, entry in F'. rewrite (proj2 (Nat.ltb_ge N N) (le_n _)), (proj2 (Nat.ltb_ge M M) (le_n _)) in F'. rewrite <- F'.
      rewrite (sum_ext M (fun i => x i * (if Nat.ltb i M then - h i else - (1))) (fun i => - (x i * h i))) by (intros i Li; rewrite (proj2 (Nat.ltb_lt i M) Li); ring).
      rewrite sum_opp. specialize (P M ltac:(lia)). set (a := sum _ _) in *. clearbody a. qlra. }
  destruct (strong_duality system system_ok) as [(x & y & F & _)|[(z & Z1 & Z2)|(x & d & F & _)]].
  - intros l E. discriminate E.
  - left. exact (Feas x F).
  - right. cbn [system p_rows p_cols p_rhs] in Z1, Z2. set (w := fun j => z j * sgn j). exists w, (w N).
    assert (Z1' : forall i, (i < S M)%nat -> sum N (fun j => w j * entry i j) + w N * entry i N <= 0).
    { intros i Li. specialize (Z1 i Li). rewrite (sum_ext (S N) _ (fun j => w j * entry i j)) in Z1; [exact Z1|]. intros j Lj. change (sfrom (map _ (seq 0 (S N)))) with (p_col system i). rewrite system_entry by assumption. unfold w. ring. }
    assert (Z2' : 0 < sum N (fun j => w j * target j) + w N * target N).
    { rewrite (sum_ext (S N) _ (fun j => w j * target j)) in Z2; [exact Z2|]. intros j Lj. rewrite nthq_table by assumption. unfold w. ring. }
    clear Z1 Z2. split; [|split].
    + specialize (Z1' M ltac:(lia)). unfold entry in Z1'. rewrite (proj2 (Nat.ltb_ge M M) (le_n _)), (proj2 (Nat.ltb_ge N N) (le_n _)) in Z1'.
      rewrite (sum_zero N (fun j => w j * (if Nat.ltb j N then 0 else - (1)))) in Z1' by (intros j Lj; rewrite (proj2 (Nat.ltb_lt j N) Lj); ring). set (a := w N) in *. clearbody a. qlra.
    + intros i Li. specialize (Z1' i ltac:(lia)). unfold entry in Z1'. rewrite (proj2 (Nat.ltb_lt i M) Li), (proj2 (Nat.ltb_ge N N) (le_n _)) in Z1'.
      rewrite (sum_ext N (fun j => w j * (if Nat.ltb j N then G i j else - h i)) (fun j => G i j * w j)) in Z1' by (intros j Lj; rewrite (proj2 (Nat.ltb_lt j N) Lj); ring).
      set (a := w N) in *. set (s := sum N _) in *. set (b := h i) in *. clearbody a s b. replace (a * - b) with (- (a * b)) in Z1' by ring. qlra.
    + unfold target in Z2'. rewrite (proj2 (Nat.ltb_ge N N) (le_n _)) in Z2'. rewrite (sum_ext N (fun j => w j * (if Nat.ltb j N then - c j else v)) (fun j => - (c j * w j))) in Z2' by (intros j Lj; rewrite (proj2 (Nat.ltb_lt j N) Lj); ring).
      rewrite sum_opp in Z2'. set (a := w N * v) in *. set (s := sum N _) in *. clearbody a s. qlra.
  - left. exact (Feas x F).
Qed.
End Alternative.
