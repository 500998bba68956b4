(** * Packing and covering: every program has an answer *)
From Verif Require Import SpecGeneral SpecSides SparseP LinAlg SpecSizes PreSafe.
From Verif Require Export SidesP.
Local Open Scope Qc_scope.

Lemma sum_pos n f k : (forall i, (i < n)%nat -> 0 <= f i) -> (k < n)%nat -> 0 < f k -> 0 < sum n f.
Proof.
  intros H L P. pose proof (sum_nonneg n f H) as S. apply Qcle_lt_or_eq in S. destruct S as [S|S]; [assumption|]. symmetry in S.
  rewrite (sum_zero_inv n f H S k L) in P. exfalso. qlra.
Qed.
Lemma sum_term n f k : (forall i, (i < n)%nat -> 0 <= f i) -> (k < n)%nat -> f k <= sum n f.
Proof.
  intros H L. rewrite <- (sum_delta_l n k f L) at 1. apply sum_le. intros i Hi. unfold delta. destruct (Nat.eqb k i).
  - rewrite Qcmult_1_l. apply Qcle_refl.
  - rewrite Qcmult_0_l. now apply H.
Qed.
Lemma prod_nonneg a b : 0 <= a -> 0 <= b -> 0 <= a * b.
Proof. intros A B. now apply Qc_mul_nonneg. Qed.

(** ** There is always a feasible point *)
Definition size_of (v : Qc) : Qc := if qneg v then - v else v.
Lemma size_of_ok v : 0 <= size_of v /\ v <= size_of v.
Proof. unfold size_of, qneg. destruct (qltb v 0) eqn:E; qb; split; qlra. Qed.
Lemma far_enough n m (a : nat -> nat -> Qc) (p d : vec) (b : nat -> Qc) :
  (forall i j, (i < m)%nat -> (j < n)%nat -> 0 <= a i j) -> (forall j, (j < n)%nat -> 0 <= d j) ->
  (forall i, (i < m)%nat -> (forall j, (j < n)%nat -> a i j <> 0 -> d j = 0) -> sum n (fun j => a i j * p j) <= b i) ->
  exists t, 0 <= t /\ forall i, (i < m)%nat -> sum n (fun j => a i j * (p j - t * d j)) <= b i.
Proof.
  intros A D H. set (share := fun i => sum n (fun j => a i j * d j)). set (over := fun i => size_of (sum n (fun j => a i j * p j) - b i)).
  set (need := fun i => over i / share i).
  assert (SN : forall i, (i < m)%nat -> 0 <= share i) by (intros i L; apply sum_nonneg; intros j Lj; apply prod_nonneg; [now apply A|now apply D]).
  assert (O : forall i, 0 <= over i /\ sum n (fun j => a i j * p j) - b i <= over i) by (intros i; apply size_of_ok).
  assert (N : forall i, (i < m)%nat -> 0 <= need i /\ (0 < share i -> need i * share i = over i)).
  { intros i L. destruct (Qc_eq_dec (share i) 0) as [Z|Z].
    - split; [|rewrite Z; intros X; exfalso; qlra]. unfold need. rewrite Z. replace (over i / 0) with 0; [apply Qcle_refl|]. unfold Qcdiv. replace (/ 0) with 0 by (apply Qc_is_canon; reflexivity). ring.
    - assert (E : need i * share i = over i) by (unfold need; field; assumption). split; [|intros _; assumption].
      assert (SP : 0 < share i) by (pose proof (SN i L) as S; apply Qcle_lt_or_eq in S; destruct S as [S|S]; [assumption|exfalso; apply Z; symmetry; assumption]).
      apply Qcnot_lt_le. intros LT. pose proof (proj1 (O i)) as Y. rewrite <- E in Y. assert (share i * need i < share i * 0) by (apply scaled; assumption). qlra. }
  exists (sum m need). split; [apply sum_nonneg; intros i L; now apply N|]. intros i L. set (t := sum m need).
  assert (E : sum n (fun j => a i j * (p j - t * d j)) = sum n (fun j => a i j * p j) - t * share i).
  { unfold share. rewrite <- sum_scal_l, <- sum_minus. apply sum_ext. intros j Lj. ring. }
  rewrite E. clear E. pose proof (SN i L) as S. apply Qcle_lt_or_eq in S. destruct S as [S|S].
  - destruct (N i L) as [N1 N2]. specialize (N2 S). destruct (O i) as [_ O2]. pose proof (sum_term m need i (fun k Lk => proj1 (N k Lk)) L) as T. fold t in T.
    pose proof (prod_nonneg (share i) (t - need i) ltac:(qlra) ltac:(qlra)) as X. replace (share i * (t - need i)) with (t * share i - need i * share i) in X by ring. rewrite N2 in X. qlra.
  - rewrite <- S. replace (t * 0) with 0 by ring. enough (sum n (fun j => a i j * p j) <= b i) by qlra. apply (H i L). intros j Lj Nz.
    symmetry in S. pose proof (sum_zero_inv n _ (fun k Lk => prod_nonneg (a i k) (d k) (A i k L Lk) (D k Lk)) S j Lj) as Z. cbn beta in Z.
    apply Qcmult_integral in Z. destruct Z as [Z|Z]; [now elim Nz|assumption].
Qed.
Lemma limits_feasible g : limits g -> exists x, gfeasible g x.
Proof.
  intros K. set (p := fun j => match v_lower (var g j) with Some l => l | None => match v_upper (var g j) with Some h => h | None => 0 end end).
  set (d := fun j => match v_lower (var g j) with Some _ => 0 | None => 1 end).
  destruct (far_enough (nr_vars g) (g_rows g) (coefficient g) p d (nthq (g_b g))) as (t & T & R).
  - apply (li_signs _ K).
  - intros j L. unfold d. destruct (v_lower (var g j)); qlra.
  - intros i L Z. assert (A : forall j, (j < nr_vars g)%nat -> coefficient g i j <> 0 -> v_lower (var g j) <> None).
    { intros j Lj N E. specialize (Z j Lj N). unfold d in Z. rewrite E in Z. discriminate. }
    pose proof (li_room _ K i L A) as X. apply Qclt_le_weak. eapply Qcle_lt_trans; [|exact X]. unfold row_value. apply sum_le. intros j Lj.
    destruct (Qc_eq_dec (coefficient g i j) 0) as [E|N]; [rewrite E; qlra|]. specialize (A j Lj N). unfold p, least. destruct (v_lower (var g j)); [apply Qcle_refl|now elim A].
  - exists (fun j => p j - t * d j). split.
    + intros i L. rewrite (li_types _ K i L). cbn. unfold row_value. now apply R.
    + intros j L. unfold p, d. split.
      * intros l E. rewrite E. qlra.
      * intros h E. destruct (v_lower (var g j)) as [l|] eqn:EL; [pose proof (li_spread _ K j l h L EL E); qlra|]. rewrite E. qlra.
Qed.
Lemma demands_feasible g : demands g -> exists x, gfeasible g x.
Proof.
  intros K. set (p := fun j => match v_upper (var g j) with Some h => h | None => match v_lower (var g j) with Some l => l | None => 0 end end).
  set (d := fun j => match v_upper (var g j) with Some _ => 0 | None => 1 end).
  destruct (far_enough (nr_vars g) (g_rows g) (coefficient g) (fun j => - p j) d (fun i => - nthq (g_b g) i)) as (t & T & R).
  - apply (de_signs _ K).
  - intros j L. unfold d. destruct (v_upper (var g j)); qlra.
  - intros i L Z. assert (A : forall j, (j < nr_vars g)%nat -> coefficient g i j <> 0 -> v_upper (var g j) <> None).
    { intros j Lj N E. specialize (Z j Lj N). unfold d in Z. rewrite E in Z. discriminate. }
    pose proof (de_room _ K i L A) as X. assert (Y : sum (nr_vars g) (fun j => coefficient g i j * - p j) = - row_value g (most g) i); [|rewrite Y; qlra].
    unfold row_value. rewrite <- sum_opp. apply sum_ext. intros j Lj.
    destruct (Qc_eq_dec (coefficient g i j) 0) as [E|N]; [rewrite E; ring|]. specialize (A j Lj N). unfold p, most. destruct (v_upper (var g j)); [ring|now elim A].
  - exists (fun j => p j + t * d j). split.
    + intros i L. rewrite (de_types _ K i L). cbn. unfold row_value. specialize (R i L).
      assert (Y : sum (nr_vars g) (fun j => coefficient g i j * (- p j - t * d j)) = - sum (nr_vars g) (fun j => coefficient g i j * (p j + t * d j))) by (rewrite <- sum_opp; apply sum_ext; intros; ring).
      rewrite Y in R. qlra.
    + intros j L. unfold p, d. split.
      * intros l E. destruct (v_upper (var g j)) as [h|] eqn:EU; [pose proof (de_spread _ K j l h L E EU); qlra|]. rewrite E. qlra.
      * intros h E. rewrite E. qlra.
Qed.
Lemma one_sided_feasible g : one_sided g -> exists x, gfeasible g x.
Proof. intros [[K|K] _]; [now apply limits_feasible|now apply demands_feasible]. Qed.

Section Packing.
Variable g : general.
Hypothesis P : packing g.
Hypothesis C : priced g.
Lemma least_zero i : (i < g_rows g)%nat -> row_value g (least g) i = 0.
Proof using P. intros L. unfold row_value. apply sum_zero. intros j Lj. unfold least. rewrite (pk_lower _ P j Lj). ring. Qed.
Lemma packing_sided : one_sided g.
Proof using P C.
  split; [left|assumption]. constructor.
  - apply (pk_types _ P).
  - apply (pk_signs _ P).
  - intros j l h L EL EU. rewrite (pk_lower _ P j L) in EL. injection EL as <-. now apply (pk_upper _ P j).
  - intros i L _. rewrite (least_zero i L). now apply (pk_supply _ P).
Qed.
Lemma packing_feasible : gfeasible g (fun _ => 0).
Proof using P.
  split.
  - intros i L. rewrite (pk_types _ P i L). cbn. unfold row_value. rewrite sum_zero by (intros; ring). apply Qclt_le_weak. now apply (pk_supply _ P).
  - intros j L. split.
    + intros l E. rewrite (pk_lower _ P j L) in E. injection E as <-. apply Qcle_refl.
    + intros h E. apply Qclt_le_weak. now apply (pk_upper _ P j).
Qed.
Lemma packing_cap j : (j < nr_vars g)%nat -> exists cap, forall x, gfeasible g x -> 0 <= x j <= cap.
Proof using P.
  intros L. assert (Z : forall x k, gfeasible g x -> (k < nr_vars g)%nat -> 0 <= x k) by (intros x k [_ B] Lk; apply (B k Lk); now apply (pk_lower _ P)).
  destruct (pk_limit _ P j L) as [U|(i & Li & N)].
  - destruct (v_upper (var g j)) as [h|] eqn:E; [|contradiction]. exists h. intros x F. split; [now apply Z|]. now apply (proj2 F j L).
  - assert (0 < coefficient g i j) as Pos by (pose proof (pk_signs _ P i j Li L) as S; apply Qcle_lt_or_eq in S; destruct S as [S|S]; [assumption|exfalso; now apply N]).
    exists (nthq (g_b g) i / coefficient g i j). intros x F. split; [now apply Z|]. pose proof (proj1 F i Li) as R. rewrite (pk_types _ P i Li) in R. cbn in R.
    pose proof (sum_term (nr_vars g) (fun k => coefficient g i k * x k) j (fun k Lk => prod_nonneg _ _ (pk_signs _ P i k Li Lk) (Z x k F Lk)) L) as T. cbn beta in T. unfold row_value in R.
    assert (K : coefficient g i j * (nthq (g_b g) i / coefficient g i j) = nthq (g_b g) i) by (field; intros X; rewrite X in Pos; qlra).
    set (q := nthq (g_b g) i / coefficient g i j) in *. clearbody q. apply Qcnot_lt_le. intros LT.
    assert (coefficient g i j * q < coefficient g i j * x j) by (apply scaled; assumption). qlra.
Qed.
Lemma packing_bounded : exists low high, forall x, gfeasible g x -> low <= gcost g x <= high.
Proof using P.
  assert (H : forall k, (k <= nr_vars g)%nat -> exists low high, forall x, gfeasible g x -> low <= sum k (fun j => v_cost (var g j) * x j) <= high).
  { induction k as [|k IH]; intros L.
    - exists 0, 0. intros x _. cbn. split; apply Qcle_refl.
    - destruct (IH ltac:(lia)) as (lo & hi & B). destruct (packing_cap k L) as (cap & K). set (c := v_cost (var g k)).
      destruct (Qclt_le_dec c 0) as [N|N].
      + exists (lo + c * cap), hi. intros x F. destruct (B x F) as [B1 B2]. destruct (K x F) as [K1 K2]. cbn [sum]. fold c. set (s := sum k _) in *. clearbody s. clearbody c. set (y := x k) in *. clearbody y.
        pose proof (prod_nonneg (- c) y ltac:(qlra) K1) as A1. pose proof (prod_nonneg (- c) (cap - y) ltac:(qlra) ltac:(qlra)) as A2. replace (- c * y) with (- (c * y)) in A1 by ring. replace (- c * (cap - y)) with (c * y - c * cap) in A2 by ring. split; qlra.
      + exists lo, (hi + c * cap). intros x F. destruct (B x F) as [B1 B2]. destruct (K x F) as [K1 K2]. cbn [sum]. fold c. set (s := sum k _) in *. clearbody s. clearbody c. set (y := x k) in *. clearbody y.
        pose proof (prod_nonneg c y N K1) as A1. pose proof (prod_nonneg c (cap - y) N ltac:(qlra)) as A2. replace (c * (cap - y)) with (c * cap - c * y) in A2 by ring. split; qlra. }
  destruct (H (nr_vars g) (le_n _)) as (lo & hi & B). exists (g_fixed g + lo), (g_fixed g + hi). intros x F. destruct (B x F) as [B1 B2]. unfold gcost. split; qlra.
Qed.
Lemma packing_not_unbounded : ~ gunbounded g.
Proof using P.
  intros [_ U]. destruct packing_bounded as (lo & hi & B). destruct (g_objective g) eqn:O.
  - destruct (U lo) as (y & F & Y). destruct (B y F). qlra.
  - destruct (U hi) as (y & F & Y). destruct (B y F). qlra.
Qed.
End Packing.

Section Covering.
Variable g : general.
Hypothesis K : covering g.
Lemma covering_positive i j : (i < g_rows g)%nat -> (j < nr_vars g)%nat -> coefficient g i j <> 0 -> 0 < coefficient g i j.
Proof using K. intros L1 L2 N. pose proof (cr_signs _ K i j L1 L2) as S. apply Qcle_lt_or_eq in S. destruct S as [S|S]; [assumption|exfalso; now apply N]. Qed.
Lemma covering_sided : one_sided g.
Proof using K.
  split.
  - right. constructor.
    + apply (cr_types _ K).
    + apply (cr_signs _ K).
    + intros j l h L _ EU. rewrite (proj2 (cr_bounds _ K j L)) in EU. discriminate.
    + intros i L A. destruct (cr_helped _ K i L) as (j & Lj & N). exfalso. apply (A j Lj N). now apply (cr_bounds _ K).
  - intros j L E. pose proof (cr_costs _ K j L) as X. rewrite E in X. qlra.
Qed.
Lemma covering_feasible : exists x, gfeasible g x. Proof using K. apply one_sided_feasible, covering_sided. Qed.
Lemma covering_not_unbounded : ~ gunbounded g.
Proof using K.
  intros [_ U]. rewrite (cr_sense _ K) in U. destruct (U (g_fixed g)) as (y & F & Y). unfold gcost in Y.
  assert (0 <= sum (nr_vars g) (fun j => v_cost (var g j) * y j)).
  { apply sum_nonneg. intros j L. apply prod_nonneg; [apply Qclt_le_weak; now apply (cr_costs _ K)|]. apply (proj2 F j L). now apply (cr_bounds _ K). }
  qlra.
Qed.
End Covering.

Section Ends.
Variable g : general.
Hypothesis G : general_ok g.
Hypothesis F : fresh g.
Lemma sided_answer r n fuel a : one_sided g -> presolve_and_solve r n fuel g = Ok a ->
  match a with
  | Solved_to s => map fst (s_values s) = map fst (g_orig g) /\ goptimal g (solution_point s) /\
                   (g_objective g = Minimize -> s_objective s = gcost g (solution_point s))
  | NoSolution => False
  | NoBound => gunbounded g
  end.
Proof using G F.
  intros S E. pose proof (safe_solve r n fuel g a G F (one_sided_safe g G S fuel) E) as A. destruct (one_sided_feasible g S) as (x & X).
  destruct a as [s| |]; [exact A|exact (A x X)|exact (A x X)].
Qed.
Lemma sided_not_infeasible fuel : one_sided g -> presolve fuel g <> Stop VInfeasible.
Proof using G F. intros S E. destruct (one_sided_feasible g S) as (x & X). exact (presolve_infeasible fuel g G F (one_sided_safe g G S fuel) E x X). Qed.
Lemma sided_unbounded fuel : one_sided g -> presolve fuel g = Stop VUnbounded -> gunbounded g.
Proof using G F. intros S E. destruct (one_sided_feasible g S) as (x & X). exact (presolve_unbounded fuel g x G F (one_sided_safe g G S fuel) E X). Qed.
Lemma sided_ends : one_sided g -> ~ gunbounded g -> exists fuel0 s,
  (forall fuel, (fuel0 <= fuel)%nat -> presolve_and_solve UseRows FirstProfitable fuel g = Ok (Solved_to s)) /\
  map fst (s_values s) = map fst (g_orig g) /\ goptimal g (solution_point s) /\ (g_objective g = Minimize -> s_objective s = gcost g (solution_point s)).
Proof using G F.
  intros S NU. destruct (presolve_pipeline g G F (one_sided_safe g G S)) as [_ (fuel0 & a & E)]. pose proof (sided_answer _ _ fuel0 a S (E fuel0 (le_n _))) as A. destruct a as [s| |].
  - now exists fuel0, s.
  - contradiction.
  - exfalso. exact (NU A).
Qed.
Lemma packing_solved : packing g -> priced g -> exists fuel0 s,
  (forall fuel, (fuel0 <= fuel)%nat -> presolve_and_solve UseRows FirstProfitable fuel g = Ok (Solved_to s)) /\
  map fst (s_values s) = map fst (g_orig g) /\ goptimal g (solution_point s) /\ (g_objective g = Minimize -> s_objective s = gcost g (solution_point s)).
Proof using G F. intros P C. apply sided_ends; [now apply packing_sided|now apply packing_not_unbounded]. Qed.
Lemma covering_solved : covering g -> exists fuel0 s,
  (forall fuel, (fuel0 <= fuel)%nat -> presolve_and_solve UseRows FirstProfitable fuel g = Ok (Solved_to s)) /\
  map fst (s_values s) = map fst (g_orig g) /\ goptimal g (solution_point s) /\ s_objective s = gcost g (solution_point s).
Proof using G F.
  intros K. destruct (sided_ends (covering_sided g K) (covering_not_unbounded g K)) as (fuel0 & s & E & N & O & C). exists fuel0, s. split; [assumption|]. split; [assumption|]. split; [assumption|]. apply C, (cr_sense _ K).
Qed.
End Ends.
