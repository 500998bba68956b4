(** * Reducing column ranges: the shifts are whole numbers *)
From Verif Require Export RangeR Whole.
Local Open Scope Qc_scope.

Section Problem.
Variables (a : input) (cols : list svec).
Hypothesis (O : input_ok a).
Local Notation m := (height a).
Local Notation w := (width a).
Local Notation K := (length (cells a (height a) (width a))).
Local Notation at_ k := (nth k (cells a (height a) (width a)) no_cell).
Hypothesis cols_len : length cols = (m + 2 * w)%nat.
Hypothesis cols_wf : forall j, (j < m + 2 * w)%nat -> wfs (K + K) (nth j cols []).
Hypothesis cols_val : forall i j, den (nth j cols []) i = den (nth i (all_rows a) []) j.
Local Notation g := (range_general a cols).
Local Notation p := (md_provider (new_md cols (all_b a) [] (mk_counts 0 0 K K) (range_variables (height a) (width a)))).

Lemma equation_parts z i : sum (p_cols p) (fun j => den (p_col p j) i * z j) =
  row_value g z i + sum K (fun k => delta k i * z (m + 2 * w + k)%nat) - sum K (fun k => delta (K + k) i * z (m + 2 * w + K + k)%nat).
Proof.
  rewrite (p_cols_eq a O cols cols_len cols_wf). do 2 rewrite sum_add. unfold Qcminus. f_equal; [f_equal|].
  - unfold row_value. rewrite vars_length. apply sum_ext. intros j L. rewrite (col_variable a O cols cols_len cols_wf j L). reflexivity.
  - apply sum_ext. intros k L. rewrite (col_upper_slack a O cols cols_len cols_wf k L). cbn [den]. unfold delta. rewrite Nat.eqb_sym. destruct (Nat.eqb k i); ring.
  - rewrite <- sum_opp. apply sum_ext. intros k L. rewrite (col_lower_slack a O cols cols_len cols_wf k L). cbn [den]. unfold delta. rewrite Nat.eqb_sym. destruct (Nat.eqb (K + k) i); ring.
Qed.
Lemma equation_upper z k : (k < K)%nat -> sum (p_cols p) (fun j => den (p_col p j) k * z j) =
  z (crow (at_ k)) + z (m + ccol (at_ k))%nat + z (m + 2 * w + k)%nat.
Proof.
  intros L. rewrite equation_parts, (row_upper a cols cols_len cols_val z k L). rewrite (sum_zero K (fun q => delta (K + q) k * _)).
  - rewrite (sum_ext K _ (fun q => delta k q * z (m + 2 * w + q)%nat)) by (intros; now rewrite delta_sym). rewrite sum_delta_l by assumption. ring.
  - intros q Lq. unfold delta. destruct (Nat.eqb_spec (K + q) k); [lia|ring].
Qed.
Lemma equation_lower z k : (k < K)%nat -> sum (p_cols p) (fun j => den (p_col p j) (K + k)%nat * z j) =
  z (crow (at_ k)) + z (m + w + ccol (at_ k))%nat - z (m + 2 * w + K + k)%nat.
Proof.
  intros L. rewrite equation_parts, (row_lower a cols cols_len cols_val z k L). rewrite (sum_zero K (fun q => delta q (K + k) * _)).
  - rewrite (sum_ext K _ (fun q => delta k q * z (m + 2 * w + K + q)%nat)).
    + rewrite sum_delta_l by assumption. ring.
    + intros q Lq. unfold delta. destruct (Nat.eqb_spec (K + q) (K + k)), (Nat.eqb_spec k q); try reflexivity; lia.
  - intros q Lq. unfold delta. destruct (Nat.eqb_spec q (K + k)); [lia|ring].
Qed.

(** the direction in which a solution with broken values can be moved *)
Definition way (z : vec) (j : nat) : Qc := if Nat.ltb j m then broken (z j) else - broken (z j).
Definition way_all (z : vec) (j : nat) : Qc :=
  if Nat.ltb j (m + 2 * w) then way z j
  else if Nat.ltb j (m + 2 * w + K) then - (way z (crow (at_ (j - (m + 2 * w)))) + way z (m + ccol (at_ (j - (m + 2 * w))))%nat)
  else way z (crow (at_ (j - (m + 2 * w + K)))) + way z (m + w + ccol (at_ (j - (m + 2 * w + K))))%nat.
Lemma way_variable z j : (j < m + 2 * w)%nat -> way_all z j = way z j.
Proof. intros L. unfold way_all. now rewrite (proj2 (Nat.ltb_lt _ _) L). Qed.
Lemma way_upper z k : (k < K)%nat -> way_all z (m + 2 * w + k)%nat = - (way z (crow (at_ k)) + way z (m + ccol (at_ k))%nat).
Proof. intros L. unfold way_all. rewrite (proj2 (Nat.ltb_ge _ _)), (proj2 (Nat.ltb_lt _ _)) by lia. now replace (m + 2 * w + k - (m + 2 * w))%nat with k by lia. Qed.
Lemma way_lower z k : way_all z (m + 2 * w + K + k)%nat = way z (crow (at_ k)) + way z (m + w + ccol (at_ k))%nat.
Proof. unfold way_all. rewrite !(proj2 (Nat.ltb_ge _ _)) by lia. now replace (m + 2 * w + K + k - (m + 2 * w + K))%nat with k by lia. Qed.
Lemma way_low z i : (i < m)%nat -> way z i = broken (z i).
Proof. intros L. unfold way. now rewrite (proj2 (Nat.ltb_lt _ _) L). Qed.
Lemma way_high z i : (m <= i)%nat -> way z i = - broken (z i).
Proof. intros L. unfold way. now rewrite (proj2 (Nat.ltb_ge _ _) L). Qed.
Lemma way_0 z j : z j = 0 -> way z j = 0.
Proof. intros E. assert (B : broken (z j) = 0) by (apply broken_whole; rewrite E; apply whole_0). unfold way. rewrite B. destruct (Nat.ltb j m); ring. Qed.

Lemma vertex_whole z : feasible p z -> vertex p z -> forall i, (i < m)%nat -> whole (z i).
Proof.
  intros [F _] V i Li. apply broken_whole. rewrite <- (way_low z i Li). rewrite <- way_variable by lia.
  rewrite (p_rows_eq a O cols cols_len cols_wf) in F.
  pose proof (rhs_constraint g _ _ (general_is_ok a cols cols_len cols_wf) (data_derived a O cols cols_len cols_wf)) as HB. change (g_rows g) with (K + K)%nat in HB. change (g_b g) with (all_b a) in HB.
  assert (RU : forall k, (k < K)%nat -> z (crow (at_ k)) + z (m + ccol (at_ k))%nat + z (m + 2 * w + k)%nat = zq (cval (at_ k))).
  { intros k L. rewrite <- equation_upper by assumption. rewrite F by lia. rewrite HB by lia. now apply all_b_upper. }
  assert (RL : forall k, (k < K)%nat -> z (crow (at_ k)) + z (m + w + ccol (at_ k))%nat - z (m + 2 * w + K + k)%nat = zq (cval (at_ k))).
  { intros k L. rewrite <- equation_lower by assumption. rewrite F by lia. rewrite HB by lia. now apply all_b_lower. }
  apply V.
  - rewrite (p_cols_eq a O cols cols_len cols_wf). intros j L Z. destruct (Nat.lt_ge_cases j (m + 2 * w)) as [C|C]; [rewrite way_variable by assumption; now apply way_0|].
    destruct (Nat.lt_ge_cases j (m + 2 * w + K)) as [C2|C2].
    + replace j with (m + 2 * w + (j - (m + 2 * w)))%nat in * by lia. set (k := (j - (m + 2 * w))%nat) in *. assert (Lk : (k < K)%nat) by lia. rewrite way_upper by assumption.
      destruct (at_spec a k Lk) as (A & B & _). rewrite way_low, way_high by lia. rewrite (broken_pair (z (crow (at_ k))) (z (m + ccol (at_ k))%nat)); [ring|].
      specialize (RU k Lk). rewrite Z in RU. exists (cval (at_ k)). fold (zq (cval (at_ k))). rewrite <- RU. ring.
    + replace j with (m + 2 * w + K + (j - (m + 2 * w + K)))%nat in * by lia. set (k := (j - (m + 2 * w + K))%nat) in *. assert (Lk : (k < K)%nat) by lia. rewrite way_lower.
      destruct (at_spec a k Lk) as (A & B & _). rewrite way_low, way_high by lia. rewrite (broken_pair (z (crow (at_ k))) (z (m + w + ccol (at_ k))%nat)); [ring|].
      specialize (RL k Lk). rewrite Z in RL. exists (cval (at_ k)). fold (zq (cval (at_ k))). rewrite <- RL. ring.
  - rewrite (p_rows_eq a O cols cols_len cols_wf). apply row_cases2; intros k L; destruct (at_spec a k L) as (A & B & _).
    + rewrite equation_upper by assumption. rewrite way_upper, !way_variable by lia. ring.
    + rewrite equation_lower by assumption. rewrite way_lower, !way_variable by lia. ring.
  - rewrite (p_cols_eq a O cols cols_len cols_wf). lia.
Qed.
End Problem.

Lemma range_whole r rl fuel a l : input_ok a -> column_range r rl fuel a = Ok l -> forall x, In x l -> whole x.
Proof.
  intros O E. destruct (range_problem_spec a O) as (lows & highs & cols & XL & XH & Cl & Cw & Cv & Ep). unfold column_range in E. rewrite Ep in E. cbn [bind] in E.
  destruct (start_from r rl fuel _ _) as [[|z|]| |] eqn:Es; cbn [bind] in E; try discriminate E. injection E as <-.
  pose proof (data_sized a O cols Cl Cw) as S. pose proof (basis_feasible a lows highs O XL XH cols Cl Cw Cv) as F.
  destruct (start_optimum r rl fuel _ _ z S F Es) as [[Fz _] W]. destruct (start_vertex r rl fuel _ _ z S F Es) as [V _].
  intros x I. apply (In_nth _ _ 0) in I. destruct I as (i & Li & <-). rewrite map_length in Li. unfold range in Li. rewrite seq_length, Nat.sub_0_r in Li.
  pose proof (shifts_den a cols O Cl Cw z W i Li) as D. refine (eq_ind _ whole _ _ (eq_sym D)). now apply (vertex_whole a cols O Cl Cw Cv).
Qed.
