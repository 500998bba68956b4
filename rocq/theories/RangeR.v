(** * Reducing column ranges: optima are best shifts *)
From Verif Require Export RangeQ.
Local Open Scope Qc_scope.

Lemma largest_spec l : l <> [] -> In (largest l) l /\ forall v, In v l -> v <= largest l.
Proof.
  induction l as [|x [|y t] IH]; intros N; [easy|split; [now left|intros v [->|[]]; apply Qcle_refl]|].
  destruct IH as [A B]; [discriminate|]. change (largest (x :: y :: t)) with (qmax x (largest (y :: t))). unfold qmax.
  destruct (qltb x (largest (y :: t))) eqn:E; qb.
  - split; [now right|]. intros v [->|Hv]; [qlra|now apply B].
  - split; [now left|]. intros v [->|Hv]; [apply Qcle_refl|]. specialize (B v Hv). qlra.
Qed.
Lemma smallest_spec l : l <> [] -> In (smallest l) l /\ forall v, In v l -> smallest l <= v.
Proof.
  induction l as [|x [|y t] IH]; intros N; [easy|split; [now left|intros v [->|[]]; apply Qcle_refl]|].
  destruct IH as [A B]; [discriminate|]. change (smallest (x :: y :: t)) with (qmin x (smallest (y :: t))). unfold qmin.
  destruct (qltb (smallest (y :: t)) x) eqn:E; qb.
  - split; [now right|]. intros v [->|Hv]; [qlra|now apply B].
  - split; [now left|]. intros v [->|Hv]; [apply Qcle_refl|]. specialize (B v Hv). qlra.
Qed.
Lemma shifted_In a x j v : In v (shifted a x j) <-> exists i z, (i < height a)%nat /\ cell a i j = Some z /\ v = zq z - x i.
Proof.
  unfold shifted. rewrite in_flat_map. split.
  - intros (i & Hi & Hv). apply in_seq in Hi. destruct (cell a i j) as [z|] eqn:E; cbn in Hv; [|easy]. destruct Hv as [Hv|[]]. exists i, z. repeat split; [lia|assumption|congruence].
  - intros (i & z & Li & E & ->). exists i. split; [apply in_seq; lia|]. rewrite E. now left.
Qed.
Lemma shifted_nonempty a x j : input_ok a -> (j < width a)%nat -> shifted a x j <> [].
Proof.
  intros (_ & NE & _) L H. destruct (NE j L) as (i & v & Li & E). assert (I : In (zq v - x i) (shifted a x j)) by (apply shifted_In; eauto). now rewrite H in I.
Qed.
Lemma shifted_ext a x y j : (forall i, (i < height a)%nat -> x i = y i) -> shifted a x j = shifted a y j.
Proof.
  intros H. unfold shifted. assert (G : forall l, (forall i, In i l -> (i < height a)%nat) ->
    flat_map (fun i => match cell a i j with Some v => [zq v - x i] | None => [] end) l = flat_map (fun i => match cell a i j with Some v => [zq v - y i] | None => [] end) l).
  { induction l as [|i l IH]; intros Hl; [reflexivity|]. cbn [flat_map]. rewrite (H i) by (apply Hl; now left). rewrite IH; [reflexivity|]. intros k Hk. apply Hl. now right. }
  apply G. intros i Hi. apply in_seq in Hi. lia.
Qed.
Lemma best_ext a x y : (forall i, (i < height a)%nat -> x i = y i) -> best_shifts a x -> best_shifts a y.
Proof.
  intros H [[A B] C]. split; [split|].
  - intros i L. rewrite <- H by assumption. now apply A.
  - intros i j v L L' E. rewrite <- H by assumption. now apply (B i j).
  - intros z Z. specialize (C z Z). unfold total_range in *. rewrite (sum_ext _ _ (fun j => largest (shifted a x j) - smallest (shifted a x j))); [assumption|].
    intros j _. now rewrite (shifted_ext a x y).
Qed.

Section Problem.
Variables (a : input) (cols : list svec).
Hypothesis (O : input_ok a).
Local Notation m := (height a).
Local Notation w := (width a).
Local Notation cs := (cells a (height a) (width a)).
Local Notation K := (length (cells a (height a) (width a))).
Local Notation at_ k := (nth k (cells a (height a) (width a)) no_cell).
Hypothesis cols_len : length cols = (m + 2 * w)%nat.
Hypothesis cols_wf : forall j, (j < m + 2 * w)%nat -> wfs (K + K) (nth j cols []).
Hypothesis cols_val : forall i j, den (nth j cols []) i = den (nth i (all_rows a) []) j.
Local Notation g := (range_general a cols).
Local Notation c := (mk_counts 0 0 K K).
Local Notation d := (new_md cols (all_b a) [] (mk_counts 0 0 K K) (range_variables (height a) (width a))).
Local Notation p := (md_provider (new_md cols (all_b a) [] (mk_counts 0 0 K K) (range_variables (height a) (width a)))).
Let DD : derived g c d := data_derived a O cols cols_len cols_wf.
Let GO : general_ok g := general_is_ok a cols cols_len cols_wf.
Let GS : standard_shape g c := general_shape a O cols.

Lemma row_upper z k : (k < K)%nat -> row_value g z k = z (crow (at_ k)) + z (m + ccol (at_ k))%nat.
Proof.
  intros L. destruct (at_spec a k L) as (A & B & _). unfold row_value. rewrite vars_length.
  rewrite (sum_ext _ _ (fun j => delta (crow (at_ k)) j * z j + delta (m + ccol (at_ k)) j * z j)).
  - rewrite sum_plus, !sum_delta_l by lia. reflexivity.
  - intros j _. unfold coefficient, range_general. cbn [g_cols]. rewrite cols_val, all_rows_upper, crows_den by assumption. ring.
Qed.
Lemma row_lower z k : (k < K)%nat -> row_value g z (K + k) = z (crow (at_ k)) + z (m + w + ccol (at_ k))%nat.
Proof.
  intros L. destruct (at_spec a k L) as (A & B & _). unfold row_value. rewrite vars_length.
  rewrite (sum_ext _ _ (fun j => delta (crow (at_ k)) j * z j + delta (m + w + ccol (at_ k)) j * z j)).
  - rewrite sum_plus, !sum_delta_l by lia. reflexivity.
  - intros j _. unfold coefficient, range_general. cbn [g_cols]. rewrite cols_val, all_rows_lower, crows_den by assumption. ring.
Qed.
Lemma range_feasible z : gfeasible g z <-> (forall j, (j < m + 2 * w)%nat -> 0 <= z j) /\
  (forall i j v, (i < m)%nat -> (j < w)%nat -> cell a i j = Some v -> z i + z (m + j)%nat <= zq v /\ zq v <= z i + z (m + w + j)%nat).
Proof.
  split.
  - intros [R B]. change (g_rows g) with (K + K)%nat in R. change (g_b g) with (all_b a) in R. split.
    + intros j L. rewrite vars_length in B. destruct (B j L) as [B1 _]. destruct (var_any a cols j L) as [q Eq]. rewrite Eq in B1. now apply B1.
    + intros i j v Li Lj E. destruct (at_of a i j v Li Lj E) as (k & Lk & Ek). split.
      * specialize (R k ltac:(lia)). rewrite type_upper, all_b_upper, row_upper, Ek in R by assumption. exact R.
      * specialize (R (K + k)%nat ltac:(lia)). rewrite type_lower, all_b_lower, row_lower, Ek in R by assumption. exact R.
  - intros [N R]. split.
    + change (g_rows g) with (K + K)%nat. change (g_b g) with (all_b a). apply row_cases2; intros k L; destruct (at_spec a k L) as (A & B & E); destruct (R _ _ _ A B E) as [R1 R2].
      * now rewrite type_upper, all_b_upper, row_upper by assumption.
      * now rewrite type_lower, all_b_lower, row_lower by assumption.
    + rewrite vars_length. intros j L. destruct (var_any a cols j L) as [q ->]. split; [|discriminate]. intros l E. injection E as <-. now apply N.
Qed.
Lemma range_cost z : gcost g z = sum w (fun j => z (m + w + j)%nat - z (m + j)%nat).
Proof.
  unfold gcost. rewrite vars_length. change (g_fixed g) with 0. replace (m + 2 * w)%nat with (m + w + w)%nat by lia. rewrite !sum_add.
  rewrite (sum_zero m). 2:{ intros i L. rewrite var_row by assumption. cbn [v_cost range_variable]. ring. }
  rewrite (sum_ext w (fun i => v_cost (var g (m + i)) * z (m + i)%nat) (fun j => - z (m + j)%nat)).
  2:{ intros j L. rewrite var_min by assumption. cbn [v_cost range_variable]. ring. }
  rewrite (sum_ext w (fun i => v_cost (var g (m + w + i)) * z (m + w + i)%nat) (fun j => z (m + w + j)%nat)).
  2:{ intros j L. rewrite var_max by assumption. cbn [v_cost range_variable]. ring. }
  rewrite sum_opp, sum_minus. ring.
Qed.
(** the point of the linear program that belongs to shifts *)
Definition with_extremes (x : vec) : vec := fun j =>
  if Nat.ltb j m then x j else if Nat.ltb j (m + w) then smallest (shifted a x (j - m)) else largest (shifted a x (j - (m + w))).
Lemma we_row x i : (i < m)%nat -> with_extremes x i = x i.
Proof. intros L. unfold with_extremes. now rewrite (proj2 (Nat.ltb_lt _ _) L). Qed.
Lemma we_min x j : (j < w)%nat -> with_extremes x (m + j)%nat = smallest (shifted a x j).
Proof. intros L. unfold with_extremes. rewrite (proj2 (Nat.ltb_ge _ _)), (proj2 (Nat.ltb_lt _ _)) by lia. do 2 f_equal. lia. Qed.
Lemma we_max x j : (j < w)%nat -> with_extremes x (m + w + j)%nat = largest (shifted a x j).
Proof. intros L. unfold with_extremes. rewrite !(proj2 (Nat.ltb_ge _ _)) by lia. do 2 f_equal. lia. Qed.
Lemma allowed_feasible x : allowed a x -> gfeasible g (with_extremes x) /\ gcost g (with_extremes x) = total_range a x.
Proof.
  intros [A B]. split.
  - apply range_feasible. split.
    + assert (S0 : forall j v, (j < w)%nat -> In v (shifted a x j) -> 0 <= v).
      { intros j v Lj H. apply shifted_In in H. destruct H as (i & z & Li & E & ->). now apply (B i j). }
      intros j L. destruct (Nat.lt_ge_cases j m) as [C|C]; [rewrite we_row by assumption; now apply A|]. destruct (Nat.lt_ge_cases j (m + w)) as [C2|C2].
      * replace j with (m + (j - m))%nat by lia. rewrite we_min by lia. apply (S0 (j - m)%nat); [lia|]. apply smallest_spec. apply shifted_nonempty; [assumption|lia].
      * replace j with (m + w + (j - (m + w)))%nat by lia. rewrite we_max by lia. apply (S0 (j - (m + w))%nat); [lia|]. apply largest_spec. apply shifted_nonempty; [assumption|lia].
    + intros i j v Li Lj E. rewrite we_row, we_min, we_max by assumption. pose proof (shifted_nonempty a x j O Lj) as NE.
      assert (I : In (zq v - x i) (shifted a x j)) by (apply shifted_In; eauto).
      destruct (largest_spec _ NE) as [_ H1]. destruct (smallest_spec _ NE) as [_ H2]. specialize (H1 _ I). specialize (H2 _ I). split; qlra.
  - rewrite range_cost. unfold total_range. apply sum_ext. intros j L. now rewrite we_min, we_max.
Qed.
Lemma feasible_allowed z : gfeasible g z -> allowed a z /\ total_range a z <= gcost g z.
Proof.
  intros F. apply range_feasible in F. destruct F as [N R]. split; [split|].
  - intros i L. apply N. lia.
  - intros i j v Li Lj E. destruct (R i j v Li Lj E) as [R1 _]. pose proof (N (m + j)%nat ltac:(lia)). qlra.
  - rewrite range_cost. apply sum_le. intros j L. pose proof (shifted_nonempty a z j O L) as NE.
    destruct (largest_spec _ NE) as [H1 _]. destruct (smallest_spec _ NE) as [H2 _]. apply shifted_In in H1, H2.
    destruct H1 as (i & v & Li & E & ->). destruct H2 as (i' & v' & Li' & E' & ->). destruct (R i j v Li L E) as [_ R1]. destruct (R i' j v' Li' L E') as [R2 _]. qlra.
Qed.
Lemma optimum_best z : optimal p z -> best_shifts a z.
Proof.
  intros [F M]. pose proof (feasible_general g c d GO GS DD z F) as G. destruct (feasible_allowed z G) as [A T]. split; [assumption|].
  intros y Y. destruct (allowed_feasible y Y) as [FY CY]. specialize (M _ (general_feasible g c d GO GS DD _ FY)).
  pose proof (md_objective g c d DD z) as O1. pose proof (md_objective g c d DD (with_slacks g c d (with_extremes y))) as O2.
  assert (E : gcost g (with_slacks g c d (with_extremes y)) = gcost g (with_extremes y)).
  { unfold gcost. f_equal. apply sum_ext. intros j L. now rewrite (with_slacks_normal g c d DD). }
  change (g_fixed g) with 0 in O1, O2. rewrite E, CY in O2. rewrite <- O2. rewrite <- O1 in T. qlra.
Qed.
Lemma not_unbounded : ~ unbounded p.
Proof.
  intros [_ U]. destruct (U 0) as (y & F & L). pose proof (feasible_general g c d GO GS DD y F) as G. destruct (feasible_allowed y G) as [A T].
  pose proof (md_objective g c d DD y) as O1. change (g_fixed g) with 0 in O1.
  assert (N : 0 <= total_range a y).
  { apply sum_nonneg. intros j Lj. pose proof (shifted_nonempty a y j O Lj) as NE. destruct (smallest_spec _ NE) as [_ B]. destruct (largest_spec _ NE) as [I _]. specialize (B _ I). qlra. }
  rewrite <- O1 in T. apply (Qclt_not_le _ _ L). qlra.
Qed.
Lemma shifts_den z : wfs (p_cols p) z -> forall i, (i < m)%nat ->
  nthq (map (fun i => match sget (reconstruct d z) i with None => 0 | Some v => v end) (range 0 m)) i = den z i.
Proof.
  intros W i L. destruct (reconstruct_spec g c d GO DD z W) as [W' R]. rewrite vars_length in R.
  unfold nthq. rewrite (nth_indep _ 0 ((fun i => match sget (reconstruct d z) i with None => 0 | Some v => v end) 0%nat)) by (rewrite map_length; unfold range; rewrite seq_length; lia).
  rewrite (map_nth (fun i => match sget (reconstruct d z) i with None => 0 | Some v => v end)). unfold range. rewrite seq_nth by lia. rewrite Nat.add_0_l. rewrite <- R by lia.
  destruct (sget (reconstruct d z) i) as [v|] eqn:E.
  - now apply (sget_some _ _ _ _ W') in E.
  - now apply (sget_none _ _ _ W') in E.
Qed.
End Problem.

Lemma range_problem_spec a : input_ok a -> exists lows highs cols,
  extremes a Z.le lows /\ extremes a Z.ge highs /\ length cols = (height a + 2 * width a)%nat /\
  (forall j, (j < height a + 2 * width a)%nat -> wfs (length (cells a (height a) (width a)) + length (cells a (height a) (width a))) (nth j cols [])) /\
  (forall i j, den (nth j cols []) i = den (nth i (all_rows a) []) j) /\
  range_problem a = Ok (new_md cols (all_b a) [] (mk_counts 0 0 (length (cells a (height a) (width a))) (length (cells a (height a) (width a))))
    (range_variables (height a) (width a)), first_basis a lows highs).
Proof.
  intros O. destruct (lows_spec a O) as (lows & El & XL). destruct (highs_spec a O) as (highs & Eh & XH).
  destruct (transpose_ok (all_rows a) (height a + 2 * width a) (rows_wfs a)) as (mx & Em & [Ml Mw] & M1 & M2 & Mv).
  exists lows, highs, (mx_data mx). split; [assumption|]. split; [assumption|]. rewrite <- all_rows_length.
  split; [now rewrite Ml|]. split; [intros j L; rewrite <- M2; apply Mw; now rewrite M1|]. split; [exact Mv|].
  unfold range_problem, input_columns. destruct O as (W & _). unfold width in W. destruct a as [|r a'] eqn:Ea; [cbn in W; lia|].
  cbn [index nth_error ofopt bind]. rewrite <- Ea in *. change (length r) with (length (nth 0 (r :: a') [])). rewrite <- Ea. fold (width a). fold (height a).
  rewrite El. cbn [bind]. rewrite Eh. cbn [bind]. unfold range_rows.
  destruct (loop_spec lows (height a) (height a + 2 * width a) (width a) (ex_len _ _ _ XL) (cells a (height a) (width a)) [] [] [] (repeat false (width a)) 0) as [h1 E1];
    [apply repeat_length|exact (cols_lt a)|].
  rewrite E1. cbn [bind bd_rows bd_b bd_basis bd_count]. rewrite !app_nil_l, Nat.add_0_l.
  destruct (loop_spec highs (height a + width a) (height a + 2 * width a + length (cells a (height a) (width a))) (width a) (ex_len _ _ _ XH) (cells a (height a) (width a))
     (map (crows (height a)) (cells a (height a) (width a))) (map (fun c => zq (cval c)) (cells a (height a) (width a)))
     (picks lows (height a) (height a + 2 * width a) (repeat false (width a)) 0 (cells a (height a) (width a))) (repeat false (width a)) 0) as [h2 E2];
    [apply repeat_length|exact (cols_lt a)|].
  rewrite E2. cbn [bind bd_rows bd_b bd_basis bd_count]. rewrite Nat.add_0_l. fold (all_rows a). rewrite Em. reflexivity.
Qed.

Lemma range_best r rl fuel a l : input_ok a -> column_range r rl fuel a = Ok l -> length l = height a /\ best_shifts a (nthq l).
Proof.
  intros O E. destruct (range_problem_spec a O) as (lows & highs & cols & XL & XH & Cl & Cw & Cv & Ep). unfold column_range in E. rewrite Ep in E. cbn [bind] in E.
  destruct (start_from r rl fuel _ _) as [[|x|]| |] eqn:Es; cbn [bind] in E; try discriminate E. injection E as <-.
  destruct (start_optimum r rl fuel _ _ x (data_sized a O cols Cl Cw) (basis_feasible a lows highs O XL XH cols Cl Cw Cv) Es) as [Op W].
  split; [rewrite map_length; unfold range; rewrite seq_length; unfold height; lia|].
  apply (best_ext a (den x)); [|now apply (optimum_best a cols O Cl Cw Cv)].
  intros i L. symmetry. now apply (shifts_den a cols O Cl Cw).
Qed.
Lemma range_sizes r a lows highs cols : input_ok a -> extremes a Z.le lows -> extremes a Z.ge highs -> length cols = (height a + 2 * width a)%nat ->
  (forall j, (j < height a + 2 * width a)%nat -> wfs (length (cells a (height a) (width a)) + length (cells a (height a) (width a))) (nth j cols [])) ->
  start_sizes r (md_provider (new_md cols (all_b a) [] (mk_counts 0 0 (length (cells a (height a) (width a))) (length (cells a (height a) (width a)))) (range_variables (height a) (width a)))).
Proof.
  intros O XL XH Cl Cw. unfold start_sizes. rewrite (p_rows_eq a O cols Cl Cw). pose proof (some_cells a O). destruct r; lia.
Qed.
Lemma range_no_panic r rl fuel a : input_ok a -> column_range r rl fuel a <> Panic.
Proof.
  intros O E. destruct (range_problem_spec a O) as (lows & highs & cols & XL & XH & Cl & Cw & Cv & Ep). unfold column_range in E. rewrite Ep in E. cbn [bind] in E.
  pose proof (data_sized a O cols Cl Cw) as S. pose proof (basis_feasible a lows highs O XL XH cols Cl Cw Cv) as F.
  destruct (start_from r rl fuel _ _) as [[|x|]| |] eqn:Es; cbn [bind] in E; try discriminate E.
  - now apply start_not_infeasible in Es.
  - apply (start_unbounded r rl fuel _ _ S F) in Es. now apply (not_unbounded a cols O Cl Cw Cv) in Es.
  - revert Es. apply start_no_panic; [assumption|assumption|]. now apply (range_sizes r a lows highs).
Qed.
Lemma range_terminates r a : input_ok a -> exists l fuel, forall fuel', (fuel <= fuel')%nat -> column_range r FirstProfitable fuel' a = Ok l.
Proof.
  intros O. destruct (range_problem_spec a O) as (lows & highs & cols & XL & XH & Cl & Cw & Cv & Ep).
  pose proof (data_sized a O cols Cl Cw) as S. pose proof (basis_feasible a lows highs O XL XH cols Cl Cw Cv) as F.
  destruct (start_terminates r _ _ S F (range_sizes r a lows highs cols O XL XH Cl Cw)) as [res H].
  match type of H with forall fuel, (?b <= _)%nat -> _ => set (bound := b) in * end.
  destruct (column_range r FirstProfitable bound a) as [l| |] eqn:E.
  - exists l, bound. intros fuel' L. rewrite <- E. unfold column_range. rewrite Ep. cbn [bind]. rewrite !H by lia. reflexivity.
  - now apply range_no_panic in E.
  - exfalso. unfold column_range in E. rewrite Ep in E. cbn [bind] in E. rewrite H in E by lia. destruct res; discriminate E.
Qed.
