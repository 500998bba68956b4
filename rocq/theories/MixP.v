(** * Proofs: programs between two others *)
From Verif Require Import TextSolveP FixedP FDualP OrderP PairP.
From Verif Require Export SpecMix.
Local Open Scope Qc_scope.
Open Scope list_scope.

Lemma rhs_exists f r : exists b, frhs f r b.
Proof.
  unfold frhs. induction (vector_values (f_rhs f)) as [|[[g0 r0] b0] l IH]; [exists 0; right; split; [reflexivity|intros g b []]|].
  destruct (String.eqb_spec r0 r) as [->|NE]; [exists b0; left; exists g0; now left|]. destruct IH as [b [[g B]|[-> B]]]; [exists b; left; exists g; now right|].
  exists 0. right. split; [reflexivity|]. intros g b' [X|X]; [injection X as _ X _; contradiction|exact (B g b' X)].
Qed.
Lemma mix_le t a b a' b' : 0 <= t -> t <= 1 -> a <= a' -> b <= b' -> mix t a b <= mix t a' b'.
Proof.
  intros T T1 A B. unfold mix. apply Qcplus_le_compat; (rewrite (Qcmult_comm _ a), (Qcmult_comm _ a') || rewrite (Qcmult_comm _ b), (Qcmult_comm _ b')); apply Qcmult_le_compat_r; try assumption. clear - T1. qlra.
Qed.
Lemma mix_add t a b c d : mix t a b + mix t c d = mix t (a + c) (b + d). Proof. unfold mix. ring. Qed.
Lemma mix_same t a : mix t a a = a. Proof. unfold mix. ring. Qed.
Lemma mix_shift t a b c : mix t a b + c = mix t (a + c) (b + c). Proof. unfold mix. ring. Qed.
Lemma mix_plain t k b0 b1 v0 v1 : 0 <= t -> t <= 1 -> plain_holds k b0 v0 -> plain_holds k b1 v1 -> plain_holds k (mix t b0 b1) (mix t v0 v1).
Proof. intros T T1. destruct k; cbn; intros A B; [now apply mix_le|now rewrite A, B|now apply mix_le]. Qed.
Lemma mix_range t k b0 b1 w v0 v1 : 0 <= t -> t <= 1 -> range_holds k b0 w v0 -> range_holds k b1 w v1 -> range_holds k (mix t b0 b1) w (mix t v0 v1).
Proof.
  intros T T1 A B. destruct k; cbn in *.
  - destruct A as [A1 A2], B as [B1 B2]. split; [|now apply mix_le]. replace (mix t b0 b1 - qabs w) with (mix t (b0 - qabs w) (b1 - qabs w)) by (unfold mix; ring). now apply mix_le.
  - destruct (qneg w); destruct A as [A1 A2], B as [B1 B2].
    + split; [|now apply mix_le]. replace (mix t b0 b1 - qabs w) with (mix t (b0 - qabs w) (b1 - qabs w)) by (unfold mix; ring). now apply mix_le.
    + split; [now apply mix_le|]. replace (mix t b0 b1 + qabs w) with (mix t (b0 + qabs w) (b1 + qabs w)) by (unfold mix; ring). now apply mix_le.
  - destruct A as [A1 A2], B as [B1 B2]. split; [now apply mix_le|]. replace (mix t b0 b1 + qabs w) with (mix t (b0 + qabs w) (b1 + qabs w)) by (unfold mix; ring). now apply mix_le.
Qed.
Lemma mix_allows t b x0 x1 : 0 <= t -> t <= 1 -> ~ is_semi b -> allows b x0 -> allows b x1 -> allows b (mix t x0 x1).
Proof.
  intros T T1 NS. destruct b; cbn in NS |- *; intros A B; try (exfalso; apply NS; exact I); try exact I; try (rewrite A, B; apply mix_same).
  all: try (match goal with |- ?v <= mix _ _ _ => rewrite <- (mix_same t v) | |- mix _ _ _ <= ?v => rewrite <- (mix_same t v) end; now apply mix_le).
  destruct A as [A1 A2], B as [B1 B2]. split; [rewrite <- (mix_same t 0)|rewrite <- (mix_same t 1)]; now apply mix_le.
Qed.
Lemma value_mix f t x0 x1 r : frow_value f (fun c => mix t (x0 c) (x1 c)) r = mix t (frow_value f x0 r) (frow_value f x1 r).
Proof.
  unfold frow_value, mix. induction (coefficients f) as [|[[c r'] v] l IH]; [unfold total; cbn; ring|]. rewrite !total_cons, IH. destruct (String.eqb r' r); ring.
Qed.
Lemma better_mix d t a b a' b' : 0 <= t -> t <= 1 -> better d a a' -> better d b b' -> better d (mix t a b) (mix t a' b').
Proof. intros T T1. destruct d; cbn; intros A B; now apply mix_le. Qed.

Section Rhs.
Variables (t : Qc) (f0 f1 f : file).
Hypotheses (T : 0 < t) (T1 : t < 1) (FS0 : file_solvable f0) (FS1 : file_solvable f1) (FS : file_solvable f) (B : between_rhs t f0 f1 f).
Lemma other_value g x r : other_rhs f g -> frow_value g x r = frow_value f x r.
Proof using. intros O. unfold frow_value, coefficients. now rewrite (or_columns _ _ O). Qed.
Lemma other_cost g x : other_rhs f g -> fcost g x = fcost f x.
Proof using. intros O. unfold fcost. rewrite (other_value g x _ O). unfold cost_row. now rewrite (or_rows _ _ O). Qed.
Lemma mix_feasible x0 x1 : ffeasible f0 x0 -> ffeasible f1 x1 -> ffeasible f (fun c => mix t (x0 c) (x1 c)).
Proof using T T1 FS B.
  assert (T0 : 0 <= t) by now apply Qclt_le_weak. assert (T1' : t <= 1) by now apply Qclt_le_weak.
  intros [R0 V0] [R1 V1]. pose proof (br_other0 _ _ _ _ B) as O0. pose proof (br_other1 _ _ _ _ B) as O1. split.
  - intros k r K b Hb. rewrite value_mix. specialize (R0 k r). rewrite (or_rows _ _ O0), (other_value f0 x0 r O0) in R0. specialize (R0 K). specialize (R1 k r). rewrite (or_rows _ _ O1), (other_value f1 x1 r O1) in R1. specialize (R1 K).
    destruct (rhs_exists f0 r) as [b0 B0]. destruct (rhs_exists f1 r) as [b1 B1]. rewrite (rhs_unique f r b (mix t b0 b1) FS Hb (br_rhs _ _ _ _ B r b0 b1 (ex_intro _ k K) B0 B1)).
    destruct (R0 b0 B0) as [P0 G0], (R1 b1 B1) as [P1 G1]. unfold frange in *. rewrite (or_ranges _ _ O0) in P0, G0. rewrite (or_ranges _ _ O1) in P1, G1. split.
    + intros N. apply mix_plain; [assumption|assumption|now apply P0|now apply P1].
    + intros w W. apply mix_range; [assumption|assumption|now apply G0|now apply G1].
  - intros c C. unfold columns_of in *. specialize (V0 c). rewrite (or_columns _ _ O0) in V0. specialize (V0 C). specialize (V1 c). rewrite (or_columns _ _ O1) in V1. specialize (V1 C).
    unfold fallowed in *. rewrite (or_bounds _ _ O0) in V0. rewrite (or_bounds _ _ O1) in V1. destruct V0 as [A0 L0], V1 as [A1 L1]. split.
    + intros b g H. apply mix_allows; [assumption|assumption|exact (fr_bound_types f (fs_rules f FS) b g c H)|exact (A0 b g H)|exact (A1 b g H)].
    + intros H. rewrite <- (mix_same t 0). apply mix_le; [assumption|assumption|now apply L0|now apply L1].
Qed.
Lemma mix_cost x0 x1 : fcost f (fun c => mix t (x0 c) (x1 c)) = mix t (fcost f0 x0) (fcost f1 x1).
Proof using B. rewrite (other_cost f0 x0 (br_other0 _ _ _ _ B)), (other_cost f1 x1 (br_other1 _ _ _ _ B)). apply value_mix. Qed.
(** points of [f] as cheap as one likes *)
Lemma mix_far (bound v1 : Qc) : 0 < t -> exists u, mix t v1 u = bound.
Proof using. clear. intros T. exists ((bound - (1 - t) * v1) / t). unfold mix. field. intros Z. rewrite Z in T. exact (Qclt_not_eq _ _ T eq_refl). Qed.
Lemma far_better d c : 0 < c -> forall a b k, match d with Minimize => a < b | Maximize => b < a end -> match d with Minimize => k + c * a < k + c * b | Maximize => k + c * b < k + c * a end.
Proof using.
  clear. intros C a b k. assert (L : forall a b, a < b -> k + c * a < k + c * b).
  { intros u v H. rewrite (Qcmult_comm c u), (Qcmult_comm c v). pose proof (Qcmult_lt_compat_r u v c C H) as X. clear - X. set (p := u * c) in *. set (r := v * c) in *. clearbody p r. qlra. }
  destruct d; intros H; now apply L.
Qed.
Lemma rhs_mixed a0 a1 a : OrderP.right f0 a0 -> OrderP.right f1 a1 -> OrderP.right f a -> no_worse (fsense f) (outcome_of f a) (mixed t (outcome_of f0 a0) (outcome_of f1 a1)).
Proof using T T1 FS B.
  intros R0 R1 R. assert (T0 : 0 <= t) by now apply Qclt_le_weak. assert (T1' : t <= 1) by now apply Qclt_le_weak.
  pose proof (or_sense _ _ (br_other0 _ _ _ _ B)) as S0. pose proof (or_sense _ _ (br_other1 _ _ _ _ B)) as S1.
  destruct a as [s| |]; cbn [outcome_of]; [|..|exact I].
  - destruct R as [[X O] _]. destruct a0 as [s0| |], a1 as [s1| |]; cbn [outcome_of mixed no_worse]; try exact I.
    + destruct R0 as [[X0 _] _], R1 as [[X1 _] _]. rewrite <- mix_cost. apply O. now apply mix_feasible.
    + destruct R0 as [[X0 _] _], R1 as [_ U]. destruct (mix_far (fcost f (answer_at s)) (fcost f0 (answer_at s0)) T) as [u U0]. destruct (U u) as (x1 & X1 & L). rewrite S1 in L. specialize (O _ (mix_feasible _ _ X0 X1)). rewrite mix_cost, <- U0 in O.
      pose proof (far_better (fsense f) t T _ _ ((1 - t) * fcost f0 (answer_at s0)) L) as W. unfold mix in O. destruct (fsense f); cbn in O; exact (Qclt_not_le _ _ W O).
    + destruct R1 as [[X1 _] _], R0 as [_ U].
      assert (C : 0 < 1 - t) by (clear - T1; qlra). assert (exists u, mix t u (fcost f1 (answer_at s1)) = fcost f (answer_at s)) as [u U0].
      { assert (NZ : 1 - t <> 0) by (intros Z; rewrite Z in C; exact (Qclt_not_eq _ _ C eq_refl)). exists ((fcost f (answer_at s) - t * fcost f1 (answer_at s1)) / (1 - t)). unfold mix. field. exact NZ. }
      destruct (U u) as (x0 & X0 & L). rewrite S0 in L. specialize (O _ (mix_feasible _ _ X0 X1)). rewrite mix_cost, <- U0 in O.
      pose proof (far_better (fsense f) (1 - t) C _ _ (t * fcost f1 (answer_at s1)) L) as W. unfold mix in O. rewrite !(Qcplus_comm ((1 - t) * _)) in O. destruct (fsense f); cbn in O; exact (Qclt_not_le _ _ W O).
    + destruct R0 as [[x0 X0] _], R1 as [_ U]. destruct (mix_far (fcost f (answer_at s)) (fcost f0 x0) T) as [u U0]. destruct (U u) as (x1 & X1 & L). rewrite S1 in L. specialize (O _ (mix_feasible _ _ X0 X1)). rewrite mix_cost, <- U0 in O.
      pose proof (far_better (fsense f) t T _ _ ((1 - t) * fcost f0 x0) L) as W. unfold mix in O. destruct (fsense f); cbn in O; exact (Qclt_not_le _ _ W O).
  - assert (N : (exists x0, ffeasible f0 x0) -> (exists x1, ffeasible f1 x1) -> False) by (intros [x0 X0] [x1 X1]; exact (R _ (mix_feasible x0 x1 X0 X1))).
    destruct a0 as [s0| |], a1 as [s1| |]; cbn [outcome_of mixed no_worse]; try exact I; apply N.
    all: first [destruct R0 as [[X0 _] _]; eexists; exact X0|destruct R0 as [E0 _]; exact E0|destruct R1 as [[X1 _] _]; eexists; exact X1|destruct R1 as [E1 _]; exact E1].
Qed.
End Rhs.

Section Costs.
Variables (t : Qc) (f0 f1 f : file).
Hypotheses (T : 0 < t) (T1 : t < 1) (FS0 : file_solvable f0) (FS1 : file_solvable f1) (FS : file_solvable f) (B : between_costs t f0 f1 f).
Lemma costs_feasible g x : file_solvable g -> other_costs f g -> (ffeasible g x <-> ffeasible f x).
Proof using FS.
  clear T T1 FS0 FS1 B. intros FG O.
  assert (V : forall r, is_constraint f r -> frow_value g x r = frow_value f x r).
  { intros r R. rewrite (value_sum g), (value_sum f) by (apply fr_columns, fs_rules; assumption). rewrite (oc_columns _ _ O). apply total_ext. intros c _. now rewrite (oc_coefficients _ _ O c r R). }
  assert (H : forall k r v, frow_holds g k r v <-> frow_holds f k r v) by (intros k r v; unfold frow_holds, frhs, frange; rewrite (oc_rhs _ _ O), (oc_ranges _ _ O); reflexivity).
  unfold ffeasible, fallowed. rewrite (oc_rows _ _ O), (oc_bounds _ _ O). change (map fst (columns_of g)) with (column_names_of g). rewrite (oc_columns _ _ O). split; intros [R C]; (split; [|exact C]); intros k r K; specialize (R k r K); [rewrite <- (V r (ex_intro _ k K)); now apply H|rewrite (V r (ex_intro _ k K)); now apply H].
Qed.
Lemma costs_mix x : fcost f x = mix t (fcost f0 x) (fcost f1 x).
Proof using FS0 FS1 FS B.
  unfold fcost. rewrite (value_sum f), (value_sum f0), (value_sum f1) by (apply fr_columns, fs_rules; assumption). rewrite (oc_columns _ _ (bc_other0 _ _ _ _ B)), (oc_columns _ _ (bc_other1 _ _ _ _ B)).
  unfold mix. rewrite <- !total_mul, <- total_add. apply total_ext. intros c C. pose proof (bc_costs _ _ _ _ B c C) as E. unfold fcost, mix in E. rewrite E. ring.
Qed.
Lemma costs_mixed a0 a1 a : OrderP.right f0 a0 -> OrderP.right f1 a1 -> OrderP.right f a -> no_worse (fsense f) (mixed t (outcome_of f0 a0) (outcome_of f1 a1)) (outcome_of f a).
Proof using T T1 FS0 FS1 FS B.
  intros R0 R1 R. assert (T0 : 0 <= t) by now apply Qclt_le_weak. assert (T1' : t <= 1) by now apply Qclt_le_weak.
  pose proof (bc_other0 _ _ _ _ B) as O0. pose proof (bc_other1 _ _ _ _ B) as O1. pose proof (oc_sense _ _ O0) as S0. pose proof (oc_sense _ _ O1) as S1.
  destruct a as [s| |]; cbn [outcome_of].
  - destruct R as [[X O] _]. pose proof (proj2 (costs_feasible f0 _ FS0 O0) X) as X0. pose proof (proj2 (costs_feasible f1 _ FS1 O1) X) as X1.
    destruct a0 as [s0| |]; [|elim (R0 _ X0)|destruct a1 as [s1| |]; [exact I|elim (R1 _ X1)|exact I]]. destruct a1 as [s1| |]; [|elim (R1 _ X1)|exact I].
    cbn [outcome_of mixed no_worse]. destruct R0 as [[_ P0] _], R1 as [[_ P1] _]. rewrite costs_mix. specialize (P0 _ X0). specialize (P1 _ X1). rewrite S0 in P0. rewrite S1 in P1. now apply better_mix.
  - destruct (mixed t (outcome_of f0 a0) (outcome_of f1 a1)); exact I.
  - destruct R as [[x X] U]. pose proof (proj2 (costs_feasible f0 _ FS0 O0) X) as X0. pose proof (proj2 (costs_feasible f1 _ FS1 O1) X) as X1.
    destruct a0 as [s0| |]; [|elim (R0 _ X0)|destruct a1 as [s1| |]; [exact I|elim (R1 _ X1)|exact I]]. destruct a1 as [s1| |]; [|elim (R1 _ X1)|exact I].
    cbn [outcome_of mixed no_worse]. destruct R0 as [[_ P0] _], R1 as [[_ P1] _].
    destruct (U (mix t (fcost f0 (answer_at s0)) (fcost f1 (answer_at s1)))) as (y & Y & L). rewrite costs_mix in L. specialize (P0 _ (proj2 (costs_feasible f0 _ FS0 O0) Y)). specialize (P1 _ (proj2 (costs_feasible f1 _ FS1 O1) Y)). rewrite S0 in P0. rewrite S1 in P1.
    pose proof (better_mix _ t _ _ _ _ T0 T1' P0 P1) as Q. destruct (fsense f); cbn in Q, L; exact (Qclt_not_le _ _ L Q).
Qed.
End Costs.
Lemma answers_between_rhs t f0 f1 f a0 a1 a : 0 < t -> t < 1 -> file_solvable f0 -> file_solvable f1 -> file_solvable f -> between_rhs t f0 f1 f -> answered f0 a0 -> answered f1 a1 -> answered f a ->
  no_worse (fsense f) (outcome_of f a) (mixed t (outcome_of f0 a0) (outcome_of f1 a1)).
Proof. intros T T1 FS0 FS1 FS B A0 A1 A. apply rhs_mixed; try assumption; now apply answered_right. Qed.
Lemma answers_between_costs t f0 f1 f a0 a1 a : 0 < t -> t < 1 -> file_solvable f0 -> file_solvable f1 -> file_solvable f -> between_costs t f0 f1 f -> answered f0 a0 -> answered f1 a1 -> answered f a ->
  no_worse (fsense f) (mixed t (outcome_of f0 a0) (outcome_of f1 a1)) (outcome_of f a).
Proof. intros T T1 FS0 FS1 FS B A0 A1 A. apply costs_mixed; try assumption; now apply answered_right. Qed.
