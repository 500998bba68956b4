(** * Vertices of network programs with whole numbers are whole: general form programs *)
From Verif Require Import SpecWhole SpecVertex TextSolveP PairP FlowI StandardP StandardR VertexG SolveP WholeP.
Local Open Scope Qc_scope.

(** ** Room around numbers that are not whole *)
Definition loose (S : Qc -> Prop) : Prop := forall v, S v -> ~ whole v -> exists m, 0 < m /\ forall u, - m <= u -> u <= m -> S (v + u).
Lemma loose_iff (S T : Qc -> Prop) : (forall v, S v <-> T v) -> loose S -> loose T.
Proof. intros H L v V W. destruct (L v (proj2 (H v) V) W) as (m & M & Q). exists m. split; [exact M|]. intros u U U'. apply H. now apply Q. Qed.
Lemma loose_and (S T : Qc -> Prop) : loose S -> loose T -> loose (fun v => S v /\ T v).
Proof.
  intros A B v [V V'] W. destruct (A v V W) as (m & M & Q), (B v V' W) as (m' & M' & Q'). destruct (Qclt_le_dec m m') as [L|L].
  - exists m. split; [exact M|]. intros u U U'. split; [now apply Q|]. apply Q'; qlra.
  - exists m'. split; [exact M'|]. intros u U U'. split; [apply Q; qlra|now apply Q'].
Qed.
Lemma loose_le b : whole b -> loose (fun v => v <= b).
Proof. intros B v V W. exists (b - v). assert (v <> b) by (intros ->; contradiction). split; [|intros; qlra]. assert (L : v < b); [|qlra]. apply Qcle_lt_or_eq in V. destruct V; [assumption|contradiction]. Qed.
Lemma loose_ge b : whole b -> loose (fun v => b <= v).
Proof. intros B v V W. exists (v - b). split; [|intros; qlra]. assert (L : b < v); [|qlra]. apply Qcle_lt_or_eq in V. destruct V as [V|V]; [assumption|subst; contradiction]. Qed.
Lemma loose_eq b : whole b -> loose (fun v => v = b).
Proof. intros B v V W. subst. contradiction. Qed.
Lemma loose_any : loose (fun _ => True).
Proof. intros v _ _. exists 1. split; [reflexivity|trivial]. Qed.
Lemma rel_loose t b : whole b -> (forall r, t = Range r -> whole r) -> loose (rel_holds t b).
Proof.
  intros B R. destruct t as [|r| |]; cbn; [now apply loose_eq| |now apply loose_le|now apply loose_ge].
  apply loose_and; [apply loose_ge, whole_minus; [exact B|now apply R]|now apply loose_le].
Qed.
Lemma bounds_loose v : (forall l, v_lower v = Some l -> whole l) -> (forall u, v_upper v = Some u -> whole u) -> loose (in_bounds v).
Proof.
  intros L U. apply loose_and.
  - destruct (v_lower v) as [l|]; [|apply (loose_iff (fun _ => True)); [intros x; split; [discriminate|trivial]|exact loose_any]].
    apply (loose_iff (fun x => l <= x)); [|now apply loose_ge, L]. intros x. split; [now intros H l' [= <-]|auto].
  - destruct (v_upper v) as [u|]; [|apply (loose_iff (fun _ => True)); [intros x; split; [discriminate|trivial]|exact loose_any]].
    apply (loose_iff (fun x => x <= u)); [|now apply loose_le, U]. intros x. split; [now intros H l' [= <-]|auto].
Qed.
Lemma loose_both (S : Qc -> Prop) v c : loose S -> S v -> ~ whole v -> exists e, 0 < e /\ forall e', 0 < e' -> e' <= e -> S (v + e' * c) /\ S (v + e' * - c).
Proof.
  intros L V W. destruct (L v V W) as (m & M & Q). set (k := if qleb 0 c then c else - c).
  assert (K : 0 <= k /\ - k <= c /\ c <= k). { unfold k. destruct (qleb 0 c) eqn:E; [apply qleb_true in E; split; [exact E|]; split; qlra|]. assert (c < 0) by (destruct (Qclt_le_dec c 0) as [X|X]; [exact X|exfalso]; apply qleb_true in X; congruence). split; [qlra|]. split; qlra. }
  destruct K as (K0 & K1 & K2). assert (KP : 0 < k + 1) by qlra. exists (m / (k + 1)). split; [apply Qc_div_pos; assumption|].
  intros e E E'. assert (B : e * (k + 1) <= m). { assert (KN : k + 1 <> 0) by (intros X; rewrite X in KP; exact (Qclt_not_eq _ _ KP eq_refl)). replace m with (m / (k + 1) * (k + 1)) by (field; exact KN). apply Qcmult_le_compat_r; [exact E'|qlra]. }
  assert (B1 : e * k <= m) by qlra. assert (EN : 0 <= e) by now apply Qclt_le_weak.
  assert (B2 : 0 <= e * (k - c)) by (apply Qc_mul_nonneg; [exact EN|qlra]). assert (B3 : 0 <= e * (c + k)) by (apply Qc_mul_nonneg; [exact EN|qlra]).
  split; apply Q; try (replace (e * - c) with (- (e * c)) by ring); qlra.
Qed.
Lemma common_step n (P : nat -> Qc -> Prop) : (forall k, (k < n)%nat -> exists e, 0 < e /\ forall e', 0 < e' -> e' <= e -> P k e') ->
  exists e, 0 < e /\ forall e', 0 < e' -> e' <= e -> forall k, (k < n)%nat -> P k e'.
Proof.
  induction n as [|n IH]; intros H; [exists 1; split; [reflexivity|intros; lia]|]. destruct IH as (e & E & Q); [intros k K; apply H; lia|]. destruct (H n ltac:(lia)) as (d & D & Q').
  destruct (Qclt_le_dec e d) as [L|L].
  - exists e. split; [exact E|]. intros e' A B k K. destruct (Nat.eq_dec k n) as [->|N]; [apply Q'; qlra|apply Q; [exact A|exact B|lia]].
  - exists d. split; [exact D|]. intros e' A B k K. destruct (Nat.eq_dec k n) as [->|N]; [now apply Q'|apply Q; [exact A|qlra|lia]].
Qed.

(** ** Vertices *)
Lemma unit_whole a v : unit_value a -> whole v -> whole (a * v).
Proof. intros [-> | [-> | ->]] V; [replace (0 * v) with 0 by ring; exact whole_0|now replace (1 * v) with v by ring|replace (- (1) * v) with (- v) by ring; now apply whole_opp]. Qed.
Lemma unit_back a v : unit_value a -> a <> 0 -> whole (a * v) -> whole v.
Proof. intros [-> | [-> | ->]] N V; [contradiction|now replace v with (1 * v) by ring|replace v with (- (- (1) * v)) by ring; now apply whole_opp]. Qed.
Lemma row_value_moved g x d e i : row_value g (fun j => x j + e * d j) i = row_value g x i + e * row_value g d i.
Proof. unfold row_value. rewrite <- sum_scal_l, <- sum_plus. apply sum_ext. intros; ring. Qed.
Lemma range_total n (f : nat -> Qc) : sum n f = total (map f (range 0 n)).
Proof. rewrite (total_sum _ 0%nat). unfold range. rewrite seq_length, Nat.sub_0_r. apply sum_ext. intros j J. now rewrite seq_nth. Qed.

Section Vertex.
Variables (side : nat -> bool) (g : general) (x : vec).
Hypotheses (NW : network side g) (FE : gfeasible g x) (EX : gextreme g x).
Hypothesis rows_loose : forall i, (i < g_rows g)%nat -> loose (rel_holds (row_type g i) (nthq (g_b g) i)).
Hypothesis vars_loose : forall j, (j < nr_vars g)%nat -> loose (in_bounds (var g j)).
Local Notation n := (nr_vars g).
Local Notation F := (filter (fun j => negb (wholeb (x j))) (range 0 n)).
Local Notation R := (filter (fun i => wholeb (row_value g x i) && existsb (fun j => nz (coefficient g i j)) F) (range 0 (g_rows g))).
Lemma in_F j : In j F <-> (j < n)%nat /\ ~ whole (x j).
Proof using. clear. rewrite filter_In, In_range, negb_true_iff, <- wholeb_ok. destruct (wholeb (x j)); intuition (try discriminate; try lia; congruence). Qed.
Lemma in_R i : In i R <-> (i < g_rows g)%nat /\ whole (row_value g x i) /\ exists j, In j F /\ coefficient g i j <> 0.
Proof using.
  clear. rewrite filter_In, In_range, andb_true_iff, wholeb_ok, existsb_exists. split; intros (A & B & j & J & C); (split; [lia|]); (split; [exact B|]); exists j; (split; [exact J|]); now apply nz_true.
Qed.
Lemma two_entries i : In i R -> (2 <= length (filter (fun j => nz (coefficient g i j)) F))%nat.
Proof using NW.
  intros I. apply in_R in I. destruct I as (Li & W & j & J & C).
  assert (IN : In j (filter (fun j => nz (coefficient g i j)) F)) by (apply filter_In; split; [exact J|now apply nz_true]).
  destruct (filter (fun j => nz (coefficient g i j)) F) as [|k [|k' l]] eqn:E; cbn [length]; [destruct IN| |lia]. exfalso. destruct IN as [->|[]].
  assert (O : forall q, (q < n)%nat -> q <> j -> whole (coefficient g i q * x q)).
  { intros q Q N. destruct (whole_dec (x q)) as [X|X]; [apply unit_whole; [now apply (nt_units _ _ NW)|exact X]|].
    destruct (nz (coefficient g i q)) eqn:Z; [|apply nz_false in Z; rewrite Z; replace (0 * x q) with 0 by ring; exact whole_0].
    assert (IQ : In q (filter (fun j => nz (coefficient g i j)) F)) by (apply filter_In; split; [now apply in_F|exact Z]). rewrite E in IQ. destruct IQ as [IQ|[]]. congruence. }
  apply in_F in J. destruct J as [Lj NJ]. apply NJ. apply (unit_back (coefficient g i j)); [now apply (nt_units _ _ NW)|exact C|].
  unfold row_value in W. rewrite (sum_split n j _ Lj) in W. cbn beta in W.
  set (rest := sum n _) in W. assert (WR : whole rest). { apply whole_sum. intros q Q. destruct (Nat.eqb_spec q j); [exact whole_0|now apply O]. }
  match type of W with whole ?t => replace (coefficient g i j * x j) with (t - rest) by ring end. now apply whole_minus.
Qed.
Lemma vertex_whole j : (j < n)%nat -> whole (x j).
Proof using NW FE EX rows_loose vars_loose.
  intros Lj. destruct (whole_dec (x j)) as [W|W]; [exact W|exfalso]. assert (J : In j F) by now apply in_F.
  destruct (direction R F (coefficient g) side) as (d & (k & K & D) & O & H).
  - apply NoDup_filter, seq_NoDup.
  - apply NoDup_filter, seq_NoDup.
  - intros E. rewrite E in J. destruct J.
  - exact two_entries.
  - intros i i' q I I' N Q. apply in_R in I, I'. apply in_F in Q. apply (nt_pairs _ _ NW); [apply I|apply I'|exact N|apply Q].
  - assert (RV : forall i, row_value g d i = total (map (fun q => coefficient g i q * d q) F)).
    { intros i. unfold row_value. rewrite range_total. symmetry. apply total_part. intros q Q P. rewrite (O q); [ring|]. intros X. apply filter_In in X. destruct X as [_ X]. congruence. }
    destruct FE as [FR FB].
    destruct (common_step (g_rows g) (fun i e => rel_holds (row_type g i) (nthq (g_b g) i) (row_value g x i + e * row_value g d i) /\ rel_holds (row_type g i) (nthq (g_b g) i) (row_value g x i + e * - row_value g d i))) as (e1 & E1 & Q1).
    { intros i Li. destruct (whole_dec (row_value g x i)) as [WR|WR]; [|apply loose_both; auto].
      assert (Z : row_value g d i = 0).
      { rewrite RV. destruct (existsb (fun j => nz (coefficient g i j)) F) eqn:E.
        - apply H. apply in_R. split; [exact Li|]. split; [exact WR|]. apply existsb_exists in E. destruct E as (q & Q & E). exists q. split; [exact Q|now apply nz_true].
        - apply total_none. intros q Q. destruct (nz (coefficient g i q)) eqn:Z; [|apply nz_false in Z; rewrite Z; ring]. exfalso. assert (X : existsb (fun j => nz (coefficient g i j)) F = true) by (apply existsb_exists; now exists q). congruence. }
      exists 1. split; [reflexivity|]. intros e _ _. rewrite Z. replace (row_value g x i + e * 0) with (row_value g x i) by ring. replace (row_value g x i + e * - 0) with (row_value g x i) by ring. split; now apply FR. }
    destruct (common_step n (fun q e => in_bounds (var g q) (x q + e * d q) /\ in_bounds (var g q) (x q + e * - d q))) as (e2 & E2 & Q2).
    { intros q Lq. destruct (whole_dec (x q)) as [WQ|WQ]; [|apply loose_both; auto]. exists 1. split; [reflexivity|]. intros e _ _.
      rewrite (O q) by (rewrite in_F; tauto). replace (x q + e * 0) with (x q) by ring. replace (x q + e * - 0) with (x q) by ring. split; now apply FB. }
    assert (EE : exists e, 0 < e /\ e <= e1 /\ e <= e2). { destruct (Qclt_le_dec e1 e2) as [L|L]; [exists e1|exists e2]; (split; [assumption|]); split; qlra. }
    destruct EE as (e & EP & EA & EB). specialize (Q1 e EP EA). specialize (Q2 e EP EB). cbn beta in Q1, Q2.
    assert (half : 0 < Q2Qc (1 # 2) /\ Q2Qc (1 # 2) < 1) by (split; reflexivity).
    assert (HH : Q2Qc (1 # 2) + Q2Qc (1 # 2) = 1) by (apply Qc_is_canon; reflexivity).
    destruct (EX (fun q => x q + e * d q) (fun q => x q + (- e) * d q) (Q2Qc (1 # 2))) with (j := k) as [Y _].
    + split; [intros i Li; rewrite row_value_moved; now apply Q1|intros q Lq; now apply Q2].
    + split; [intros i Li; rewrite row_value_moved; replace (- e * row_value g d i) with (e * - row_value g d i) by ring; now apply Q1|]. intros q Lq. replace (- e * d q) with (e * - d q) by ring. now apply Q2.
    + apply half.
    + apply half.
    + intros q _. set (h := Q2Qc (1 # 2)) in *. replace (1 - h) with h by (rewrite <- HH; ring). transitivity ((h + h) * x q); [rewrite HH; ring|ring].
    + now apply in_F in K.
    + apply D. assert (X : e * d k = 0) by (replace (e * d k) with (x k + e * d k - x k) by ring; rewrite Y; ring). apply Qcmult_integral in X. destruct X as [X|X]; [rewrite X in EP; elim (Qclt_not_eq _ _ EP eq_refl)|exact X].
Qed.
End Vertex.
