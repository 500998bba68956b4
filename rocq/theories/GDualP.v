(** * Certificates for general form programs *)
From Verif Require Export SpecGDual FarkasP.
Local Open Scope Qc_scope.

(** ** What certificates prove *)
Definition within (lo hi : option Qc) (z : Qc) : Prop := (forall l, lo = Some l -> l <= z) /\ (forall u, hi = Some u -> z <= u).
Lemma rel_within t b z : (forall r, t = Range r -> 0 <= r) -> (rel_holds t b z <-> within (row_lower t b) (row_upper t b) z).
Proof.
  intros Hr. unfold within. destruct t as [|r| |]; cbn [rel_holds row_lower row_upper]; split; intros H.
  - subst z. split; intros u E; injection E as <-; apply Qcle_refl.
  - destruct H as [A B]. apply Qcle_antisym; [now apply B|now apply A].
  - destruct H as [A B]. split; intros u E; injection E as <-; assumption.
  - destruct H as [A B]. split; [now apply A|now apply B].
  - split; intros u E; [discriminate E|injection E as <-; assumption].
  - now apply H.
  - split; intros u E; [injection E as <-; assumption|discriminate E].
  - now apply H.
Qed.
Lemma least_le lo hi y z m : least lo hi y = Some m -> within lo hi z -> m <= y * z.
Proof.
  unfold least. intros E [A B]. destruct (Qc_eq_dec y 0) as [->|NZ]; [injection E as <-; qlra|]. destruct (Qclt_le_dec 0 y) as [P|P].
  - destruct lo as [l|]; [|discriminate E]. cbn in E. injection E as <-. specialize (A l eq_refl). pose proof (Qc_mul_nonneg y (z - l)) as Q. assert (0 <= y) by qlra. assert (0 <= z - l) by qlra. specialize (Q H H0). qlra.
  - destruct hi as [u|]; [|discriminate E]. cbn in E. injection E as <-. specialize (B u eq_refl). pose proof (Qc_mul_nonneg (- y) (u - z)) as Q. assert (0 <= - y) by qlra. assert (0 <= u - z) by qlra. specialize (Q H H0). qlra.
Qed.
Lemma gproves_sound g c y v x : gproves g c y v -> gfeasible g x -> v <= sum (nr_vars g) (fun j => c j * x j).
Proof.
  intros (rows & vars & HR & HV & <-) [FR FV].
  assert (Hrow : sum (g_rows g) rows <= sum (g_rows g) (fun i => y i * row_value g x i)).
  { apply sum_le. intros i Li. apply (least_le _ _ _ _ _ (HR i Li)). specialize (FR i Li). destruct (row_type g i) as [|r| |]; cbn [rel_holds] in FR; cbn [row_lower row_upper]; unfold within.
    - rewrite FR. split; intros u E; injection E as <-; apply Qcle_refl.
    - destruct FR. split; intros u E; injection E as <-; assumption.
    - split; intros u E; [discriminate E|injection E as <-; assumption].
    - split; intros u E; [injection E as <-; assumption|discriminate E]. }
  assert (Hvar : sum (nr_vars g) vars <= sum (nr_vars g) (fun j => (c j - sum (g_rows g) (fun i => y i * coefficient g i j)) * x j)).
  { apply sum_le. intros j Lj. apply (least_le _ _ _ _ _ (HV j Lj)). exact (FV j Lj). }
  unfold row_value in Hrow. rewrite (dot_assoc (g_rows g) (nr_vars g) y (coefficient g) x) in Hrow.
  rewrite (sum_ext (nr_vars g) (fun j => (c j - sum (g_rows g) (fun i => y i * coefficient g i j)) * x j) (fun j => c j * x j - sum (g_rows g) (fun i => y i * coefficient g i j) * x j)) in Hvar by (intros; ring).
  rewrite sum_minus in Hvar. set (a := sum _ rows) in *. set (b := sum _ vars) in *. set (s := sum _ (fun l => sum _ _ * x l)) in *. set (w := sum _ (fun j => c j * x j)) in *. clearbody a b s w. qlra.
Qed.
Lemma toward_sum d n (c x : vec) : sum n (fun j => toward d (c j) * x j) = toward d (sum n (fun j => c j * x j)).
Proof. destruct d; cbn [toward]; [apply sum_ext; reflexivity|]. rewrite <- sum_opp. apply sum_ext. intros. ring. Qed.
Lemma gcost_toward g x : toward (g_objective g) (gcost g x - g_fixed g) = sum (nr_vars g) (fun j => toward (g_objective g) (v_cost (var g j)) * x j).
Proof. rewrite toward_sum. f_equal. unfold gcost. ring. Qed.
Lemma toward_better d a b f : toward d (a - f) <= toward d (b - f) -> better d a b.
Proof. destruct d; cbn; intros; qlra. Qed.
Lemma better_toward d a b f : better d a b -> toward d (a - f) <= toward d (b - f).
Proof. destruct d; cbn; intros; qlra. Qed.
Lemma gbound_proved g y v x : gproves_bound g y v -> gfeasible g x -> better (g_objective g) v (gcost g x).
Proof. intros P F. apply (toward_better _ _ _ (g_fixed g)). rewrite gcost_toward. exact (gproves_sound g _ y _ x P F). Qed.
Lemma ginfeasible_proved g y x : gproves_infeasible g y -> ~ gfeasible g x.
Proof. intros (v & V & P) F. pose proof (gproves_sound g _ y v x P F) as Q. cbn beta in Q. rewrite (sum_zero (nr_vars g) (fun j => 0 * x j)) in Q by (intros; ring). qlra. Qed.

(** ** Going on in a direction *)
Lemma row_value_move g x t d i : row_value g (fun j => x j + t * d j) i = row_value g x i + t * row_value g d i.
Proof. unfold row_value. rewrite <- sum_scal_l, <- sum_plus. apply sum_ext. intros. ring. Qed.
Lemma move_feasible g x t d : general_ok g -> gfeasible g x -> 0 <= t ->
  (forall i, (i < g_rows g)%nat -> (row_lower (row_type g i) (nthq (g_b g) i) <> None -> 0 <= row_value g d i) /\ (row_upper (row_type g i) (nthq (g_b g) i) <> None -> row_value g d i <= 0)) ->
  (forall j, (j < nr_vars g)%nat -> (v_lower (var g j) <> None -> 0 <= d j) /\ (v_upper (var g j) <> None -> d j <= 0)) ->
  gfeasible g (fun j => x j + t * d j).
Proof.
  intros OK [FR FV] T DR DV. split.
  - intros i Li. specialize (FR i Li). specialize (DR i Li). rewrite row_value_move. apply rel_within; [intros r; now apply (gok_ranges g OK i r Li)|]. apply rel_within in FR; [|intros r; now apply (gok_ranges g OK i r Li)].
    destruct FR as [A B]. destruct DR as [C D]. split; intros b E.
    + specialize (A b E). specialize (C ltac:(now rewrite E)). pose proof (Qc_mul_nonneg t _ T C). qlra.
    + specialize (B b E). specialize (D ltac:(now rewrite E)). assert (N : 0 <= - row_value g d i) by qlra. pose proof (Qc_mul_nonneg t _ T N). qlra.
  - intros j Lj. specialize (FV j Lj). destruct (DV j Lj) as [C D]. destruct FV as [A B]. split; intros b E.
    + specialize (A b E). specialize (C ltac:(now rewrite E)). pose proof (Qc_mul_nonneg t _ T C). qlra.
    + specialize (B b E). specialize (D ltac:(now rewrite E)). assert (N : 0 <= - d j) by qlra. pose proof (Qc_mul_nonneg t _ T N). qlra.
Qed.
Lemma far_enough a s bound : s < 0 -> exists t, 0 <= t /\ a + t * s < bound.
Proof.
  intros S. destruct (Qclt_le_dec a bound) as [L|L]; [exists 0; split; [apply Qcle_refl|qlra]|].
  assert (ND : s <> 0) by (intros ->; now apply (Qclt_not_eq _ _ S)). set (t := (bound - a - 1) / s). assert (Et : t * s = bound - a - 1) by (unfold t; field; exact ND).
  exists t. split; [|rewrite Et; qlra]. destruct (Qclt_le_dec t 0) as [Q|Q]; [|exact Q]. exfalso. clearbody t. qnra.
Qed.
Lemma gray_unbounded g x d : general_ok g -> gfeasible g x -> gray g d -> gunbounded g.
Proof.
  intros OK F (DR & DV & DC). split; [now exists x|]. intros bound.
  destruct (far_enough (sum (nr_vars g) (fun j => toward (g_objective g) (v_cost (var g j)) * x j)) _ (toward (g_objective g) (bound - g_fixed g)) DC) as (t & T & LT).
  exists (fun j => x j + t * d j). split; [now apply move_feasible|]. rewrite <- sum_scal_l, <- sum_plus in LT.
  rewrite (sum_ext _ _ (fun j => toward (g_objective g) (v_cost (var g j)) * (x j + t * d j))) in LT by (intros; ring). rewrite <- (gcost_toward g (fun j => x j + t * d j)) in LT. destruct (g_objective g); cbn [toward] in LT; qlra.
Qed.

(** ** The inequalities of a program *)
Definition below (lo : option Qc) (a : vec) : vec * Qc := match lo with Some l => (fun j => - a j, - l) | None => (fun _ => 0, 0) end.
Definition above (hi : option Qc) (a : vec) : vec * Qc := match hi with Some u => (a, u) | None => (fun _ => 0, 0) end.
Definition pick {A} (k : nat) (f g : nat -> A) (i : nat) : A := if Nat.ltb i k then f i else g (i - k)%nat.
Lemma sum_pick {A} k m (f g : nat -> A) (w : vec) (F : Qc -> A -> Qc) :
  sum (k + m) (fun i => F (w i) (pick k f g i)) = sum k (fun i => F (w i) (f i)) + sum m (fun i => F (w (k + i)%nat) (g i)).
Proof.
  rewrite sum_add. f_equal; apply sum_ext; intros i Li; unfold pick.
  - now rewrite (proj2 (Nat.ltb_lt i k) Li).
  - rewrite (proj2 (Nat.ltb_ge (k + i) k)) by lia. now replace (k + i - k)%nat with i by lia.
Qed.
Lemma pick_l {A} k (f g : nat -> A) i : (i < k)%nat -> pick k f g i = f i.
Proof. intros Li. unfold pick. now rewrite (proj2 (Nat.ltb_lt i k) Li). Qed.
Lemma pick_r {A} k (f g : nat -> A) i : pick k f g (k + i)%nat = g i.
Proof. unfold pick. rewrite (proj2 (Nat.ltb_ge (k + i) k)) by lia. now replace (k + i - k)%nat with i by lia. Qed.

Definition used (o : option Qc) (l : Qc) : Qc := match o with Some _ => l | None => 0 end.
Definition val (o : option Qc) : Qc := match o with Some l => l | None => 0 end.
Lemma least_ge lo hi a b : 0 <= a -> 0 <= b -> (forall l u, lo = Some l -> hi = Some u -> l <= u) ->
  exists m, least lo hi (used lo a - used hi b) = Some m /\ used lo a * val lo - used hi b * val hi <= m.
Proof.
  intros A B LU. unfold least. destruct (Qc_eq_dec (used lo a - used hi b) 0) as [E|NZ].
  - exists 0. split; [reflexivity|]. destruct lo as [l|], hi as [u|]; cbn [used val] in *.
    + specialize (LU l u eq_refl eq_refl). pose proof (Qc_mul_nonneg a (u - l) A ltac:(qlra)). assert (a = b) as <- by qlra. qlra.
    + assert (a = 0) as -> by qlra. qlra.
    + assert (b = 0) as -> by qlra. qlra.
    + qlra.
  - destruct (Qclt_le_dec 0 (used lo a - used hi b)) as [P|P].
    + destruct lo as [l|]; [|exfalso; destruct hi; cbn [used] in P; qlra]. exists ((used (Some l) a - used hi b) * l). split; [reflexivity|]. destruct hi as [u|]; cbn [used val] in *; [|qlra].
      specialize (LU l u eq_refl eq_refl). pose proof (Qc_mul_nonneg b (u - l) B ltac:(qlra)). qlra.
    + destruct hi as [u|]; [|exfalso; apply NZ; destruct lo; cbn [used] in *; qlra]. exists ((used lo a - used (Some u) b) * u). split; [reflexivity|]. destruct lo as [l|]; cbn [used val] in *; [|qlra].
      specialize (LU l u eq_refl eq_refl). pose proof (Qc_mul_nonneg a (u - l) A ltac:(qlra)). qlra.
Qed.

Section Program.
Variable g : general.
Hypothesis OK : general_ok g.
Notation rows := (g_rows g).
Notation n := (nr_vars g).
Definition rlo (i : nat) : option Qc := row_lower (row_type g i) (nthq (g_b g) i).
Definition rhi (i : nat) : option Qc := row_upper (row_type g i) (nthq (g_b g) i).
Definition vlo (j : nat) : option Qc := v_lower (var g j).
Definition vhi (j : nat) : option Qc := v_upper (var g j).
Definition inequality : nat -> vec * Qc :=
  pick rows (fun i => below (rlo i) (coefficient g i)) (pick rows (fun i => above (rhi i) (coefficient g i))
    (pick n (fun j => below (vlo j) (delta j)) (fun j => above (vhi j) (delta j)))).
Definition count : nat := (rows + (rows + (n + n)))%nat.
Lemma rlo_rhi i l u : (i < rows)%nat -> rlo i = Some l -> rhi i = Some u -> l <= u.
Proof.
  unfold rlo, rhi. intros Li. pose proof (fun r => gok_ranges g OK i r Li) as Hr. destruct (row_type g i) as [|r| |]; cbn; intros E1 E2; try discriminate; injection E1 as <-; injection E2 as <-; [apply Qcle_refl|]. specialize (Hr r eq_refl). qlra.
Qed.
Lemma sum_inequality (w : vec) (F : Qc -> vec * Qc -> Qc) :
  sum count (fun i => F (w i) (inequality i)) =
  sum rows (fun i => F (w i) (below (rlo i) (coefficient g i))) + (sum rows (fun i => F (w (rows + i)%nat) (above (rhi i) (coefficient g i))) +
   (sum n (fun j => F (w (rows + (rows + j))%nat) (below (vlo j) (delta j))) + sum n (fun j => F (w (rows + (rows + (n + j)))%nat) (above (vhi j) (delta j))))).
Proof.
  unfold count, inequality. rewrite (sum_pick rows _ _ _ w F). f_equal. rewrite (sum_pick rows _ _ _ (fun i => w (rows + i)%nat) F). f_equal.
  exact (sum_pick n n _ _ (fun i => w (rows + (rows + i))%nat) F).
Qed.
Lemma below_h l lo a : l * snd (below lo a) = - (used lo l * val lo).
Proof. destruct lo; cbn; ring. Qed.
Lemma above_h l hi a : l * snd (above hi a) = used hi l * val hi.
Proof. destruct hi; cbn; ring. Qed.
Lemma below_g l lo a j : l * fst (below lo a) j = - (used lo l * a j).
Proof. destruct lo; cbn; ring. Qed.
Lemma above_g l hi a j : l * fst (above hi a) j = used hi l * a j.
Proof. destruct hi; cbn; ring. Qed.

Lemma multipliers c l : (forall i, (i < count)%nat -> 0 <= l i) -> (forall j, (j < n)%nat -> sum count (fun i => l i * fst (inequality i) j) = - c j) ->
  exists y v, gproves g c y v /\ - sum count (fun i => l i * snd (inequality i)) <= v.
Proof.
  intros P E. set (la := fun i => used (rlo i) (l i)). set (lb := fun i => used (rhi i) (l (rows + i)%nat)). set (lc := fun j => used (vlo j) (l (rows + (rows + j))%nat)). set (ld := fun j => used (vhi j) (l (rows + (rows + (n + j)))%nat)).
  assert (E' : forall j, (j < n)%nat -> c j - sum rows (fun i => (la i - lb i) * coefficient g i j) = lc j - ld j).
  { intros j Lj. specialize (E j Lj). rewrite (sum_inequality l (fun a r => a * fst r j)) in E.
    rewrite (sum_ext rows (fun i => l i * fst (below (rlo i) (coefficient g i)) j) (fun i => - (la i * coefficient g i j))) in E by (intros; apply below_g).
    rewrite (sum_ext rows (fun i => l (rows + i)%nat * fst (above (rhi i) (coefficient g i)) j) (fun i => lb i * coefficient g i j)) in E by (intros; apply above_g).
    rewrite (sum_ext n (fun k => l (rows + (rows + k))%nat * fst (below (vlo k) (delta k)) j) (fun k => - (lc k * delta k j))) in E by (intros; apply below_g).
    rewrite (sum_ext n (fun k => l (rows + (rows + (n + k)))%nat * fst (above (vhi k) (delta k)) j) (fun k => ld k * delta k j)) in E by (intros; apply above_g).
    rewrite !sum_opp, !sum_delta_r in E by assumption.
    rewrite (sum_ext rows _ (fun i => la i * coefficient g i j - lb i * coefficient g i j)) by (intros; ring). rewrite sum_minus. set (s1 := sum rows (fun i => la i * _)) in *. set (s2 := sum rows (fun i => lb i * _)) in *. clearbody s1 s2. qlra. }
  set (rv := fun i => match least (rlo i) (rhi i) (la i - lb i) with Some m => m | None => 0 end). set (cv := fun j => match least (vlo j) (vhi j) (lc j - ld j) with Some m => m | None => 0 end).
  assert (HR : forall i, (i < rows)%nat -> least (rlo i) (rhi i) (la i - lb i) = Some (rv i) /\ la i * val (rlo i) - lb i * val (rhi i) <= rv i).
  { intros i Li. destruct (least_ge (rlo i) (rhi i) (l i) (l (rows + i)%nat)) as (m & M1 & M2); [apply P; unfold count; lia..|intros a b; now apply rlo_rhi|]. unfold rv. fold (la i) (lb i) in M1, M2. rewrite M1. now split. }
  assert (HV : forall j, (j < n)%nat -> least (vlo j) (vhi j) (lc j - ld j) = Some (cv j) /\ lc j * val (vlo j) - ld j * val (vhi j) <= cv j).
  { intros j Lj. destruct (least_ge (vlo j) (vhi j) (l (rows + (rows + j))%nat) (l (rows + (rows + (n + j)))%nat)) as (m & M1 & M2); [apply P; unfold count; lia..|intros a b; now apply (gok_domain g OK j)|]. unfold cv. fold (lc j) (ld j) in M1, M2. rewrite M1. now split. }
  exists (fun i => la i - lb i), (sum rows rv + sum n cv). split.
  - exists rv, cv. split; [intros i Li; now apply HR|]. split; [|reflexivity]. intros j Lj. rewrite E' by assumption. now apply HV.
  - rewrite (sum_inequality l (fun a r => a * snd r)).
    rewrite (sum_ext rows (fun i => l i * snd (below (rlo i) (coefficient g i))) (fun i => - (la i * val (rlo i)))) by (intros; apply below_h).
    rewrite (sum_ext rows (fun i => l (rows + i)%nat * snd (above (rhi i) (coefficient g i))) (fun i => lb i * val (rhi i))) by (intros; apply above_h).
    rewrite (sum_ext n (fun k => l (rows + (rows + k))%nat * snd (below (vlo k) (delta k))) (fun k => - (lc k * val (vlo k)))) by (intros; apply below_h).
    rewrite (sum_ext n (fun k => l (rows + (rows + (n + k)))%nat * snd (above (vhi k) (delta k))) (fun k => ld k * val (vhi k))) by (intros; apply above_h).
    rewrite !sum_opp. pose proof (sum_le rows (fun i => la i * val (rlo i) - lb i * val (rhi i)) rv (fun i Li => proj2 (HR i Li))) as SR. pose proof (sum_le n (fun j => lc j * val (vlo j) - ld j * val (vhi j)) cv (fun j Lj => proj2 (HV j Lj))) as SV.
    rewrite sum_minus in SR, SV. set (s1 := sum rows (fun i => la i * _)) in *. set (s2 := sum rows (fun i => lb i * _)) in *. set (s3 := sum n (fun i => lc i * _)) in *. set (s4 := sum n (fun i => ld i * _)) in *. set (s5 := sum rows rv) in *. set (s6 := sum n cv) in *. clearbody s1 s2 s3 s4 s5 s6. qlra.
Qed.

(** a point of the inequalities with right-hand sides multiplied by [t] *)
Definition at_scale (t : Qc) (x : vec) : Prop :=
  (forall i, (i < rows)%nat -> (forall l, rlo i = Some l -> t * l <= row_value g x i) /\ (forall u, rhi i = Some u -> row_value g x i <= t * u)) /\
  (forall j, (j < n)%nat -> (forall l, vlo j = Some l -> t * l <= x j) /\ (forall u, vhi j = Some u -> x j <= t * u)).
Lemma points t x : (forall i, (i < count)%nat -> sum n (fun j => fst (inequality i) j * x j) <= t * snd (inequality i)) -> at_scale t x.
Proof.
  intros H. unfold count in H. split.
  - intros i Li. split; intros b E.
    + specialize (H i ltac:(lia)). unfold inequality in H. rewrite pick_l in H by assumption. rewrite E in H. cbn [below fst snd] in H. rewrite (sum_ext n _ (fun j => - (coefficient g i j * x j))) in H by (intros; ring). rewrite sum_opp in H. fold (row_value g x i) in H. set (s := row_value g x i) in *. clearbody s. replace (t * - b) with (- (t * b)) in H by ring. qlra.
    + specialize (H (rows + i)%nat ltac:(lia)). unfold inequality in H. rewrite pick_r, pick_l in H by assumption. rewrite E in H. exact H.
  - intros j Lj. split; intros b E.
    + specialize (H (rows + (rows + j))%nat ltac:(lia)). unfold inequality in H. rewrite !pick_r, pick_l in H by assumption. rewrite E in H. cbn [below fst snd] in H. rewrite (sum_ext n _ (fun k => - (delta j k * x k))) in H by (intros; ring). rewrite sum_opp, sum_delta_l in H by assumption. replace (t * - b) with (- (t * b)) in H by ring. qlra.
    + specialize (H (rows + (rows + (n + j)))%nat ltac:(lia)). unfold inequality in H. rewrite !pick_r in H. rewrite E in H. cbn [above fst snd] in H. now rewrite sum_delta_l in H.
Qed.
Lemma scale_feasible t x : 0 < t -> at_scale t x -> gfeasible g (fun j => x j / t).
Proof.
  intros T [HR HV]. assert (NZ : t <> 0) by (intros ->; now apply (Qclt_not_eq _ _ T)). assert (I : 0 <= / t) by (apply Qclt_le_weak; destruct (Qclt_le_dec 0 (/ t)) as [Q|Q]; [exact Q|]; exfalso; assert (X : t * / t = 1) by (field; exact NZ); set (r := / t) in *; clearbody r; qnra).
  assert (Lo : forall l z, t * l <= z -> l <= z / t). { intros l z H. pose proof (Qc_mul_nonneg (/ t) (z - t * l) I ltac:(qlra)) as Q. replace (/ t * (z - t * l)) with (z / t - l) in Q by (field; exact NZ). qlra. }
  assert (Hi : forall u z, z <= t * u -> z / t <= u). { intros u z H. pose proof (Qc_mul_nonneg (/ t) (t * u - z) I ltac:(qlra)) as Q. replace (/ t * (t * u - z)) with (u - z / t) in Q by (field; exact NZ). qlra. }
  split.
  - intros i Li. replace (row_value g (fun j => x j / t) i) with (row_value g x i / t).
    2: { unfold row_value, Qcdiv. rewrite <- sum_scal_r. apply sum_ext. intros. ring. }
    apply rel_within; [intros r; now apply (gok_ranges g OK i r Li)|]. destruct (HR i Li) as [A B]. split; intros b E; [apply Lo|apply Hi]; [now apply A|now apply B].
  - intros j Lj. destruct (HV j Lj) as [A B]. split; intros b E; [apply Lo|apply Hi]; [now apply A|now apply B].
Qed.
Lemma scale_direction x : at_scale 0 x ->
  (forall i, (i < rows)%nat -> (rlo i <> None -> 0 <= row_value g x i) /\ (rhi i <> None -> row_value g x i <= 0)) /\
  (forall j, (j < n)%nat -> (vlo j <> None -> 0 <= x j) /\ (vhi j <> None -> x j <= 0)).
Proof.
  intros [HR HV]. split; intros i Li; [destruct (HR i Li) as [A B]|destruct (HV i Li) as [A B]].
  - split; intros E; [destruct (rlo i) as [b|] eqn:Eb|destruct (rhi i) as [b|] eqn:Eb]; try congruence; [specialize (A b eq_refl)|specialize (B b eq_refl)]; qlra.
  - split; intros E; [destruct (vlo i) as [b|] eqn:Eb|destruct (vhi i) as [b|] eqn:Eb]; try congruence; [specialize (A b eq_refl)|specialize (B b eq_refl)]; qlra.
Qed.

(** either multipliers prove the bound, or there is a point or direction below it *)
Lemma galternative c v : (exists y v', gproves g c y v' /\ v <= v') \/
  (exists x, gfeasible g x /\ sum n (fun j => c j * x j) < v) \/ (exists d, at_scale 0 d /\ sum n (fun j => c j * d j) < 0).
Proof.
  destruct (alternative count n (fun i => fst (inequality i)) (fun i => snd (inequality i)) c v) as [(l & P & E & V)|(y & y0 & Y0 & Y1 & Y2)].
  - left. destruct (multipliers c l P E) as (y & v' & G & LE). exists y, v'. split; [exact G|]. apply (Qcle_trans _ _ _ V LE).
  - right. destruct (Qc_eq_dec y0 0) as [->|NZ].
    + right. exists y. split; [now apply points|]. qlra.
    + left. assert (T : 0 < y0) by (destruct (Qclt_le_dec 0 y0) as [Q|Q]; [exact Q|]; exfalso; apply NZ; qlra). exists (fun j => y j / y0). split; [apply scale_feasible; [exact T|now apply points]|].
      rewrite (sum_ext n _ (fun j => c j * y j * / y0)) by (intros; unfold Qcdiv; ring). rewrite sum_scal_r. set (s := sum n _) in *. clearbody s.
      assert (X : s * / y0 * y0 = s) by (field; exact NZ). set (q := s * / y0) in *. clearbody q. destruct (Qclt_le_dec q v) as [Q|Q]; [exact Q|]. exfalso. pose proof (Qc_mul_nonneg y0 (q - v) Y0 ltac:(qlra)). qlra.
Qed.
Lemma goptimal_certified x : goptimal g x -> exists y, gproves_bound g y (gcost g x).
Proof.
  intros [F M]. set (c := fun j => toward (g_objective g) (v_cost (var g j))).
  assert (M' : forall z, gfeasible g z -> sum n (fun j => c j * x j) <= sum n (fun j => c j * z j)).
  { intros z FZ. pose proof (better_toward _ _ _ (g_fixed g) (M z FZ)) as B. rewrite !gcost_toward in B. exact B. }
  destruct (galternative c (sum n (fun j => c j * x j))) as [(y & v' & G & LE)|[(z & FZ & LT)|(d & S & LT)]].
  - exists y. unfold gproves_bound. rewrite gcost_toward. pose proof (gproves_sound g c y v' x G F) as LE'. replace (sum n (fun j => toward (g_objective g) (v_cost (var g j)) * x j)) with v' by (apply Qcle_antisym; assumption). exact G.
  - exfalso. specialize (M' z FZ). qlra.
  - exfalso. destruct (scale_direction d S) as [DR DV]. pose proof (move_feasible g x 1 d OK F ltac:(qlra) DR DV) as FZ. specialize (M' _ FZ). cbn beta in M'.
    rewrite (sum_ext n (fun j => c j * (x j + 1 * d j)) (fun j => c j * x j + c j * d j)) in M' by (intros; ring). rewrite sum_plus in M'. qlra.
Qed.
Lemma ginfeasible_certified : (forall x, ~ gfeasible g x) -> exists y, gproves_infeasible g y.
Proof.
  intros NF. destruct (galternative (fun _ => 0) 1) as [(y & v' & G & LE)|[(z & FZ & LT)|(d & S & LT)]].
  - exists y, v'. split; [qlra|exact G].
  - now destruct (NF z).
  - exfalso. cbn beta in LT. rewrite (sum_zero n (fun j => 0 * d j)) in LT by (intros; ring). qlra.
Qed.
Lemma gunbounded_certified : gunbounded g -> exists d, gray g d.
Proof.
  intros [_ U]. set (c := fun j => toward (g_objective g) (v_cost (var g j))).
  destruct (alternative count n (fun i => fst (inequality i)) (fun _ => 0) c (- (1))) as [(l & P & E & V)|(y & y0 & Y0 & Y1 & Y2)].
  - exfalso. destruct (multipliers c l P E) as (y & v & G & LE). destruct (U (toward (g_objective g) v + g_fixed g)) as (x & F & B). pose proof (gproves_sound g c y v x G F) as LE'. rewrite <- (gcost_toward g x : _ = sum n (fun j => c j * x j)) in LE'.
    destruct (g_objective g); cbn [toward] in *; qlra.
  - exists y. assert (S : at_scale 0 y). { apply points. intros i Li. specialize (Y1 i Li). cbn beta in Y1. qlra. }
    destruct (scale_direction y S) as [DR DV]. split; [exact DR|]. split; [exact DV|]. fold c. change (sum n (fun j => c j * y j) < 0). qlra.
Qed.
End Program.
