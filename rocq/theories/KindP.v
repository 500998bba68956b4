(** * The linear program of a tableau kind: optimality and rays *)
From Verif Require Export PhaseP.

Definition kfeasible (k : kind) (rhs : vec) (x : vec) : Prop :=
  (forall i, (i < k_rows k)%nat -> sum (k_cols k) (fun j => kA k i j * x j) = rhs i) /\
  (forall j, (j < k_cols k)%nat -> 0 <= x j).
Definition kobj (k : kind) (x : vec) : Qc := sum (k_cols k) (fun j => k_cost k j * x j).

(** the basic solution as a vector over all columns *)
Definition spread (m : nat) (basis : list nat) (b : vec) : vec :=
  fun j => sum m (fun r => delta (bcol basis r) j * b r).

Lemma sum_spread m n basis (b f : vec) :
  (forall r, (r < m)%nat -> (bcol basis r < n)%nat) ->
  sum n (fun j => f j * spread m basis b j) = sum m (fun r => f (bcol basis r) * b r).
Proof.
  intros H. unfold spread. rewrite (sum_ext n _ (fun j => sum m (fun r => f j * delta (bcol basis r) j * b r))).
  2:{ intros j Lj. rewrite <- sum_scal_l. apply sum_ext. intros. ring. }
  rewrite sum_swap. apply sum_ext. intros r Lr.
  rewrite (sum_ext n _ (fun j => delta (bcol basis r) j * (f j * b r))) by (intros; ring).
  now rewrite (sum_delta_l n (bcol basis r) (fun j => f j * b r)) by now apply H.
Qed.

Lemma spread_nonneg m basis (b : vec) j :
  (forall r, (r < m)%nat -> 0 <= b r) -> 0 <= spread m basis b j.
Proof.
  intros H. apply sum_nonneg. intros r Lr. unfold delta.
  destruct (Nat.eqb (bcol basis r) j); specialize (H r Lr); qlra.
Qed.

Lemma spread_basic m basis (b : vec) r :
  (forall r', (r' < m)%nat -> bcol basis r' = bcol basis r -> r' = r) -> (r < m)%nat ->
  spread m basis b (bcol basis r) = b r.
Proof.
  intros H Lr. unfold spread. rewrite (sum_single m r); [rewrite delta_same; ring|assumption|].
  intros i Li Ne. rewrite delta_diff; [ring|]. intros E. apply Ne. now apply H.
Qed.

Section K.
Variable O : BIOps.
Variable L : BILaws O.

Definition bfs (k : kind) (t : tableau O) : vec :=
  spread (k_rows k) (c_basis (t_im t)) (nthq (c_b (t_im t))).

Lemma bfs_feasible k rhs t : tab_inv L k rhs t -> kfeasible k rhs (bfs k t).
Proof.
  intros [I _]. split.
  - intros i Li. unfold bfs. rewrite (sum_spread _ _ _ _ (fun j => kA k i j)).
    + now apply (ci_feas _ _ _ _ _ I).
    + apply (ci_range _ _ _ _ _ I).
  - intros j Lj. apply spread_nonneg. apply (ci_nonneg _ _ _ _ _ I).
Qed.

Lemma bfs_objective k rhs t : tab_inv L k rhs t -> kobj k (bfs k t) = objective_value t.
Proof.
  intros [I _]. unfold kobj, bfs. rewrite (sum_spread _ _ _ _ (k_cost k)) by apply (ci_range _ _ _ _ _ I).
  unfold objective_value. rewrite (ci_obj _ _ _ _ _ I). ring.
Qed.

(** the columns of the basis are independent *)
Lemma bfs_vertex k rhs t y : tab_inv L k rhs t ->
  (forall j, (j < k_cols k)%nat -> bfs k t j = 0 -> y j = 0) ->
  (forall i, (i < k_rows k)%nat -> sum (k_cols k) (fun j => kA k i j * y j) = 0) ->
  forall j, (j < k_cols k)%nat -> y j = 0.
Proof.
  intros [I _] Z E. destruct (ci_rep _ _ _ _ _ I) as (N & _ & HI). set (basis := c_basis (t_im t)) in *. set (yb := fun r => y (bcol basis r)).
  assert (Sp : forall j, (j < k_cols k)%nat -> y j = spread (k_rows k) basis yb j).
  { intros j Lj. destruct (in_dec Nat.eq_dec j basis) as [Hj|Hj].
    - apply In_bcol in Hj. destruct Hj as (r & Lr & <-). unfold basis in Lr. rewrite (ci_lbasis _ _ _ _ _ I) in Lr. symmetry. apply (spread_basic (k_rows k) basis yb r); [|assumption].
      intros r' Lr' E'. now apply (inverse_injective (k_rows k) k N basis).
    - assert (D : forall b, spread (k_rows k) basis b j = 0).
      { intros b. apply sum_zero. intros r Lr. rewrite delta_diff; [ring|]. intros E'. apply Hj. apply In_bcol. exists r. unfold basis at 1. rewrite (ci_lbasis _ _ _ _ _ I). now split. }
      rewrite D. apply Z; [assumption|]. apply D. }
  assert (Y0 : forall r, (r < k_rows k)%nat -> yb r = 0).
  { intros r Lr. destruct HI as [HI _]. transitivity (sum (k_rows k) (fun q => delta r q * yb q)); [now rewrite sum_delta_l|].
    rewrite (sum_ext _ _ (fun q => mmul (k_rows k) N (bmat k basis) r q * yb q)) by (intros q Lq; now rewrite HI).
    unfold mmul. rewrite <- (dot_assoc (k_rows k) (k_rows k) (N r) (bmat k basis) yb). apply sum_zero. intros i Li. unfold bmat.
    rewrite <- (sum_spread (k_rows k) (k_cols k) basis yb (fun j => kA k i j)) by apply (ci_range _ _ _ _ _ I).
    rewrite (sum_ext _ _ (fun j => kA k i j * y j)) by (intros j Lj; now rewrite <- Sp). rewrite E by assumption. ring. }
  intros j Lj. rewrite Sp by assumption. apply sum_zero. intros r Lr. rewrite Y0 by assumption. ring.
Qed.

Lemma value_identity k rhs t (y : vec) :
  kind_ok k -> tab_inv L k rhs t ->
  (forall i, (i < k_rows k)%nat -> sum (k_cols k) (fun j => kA k i j * y j) = rhs i) ->
  sum (k_cols k) (fun j => relative_cost k t j * y j) = kobj k y - objective_value t.
Proof.
  intros Hk [I S] Hy.
  rewrite (sum_ext (k_cols k) _ (fun j => sum (k_rows k) (fun i => nthq (c_mpi (t_im t)) i * kA k i j) * y j
      + k_cost k j * y j)).
  2:{ intros j Lj. rewrite relative_cost_spec by now apply (proj1 Hk). ring. }
  rewrite sum_plus. fold (kobj k y). rewrite <- dot_assoc.
  rewrite (sum_ext (k_rows k) _ (fun i => nthq (c_mpi (t_im t)) i *
     sum (k_rows k) (fun r => bmat k (c_basis (t_im t)) i r * nthq (c_b (t_im t)) r))).
  2:{ intros i Li. rewrite Hy by assumption. now rewrite (ci_feas _ _ _ _ _ I). }
  rewrite dot_assoc.
  rewrite (sum_ext (k_rows k) _ (fun r => - (k_cost k (bcol (c_basis (t_im t)) r) * nthq (c_b (t_im t)) r))).
  2:{ intros r Lr. rewrite (ci_dual _ _ _ _ _ I) by assumption. ring. }
  rewrite sum_opp. unfold objective_value. rewrite (ci_obj _ _ _ _ _ I). ring.
Qed.

(** With no profitable column left, nothing that uses only the candidate columns is better. *)
Lemma priced_out_optimal k rhs t (y : vec) :
  kind_ok k -> tab_inv L k rhs t -> priced_out k t -> kfeasible k rhs y ->
  (forall j, (j < k_art k)%nat -> y j = 0) ->
  objective_value t <= kobj k y.
Proof.
  intros Hk HI HP [Hy Hn] Hz.
  pose proof (value_identity k rhs t y Hk HI Hy) as E.
  assert (0 <= sum (k_cols k) (fun j => relative_cost k t j * y j)).
  { apply sum_nonneg. intros j Lj. destruct (Nat.lt_ge_cases j (k_art k)) as [H|H].
    - rewrite Hz by assumption. qlra.
    - apply Qc_mul_nonneg; [now apply HP|now apply Hn]. }
  qlra.
Qed.

(** A ray: every point on it is feasible, and the objective decreases along it. *)
Lemma ray_points k rhs t q (w : vec) (theta : Qc) :
  kind_ok k -> tab_inv L k rhs t -> (q < k_cols k)%nat ->
  (forall i, (i < k_rows k)%nat -> w i <= 0) ->
  (forall i, (i < k_rows k)%nat ->
       sum (k_rows k) (fun r => bmat k (c_basis (t_im t)) i r * w r) = kA k i q) ->
  0 <= theta ->
  let y := fun j => spread (k_rows k) (c_basis (t_im t)) (fun r => nthq (c_b (t_im t)) r - theta * w r) j
                    + theta * delta q j in
  kfeasible k rhs y /\ kobj k y = objective_value t + theta * relative_cost k t q.
Proof.
  intros Hk HI Lq Hw HB Ht y. assert (HI' := HI). destruct HI' as [I S].
  assert (Hsum : forall f : vec, sum (k_cols k) (fun j => f j * y j) =
     sum (k_rows k) (fun r => f (bcol (c_basis (t_im t)) r) * nthq (c_b (t_im t)) r)
     - theta * sum (k_rows k) (fun r => f (bcol (c_basis (t_im t)) r) * w r) + theta * f q).
  { intros f. unfold y.
    rewrite (sum_ext _ _ (fun j => f j * spread (k_rows k) (c_basis (t_im t))
        (fun r => nthq (c_b (t_im t)) r - theta * w r) j + delta q j * (theta * f j)))
      by (intros; ring).
    rewrite sum_plus, (sum_spread _ _ _ _ f) by apply (ci_range _ _ _ _ _ I).
    rewrite (sum_delta_l _ q (fun j => theta * f j)) by assumption.
    rewrite (sum_ext _ _ (fun r => f (bcol (c_basis (t_im t)) r) * nthq (c_b (t_im t)) r
       - theta * (f (bcol (c_basis (t_im t)) r) * w r))) by (intros; ring).
    rewrite sum_minus, sum_scal_l. reflexivity. }
  split; [split|].
  - intros i Li. rewrite (Hsum (fun j => kA k i j)).
    pose proof (HB i Li) as H1. unfold bmat in H1. rewrite H1.
    pose proof (ci_feas _ _ _ _ _ I i Li) as H2. unfold bmat in H2. rewrite H2. ring.
  - intros j Lj. unfold y.
    assert (0 <= spread (k_rows k) (c_basis (t_im t)) (fun r => nthq (c_b (t_im t)) r - theta * w r) j).
    { apply spread_nonneg. intros r Lr. pose proof (ci_nonneg _ _ _ _ _ I r Lr).
      specialize (Hw r Lr). qnra. }
    unfold delta. destruct (Nat.eqb q j); qlra.
  - unfold kobj. rewrite (Hsum (k_cost k)).
    rewrite (relative_cost_basis O L k rhs t q w Hk HI Lq HB).
    unfold objective_value. rewrite (ci_obj _ _ _ _ _ I). ring.
Qed.

Lemma has_ray_unbounded k rhs t bound :
  kind_ok k -> tab_inv L k rhs t -> has_ray k t ->
  exists y, kfeasible k rhs y /\ kobj k y < bound.
Proof.
  intros Hk HI (q & w & Rq & Nq & Hc & Hw & HB).
  set (c := relative_cost k t q) in *.
  set (theta := qmax 0 ((objective_value t - bound + 1) / (- c))).
  assert (Ht : 0 <= theta).
  { unfold theta, qmax. destruct (qltb _ _) eqn:E; qb; [now apply Qclt_le_weak|apply Qcle_refl]. }
  destruct (ray_points k rhs t q w theta Hk HI ltac:(lia) Hw HB Ht) as [F E].
  eexists. split; [exact F|]. rewrite E. fold c.
  assert (Hc' : 0 < - c) by qlra.
  assert ((objective_value t - bound + 1) / (- c) <= theta).
  { unfold theta, qmax. destruct (qltb _ _) eqn:Q; qb; [apply Qcle_refl|assumption]. }
  set (d := (objective_value t - bound + 1) / (- c)) in *.
  assert (objective_value t - bound + 1 = d * (- c)).
  { unfold d. field. exact (Qc_pos_neq0 _ Hc'). }
  qnra.
Qed.

(** Non-negative costs exclude a ray. *)
Lemma nonneg_cost_no_ray k rhs t :
  kind_ok k -> tab_inv L k rhs t -> (forall j, (j < k_cols k)%nat -> 0 <= k_cost k j) -> ~ has_ray k t.
Proof.
  intros Hk HI Hc Hr. destruct (has_ray_unbounded k rhs t 0 Hk HI Hr) as (y & [_ Hy] & Ho).
  assert (0 <= kobj k y).
  { apply sum_nonneg. intros j Lj. apply Qc_mul_nonneg; [now apply Hc|now apply Hy]. }
  qlra.
Qed.

(** ** The sparse vector that is returned *)
Lemma den_app a b i : den (a ++ b) i = den a i + den b i.
Proof. induction a as [|[j v] a IH]; simpl; [ring|]. rewrite IH. ring. Qed.
Lemma den_insert_by x l i : den (insert_by fst x l) i = den (x :: l) i.
Proof.
  destruct x as [j v]. induction l as [|[k w] l IH]; [reflexivity|].
  cbn [insert_by fst]. destruct (Nat.ltb j k); [reflexivity|].
  cbn [den] in *. rewrite IH. ring.
Qed.
Lemma den_sort l i : den (sort_by fst l) i = den l i.
Proof.
  unfold sort_by.
  assert (G : forall l acc, den (fold_left (fun acc x => insert_by fst x acc) l acc) i = den acc i + den l i).
  { clear. induction l as [|[j v] l IH]; intros acc; cbn [fold_left].
    - simpl. ring.
    - rewrite IH, den_insert_by. simpl. ring. }
  rewrite G. simpl. ring.
Qed.
Lemma den_filter_nonzero l i : den (filter (fun '(_, v) => negb (qzero v)) l) i = den l i.
Proof.
  induction l as [|[j v] l IH]; [reflexivity|]. cbn [filter].
  destruct (qzero v) eqn:Z; cbn [negb den]; rewrite IH; [|reflexivity].
  qb. subst v. destruct (Nat.eqb i j); ring.
Qed.
Lemma den_combine basis : forall b i, length b = length basis ->
  den (combine basis b) i = spread (length basis) basis (nthq b) i.
Proof.
  intros b i. revert b. induction basis as [|j basis IH]; intros b Lb.
  - destruct b; [reflexivity|discriminate].
  - destruct b as [|v b]; [discriminate|]. cbn [combine den length].
    rewrite IH by (simpl in Lb; lia). unfold spread.
    change (S (length basis)) with (1 + length basis)%nat. rewrite sum_add. cbn [sum].
    unfold bcol, nthq, delta. cbn [nth Nat.add]. rewrite (Nat.eqb_sym j i).
    destruct (Nat.eqb i j); ring.
Qed.
Lemma den_current_bfs k rhs t j : tab_inv L k rhs t -> den (current_bfs t) j = bfs k t j.
Proof.
  intros [I _]. unfold current_bfs, carry_bfs. rewrite den_sort, den_filter_nonzero.
  rewrite den_combine.
  - unfold bfs. now rewrite (ci_lbasis _ _ _ _ _ I).
  - now rewrite (ci_lb _ _ _ _ _ I), (ci_lbasis _ _ _ _ _ I).
Qed.

End K.
Arguments bfs {O}.
