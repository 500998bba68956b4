(** * Finite sums and matrices over the rationals.

    A vector is a function [nat -> Qc], a matrix a function [nat -> nat -> Qc]; only the entries
    below an explicitly given dimension matter.  Nothing here models code: it is the independent
    mathematical vocabulary in which properties are stated. *)
From Verif Require Import Qcx.

Fixpoint sum (n : nat) (f : nat -> Qc) : Qc :=
  match n with
  | O => 0
  | S k => sum k f + f k
  end.

Definition vec := nat -> Qc.
Definition mat := nat -> nat -> Qc.
Definition delta (i j : nat) : Qc := if Nat.eqb i j then 1 else 0.
Definition mmul (m : nat) (A B : mat) : mat := fun i j => sum m (fun k => A i k * B k j).
Definition mv (n : nat) (A : mat) (x : vec) : vec := fun i => sum n (fun k => A i k * x k).
Definition vm (n : nat) (x : vec) (A : mat) : vec := fun j => sum n (fun k => x k * A k j).
Definition dot (n : nat) (x y : vec) : Qc := sum n (fun k => x k * y k).

Lemma sum_ext n f g : (forall i, (i < n)%nat -> f i = g i) -> sum n f = sum n g.
Proof.
  induction n; simpl; intros H; [reflexivity|].
  rewrite IHn by (intros; apply H; lia). now rewrite H by lia.
Qed.
Lemma sum_plus n f g : sum n (fun i => f i + g i) = sum n f + sum n g.
Proof. induction n; simpl; [ring|]. rewrite IHn. ring. Qed.
Lemma sum_minus n f g : sum n (fun i => f i - g i) = sum n f - sum n g.
Proof. induction n; simpl; [ring|]. rewrite IHn. ring. Qed.
Lemma sum_opp n f : sum n (fun i => - f i) = - sum n f.
Proof. induction n; simpl; [ring|]. rewrite IHn. ring. Qed.
Lemma sum_scal_l n a f : sum n (fun i => a * f i) = a * sum n f.
Proof. induction n; simpl; [ring|]. rewrite IHn. ring. Qed.
Lemma sum_scal_r n a f : sum n (fun i => f i * a) = sum n f * a.
Proof. induction n; simpl; [ring|]. rewrite IHn. ring. Qed.
Lemma sum_zero n f : (forall i, (i < n)%nat -> f i = 0) -> sum n f = 0.
Proof.
  induction n; simpl; intros H; [reflexivity|].
  rewrite IHn by (intros; apply H; lia). rewrite H by lia. ring.
Qed.
Lemma sum_swap n m f :
  sum n (fun i => sum m (fun j => f i j)) = sum m (fun j => sum n (fun i => f i j)).
Proof.
  induction n; simpl.
  - symmetry. now apply sum_zero.
  - rewrite IHn. now rewrite sum_plus.
Qed.
Lemma sum_nonneg n f : (forall i, (i < n)%nat -> 0 <= f i) -> 0 <= sum n f.
Proof.
  induction n; simpl; intros H; [apply Qcle_refl|].
  assert (0 <= sum n f) by (apply IHn; intros; apply H; lia).
  specialize (H n ltac:(lia)). qlra.
Qed.
Lemma sum_le n f g : (forall i, (i < n)%nat -> f i <= g i) -> sum n f <= sum n g.
Proof.
  induction n; simpl; intros H; [apply Qcle_refl|].
  assert (sum n f <= sum n g) by (apply IHn; intros; apply H; lia).
  specialize (H n ltac:(lia)). qlra.
Qed.
Lemma sum_single n k f :
  (k < n)%nat -> (forall i, (i < n)%nat -> i <> k -> f i = 0) -> sum n f = f k.
Proof.
  induction n; simpl; intros L H; [lia|].
  destruct (Nat.eq_dec k n) as [->|N].
  - rewrite sum_zero; [ring|]. intros. apply H; lia.
  - rewrite IHn by (try lia; intros; apply H; lia). rewrite (H n) by lia. ring.
Qed.
Lemma sum_delta_l n k f : (k < n)%nat -> sum n (fun i => delta k i * f i) = f k.
Proof.
  intros L. rewrite (sum_single n k); [|assumption|].
  - unfold delta. rewrite Nat.eqb_refl. ring.
  - intros i _ N. unfold delta. destruct (Nat.eqb_spec k i); [congruence|ring].
Qed.
Lemma sum_delta_r n k f : (k < n)%nat -> sum n (fun i => f i * delta i k) = f k.
Proof.
  intros L. rewrite (sum_single n k); [|assumption|].
  - unfold delta. rewrite Nat.eqb_refl. ring.
  - intros i _ N. unfold delta. destruct (Nat.eqb_spec i k); [congruence|ring].
Qed.
Lemma delta_same i : delta i i = 1.
Proof. unfold delta. now rewrite Nat.eqb_refl. Qed.
Lemma delta_diff i j : i <> j -> delta i j = 0.
Proof. intros H. unfold delta. destruct (Nat.eqb_spec i j); congruence. Qed.
Lemma delta_sym i j : delta i j = delta j i.
Proof. unfold delta. now rewrite Nat.eqb_sym. Qed.

(** Remove one index from a sum. *)
Lemma sum_split n k f :
  (k < n)%nat -> sum n f = f k + sum n (fun i => if Nat.eqb i k then 0 else f i).
Proof.
  induction n; simpl; intros L; [lia|].
  destruct (Nat.eqb_spec n k) as [->|N].
  - rewrite (sum_ext k (fun i => if Nat.eqb i k then 0 else f i) f); [ring|].
    intros i H. destruct (Nat.eqb_spec i k); [lia|reflexivity].
  - rewrite IHn by lia. ring.
Qed.
Lemma sum_zero_inv n f :
  (forall i, (i < n)%nat -> 0 <= f i) -> sum n f = 0 -> forall i, (i < n)%nat -> f i = 0.
Proof.
  intros P Z i L. rewrite (sum_split n i) in Z by assumption.
  assert (0 <= sum n (fun k => if Nat.eqb k i then 0 else f k)).
  { apply sum_nonneg. intros k Hk. destruct (Nat.eqb k i); [apply Qcle_refl|now apply P]. }
  specialize (P i L). apply Qcle_antisym; [|assumption]. qlra.
Qed.
Lemma sum_add n m f : sum (n + m) f = sum n f + sum m (fun i => f (n + i)%nat).
Proof.
  induction m; simpl; rewrite ?Nat.add_0_r; [ring|].
  rewrite Nat.add_succ_r. simpl. rewrite IHm. ring.
Qed.

(** ** Matrix identities *)
Definition meq (m n : nat) (A B : mat) : Prop :=
  forall i j, (i < m)%nat -> (j < n)%nat -> A i j = B i j.

Lemma meq_refl m n A : meq m n A A. Proof. intros i j _ _. reflexivity. Qed.
Lemma meq_sym m n A B : meq m n A B -> meq m n B A.
Proof. intros H i j L1 L2. symmetry. now apply H. Qed.
Lemma meq_trans m n A B C : meq m n A B -> meq m n B C -> meq m n A C.
Proof. intros H1 H2 i j L1 L2. rewrite H1 by assumption. now apply H2. Qed.

Lemma mv_assoc m n (A B : mat) (x : vec) i :
  sum m (fun k => A i k * sum n (fun l => B k l * x l)) =
  sum n (fun l => sum m (fun k => A i k * B k l) * x l).
Proof.
  rewrite (sum_ext m _ (fun k => sum n (fun l => A i k * B k l * x l))).
  2:{ intros k _. rewrite <- sum_scal_l. apply sum_ext. intros. ring. }
  rewrite sum_swap. apply sum_ext. intros l _. now rewrite <- sum_scal_r.
Qed.
Lemma dot_assoc m n (x : vec) (A : mat) (y : vec) :
  sum m (fun k => x k * sum n (fun l => A k l * y l)) =
  sum n (fun l => sum m (fun k => x k * A k l) * y l).
Proof. exact (mv_assoc m n (fun _ => x) A y 0%nat). Qed.

(** A two-sided inverse is unique. *)
Definition is_inverse (m : nat) (N B : mat) : Prop :=
  meq m m (mmul m N B) delta /\ meq m m (mmul m B N) delta.

Lemma mmul_assoc m (A B C : mat) :
  meq m m (mmul m (mmul m A B) C) (mmul m A (mmul m B C)).
Proof.
  intros i j _ _. unfold mmul. symmetry. exact (mv_assoc m m A B (fun l => C l j) i).
Qed.
Lemma mmul_ext m A A' B B' :
  meq m m A A' -> meq m m B B' -> meq m m (mmul m A B) (mmul m A' B').
Proof.
  intros H1 H2 i j Li Lj. unfold mmul. apply sum_ext. intros k Lk.
  now rewrite H1, H2.
Qed.
Lemma mmul_delta_l m A : meq m m (mmul m delta A) A.
Proof. intros i j Li _. unfold mmul. now rewrite (sum_delta_l m i (fun k => A k j)). Qed.
Lemma mmul_delta_r m A : meq m m (mmul m A delta) A.
Proof. intros i j _ Lj. unfold mmul. now rewrite (sum_delta_r m j (fun k => A i k)). Qed.

Lemma inverse_unique m N N' B : is_inverse m N B -> is_inverse m N' B -> meq m m N N'.
Proof.
  intros [H1 H2] [H3 H4].
  apply meq_trans with (mmul m N delta); [apply meq_sym, mmul_delta_r|].
  apply meq_trans with (mmul m N (mmul m B N')).
  { apply mmul_ext; [apply meq_refl|]. now apply meq_sym. }
  apply meq_trans with (mmul m (mmul m N B) N'); [apply meq_sym, mmul_assoc|].
  apply meq_trans with (mmul m delta N'); [|apply mmul_delta_l].
  apply mmul_ext; [assumption|apply meq_refl].
Qed.
Lemma inverse_ext m N N' B B' :
  meq m m N N' -> meq m m B B' -> is_inverse m N B -> is_inverse m N' B'.
Proof.
  intros E1 E2 [H1 H2]. split.
  - apply meq_trans with (mmul m N B); [|assumption]. apply mmul_ext; now apply meq_sym.
  - apply meq_trans with (mmul m B N); [|assumption]. apply mmul_ext; now apply meq_sym.
Qed.
Lemma delta_inverse m : is_inverse m delta delta.
Proof. split; apply mmul_delta_l. Qed.

(** ** The pivot operation on an inverse

    [pivot N p w]: divide row [p] by [w p] and subtract [w i] times the result from row [i]. *)
Definition pivot (N : mat) (p : nat) (w : vec) : mat :=
  fun i j => if Nat.eqb i p then N p j / w p else N i j - w i * (N p j / w p).

(** Replacing column [p] of [B] by [a] where [w = N a] and [w p <> 0]. *)
Definition set_col (B : mat) (p : nat) (a : vec) : mat :=
  fun i j => if Nat.eqb j p then a i else B i j.

Lemma pivot_inverse m N B p a w :
  (p < m)%nat -> is_inverse m N B ->
  (forall i, (i < m)%nat -> w i = sum m (fun k => N i k * a k)) ->
  w p <> 0 ->
  is_inverse m (pivot N p w) (set_col B p a).
Proof.
  intros Lp [HNB HBN] Hw Hp.
  assert (NB : forall i j, (i < m)%nat -> (j < m)%nat -> sum m (fun k => N i k * B k j) = delta i j)
    by exact HNB.
  assert (BN : forall i j, (i < m)%nat -> (j < m)%nat -> sum m (fun k => B i k * N k j) = delta i j)
    by exact HBN.
  assert (Bw : forall i, (i < m)%nat -> sum m (fun k => B i k * w k) = a i).
  { intros i Li. rewrite (sum_ext m _ (fun k => B i k * sum m (fun l => N k l * a l))).
    2:{ intros k Lk. now rewrite Hw. }
    rewrite mv_assoc. rewrite (sum_ext m _ (fun l => delta i l * a l)).
    2:{ intros l Ll. now rewrite BN. }
    now apply sum_delta_l. }
  split.
  - intros i j Li Lj. unfold mmul, pivot, set_col.
    destruct (Nat.eqb_spec i p) as [->|Ni].
    + rewrite (sum_ext m _ (fun k => (N p k * (if Nat.eqb j p then a k else B k j)) * / w p)).
      2:{ intros. unfold Qcdiv. ring. }
      rewrite sum_scal_r. destruct (Nat.eqb_spec j p) as [->|Nj].
      * rewrite <- Hw by assumption. rewrite delta_same. now apply Qcmult_inv_r.
      * rewrite NB by assumption. rewrite delta_diff by congruence. ring.
    + rewrite (sum_ext m _ (fun k => N i k * (if Nat.eqb j p then a k else B k j)
                - (w i / w p) * (N p k * (if Nat.eqb j p then a k else B k j)))).
      2:{ intros. unfold Qcdiv. ring. }
      rewrite sum_minus, sum_scal_l. destruct (Nat.eqb_spec j p) as [->|Nj].
      * rewrite <- !Hw by assumption. rewrite delta_diff by congruence. field. assumption.
      * rewrite !NB by assumption. rewrite (delta_diff p j) by congruence. ring.
  - intros i j Li Lj. unfold mmul, pivot, set_col.
    rewrite (sum_ext m _ (fun k => B i k * N k j - (B i k * w k) * (N p j / w p)
        + delta p k * ((a i - B i p + B i p * w p) * (N p j / w p)
            + (B i p * (N p j / w p) - B i p * N p j) ))).
    2:{ intros k Lk. destruct (Nat.eqb_spec k p) as [->|Nk].
        - rewrite delta_same. ring.
        - rewrite delta_diff by congruence. ring. }
    rewrite sum_plus, sum_minus. rewrite BN by assumption.
    rewrite sum_scal_r, Bw by assumption.
    rewrite sum_scal_r.
    rewrite (sum_ext m (delta p) (fun k => delta p k * 1)) by (intros; ring).
    rewrite (sum_delta_l m p (fun _ => 1)) by assumption.
    assert (N p j = N p j / w p * w p) by (field; assumption).
    set (z := N p j / w p) in *. rewrite H. ring.
Qed.
