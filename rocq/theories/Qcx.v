(** * Exact rational numbers: order tactics and helper lemmas.

    The solver computes with arbitrary precision rationals (`relp_num::RationalBig`, see
    /repo/src/algorithm/two_phase/tableau/inverse_maintenance/ops.rs:1-230 for the operations that
    are required of the number type).  They are modelled by [Qc], the canonical rationals of the
    Coq standard library: equality is Leibniz equality and all field operations are exact.

    Nothing in this file models code; it is a toolbox. *)
From Coq Require Export QArith Qcanon List Arith Lia Bool.
From Coq Require Import Lqa Qfield.
Export ListNotations.

Open Scope Qc_scope.

(** ** Boolean tests *)
Definition qeqb (x y : Qc) : bool := Qeq_bool x y.
Definition qleb (x y : Qc) : bool := Qle_bool x y.
Definition qltb (x y : Qc) : bool := negb (Qle_bool y x).
Definition qzero (x : Qc) : bool := qeqb x 0.
Definition qneg (x : Qc) : bool := qltb x 0.
Definition qpos (x : Qc) : bool := qltb 0 x.
Definition qmax (x y : Qc) : Qc := if qltb x y then y else x.
Definition qmin (x y : Qc) : Qc := if qltb y x then y else x.
Definition qabs (x : Qc) : Qc := if qltb x 0 then - x else x.
Definition zq (z : Z) : Qc := Q2Qc (inject_Z z).

Lemma qeqb_true x y : qeqb x y = true <-> x = y.
Proof.
  unfold qeqb. rewrite Qeq_bool_iff. split; intro H; [now apply Qc_is_canon|now subst].
Qed.
Lemma qeqb_false x y : qeqb x y = false <-> x <> y.
Proof.
  rewrite <- qeqb_true. destruct (qeqb x y); split; intro; try congruence; now contradict H.
Qed.
Lemma qleb_true x y : qleb x y = true <-> x <= y.
Proof. unfold qleb, Qcle. apply Qle_bool_iff. Qed.
Lemma qltb_true x y : qltb x y = true <-> x < y.
Proof.
  unfold qltb, Qclt. rewrite negb_true_iff. split; intro H.
  - apply Qnot_le_lt. intro C. apply Qle_bool_iff in C. congruence.
  - destruct (Qle_bool y x) eqn:E; [|reflexivity]. apply Qle_bool_iff in E.
    exfalso. now apply (Qlt_not_le _ _ H).
Qed.
Lemma qltb_false x y : qltb x y = false <-> y <= x.
Proof.
  unfold qltb, Qcle. rewrite negb_false_iff. apply Qle_bool_iff.
Qed.
Lemma qleb_false x y : qleb x y = false <-> y < x.
Proof.
  rewrite <- qltb_true. unfold qleb, qltb. destruct (Qle_bool x y); simpl; split; congruence.
Qed.

(** ** A decision procedure for linear arithmetic over [Qc]

    Reify a [Qc] expression as a [Q] expression over the atoms [this t], then use [lra]/[nra]. *)
Lemma te_plus (a b : Qc) (x y : Q) : (this a == x)%Q -> (this b == y)%Q -> (this (a + b) == x + y)%Q.
Proof. intros H1 H2. change (Qred (this a + this b) == x + y)%Q. rewrite Qred_correct. now rewrite H1, H2. Qed.
Lemma te_mult (a b : Qc) (x y : Q) : (this a == x)%Q -> (this b == y)%Q -> (this (a * b) == x * y)%Q.
Proof. intros H1 H2. change (Qred (this a * this b) == x * y)%Q. rewrite Qred_correct. now rewrite H1, H2. Qed.
Lemma te_opp (a : Qc) (x : Q) : (this a == x)%Q -> (this (- a) == - x)%Q.
Proof. intros H1. change (Qred (- this a) == - x)%Q. rewrite Qred_correct. now rewrite H1. Qed.
Lemma te_minus (a b : Qc) (x y : Q) : (this a == x)%Q -> (this b == y)%Q -> (this (a - b) == x - y)%Q.
Proof. intros H1 H2. unfold Qcminus. apply te_plus; [assumption|]. now apply te_opp. Qed.
Lemma te_q (q : Q) : (this (Q2Qc q) == q)%Q.
Proof. apply Qred_correct. Qed.
Lemma te_eq (a b : Qc) (x y : Q) : (this a == x)%Q -> (this b == y)%Q -> a = b -> (x == y)%Q.
Proof. intros H1 H2 E. subst. now rewrite <- H1, <- H2. Qed.
Lemma te_le (a b : Qc) (x y : Q) : (this a == x)%Q -> (this b == y)%Q -> a <= b -> (x <= y)%Q.
Proof. unfold Qcle. intros H1 H2 E. now rewrite <- H1, <- H2. Qed.
Lemma te_lt (a b : Qc) (x y : Q) : (this a == x)%Q -> (this b == y)%Q -> a < b -> (x < y)%Q.
Proof. unfold Qclt. intros H1 H2 E. now rewrite <- H1, <- H2. Qed.
Lemma te_eq_g (a b : Qc) (x y : Q) : (this a == x)%Q -> (this b == y)%Q -> (x == y)%Q -> a = b.
Proof. intros H1 H2 E. apply Qc_is_canon. now rewrite H1, H2. Qed.
Lemma te_le_g (a b : Qc) (x y : Q) : (this a == x)%Q -> (this b == y)%Q -> (x <= y)%Q -> a <= b.
Proof. unfold Qcle. intros H1 H2 E. now rewrite H1, H2. Qed.
Lemma te_lt_g (a b : Qc) (x y : Q) : (this a == x)%Q -> (this b == y)%Q -> (x < y)%Q -> a < b.
Proof. unfold Qclt. intros H1 H2 E. now rewrite H1, H2. Qed.

Ltac qexp t :=
  lazymatch t with
  | (?a + ?b) => let p := qexp a in let q := qexp b in constr:(te_plus a b _ _ p q)
  | (?a * ?b) => let p := qexp a in let q := qexp b in constr:(te_mult a b _ _ p q)
  | (?a - ?b) => let p := qexp a in let q := qexp b in constr:(te_minus a b _ _ p q)
  | (- ?a) => let p := qexp a in constr:(te_opp a _ p)
  | Q2Qc ?q => constr:(te_q q)
  | zq ?q => constr:(te_q (inject_Z q))
  | _ => constr:(Qeq_refl (this t))
  end.

Ltac q_hyps :=
  repeat match goal with
  | H : @eq Qc ?a ?b |- _ =>
      let p := qexp a in let q := qexp b in apply (te_eq a b _ _ p q) in H
  | H : ?a <= ?b |- _ =>
      let p := qexp a in let q := qexp b in apply (te_le a b _ _ p q) in H
  | H : ?a < ?b |- _ =>
      let p := qexp a in let q := qexp b in apply (te_lt a b _ _ p q) in H
  | H : ?a >= ?b |- _ => change (b <= a) in H
  | H : ?a > ?b |- _ => change (b < a) in H
  | H : ~ (?a <= ?b) |- _ => apply Qcnot_le_lt in H
  | H : ~ (?a < ?b) |- _ => apply Qcnot_lt_le in H
  end.
Ltac q_goal :=
  lazymatch goal with
  | |- @eq Qc ?a ?b => let p := qexp a in let q := qexp b in apply (te_eq_g a b _ _ p q)
  | |- ?a <= ?b => let p := qexp a in let q := qexp b in apply (te_le_g a b _ _ p q)
  | |- ?a < ?b => let p := qexp a in let q := qexp b in apply (te_lt_g a b _ _ p q)
  | |- ?a >= ?b => change (b <= a); q_goal
  | |- ?a > ?b => change (b < a); q_goal
  | |- ~ (?a <= ?b) => apply Qclt_not_le; q_goal
  | |- ~ (?a < ?b) => apply Qcle_not_lt; q_goal
  | |- False => idtac
  | |- _ => exfalso
  end.
Ltac qlra := q_hyps; q_goal; unfold inject_Z in *; lra.
Ltac qnra := q_hyps; q_goal; unfold inject_Z in *; nra.

(** ** Case analysis on the boolean tests *)
Ltac qb :=
  repeat match goal with
  | H : qeqb _ _ = true |- _ => apply qeqb_true in H
  | H : qeqb _ _ = false |- _ => apply qeqb_false in H
  | H : qleb _ _ = true |- _ => apply qleb_true in H
  | H : qleb _ _ = false |- _ => apply qleb_false in H
  | H : qltb _ _ = true |- _ => apply qltb_true in H
  | H : qltb _ _ = false |- _ => apply qltb_false in H
  | H : qzero _ = _ |- _ => unfold qzero in H
  | H : qneg _ = _ |- _ => unfold qneg in H
  | H : qpos _ = _ |- _ => unfold qpos in H
  end.

(** ** Algebra helpers *)
Lemma Qc_neq_sym (a b : Qc) : a <> b -> b <> a. Proof. congruence. Qed.
Lemma Qc_lt_neq (a b : Qc) : a < b -> a <> b.
Proof. intros H E. subst. qlra. Qed.
Lemma Qc_le_neq_lt (a b : Qc) : a <= b -> a <> b -> a < b.
Proof.
  intros H N. apply Qcle_lt_or_eq in H. destruct H; [assumption|contradiction].
Qed.
Lemma Qc_pos_neq0 (a : Qc) : 0 < a -> a <> 0.
Proof. intros H E. subst. qlra. Qed.
Lemma Qc_dec (a b : Qc) : {a = b} + {a <> b}.
Proof. apply Qc_eq_dec. Qed.
Lemma Qc_one_neq0 : 1 <> 0 :> Qc.
Proof. intro H. discriminate (f_equal this H). Qed.
Lemma Qc_mul_eq0 (a b : Qc) : a * b = 0 -> a = 0 \/ b = 0.
Proof. apply Qcmult_integral. Qed.
Lemma Qc_mul_neq0 (a b : Qc) : a <> 0 -> b <> 0 -> a * b <> 0.
Proof. intros H1 H2 E. apply Qc_mul_eq0 in E. tauto. Qed.
Lemma Qc_mul_nonneg (a b : Qc) : 0 <= a -> 0 <= b -> 0 <= a * b.
Proof. intros. qnra. Qed.
Lemma Qc_mul_pos (a b : Qc) : 0 < a -> 0 < b -> 0 < a * b.
Proof. intros. qnra. Qed.
Lemma Qc_sq_nonneg (a : Qc) : 0 <= a * a.
Proof. qnra. Qed.
Lemma Qc_inv_mul (a : Qc) : a <> 0 -> / a * a = 1.
Proof. intros H. now rewrite Qcmult_comm, Qcmult_inv_r. Qed.
Lemma Qc_inv_pos (a : Qc) : 0 < a -> 0 < / a.
Proof.
  intros H. assert (E : / a * a = 1) by (apply Qc_inv_mul; now apply Qc_pos_neq0).
  destruct (Qclt_le_dec 0 (/ a)) as [L|L]; [assumption|].
  exfalso. assert (/ a * a <= 0) by qnra. qlra.
Qed.
Lemma Qc_inv_neg (a : Qc) : a < 0 -> / a < 0.
Proof.
  intros H. assert (E : / a * a = 1) by (apply Qc_inv_mul; now apply Qc_lt_neq).
  destruct (Qclt_le_dec (/ a) 0) as [L|L]; [assumption|].
  exfalso. assert (/ a * a <= 0) by qnra. qlra.
Qed.
Lemma Qc_inv_neq0 (a : Qc) : a <> 0 -> / a <> 0.
Proof. intros H E. pose proof (Qc_inv_mul a H). rewrite E in H0. qlra. Qed.
Lemma Qc_div_nonneg (a b : Qc) : 0 <= a -> 0 < b -> 0 <= a / b.
Proof. intros. unfold Qcdiv. apply Qc_inv_pos in H0. qnra. Qed.
Lemma Qc_div_pos (a b : Qc) : 0 < a -> 0 < b -> 0 < a / b.
Proof. intros. unfold Qcdiv. apply Qc_inv_pos in H0. qnra. Qed.
Lemma Qc_div_mul (a b : Qc) : b <> 0 -> a / b * b = a.
Proof. intros. field. assumption. Qed.
Lemma Qc_div_neq0 (a b : Qc) : a <> 0 -> b <> 0 -> a / b <> 0.
Proof. intros. unfold Qcdiv. apply Qc_mul_neq0; [assumption|]. now apply Qc_inv_neq0. Qed.
Lemma Qc_div_le (a b c : Qc) : 0 < b -> (a / b <= c <-> a <= c * b).
Proof.
  intros H. pose proof (Qc_div_mul a b (Qc_pos_neq0 _ H)).
  split; intro L.
  - rewrite <- H0. clear H0. qnra.
  - destruct (Qclt_le_dec c (a / b)) as [G|G]; [|assumption].
    exfalso. assert (c * b < a / b * b) by qnra. rewrite H0 in H1. qlra.
Qed.
Lemma Qc_div_lt (a b c : Qc) : 0 < b -> (a / b < c <-> a < c * b).
Proof.
  intros H. pose proof (Qc_div_mul a b (Qc_pos_neq0 _ H)).
  split; intro L.
  - rewrite <- H0. clear H0. qnra.
  - destruct (Qclt_le_dec (a / b) c) as [G|G]; [assumption|].
    exfalso. assert (c * b <= a / b * b) by qnra. rewrite H0 in H1. qlra.
Qed.
Lemma Qc_le_div (a b c : Qc) : 0 < b -> (c <= a / b <-> c * b <= a).
Proof.
  intros H. pose proof (Qc_div_lt a b c H). split; intro L.
  - destruct (Qclt_le_dec a (c * b)) as [G|G]; [|assumption]. apply H0 in G. qlra.
  - destruct (Qclt_le_dec (a / b) c) as [G|G]; [|assumption]. apply H0 in G. qlra.
Qed.
Lemma Qc_mul_cancel_r (a b c : Qc) : c <> 0 -> a * c = b * c -> a = b.
Proof.
  intros H E. assert (a * c * / c = b * c * / c) by now rewrite E.
  rewrite <- !Qcmult_assoc, Qcmult_inv_r, !Qcmult_1_r in H0 by assumption. assumption.
Qed.
Lemma Qc_neg_test (x : Qc) : qneg x = true <-> x < 0.
Proof. apply qltb_true. Qed.
