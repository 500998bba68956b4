(** * Whole numbers among the rationals *)
From Coq Require Export QArith.Qround.
From Verif Require Export Qcx.
Local Open Scope Qc_scope.

Definition whole (q : Qc) : Prop := exists z : Z, q = Q2Qc (inject_Z z).
Definition wholeb (q : Qc) : bool := qeqb q (Q2Qc (inject_Z (Qfloor (this q)))).
Lemma wholeb_ok q : wholeb q = true <-> whole q.
Proof.
  unfold wholeb. rewrite qeqb_true. split.
  - intros H. eexists. exact H.
  - intros [z ->]. do 2 f_equal. rewrite <- (Qfloor_Z z) at 1. apply Qfloor_comp. unfold Q2Qc. cbn [this]. symmetry. apply Qred_correct.
Qed.
Lemma whole_dec q : {whole q} + {~ whole q}.
Proof. destruct (wholeb q) eqn:E; [left; now apply wholeb_ok|right; rewrite <- wholeb_ok; congruence]. Qed.
Lemma whole_0 : whole 0. Proof. exists 0%Z. apply Qc_is_canon. reflexivity. Qed.
Lemma whole_1 : whole 1. Proof. exists 1%Z. apply Qc_is_canon. reflexivity. Qed.
Lemma whole_plus a b : whole a -> whole b -> whole (a + b).
Proof. intros [x ->] [y ->]. exists (x + y)%Z. apply Qc_is_canon. cbn [this Qcplus Q2Qc]. rewrite !Qred_correct. rewrite inject_Z_plus. reflexivity. Qed.
Lemma whole_opp a : whole a -> whole (- a).
Proof. intros [x ->]. exists (- x)%Z. apply Qc_is_canon. cbn [this Qcopp Q2Qc]. rewrite !Qred_correct. rewrite inject_Z_opp. reflexivity. Qed.
Lemma whole_minus a b : whole a -> whole b -> whole (a - b).
Proof. intros A B. apply whole_plus; [assumption|now apply whole_opp]. Qed.
(** 1 where [q] is not whole *)
Definition broken (q : Qc) : Qc := if wholeb q then 0 else 1.
Lemma broken_whole q : whole q <-> broken q = 0.
Proof. unfold broken. rewrite <- wholeb_ok. destruct (wholeb q); split; intros H; try reflexivity; discriminate. Qed.
Lemma broken_pair a b : whole (a + b) -> broken a = broken b.
Proof.
  intros W. unfold broken. destruct (wholeb a) eqn:A, (wholeb b) eqn:B; try reflexivity; exfalso.
  - assert (H : whole b); [|apply wholeb_ok in H; congruence]. apply wholeb_ok in A. replace b with (a + b - a) by ring. now apply whole_minus.
  - assert (H : whole a); [|apply wholeb_ok in H; congruence]. apply wholeb_ok in B. replace a with (a + b - b) by ring. now apply whole_minus.
Qed.
