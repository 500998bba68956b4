(** * Powers and prime factorizations of rational numbers *)
From Coq Require Import Qpower.
From Verif Require Import SpecScale.
Local Open Scope Qc_scope.

Lemma qpower_q q k : (this (qpower q k) == Qpower q k)%Q. Proof. unfold qpower, Q2Qc. cbn [this]. apply Qred_correct. Qed.
Lemma qc_ext (a b : Qc) : (this a == this b)%Q -> a = b. Proof. apply Qc_is_canon. Qed.
Lemma qc_nonzero (q : Qc) : q <> 0 -> ~ (this q == 0)%Q. Proof. intros N E. apply N. apply qc_ext. exact E. Qed.
Lemma mult_q (a b : Qc) : (this (a * b) == this a * this b)%Q. Proof. unfold Qcmult, Q2Qc. cbn [this]. apply Qred_correct. Qed.
Lemma qpower_0 q : qpower q 0 = 1. Proof. apply qc_ext. rewrite qpower_q. reflexivity. Qed.
Lemma qpower_1 q : qpower q 1 = q. Proof. apply qc_ext. rewrite qpower_q. cbn. reflexivity. Qed.
Lemma qpower_add q a b : q <> 0 -> qpower q (a + b) = qpower q a * qpower q b.
Proof. intros N. apply qc_ext. rewrite mult_q, !qpower_q. apply Qpower_plus. now apply qc_nonzero. Qed.
Lemma qpower_pos q a : 0 < q -> 0 < qpower q a.
Proof. intros H. unfold Qclt in *. rewrite qpower_q. now apply Qpower_0_lt. Qed.
Lemma qpower_nonzero q a : q <> 0 -> qpower q a <> 0.
Proof. intros N E. apply (qc_nonzero q) in N. apply (Qpower_not_0 q a) in N. apply N. rewrite <- qpower_q, E. reflexivity. Qed.
Lemma qpower_opp q a : q <> 0 -> qpower q (- a) = / qpower q a.
Proof.
  intros N. pose proof (qpower_add q a (- a) N) as E. rewrite Z.add_opp_diag_r, qpower_0 in E. pose proof (qpower_nonzero q a N).
  transitivity (/ qpower q a * (qpower q a * qpower q (- a))); [field; assumption|]. rewrite <- E. ring.
Qed.
Lemma zq_nonzero z : z <> 0%Z -> zq z <> 0.
Proof. intros N E. apply N. unfold zq in E. apply (f_equal this) in E. unfold Q2Qc in E. cbn [this] in E. assert (X : (inject_Z z == 0)%Q) by (rewrite <- (Qred_correct (inject_Z z)), E; reflexivity). unfold Qeq in X. cbn in X. lia. Qed.
Lemma zq_pos z : (0 < z)%Z -> 0 < zq z.
Proof. intros H. unfold Qclt. assert (E : (this (zq z) == inject_Z z)%Q) by (unfold zq, Q2Qc; cbn [this]; apply Qred_correct). rewrite E. change (this 0) with (inject_Z 0). now rewrite <- Zlt_Qlt. Qed.
Lemma zq_mul a b : zq (a * b) = zq a * zq b.
Proof. apply qc_ext. rewrite mult_q. unfold zq, Q2Qc. cbn [this]. rewrite !Qred_correct. unfold Qeq. cbn. lia. Qed.
Lemma zq_inj a b : zq a = zq b -> a = b.
Proof. intros E. apply (f_equal this) in E. unfold zq, Q2Qc in E. cbn [this] in E. assert (X : (inject_Z a == inject_Z b)%Q) by (rewrite <- (Qred_correct (inject_Z a)), E; apply Qred_correct). unfold Qeq in X. cbn in X. lia. Qed.
Lemma zq_1 : zq 1 = 1. Proof. apply qc_ext. reflexivity. Qed.
Lemma zq_power z (k : Z) : (0 <= k)%Z -> zq (z ^ k) = qpower (zq z) k.
Proof.
  intros H. apply qc_ext. rewrite qpower_q. unfold zq, Q2Qc. cbn [this]. rewrite !Qred_correct. apply Zpower_Qpower. assumption.
Qed.
Lemma times_power_is f k x : (f <> 0)%Z -> times_power f k x = qpower (zq f) k * x.
Proof.
  intros N. pose proof (zq_nonzero f N) as NF.
  assert (M : forall q x, Nat.iter q (fun x => x * zq f) x = qpower (zq f) (Z.of_nat q) * x).
  { induction q as [|q IH]; intros y; [change (y = qpower (zq f) 0 * y); rewrite qpower_0; ring|]. rewrite Nat2Z.inj_succ. unfold Z.succ. rewrite qpower_add, qpower_1 by assumption.
    change (Nat.iter q (fun x => x * zq f) y * zq f = qpower (zq f) (Z.of_nat q) * zq f * y). rewrite IH. ring. }
  assert (D : forall q x, Nat.iter q (fun x => x / zq f) x = / qpower (zq f) (Z.of_nat q) * x).
  { induction q as [|q IH]; intros y; [change (y = / qpower (zq f) 0 * y); rewrite qpower_0; field; discriminate|]. rewrite Nat2Z.inj_succ. unfold Z.succ. rewrite qpower_add, qpower_1 by assumption. pose proof (qpower_nonzero (zq f) (Z.of_nat q) NF).
    change (Nat.iter q (fun x => x / zq f) y / zq f = / (qpower (zq f) (Z.of_nat q) * zq f) * y). rewrite IH. field. split; assumption. }
  unfold times_power. destruct k as [|p|p].
  - rewrite qpower_0. ring.
  - rewrite M, positive_nat_Z. reflexivity.
  - rewrite D, positive_nat_Z. rewrite <- qpower_opp by assumption. reflexivity.
Qed.

(** ** Multiplicities *)
Definition has_power (p : Z) (v : Qc) (k : Z) : Prop := exists a b, ~ (p | a)%Z /\ ~ (p | b)%Z /\ v * zq b = zq a * qpower (zq p) k.
Section Prime.
Variable p : Z.
Hypothesis PR : prime p.
Lemma prime_big : (1 < p)%Z. Proof. apply PR. Qed.
Lemma prime_zq : zq p <> 0. Proof. apply zq_nonzero. pose proof prime_big. lia. Qed.
Lemma undivided_nonzero a : ~ (p | a)%Z -> a <> 0%Z. Proof. intros N ->. apply N. apply Z.divide_0_r. Qed.
Lemma undivided_mul a b : ~ (p | a)%Z -> ~ (p | b)%Z -> ~ (p | a * b)%Z.
Proof. intros NA NB D. apply prime_mult in D; [|assumption]. tauto. Qed.
Lemma has_power_lt v k k' : has_power p v k -> has_power p v k' -> (k < k')%Z -> False.
Proof.
  intros (a & b & NA & NB & E) (a' & b' & NA' & NB' & E') L. apply (undivided_mul a b' NA NB').
  assert (X : zq (a * b') = zq (a' * b * p ^ (k' - k))).
  { rewrite !zq_mul, zq_power by lia. pose proof (qpower_nonzero (zq p) k prime_zq) as NK.
    assert (EK : qpower (zq p) k' = qpower (zq p) k * qpower (zq p) (k' - k)) by (rewrite <- qpower_add by apply prime_zq; f_equal; lia).
    assert (Y : zq a * zq b' * qpower (zq p) k = zq a' * zq b * qpower (zq p) (k' - k) * qpower (zq p) k).
    { transitivity (v * zq b * zq b'); [rewrite E; ring|]. transitivity (v * zq b' * zq b); [ring|]. rewrite E', EK. ring. }
    transitivity (zq a * zq b' * qpower (zq p) k * / qpower (zq p) k); [field; assumption|]. rewrite Y. field. assumption. }
  apply zq_inj in X. rewrite X. apply Z.divide_mul_r. replace (k' - k)%Z with (Z.succ (k' - k - 1))%Z by lia. rewrite Z.pow_succ_r by lia. apply Z.divide_factor_l.
Qed.
Lemma has_power_unique v k k' : has_power p v k -> has_power p v k' -> k = k'.
Proof. intros H H'. destruct (Z.lt_trichotomy k k') as [L|[->|L]]; [|reflexivity|]; exfalso; [now apply (has_power_lt v k k')|now apply (has_power_lt v k' k)]. Qed.
Lemma has_power_mul v w k k' : has_power p v k -> has_power p w k' -> has_power p (v * w) (k + k').
Proof.
  intros (a & b & NA & NB & E) (a' & b' & NA' & NB' & E'). exists (a * a')%Z, (b * b')%Z. split; [now apply undivided_mul|]. split; [now apply undivided_mul|].
  rewrite !zq_mul, qpower_add by apply prime_zq. transitivity (v * zq b * (w * zq b')); [ring|]. rewrite E, E'. ring.
Qed.
Lemma undivided_1 : ~ (p | 1)%Z. Proof. intros D. apply Z.divide_1_r in D. pose proof prime_big. lia. Qed.
Lemma has_power_self k : has_power p (qpower (zq p) k) k.
Proof. exists 1%Z, 1%Z. split; [apply undivided_1|]. split; [apply undivided_1|]. ring. Qed.
Lemma has_power_one : has_power p 1 0. Proof. pose proof (has_power_self 0) as H. now rewrite qpower_0 in H. Qed.
Lemma undivided_power q k : ~ (p | q)%Z -> (0 <= k)%Z -> ~ (p | q ^ k)%Z.
Proof.
  intros N. revert k. apply (natlike_ind (fun k => ~ (p | q ^ k)%Z)); [apply undivided_1|]. intros k K IH. rewrite Z.pow_succ_r by assumption. now apply undivided_mul.
Qed.
Lemma has_power_other q k : prime q -> q <> p -> has_power p (qpower (zq q) k) 0.
Proof.
  intros PQ N. assert (D : ~ (p | q)%Z) by (intros D; apply prime_div_prime in D; [congruence|assumption|assumption]).
  assert (NQ : zq q <> 0) by (apply zq_nonzero; destruct PQ; lia).
  destruct (Z.le_gt_cases 0 k) as [K|K].
  - exists (q ^ k)%Z, 1%Z. split; [now apply undivided_power|]. split; [apply undivided_1|]. rewrite zq_power, qpower_0, zq_1 by assumption. ring.
  - exists 1%Z, (q ^ (- k))%Z. split; [apply undivided_1|]. split; [apply undivided_power; [assumption|lia]|]. rewrite zq_power, <- qpower_add by (assumption || lia). rewrite Z.add_opp_diag_r, !qpower_0, zq_1. ring.
Qed.
Lemma has_power_opp v k : has_power p v k -> has_power p (- v) k.
Proof.
  intros (a & b & NA & NB & E). exists (- a)%Z, b. split; [intros D; apply NA; apply Z.divide_opp_r; exact D|]. split; [assumption|].
  transitivity (- (v * zq b)); [ring|]. rewrite E. replace (zq (- a)) with (- zq a); [ring|]. replace (- a)%Z with (-1 * a)%Z by lia. rewrite zq_mul. replace (zq (-1)) with (- (1)) by (apply qc_ext; reflexivity). ring.
Qed.
Lemma has_power_abs v k : has_power p (qabs v) k -> has_power p v k.
Proof. unfold qabs. destruct (qltb v 0); [|tauto]. intros H. apply has_power_opp in H. now rewrite Qcopp_involutive in H. Qed.
Lemma has_power_product l : (forall f k, In (f, k) l -> prime f) -> NoDup (map fst l) -> has_power p (product l) (power p l).
Proof.
  induction l as [|[f k] l IH]; intros PL ND; cbn [product power fold_right]; [apply has_power_one|]. inversion ND as [|? ? NI ND']; subst. fold (product l).
  assert (IH' : has_power p (product l) (power p l)) by (apply IH; [intros f' k' H; apply (PL f' k'); now right|assumption]).
  destruct (Z.eqb_spec f p) as [->|N].
  - replace k with (k + 0)%Z at 2 by lia. apply has_power_mul; [apply has_power_self|]. replace 0%Z with (power p l); [assumption|].
    clear - NI. induction l as [|[f k] l IH]; [reflexivity|]. cbn [power map In] in *. destruct (Z.eqb_spec f p) as [->|]; [tauto|]. apply IH. tauto.
  - replace (power p l) with (0 + power p l)%Z by lia. apply has_power_mul; [|assumption]. apply has_power_other; [apply (PL f k); now left|assumption].
Qed.
Lemma zincreasing_above a l : zincreasing a l -> forall x, In x l -> (a < x)%Z.
Proof. revert a. induction l as [|b l IH]; intros a H x; [intros []|]. destruct H as [H1 H2]. intros [->|HX]; [assumption|]. apply (IH b H2) in HX. lia. Qed.
Lemma zincreasing_nodup a l : zincreasing a l -> NoDup l.
Proof. revert a. induction l as [|b l IH]; intros a H; [constructor|]. destruct H as [H1 H2]. constructor; [|now apply (IH b)]. intros HI. apply (zincreasing_above b l H2) in HI. lia. Qed.
Lemma prime_factorization_power l v : prime_factorization l v -> has_power p v (power p l).
Proof. intros (H1 & H2 & H3). apply has_power_abs. rewrite H3. apply has_power_product; [exact H2|]. now apply zincreasing_nodup in H1. Qed.
End Prime.
