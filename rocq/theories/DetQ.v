(** * Determinants bound the elements of inverse matrices

    Proof side only: nothing here models code.  Determinants are those of mathcomp, over the rationals of the model. *)
From mathcomp Require Import all_ssreflect ssralg matrix perm.
From Coq Require Import ZArith QArith Qcanon Lia.
From Verif Require Import Qcx LinAlg SpecSize.
Import GRing.Theory.

(** ** The rationals as a ring *)
Definition qc_eqb (a b : Qc) : bool := if Qc_eq_dec a b then true else false.
Lemma qc_eqP : Equality.axiom qc_eqb.
Proof. move=> a b. rewrite /qc_eqb. case: (Qc_eq_dec a b) => H; by constructor. Qed.
Definition qc_eqMixin := EqMixin qc_eqP.
Canonical qc_eqType := EqType Qc qc_eqMixin.

Definition qc_code (a : Qc) : nat * nat * nat :=
  (Z.to_nat (Qnum a), Z.to_nat (- Qnum a), Pos.to_nat (Qden a)).
Definition qc_decode (c : nat * nat * nat) : option Qc :=
  let: (a, b, d) := c in Some (Q2Qc (Qmake (Z.of_nat a - Z.of_nat b) (Pos.of_nat d))).
Lemma qc_codeK : pcancel qc_code qc_decode.
Proof.
  move=> [[a b] C]. rewrite /qc_decode /qc_code /=. congr Some. apply: Qc_is_canon. rewrite /= Pos2Nat.id.
  have E : (Z.of_nat (Z.to_nat a) - Z.of_nat (Z.to_nat (- a)) = a)%Z by lia.
  rewrite E. exact: Qred_correct.
Qed.
Definition qc_choiceMixin := PcanChoiceMixin qc_codeK.
Canonical qc_choiceType := ChoiceType Qc qc_choiceMixin.

Lemma qc_addA : associative Qcplus. Proof. move=> a b c. exact: Qcplus_assoc. Qed.
Lemma qc_addC : commutative Qcplus. Proof. move=> a b. exact: Qcplus_comm. Qed.
Lemma qc_add0 : left_id (Q2Qc 0) Qcplus. Proof. move=> a. exact: Qcplus_0_l. Qed.
Lemma qc_addN : left_inverse (Q2Qc 0) Qcopp Qcplus.
Proof. move=> a. rewrite Qcplus_comm. exact: Qcplus_opp_r. Qed.
Definition qc_zmodMixin := ZmodMixin qc_addA qc_addC qc_add0 qc_addN.
Canonical qc_zmodType := ZmodType Qc qc_zmodMixin.

Lemma qc_mulA : associative Qcmult. Proof. move=> a b c. exact: Qcmult_assoc. Qed.
Lemma qc_mulC : commutative Qcmult. Proof. move=> a b. exact: Qcmult_comm. Qed.
Lemma qc_mul1 : left_id (Q2Qc 1) Qcmult. Proof. move=> a. exact: Qcmult_1_l. Qed.
Lemma qc_mulD : left_distributive Qcmult Qcplus. Proof. move=> a b c. exact: Qcmult_plus_distr_l. Qed.
Lemma qc_10 : is_true (Q2Qc 1 != Q2Qc 0). Proof. by []. Qed.
Definition qc_ringMixin := ComRingMixin qc_mulA qc_mulC qc_mul1 qc_mulD qc_10.
Canonical qc_ringType := RingType Qc qc_ringMixin.
Canonical qc_comRingType := ComRingType Qc qc_mulC.

(** ** Integers of bounded size *)
Definition zq_of (z : Z) : Qc := Q2Qc (inject_Z z).
Definition zsmall (K : Z) (x : Qc) : Prop := exists z : Z, x = zq_of z /\ (Z.abs z <= K)%Z.

Lemma this_q (q : Q) : Qeq (this (Q2Qc q)) q.
Proof. exact: Qred_correct. Qed.
Lemma zq_add a b : zq_of (a + b) = Qcplus (zq_of a) (zq_of b).
Proof. apply: Qc_is_canon. unfold zq_of, Qcplus. rewrite !this_q inject_Z_plus. reflexivity. Qed.
Lemma zq_mul a b : zq_of (a * b) = Qcmult (zq_of a) (zq_of b).
Proof. apply: Qc_is_canon. unfold zq_of, Qcmult. rewrite !this_q inject_Z_mult. reflexivity. Qed.
Lemma zq_opp a : zq_of (- a) = Qcopp (zq_of a).
Proof. apply: Qc_is_canon. unfold zq_of, Qcopp. rewrite !this_q inject_Z_opp. reflexivity. Qed.
Lemma zq_inj a b : zq_of a = zq_of b -> a = b.
Proof.
  intros E. assert (H : Qeq (inject_Z a) (inject_Z b)).
  { rewrite <- (Qred_correct (inject_Z a)), <- (Qred_correct (inject_Z b)). change (Qeq (this (zq_of a)) (this (zq_of b))). rewrite E. reflexivity. }
  unfold Qeq in H. simpl in H. lia.
Qed.
Lemma zsmall_add K L x y : zsmall K x -> zsmall L y -> zsmall (K + L) (Qcplus x y).
Proof. intros [a [-> A]] [b [-> B]]. exists (a + b)%Z. rewrite zq_add. split; [reflexivity|lia]. Qed.
Lemma zsmall_mul K L x y : zsmall K x -> zsmall L y -> zsmall (K * L) (Qcmult x y).
Proof. intros [a [-> A]] [b [-> B]]. exists (a * b)%Z. rewrite zq_mul. split; [reflexivity|]. rewrite Z.abs_mul. apply Z.mul_le_mono_nonneg; lia. Qed.
Lemma zsmall_opp K x : zsmall K x -> zsmall K (Qcopp x).
Proof. intros [a [-> A]]. exists (- a)%Z. rewrite zq_opp. split; [reflexivity|lia]. Qed.
Lemma zsmall_le K L x : (K <= L)%Z -> zsmall K x -> zsmall L x.
Proof. intros H [a [-> A]]. exists a. split; [reflexivity|lia]. Qed.
Lemma zsmall_0 : zsmall 0 (Q2Qc 0).
Proof. exists 0%Z. split; [reflexivity|lia]. Qed.
Lemma zsmall_1 : zsmall 1 (Q2Qc 1).
Proof. exists 1%Z. split; [reflexivity|lia]. Qed.
Lemma zsmall_sum n f K : (forall i, (i < n)%coq_nat -> zsmall K (f i)) -> zsmall (Z.of_nat n * K) (LinAlg.sum n f).
Proof.
  induction n as [|n IH]; intros H; [exact zsmall_0|]. simpl LinAlg.sum.
  apply zsmall_le with (Z.of_nat n * K + K)%Z; [lia|]. apply zsmall_add; [apply IH; intros; apply H; lia|apply H; lia].
Qed.

(** ** The determinant of a matrix of small integers *)
Section Det.
Variable K : Z.
Hypothesis KP : (0 <= K)%Z.
Lemma sign_small (b : nat) (x : Qc) L : zsmall L x -> zsmall L (((-1)%R : Qc) ^+ b * x)%R.
Proof using.
  move=> H. elim: b => [|b IH]; first by rewrite expr0 mul1r.
  rewrite exprS -mulrA mulN1r. exact: zsmall_opp.
Qed.
Lemma prod_small n (f : 'I_n -> Qc) (s : list 'I_n) : (forall i, zsmall K (f i)) -> zsmall (K ^ Z.of_nat (size s)) (\prod_(i <- s) f i)%R.
Proof using KP.
  move=> H. elim: s => [|i s IH]; first by rewrite big_nil; exact: zsmall_1.
  rewrite big_cons. have -> : (K ^ Z.of_nat (size (i :: s)) = K * K ^ Z.of_nat (size s))%Z.
  { have -> : (Z.of_nat (size (i :: s)) = Z.succ (Z.of_nat (size s))) by exact: Nat2Z.inj_succ. apply: Z.pow_succ_r. lia. }
  exact: zsmall_mul.
Qed.
Lemma sum_small (T : Type) (f : T -> Qc) (s : list T) L : (forall i, zsmall L (f i)) -> zsmall (Z.of_nat (size s) * L) (\sum_(i <- s) f i)%R.
Proof using.
  move=> H. elim: s => [|i s IH]; first by rewrite big_nil; exact: zsmall_0.
  rewrite big_cons. apply: (zsmall_le (L + Z.of_nat (size s) * L)); [have -> : (Z.of_nat (size (i :: s)) = Z.succ (Z.of_nat (size s))) by exact: Nat2Z.inj_succ|].
  { lia. }
  exact: zsmall_add.
Qed.
Lemma det_small n (A : 'M[Qc]_n) : (forall i j, zsmall K (A i j)) -> zsmall (Z.of_nat n`! * K ^ Z.of_nat n) (\det A)%R.
Proof using KP.
  move=> H. rewrite /determinant.
  have -> : (Z.of_nat n`! = Z.of_nat (size (index_enum (perm_for_finType (ordinal_finType n)))))%Z.
  { by rewrite -card_Sn cardE enumT /index_enum unlock. }
  apply: sum_small => s. apply: sign_small.
  have -> : (Z.of_nat n = Z.of_nat (size (index_enum (ordinal_finType n)))).
  { by rewrite -[in LHS](card_ord n) cardE enumT /index_enum unlock. }
  apply: prod_small => i. exact: H.
Qed.
End Det.

(** ** Elements of the inverse of a matrix of small integers *)
Lemma sum_ord n f : LinAlg.sum n f = (\sum_(i < n) (f (nat_of_ord i) : Qc))%R.
Proof. elim: n => [|n IH]; first by rewrite big_ord0. by rewrite /= IH big_ord_recr. Qed.

Theorem inverse_small m (B Y : mat) (K : Z) : (0 <= K)%Z ->
  (forall i j, (i < m)%coq_nat -> (j < m)%coq_nat -> zsmall K (B i j)) -> meq m m (mmul m Y B) delta ->
  exists D : Z, D <> 0%Z /\ (Z.abs D <= Z.of_nat m`! * K ^ Z.of_nat m)%Z /\
    forall i j, (i < m)%coq_nat -> (j < m)%coq_nat ->
      zsmall (Z.of_nat (m.-1)`! * K ^ Z.of_nat m.-1) (Qcmult (Y i j) (zq_of D)).
Proof.
  move=> KP HB HY.
  pose MB := (\matrix_(i < m, j < m) (B i j : Qc))%R. pose MY := (\matrix_(i < m, j < m) (Y i j : Qc))%R.
  have ltc (i : 'I_m) : (nat_of_ord i < m)%coq_nat by apply/ssrnat.ltP.
  have S : forall i j, zsmall K (MB i j) by move=> i j; rewrite mxE; exact: HB.
  have I : (MY *m MB = 1%:M)%R.
  { apply/matrixP => i j. rewrite !mxE. have := HY i j (ltc i) (ltc j). rewrite /mmul sum_ord /delta => E.
    under eq_bigr => k _ do rewrite !mxE. rewrite E.
    case: (Nat.eqb_spec i j) => H; [have -> : i = j by exact: val_inj|]; first by rewrite eqxx.
    have /negbTE -> : i != j by apply/eqP => G; apply: H; rewrite G. by []. }
  have [D [ED BD]] := det_small K KP m MB S.
  exists D. split; [|split; [exact: BD|]].
  - move=> D0. have := det_mulmx MY MB. rewrite I det1 ED D0. move=> /esym E.
    have : (Q2Qc 1 = Q2Qc 0) by rewrite -[LHS]E; exact: Qcmult_0_r.
    by move/eqP.
  - move=> i j Li Lj. have Li' : is_true (leq i.+1 m) by apply/ssrnat.ltP. have Lj' : is_true (leq j.+1 m) by apply/ssrnat.ltP.
    have E : (MY *m (\det MB)%:M = \adj MB)%R by rewrite -mul_mx_adj mulmxA I mul1mx.
    have := congr1 (fun M : 'M[Qc]_m => M (Ordinal Li') (Ordinal Lj')) E.
    rewrite mul_mx_scalar !mxE /= ED => F.
    rewrite Qcmult_comm. change (zsmall (Z.of_nat (m.-1)`! * K ^ Z.of_nat m.-1) ((zq_of D * Y i j)%R)). rewrite F /cofactor.
    apply: sign_small. apply: det_small => // a b. rewrite !mxE. exact: HB.
Qed.
Lemma zfact_factorial n : Z.of_nat n`! = zfact n.
Proof. elim: n => [|n IH]; first by []. rewrite factS. change (n.+1 * n`!)%nat with (Nat.mul n.+1 n`!). rewrite Nat2Z.inj_mul IH. reflexivity. Qed.
Theorem inverse_bound m (B Y : mat) (K : Z) : (0 <= K)%Z ->
  (forall i j, (i < m)%coq_nat -> (j < m)%coq_nat -> zsmall K (B i j)) -> meq m m (mmul m Y B) delta ->
  exists D : Z, D <> 0%Z /\ (Z.abs D <= det_bound m K)%Z /\
    forall i j, (i < m)%coq_nat -> (j < m)%coq_nat -> zsmall (det_bound (Nat.pred m) K) (Qcmult (Y i j) (zq_of D)).
Proof. move=> KP HB HY. have := inverse_small m B Y K KP HB HY. by rewrite !zfact_factorial. Qed.
