(** * Sparse vectors: proofs. *)
From Verif Require Export LinAlg Sparse.

Lemma fwf_weaken lo lo' m l : (lo' <= lo)%nat -> fwf lo m l -> fwf lo' m l.
Proof. destruct l as [|[i v] t]; simpl; intros; [trivial|]. intuition lia. Qed.
Lemma den_below lo m l i : fwf lo m l -> (i < lo)%nat -> den l i = 0.
Proof.
  revert lo; induction l as [|[j v] t]; simpl; intros lo H L; [reflexivity|].
  destruct H as (H1 & H2 & H3). destruct (Nat.eqb_spec i j); [lia|].
  rewrite (IHt (S j)) by (try assumption; lia). ring.
Qed.
Lemma den_above lo m l i : fwf lo m l -> (m <= i)%nat -> den l i = 0.
Proof.
  revert lo; induction l as [|[j v] t]; simpl; intros lo H L; [reflexivity|].
  destruct H as (H1 & H2 & H3). destruct (Nat.eqb_spec i j); [lia|].
  rewrite (IHt (S j)) by (try assumption; lia). ring.
Qed.
Lemma den_In lo m l i v : fwf lo m l -> In (i, v) l -> den l i = v /\ v <> 0 /\ (lo <= i < m)%nat.
Proof.
  revert lo; induction l as [|[j w] t]; simpl; intros lo H L; [contradiction|].
  destruct H as (H1 & H2 & H3). destruct L as [E|L].
  - inversion E; subst. rewrite Nat.eqb_refl. rewrite (den_below (S i) m) by (try assumption; lia).
    split; [ring|]. split; [assumption|lia].
  - destruct (IHt (S j) H3 L) as (E1 & E2 & E3). destruct (Nat.eqb_spec i j); [lia|].
    rewrite E1. split; [ring|]. split; [assumption|lia].
Qed.
Lemma den_nonzero_In l i : den l i <> 0 -> exists v, In (i, v) l.
Proof.
  induction l as [|[j w] t]; simpl; intros H; [congruence|].
  destruct (Nat.eqb_spec i j).
  - subst. exists w. now left.
  - destruct IHt as [v Hv]; [|exists v; now right]. intro E. apply H. rewrite E. ring.
Qed.
Lemma den_In_iff m l i v : wfs m l -> (In (i, v) l <-> den l i = v /\ v <> 0).
Proof.
  intros H. split.
  - intros I. destruct (den_In 0 m l i v H I) as (A & B & _). now split.
  - intros [E N]. destruct (den_nonzero_In l i) as [w Hw]; [congruence|].
    destruct (den_In 0 m l i w H Hw) as (A & _). congruence.
Qed.

(** Two well-formed sparse vectors with the same denotation are the same list. *)
Lemma fwf_ext lo m a b :
  fwf lo m a -> fwf lo m b -> (forall i, (i < m)%nat -> den a i = den b i) -> a = b.
Proof.
  revert lo b; induction a as [|[i x] a IH]; intros lo b Ha Hb E.
  - destruct b as [|[j y] b]; [reflexivity|]. simpl in Hb. destruct Hb as (L & N & Hb).
    exfalso. apply N. specialize (E j (proj2 L)). simpl in E. rewrite Nat.eqb_refl in E.
    rewrite (den_below (S j) m b) in E by (assumption || lia). rewrite E. ring.
  - simpl in Ha. destruct Ha as (L & N & Ha).
    destruct b as [|[j y] b].
    + exfalso. apply N. specialize (E i (proj2 L)). simpl in E. rewrite Nat.eqb_refl in E.
      rewrite (den_below (S i) m a) in E by (assumption || lia). rewrite <- E. ring.
    + simpl in Hb. destruct Hb as (L' & N' & Hb).
      assert (i = j).
      { destruct (lt_eq_lt_dec i j) as [[Lt|Eq]|Gt]; [exfalso|assumption|exfalso].
        - specialize (E i (proj2 L)). simpl in E. rewrite Nat.eqb_refl in E.
          destruct (Nat.eqb_spec i j); [lia|].
          rewrite (den_below (S i) m a) in E by (assumption || lia).
          rewrite (den_below (S j) m b) in E by (assumption || lia). apply N. qlra.
        - specialize (E j (proj2 L')). simpl in E. rewrite Nat.eqb_refl in E.
          destruct (Nat.eqb_spec j i); [lia|].
          rewrite (den_below (S i) m a) in E by (assumption || lia).
          rewrite (den_below (S j) m b) in E by (assumption || lia). apply N'. qlra. }
      subst j. assert (x = y).
      { specialize (E i (proj2 L)). simpl in E. rewrite Nat.eqb_refl in E.
        rewrite (den_below (S i) m a) in E by (assumption || lia).
        rewrite (den_below (S i) m b) in E by (assumption || lia). qlra. }
      subst y. f_equal. apply (IH (S i)); try assumption.
      intros k Lk. specialize (E k Lk). simpl in E. qlra.
Qed.
Lemma wfs_ext m a b :
  wfs m a -> wfs m b -> (forall i, (i < m)%nat -> den a i = den b i) -> a = b.
Proof. apply fwf_ext. Qed.

(** ** Reading and writing single values *)
Lemma bsearch_spec lo m l k :
  fwf lo m l ->
  match bsearch k l with
  | (true, i) => nth_error l i = Some (k, den l k) /\ den l k <> 0
  | (false, _) => den l k = 0
  end.
Proof.
  revert lo; induction l as [|[j v] t IH]; simpl; intros lo H; [reflexivity|].
  destruct H as (L & N & H). destruct (Nat.ltb_spec j k).
  - specialize (IH (S j) H). destruct (bsearch k t) as [[] i].
    + destruct IH as [E1 E2]. destruct (Nat.eqb_spec k j); [lia|]. simpl.
      rewrite E1. split; [f_equal; f_equal; ring|]. intro E. apply E2. rewrite <- E. ring.
    + destruct (Nat.eqb_spec k j); [lia|]. rewrite IH. ring.
  - destruct (Nat.eqb_spec j k) as [->|Ne].
    + rewrite Nat.eqb_refl. simpl. rewrite (den_below (S k) m t) by (assumption || lia).
      split; [f_equal; f_equal; ring|]. intro E. apply N. rewrite <- E. ring.
    + destruct (Nat.eqb_spec k j); [congruence|].
      rewrite (den_below (S j) m t) by (assumption || lia). ring.
Qed.
Lemma sget_spec m l i :
  wfs m l -> sget l i = if qzero (den l i) then None else Some (den l i).
Proof.
  intros H. unfold sget. pose proof (bsearch_spec 0 m l i H) as B.
  destruct (bsearch i l) as [[] k].
  - destruct B as [B1 B2]. rewrite B1. simpl.
    destruct (qzero (den l i)) eqn:E; [|reflexivity]. qb. congruence.
  - rewrite B. reflexivity.
Qed.
Lemma sget_some m l i v : wfs m l -> sget l i = Some v -> den l i = v /\ v <> 0.
Proof.
  intros H E. rewrite (sget_spec m) in E by assumption.
  destruct (qzero (den l i)) eqn:Z; [discriminate|]. qb. inversion E. split; congruence.
Qed.
Lemma sget_none m l i : wfs m l -> sget l i = None -> den l i = 0.
Proof.
  intros H E. rewrite (sget_spec m) in E by assumption.
  destruct (qzero (den l i)) eqn:Z; [|discriminate]. now qb.
Qed.
Lemma sget_nonzero m l i : wfs m l -> den l i <> 0 -> sget l i = Some (den l i).
Proof.
  intros H E. rewrite (sget_spec m) by assumption.
  destruct (qzero (den l i)) eqn:Z; [|reflexivity]. qb. contradiction.
Qed.

Lemma set_zero_fwf lo m l k : fwf lo m l ->
  fwf lo m (set_zero l k) /\
  forall i, den (set_zero l k) i = if Nat.eqb i k then 0 else den l i.
Proof.
  unfold set_zero. revert lo; induction l as [|[j v] t IH]; simpl; intros lo H.
  { split; [trivial|]. intros i. now destruct (Nat.eqb i k). }
  destruct H as (L & N & H). destruct (Nat.ltb_spec j k).
  - specialize (IH (S j) H). pose proof (bsearch_spec (S j) m t k H) as B.
    destruct (bsearch k t) as [[] p]; simpl.
    + destruct IH as [W D]. split; [simpl; tauto|]. intros i. rewrite D.
      destruct (Nat.eqb_spec i k), (Nat.eqb_spec i j); try lia; ring.
    + split; [simpl; tauto|]. intros i.
      destruct (Nat.eqb_spec i k), (Nat.eqb_spec i j); try lia; subst; try ring. rewrite B. ring.
  - destruct (Nat.eqb_spec j k) as [->|Ne]; simpl.
    + split; [apply (fwf_weaken (S k)); [lia|assumption]|]. intros i.
      destruct (Nat.eqb_spec i k) as [->|]; [|ring].
      apply (den_below (S k) m); [assumption|lia].
    + split; [simpl; tauto|]. intros i. destruct (Nat.eqb_spec i k) as [->|]; [|reflexivity].
      destruct (Nat.eqb_spec k j); [congruence|].
      rewrite (den_below (S j) m t) by (assumption || lia). ring.
Qed.
Lemma sset_fwf lo m l k v : fwf lo m l -> (lo <= k < m)%nat -> v <> 0 ->
  fwf lo m (sset l k v) /\
  forall i, den (sset l k v) i = if Nat.eqb i k then v else den l i.
Proof.
  unfold sset. revert lo; induction l as [|[j w] t IH]; simpl; intros lo H Lk Nv.
  { split; [tauto|]. intros i. destruct (Nat.eqb i k); ring. }
  destruct H as (L & N & H). destruct (Nat.ltb_spec j k).
  - specialize (IH (S j) H ltac:(lia) Nv).
    destruct (bsearch k t) as [[] p]; simpl; destruct IH as [W D]; (split; [simpl; tauto|]);
      intros i; rewrite D; destruct (Nat.eqb_spec i k), (Nat.eqb_spec i j); try lia; ring.
  - destruct (Nat.eqb_spec j k) as [->|Ne]; simpl.
    + split; [simpl; tauto|]. intros i. destruct (Nat.eqb_spec i k) as [->|]; [|ring].
      rewrite (den_below (S k) m t) by (assumption || lia). ring.
    + split; [repeat split; try tauto; lia|]. intros i.
      destruct (Nat.eqb_spec i k) as [->|]; [|ring].
      destruct (Nat.eqb_spec k j); [congruence|].
      rewrite (den_below (S j) m t) by (assumption || lia). ring.
Qed.
Lemma shift_value_fwf m l k v : wfs m l -> (k < m)%nat ->
  wfs m (shift_value l k v) /\
  forall i, den (shift_value l k v) i = den l i + if Nat.eqb i k then v else 0.
Proof.
  intros H Lk. unfold shift_value. destruct (qzero v) eqn:Z; qb.
  { subst. split; [assumption|]. intros i. destruct (Nat.eqb i k); ring. }
  pose proof (bsearch_spec 0 m l k H) as B. 
  assert (S : forall x, x <> 0 -> wfs m (sset l k x) /\
     forall i, den (sset l k x) i = if Nat.eqb i k then x else den l i).
  { intros x Nx. apply (sset_fwf 0); [assumption|lia|assumption]. }
  unfold sset in S.
  destruct (bsearch k l) as [[] p] eqn:Eb.
  - destruct B as [B1 B2]. rewrite B1. destruct (qeqb (den l k) (- v)) eqn:E; qb.
    + destruct (set_zero_fwf 0 m l k H) as [W D]. split; [exact W|]. intros i. rewrite D.
      destruct (Nat.eqb_spec i k) as [->|]; [rewrite E; ring|ring].
    + destruct (S (den l k + v)) as [W D]; [intro C; apply E; qlra|].
      split; [exact W|]. intros i. rewrite D. destruct (Nat.eqb_spec i k) as [->|]; ring.
  - destruct (S v Z) as [W D]. split; [exact W|]. intros i. rewrite D.
    destruct (Nat.eqb_spec i k) as [->|]; [rewrite B; ring|ring].
Qed.

(** ** Linear operations *)
Lemma den_map (f : Qc -> Qc) l i :
  f 0 = 0 -> (forall x y, f (x + y) = f x + f y) ->
  den (map (fun '(j, v) => (j, f v)) l) i = f (den l i).
Proof.
  intros F0 FA. induction l as [|[j v] t]; simpl; [now rewrite F0|].
  rewrite IHt, FA. destruct (Nat.eqb i j); now rewrite ?F0.
Qed.
Lemma den_smul l c i : den (smul l c) i = den l i * c.
Proof. unfold smul. apply (den_map (fun x => x * c)); intros; ring. Qed.
Lemma den_sdiv l c i : den (sdiv l c) i = den l i / c.
Proof. unfold sdiv. apply (den_map (fun x => x / c)); intros; unfold Qcdiv; ring. Qed.
Lemma fwf_map f lo m l :
  (forall x, x <> 0 -> f x <> 0) -> fwf lo m l -> fwf lo m (map (fun '(j, v) => (j, f v)) l).
Proof.
  intros F. revert lo; induction l as [|[j v] t]; simpl; intros lo H; [trivial|].
  destruct H as (A & B & C). repeat split; try tauto; [now apply F|now apply IHt].
Qed.
Lemma smul_wfs m l c : c <> 0 -> wfs m l -> wfs m (smul l c).
Proof. intros H. apply fwf_map. intros. now apply Qc_mul_neq0. Qed.
Lemma sdiv_wfs m l c : c <> 0 -> wfs m l -> wfs m (sdiv l c).
Proof. intros H. apply fwf_map. intros. now apply Qc_div_neq0. Qed.

Lemma add_mult_nil mult b : add_mult mult [] b = smul b mult.
Proof. reflexivity. Qed.
Lemma add_mult_cons_nil mult i x a : add_mult mult ((i, x) :: a) [] = (i, x) :: add_mult mult a [].
Proof. reflexivity. Qed.
Lemma add_mult_cons mult i x a j y b :
  add_mult mult ((i, x) :: a) ((j, y) :: b) =
  if Nat.ltb j i then (j, y * mult) :: add_mult mult ((i, x) :: a) b
  else if Nat.eqb j i then
    (if qzero (x + y * mult) then add_mult mult a b else (i, x + y * mult) :: add_mult mult a b)
  else (i, x) :: add_mult mult a ((j, y) :: b).
Proof. reflexivity. Qed.

Lemma add_mult_spec mult lo m a b :
  mult <> 0 -> fwf lo m a -> fwf lo m b ->
  fwf lo m (add_mult mult a b) /\ forall i, den (add_mult mult a b) i = den a i + mult * den b i.
Proof.
  intros Nm. revert lo b; induction a as [|[i x] a IH]; intros lo b Ha Hb.
  { rewrite add_mult_nil. split; [now apply fwf_map; [intros; now apply Qc_mul_neq0|]|].
    intros k. rewrite den_smul. simpl. ring. }
  revert lo Ha Hb; induction b as [|[j y] b IHb]; intros lo Ha Hb.
  { rewrite add_mult_cons_nil. simpl in Ha. destruct Ha as (A & B & C).
    destruct (IH (S i) [] C I) as [W D]. split; [simpl; tauto|].
    intros k. simpl. rewrite D. simpl. ring. }
  rewrite add_mult_cons. pose proof Ha as Ha0. pose proof Hb as Hb0.
  simpl in Ha, Hb. destruct Ha as (A & B & C), Hb as (A' & B' & C').
  destruct (Nat.ltb_spec j i).
  - destruct (IHb (S j)) as [W D]; [simpl; intuition lia|assumption|].
    split; [simpl; repeat split; try lia; [now apply Qc_mul_neq0|assumption]|].
    intros k. cbn [den]. rewrite D. simpl. destruct (Nat.eqb k j), (Nat.eqb k i); ring.
  - destruct (Nat.eqb_spec j i) as [->|Ne].
    + destruct (IH (S i) b C C') as [W D]. destruct (qzero (x + y * mult)) eqn:Z; qb.
      * split; [apply (fwf_weaken (S i)); [lia|assumption]|]. intros k. rewrite D. simpl.
        destruct (Nat.eqb k i); [|ring].
        replace (x + den a k + mult * (y + den b k)) with ((x + y * mult) + den a k + mult * den b k) by ring.
        rewrite Z. ring.
      * split; [simpl; tauto|]. intros k. simpl. rewrite D. destruct (Nat.eqb k i); ring.
    + destruct (IH (S i) ((j, y) :: b) C) as [W D]; [simpl; intuition lia|].
      split; [simpl; tauto|]. intros k. cbn [den]. rewrite D. simpl.
      destruct (Nat.eqb k j), (Nat.eqb k i); ring.
Qed.
Lemma add_mult_wfs mult m a b :
  mult <> 0 -> wfs m a -> wfs m b -> wfs m (add_mult mult a b).
Proof. intros. now apply add_mult_spec. Qed.
Lemma den_add_mult mult m a b i :
  mult <> 0 -> wfs m a -> wfs m b -> den (add_mult mult a b) i = den a i + mult * den b i.
Proof. intros. now apply (add_mult_spec mult 0 m). Qed.

Lemma sbasis_wfs m i : (i < m)%nat -> wfs m (sbasis i).
Proof. intros. simpl. repeat split; try lia. apply Qc_one_neq0. Qed.
Lemma den_sbasis i k : den (sbasis i) k = delta i k.
Proof. unfold delta. simpl. rewrite (Nat.eqb_sym k i). destruct (Nat.eqb i k); ring. Qed.

(** ** Sums over the entries *)
Fixpoint esum (l : svec) (f : nat -> Qc -> Qc) : Qc :=
  match l with
  | [] => 0
  | (i, v) :: t => f i v + esum t f
  end.
Lemma esum_den n l (g : nat -> Qc) :
  (forall i v, In (i, v) l -> (i < n)%nat) ->
  esum l (fun i v => v * g i) = sum n (fun i => den l i * g i).
Proof.
  induction l as [|[j v] t]; simpl; intros H.
  - symmetry. apply sum_zero. intros. ring.
  - rewrite IHt by (intros; apply (H i v0); now right).
    rewrite (sum_ext n (fun i => ((if Nat.eqb i j then v else 0) + den t i) * g i)
                       (fun i => delta j i * (v * g i) + den t i * g i)).
    2:{ intros i _. unfold delta. rewrite (Nat.eqb_sym j i). destruct (Nat.eqb i j); ring. }
    rewrite sum_plus. rewrite (sum_delta_l n j (fun i => v * g i)).
    2:{ apply (H j v). now left. }
    reflexivity.
Qed.
Lemma wfs_In_lt m l i v : wfs m l -> In (i, v) l -> (i < m)%nat.
Proof. intros H I. now apply (den_In 0 m l i v). Qed.

Lemma ddot_esum d l : ddot d l = esum l (fun i v => v * nthq d i).
Proof. induction l as [|[i v] t]; simpl; [reflexivity|]. rewrite IHt. ring. Qed.
Lemma ddot_spec m d l : wfs m l -> ddot d l = sum m (fun i => nthq d i * den l i).
Proof.
  intros H. rewrite ddot_esum, (esum_den m).
  - apply sum_ext. intros. ring.
  - intros. now apply (wfs_In_lt m l i v).
Qed.
Lemma sqnorm_spec m l : wfs m l -> sqnorm l = sum m (fun i => den l i * den l i).
Proof.
  intros H.
  transitivity (esum l (fun i v => v * den l i)).
  - assert (G : forall t, (forall i v, In (i, v) t -> den l i = v) ->
                 sqnorm t = esum t (fun i v => v * den l i)).
    { induction t as [|[i v] t]; simpl; intros G; [reflexivity|].
      rewrite IHt by (intros; apply G; now right). now rewrite (G i v) by now left. }
    apply G. intros i v I. now apply (den_In 0 m l i v).
  - apply esum_den. intros. now apply (wfs_In_lt m l i v).
Qed.

Lemma sdot_nil b : sdot [] b = 0. Proof. reflexivity. Qed.
Lemma sdot_cons_nil i x a : sdot ((i, x) :: a) [] = 0. Proof. reflexivity. Qed.
Lemma sdot_cons i x a j y b :
  sdot ((i, x) :: a) ((j, y) :: b) =
  if Nat.ltb j i then sdot ((i, x) :: a) b
  else if Nat.eqb j i then x * y + sdot a b
  else sdot a ((j, y) :: b).
Proof. reflexivity. Qed.
Lemma sdot_esum lo m a b :
  fwf lo m a -> fwf lo m b -> sdot a b = esum a (fun i v => v * den b i).
Proof.
  revert lo b; induction a as [|[i x] a IH]; intros lo b Ha Hb; [reflexivity|].
  revert lo Ha Hb; induction b as [|[j y] b IHb]; intros lo Ha Hb.
  { rewrite sdot_cons_nil. clear. symmetry.
    assert (G : forall l : svec, esum l (fun i v => v * den [] i) = 0).
    { induction l as [|[k v] t]; simpl; [reflexivity|]. simpl in IHt. rewrite IHt. ring. }
    apply G. }
  rewrite sdot_cons. simpl in Ha, Hb. destruct Ha as (A & B & C), Hb as (A' & B' & C').
  assert (Skip : forall l : svec, fwf (S j) m l ->
     esum l (fun i v => v * den ((j, y) :: b) i) = esum l (fun i v => v * den b i)).
  { clear. intros l Hl. assert (G : forall k v, In (k, v) l -> k <> j).
    { intros k v I. destruct (den_In (S j) m l k v Hl I) as (_ & _ & L). lia. }
    clear Hl. induction l as [|[k v] t IHt]; simpl; [reflexivity|].
    simpl in IHt. rewrite IHt by (intros; apply (G k0 v0); now right).
    destruct (Nat.eqb_spec k j); [|ring]. exfalso. apply (G k v); [now left|assumption]. }
  destruct (Nat.ltb_spec j i).
  - rewrite (IHb (S j)); [|simpl; intuition lia|assumption].
    symmetry. apply Skip. simpl. intuition lia.
  - destruct (Nat.eqb_spec j i) as [->|Ne].
    + rewrite (IH (S i)) by assumption. cbn [esum]. rewrite Skip by assumption.
      simpl. rewrite Nat.eqb_refl. rewrite (den_below (S i) m b) by (assumption || lia). ring.
    + rewrite (IH (S i)); [|assumption|simpl; intuition lia].
      cbn [esum]. rewrite (den_below j m ((j, y) :: b)); [ring| |lia].
      simpl. intuition lia.
Qed.
Lemma sdot_spec m a b : wfs m a -> wfs m b -> sdot a b = sum m (fun i => den a i * den b i).
Proof.
  intros Ha Hb. rewrite (sdot_esum 0 m) by assumption. apply esum_den.
  intros. now apply (wfs_In_lt m a i v).
Qed.

(** ** Building from a dense list, removing indices *)
Lemma sfrom_from_spec k l :
  fwf k (k + length l) (sfrom_from k l) /\
  forall i, den (sfrom_from k l) (k + i) = nthq l i.
Proof.
  revert k; induction l as [|v t IH]; intros k; simpl.
  { split; [trivial|]. intros i. unfold nthq. now destruct i. }
  destruct (IH (S k)) as [W D]. rewrite Nat.add_succ_r.
  destruct (qzero v) eqn:Z; qb.
  - split; [apply (fwf_weaken (S k)); [lia|assumption]|]. intros [|i].
    + rewrite Nat.add_0_r. subst. rewrite (den_below _ _ _ _ W) by lia. reflexivity.
    + rewrite Nat.add_succ_r. exact (D i).
  - split; [simpl; repeat split; try lia; assumption|]. intros [|i].
    + rewrite Nat.add_0_r. simpl. rewrite Nat.eqb_refl.
      rewrite (den_below _ _ _ _ W) by lia. unfold nthq. simpl. ring.
    + simpl. destruct (Nat.eqb_spec (k + S i) k); [lia|].
      rewrite Nat.add_succ_r. specialize (D i). simpl in D. rewrite D. unfold nthq. simpl. ring.
Qed.
Lemma sfrom_spec l : wfs (length l) (sfrom l) /\ forall i, den (sfrom l) i = nthq l i.
Proof. exact (sfrom_from_spec 0 l). Qed.
