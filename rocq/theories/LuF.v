(** * The LU factorization is exact *)
From Coq Require Import Permutation.
From Verif Require Export LuC.

(** ** Counting *)
Definition csum (a n : nat) (f : nat -> nat) : nat := list_sum (map f (seq a n)).
Definition nz (q : Qc) : nat := if qzero q then 0 else 1.
Lemma nz_0 q : q = 0 -> nz q = 0%nat.
Proof. intros ->. reflexivity. Qed.
Lemma nz_1 q : q <> 0 -> nz q = 1%nat.
Proof. intros H. unfold nz. destruct (qzero q) eqn:E; qb; [contradiction|reflexivity]. Qed.
Lemma csum_S a n f : csum a (S n) f = (f a + csum (S a) n f)%nat.
Proof. reflexivity. Qed.
Lemma csum_ext a n f g : (forall x, (a <= x < a + n)%nat -> f x = g x) -> csum a n f = csum a n g.
Proof.
  intros H. unfold csum. f_equal. apply map_ext_in. intros x Hx. apply in_seq in Hx. now apply H.
Qed.
Lemma csum_upd a f g x : forall n, (a <= x < a + n)%nat ->
  (forall y, (a <= y < a + n)%nat -> y <> x -> f y = g y) -> (csum a n f + g x = csum a n g + f x)%nat.
Proof.
  intros n. revert a. induction n as [|n IH]; intros a L H; [lia|]. rewrite !csum_S.
  destruct (Nat.eq_dec a x) as [->|N].
  - rewrite (csum_ext (S x) n f g) by (intros; apply H; lia). lia.
  - rewrite (H a) by lia. specialize (IH (S a) ltac:(lia)). rewrite <- Nat.add_assoc, IH; [lia|].
    intros; apply H; lia.
Qed.
Lemma csum_ge a f x : forall n, (a <= x < a + n)%nat -> (f x <= csum a n f)%nat.
Proof.
  intros n. revert a. induction n as [|n IH]; intros a L; [lia|]. rewrite csum_S.
  destruct (Nat.eq_dec a x) as [->|N]; [lia|]. specialize (IH (S a) ltac:(lia)). lia.
Qed.
Lemma list_sum_perm l l' : Permutation l l' -> list_sum l = list_sum l'.
Proof. induction 1; unfold list_sum in *; cbn [fold_right] in *; lia. Qed.
Lemma csum_perm a n f t : (forall x, (a <= x < a + n)%nat -> (a <= t x < a + n)%nat) ->
  (forall x, t (t x) = x) -> csum a n (fun x => f (t x)) = csum a n f.
Proof.
  intros H T. unfold csum. rewrite <- (map_map t f). apply list_sum_perm, Permutation_map.
  apply NoDup_Permutation_bis.
  - apply FinFun.Injective_map_NoDup; [|apply seq_NoDup]. intros x y E. rewrite <- (T x), E. apply T.
  - now rewrite map_length.
  - intros y Hy. apply in_map_iff in Hy. destruct Hy as (x & <- & Hx). apply in_seq in Hx. apply in_seq. now apply H.
Qed.

(** ** Small operations *)
Lemma swap_list_spec {A} (l : list A) a b d : (a < length l)%nat -> (b < length l)%nat ->
  exists l', swap_list l a b = Ok l' /\ length l' = length l /\
    forall i, nth i l' d = nth (sw_forward a b i) l d.
Proof.
  intros La Lb. unfold swap_list. rewrite (index_Ok l a d), (index_Ok l b d) by assumption. cbn [bind].
  eexists. split; [reflexivity|]. rewrite !upd_length. split; [reflexivity|].
  intros i. rewrite upd_nth by now rewrite upd_length. rewrite upd_nth by assumption. unfold sw_forward.
  destruct (Nat.eqb_spec i b), (Nat.eqb_spec i a); congruence.
Qed.
Definition perm_ok (m : nat) (l : list nat) : Prop :=
  length l = m /\ NoDup l /\ forall x, In x l -> (x < m)%nat.
Lemma perm_nth m l i : perm_ok m l -> (i < m)%nat -> (nth i l 0 < m)%nat.
Proof. intros (L & _ & H) Li. apply H, nth_In. lia. Qed.
Lemma perm_swap m l a b l' : perm_ok m l -> (a < m)%nat -> (b < m)%nat ->
  length l' = length l -> (forall i, nth i l' 0%nat = nth (sw_forward a b i) l 0%nat) -> perm_ok m l'.
Proof.
  intros (L & N & H) La Lb Ll E. split; [lia|].
  assert (Lt : forall i, (i < m)%nat -> (sw_forward a b i < m)%nat) by (intros; now apply sw_forward_lt).
  split.
  - apply (NoDup_nth l' 0%nat). intros i j Li Lj Eij. rewrite !E in Eij.
    rewrite (NoDup_nth l 0%nat) in N. specialize (N (sw_forward a b i) (sw_forward a b j)).
    rewrite <- (sw_forward_invol a b i), <- (sw_forward_invol a b j). f_equal. apply N; try assumption.
    + rewrite L. apply Lt. lia.
    + rewrite L. apply Lt. lia.
  - intros x Hx. destruct (In_nth _ _ 0%nat Hx) as (i & Li & <-). rewrite E. apply H, nth_In.
    rewrite L. apply Lt. lia.
Qed.
Lemma on_slice_length {A} (f : list A -> res (list A)) a b l l' :
  (forall s s', f s = Ok s' -> length s' = length s) -> on_slice f a b l = Ok l' -> length l' = length l.
Proof.
  intros Hf. unfold on_slice. destruct (Nat.leb_spec a b), (Nat.leb_spec b (length l)); cbn; try discriminate.
  destruct (f _) as [s| |] eqn:E; cbn; try discriminate. intros [= <-]. apply Hf in E.
  rewrite !app_length, E, !firstn_length, !skipn_length, firstn_length. lia.
Qed.
Lemma rotl1_length {A} (s s' : list A) : rotl1 s = Ok s' -> length s' = length s.
Proof. destruct s; cbn; [discriminate|]. intros [= <-]. rewrite app_length. cbn. lia. Qed.
Lemma rotr1_length {A} (s s' : list A) : rotr1 s = Ok s' -> length s' = length s.
Proof.
  unfold rotr1. destruct (rev s) as [|x t] eqn:E; [discriminate|]. intros [= <-].
  rewrite <- (rev_length s), E. cbn. now rewrite rev_length.
Qed.
Lemma sw_sorted_length a b (l l' : svec) : sw_sorted a b l = Ok l' -> length l' = length l.
Proof.
  assert (R : forall f nf n l', sw_rotate l f nf n = Ok l' -> length l' = length l).
  { intros f nf n r. unfold sw_rotate. destruct (index l f); cbn; try discriminate.
    destruct (Nat.compare f nf).
    - intros [= <-]. apply upd_length.
    - intros H. apply on_slice_length in H; [|apply rotl1_length]. now rewrite upd_length in H.
    - intros H. apply on_slice_length in H; [|apply rotr1_length]. now rewrite upd_length in H. }
  unfold sw_sorted. destruct (bsearch a l) as [[] i0], (bsearch b l) as [[] i1]; try apply R.
  - unfold swap_list. destruct (index l i0); cbn; try discriminate. destruct (index l i1); cbn; try discriminate.
    destruct (index _ i0); cbn; try discriminate. destruct (index _ i1); cbn; try discriminate.
    intros [= <-]. now rewrite !upd_length.
  - now intros [= <-].
Qed.
Lemma sub_at_spec l i d : (i < length l)%nat -> (d <= nth i l 0)%nat ->
  exists l', sub_at l i d = Ok l' /\ length l' = length l /\
    forall k, nth k l' 0%nat = if Nat.eqb k i then (nth i l 0 - d)%nat else nth k l 0%nat.
Proof.
  intros L H. unfold sub_at. rewrite (index_Ok l i 0%nat) by assumption. cbn [bind].
  rewrite (proj2 (Nat.ltb_ge _ _)) by assumption. eexists. split; [reflexivity|].
  rewrite upd_length. split; [reflexivity|]. intros k. now apply upd_nth.
Qed.
Lemma add_at_spec l i d : (i < length l)%nat ->
  exists l', add_at l i d = Ok l' /\ length l' = length l /\
    forall k, nth k l' 0%nat = if Nat.eqb k i then (nth i l 0 + d)%nat else nth k l 0%nat.
Proof.
  intros L. unfold add_at. rewrite (index_Ok l i 0%nat) by assumption. cbn [bind].
  eexists. split; [reflexivity|]. rewrite upd_length. split; [reflexivity|]. intros k. now apply upd_nth.
Qed.
Lemma sub_fold : forall js l, NoDup js -> (forall j, In j js -> (j < length l)%nat /\ (1 <= nth j l 0)%nat) ->
  exists l', foldM (fun nc j => sub_at nc j 1) js l = Ok l' /\ length l' = length l /\
    forall k, (In k js -> nth k l' 0 = nth k l 0 - 1)%nat /\ (~ In k js -> nth k l' 0 = nth k l 0)%nat.
Proof.
  induction js as [|j js IH]; intros l N H; cbn [foldM].
  - exists l. split; [reflexivity|]. split; [reflexivity|]. intros k. split; [intros []|reflexivity].
  - inversion N as [|? ? N1 N2]; subst. destruct (H j (or_introl eq_refl)) as [H1 H2].
    destruct (sub_at_spec l j 1 H1 H2) as (l1 & -> & L1 & V1). cbn [bind].
    destruct (IH l1 N2) as (l2 & -> & L2 & V2).
    { intros k Hk. destruct (H k (or_intror Hk)). rewrite L1, V1. split; [assumption|].
      destruct (Nat.eqb_spec k j) as [->|]; [contradiction|assumption]. }
    exists l2. split; [reflexivity|]. split; [lia|]. intros k. destruct (V2 k) as [A B]. rewrite V1 in A, B.
    destruct (Nat.eqb_spec k j) as [Ek|Nk]; [subst k|].
    + split; [intros _; now apply B|]. intros C. exfalso. apply C. now left.
    + split; intros C.
      * destruct C; [congruence|]. now apply A.
      * apply B. intros D. apply C. now right.
Qed.
Lemma add_fold : forall js l, NoDup js -> (forall j, In j js -> (j < length l)%nat) ->
  exists l', foldM (fun nc j => add_at nc j 1) js l = Ok l' /\ length l' = length l /\
    forall k, (In k js -> nth k l' 0 = nth k l 0 + 1)%nat /\ (~ In k js -> nth k l' 0 = nth k l 0)%nat.
Proof.
  induction js as [|j js IH]; intros l N H; cbn [foldM].
  - exists l. split; [reflexivity|]. split; [reflexivity|]. intros k. split; [intros []|reflexivity].
  - inversion N as [|? ? N1 N2]; subst.
    destruct (add_at_spec l j 1 (H j (or_introl eq_refl))) as (l1 & -> & L1 & V1). cbn [bind].
    destruct (IH l1 N2) as (l2 & -> & L2 & V2).
    { intros k Hk. rewrite L1. apply H. now right. }
    exists l2. split; [reflexivity|]. split; [lia|]. intros k. destruct (V2 k) as [A B]. rewrite V1 in A, B.
    destruct (Nat.eqb_spec k j) as [Ek|Nk]; [subst k|].
    + split; [intros _; now apply B|]. intros C. exfalso. apply C. now left.
    + split; intros C.
      * destruct C; [congruence|]. now apply A.
      * apply B. intros D. apply C. now right.
Qed.
Lemma drop_counts_spec k : forall row lo m nr nc, fwf lo m row -> (k < length nr)%nat -> length nc = m ->
  (length row <= nth k nr 0)%nat -> (forall j, den row j <> 0 -> (1 <= nth j nc 0)%nat) ->
  exists nr' nc', drop_counts k row (nr, nc) = Ok (nr', nc') /\ length nr' = length nr /\ length nc' = length nc /\
    (forall i, nth i nr' 0 = if Nat.eqb i k then (nth k nr 0 - length row) else nth i nr 0)%nat /\
    (forall j, nth j nc' 0 = nth j nc 0 - nz (den row j))%nat.
Proof.
  unfold drop_counts. induction row as [|[j v] row IH]; intros lo m nr nc W Lk Lc Hl Hc; cbn [foldM].
  - exists nr, nc. split; [reflexivity|]. repeat (split; [reflexivity|]). split.
    + intros i. cbn [length]. rewrite Nat.sub_0_r. now destruct (Nat.eqb_spec i k) as [->|].
    + intros j. cbn. unfold nz. change (qzero 0) with true. cbn. lia.
  - destruct W as (W1 & W2 & W3). cbn [length] in Hl.
    destruct (sub_at_spec nr k 1 Lk ltac:(lia)) as (nr1 & -> & L1 & V1). cbn [bind].
    assert (Dj : den ((j, v) :: row) j = v).
    { cbn [den]. rewrite Nat.eqb_refl, (den_below (S j) m) by (assumption || lia). ring. }
    destruct (sub_at_spec nc j 1 ltac:(lia)) as (nc1 & -> & L2 & V2); [apply Hc; now rewrite Dj|]. cbn [bind].
    destruct (IH (S j) m nr1 nc1 W3) as (nr2 & nc2 & E & L3 & L4 & V3 & V4).
    + lia.
    + lia.
    + rewrite V1, Nat.eqb_refl. lia.
    + intros i Hi. rewrite V2. destruct (Nat.eqb_spec i j) as [->|Ni].
      * exfalso. apply Hi. apply (den_below (S j) m); assumption || lia.
      * apply Hc. cbn [den]. rewrite (proj2 (Nat.eqb_neq i j)) by assumption. intros C. apply Hi. rewrite <- C. ring.
    + exists nr2, nc2. split; [exact E|]. split; [lia|]. split; [lia|]. split.
      * intros i. rewrite V3, !V1, Nat.eqb_refl. cbn [length]. destruct (Nat.eqb i k); lia.
      * intros i. rewrite V4, V2. destruct (Nat.eqb_spec i j) as [->|Ni].
        -- rewrite Dj, (nz_1 v) by assumption. rewrite (den_below (S j) m) by (assumption || lia).
           rewrite (nz_0 0) by reflexivity. lia.
        -- cbn [den]. rewrite (proj2 (Nat.eqb_neq i j)) by assumption. now replace (0 + den row i) with (den row i) by ring.
Qed.

(** ** Subtracting a multiple of a row *)
Lemma sub_mult_nil ratio b : sub_mult ratio [] b = (map (fun '(j, v) => (j, - ratio * v)) b, [], map fst b).
Proof. now destruct b. Qed.
Lemma sub_mult_cons_nil ratio i x a : sub_mult ratio ((i, x) :: a) [] =
  let '(n, r, d) := sub_mult ratio a [] in ((i, x) :: n, r, d).
Proof. reflexivity. Qed.
Lemma sub_mult_cons ratio i x a j y b : sub_mult ratio ((i, x) :: a) ((j, y) :: b) =
  if Nat.ltb j i then let '(n, r, d) := sub_mult ratio ((i, x) :: a) b in ((j, - ratio * y) :: n, r, j :: d)
  else if Nat.eqb j i then
    (let '(n, r, d) := sub_mult ratio a b in
     if qeqb (ratio * y) x then (n, i :: r, d) else ((i, x - ratio * y) :: n, r, d))
  else let '(n, r, d) := sub_mult ratio a ((j, y) :: b) in ((i, x) :: n, r, d).
Proof. reflexivity. Qed.

Record sub_ok (ratio : Qc) (lo m : nat) (a b n : svec) (r d : list nat) : Prop := {
  so_wf : fwf lo m n;
  so_den : forall j, den n j = den a j - ratio * den b j;
  so_r : forall j, In j r <-> den a j <> 0 /\ den n j = 0;
  so_d : forall j, In j d <-> den a j = 0 /\ den n j <> 0;
  so_nr : NoDup r;
  so_nd : NoDup d;
  so_len : (length n + length r = length a + length d)%nat
}.
Lemma fwf_den_ge lo m l j : fwf lo m l -> den l j <> 0 -> (lo <= j < m)%nat.
Proof.
  intros W N. destruct (Nat.lt_ge_cases j lo) as [C|C].
  - exfalso. apply N. now apply (den_below lo m).
  - destruct (Nat.lt_ge_cases j m) as [D|D]; [lia|]. exfalso. apply N. now apply (den_above lo m).
Qed.
Lemma sub_mult_spec ratio m : ratio <> 0 -> forall a lo b, fwf lo m a -> fwf lo m b ->
  let '(n, r, d) := sub_mult ratio a b in sub_ok ratio lo m a b n r d.
Proof.
  intros Nr. induction a as [|[i x] a IH]; intros lo b Ha Hb.
  { rewrite sub_mult_nil.
    assert (D : forall j, den (map (fun '(j, v) => (j, - ratio * v)) b) j = - ratio * den b j).
    { clear. intros k. induction b as [|[j v] b IH]; cbn [map den]; [ring|]. rewrite IH. destruct (Nat.eqb k j); ring. }
    split.
    - clear - Hb Nr. revert lo Hb. induction b as [|[j v] b IH]; intros lo Hb; [exact I|]. destruct Hb as (A & B & C).
      cbn. repeat split; try lia; [|now apply IH]. apply Qc_mul_neq0; [|assumption]. intros E. apply Nr.
      rewrite <- (Qcopp_involutive ratio), E. reflexivity.
    - intros j. rewrite D. cbn. ring.
    - intros j. cbn. split; [intros []|]. intros [C _]. now apply C.
    - intros j. rewrite D. split.
      + intros H. apply in_map_iff in H. destruct H as ([k v] & <- & H). cbn. split; [reflexivity|].
        destruct (den_In lo m b k v Hb H) as (E & Nv & _). rewrite E. apply Qc_mul_neq0; [|assumption].
        intros C. apply Nr. rewrite <- (Qcopp_involutive ratio), C. reflexivity.
      + intros [_ H]. destruct (In_dec Nat.eq_dec j (map fst b)) as [|C]; [assumption|]. exfalso. apply H.
        assert (den b j = 0) as ->; [|ring]. clear - C. induction b as [|[k v] b IH]; [reflexivity|]. cbn in *.
        destruct (Nat.eqb_spec j k) as [->|]; [exfalso; apply C; now left|]. rewrite IH by tauto. ring.
    - constructor.
    - now apply (fwf_NoDup lo m).
    - rewrite !map_length. cbn. lia. }
  revert lo Ha Hb. induction b as [|[j y] b IHb]; intros lo Ha Hb.
  { rewrite sub_mult_cons_nil. destruct Ha as (A1 & A2 & A3). specialize (IH (S i) [] A3 I).
    destruct (sub_mult ratio a []) as [[n r] d]. destruct IH as [W D R A NR ND LN].
    assert (Z : forall k, (k <= i)%nat -> den a k = 0 /\ den n k = 0).
    { intros k Lk. split; apply (den_below (S i) m); assumption || lia. }
    assert (E : forall k (l : svec), den ((i, x) :: l) k = if Nat.eqb k i then x + den l k else den l k).
    { intros k l. cbn [den]. destruct (Nat.eqb k i); ring. }
    split; try assumption.
    - cbn. repeat split; try assumption; lia.
    - intros k. rewrite !E, D. destruct (Nat.eqb k i); cbn; ring.
    - intros k. rewrite R, !E. destruct (Nat.eqb_spec k i) as [->|]; [|tauto].
      destruct (Z i (le_n i)) as [-> ->]. rewrite !Qcplus_0_r. tauto.
    - intros k. rewrite A, !E. destruct (Nat.eqb_spec k i) as [->|]; [|tauto].
      destruct (Z i (le_n i)) as [-> ->]. rewrite !Qcplus_0_r. tauto.
    - cbn [length]. lia. }
  assert (E : forall h z k (l : svec), den ((h, z) :: l) k = if Nat.eqb k h then z + den l k else den l k).
  { intros h z k l. cbn [den]. destruct (Nat.eqb k h); ring. }
  rewrite sub_mult_cons. destruct Ha as (A1 & A2 & A3). destruct Hb as (B1 & B2 & B3).
  destruct (Nat.ltb_spec j i) as [C|C].
  { specialize (IHb (S j)). destruct (sub_mult ratio ((i, x) :: a) b) as [[n r] d].
    destruct IHb as [W D R A NR ND LN]; [cbn; repeat split; assumption || lia|assumption|].
    assert (Z : den ((i, x) :: a) j = 0 /\ den b j = 0 /\ den n j = 0).
    { split; [|split].
      - apply (den_below (S j) m); [cbn; repeat split; assumption || lia|lia].
      - apply (den_below (S j) m); assumption || lia.
      - apply (den_below (S j) m); assumption || lia. }
    destruct Z as (Z1 & Z2 & Z3).
    assert (Ny : - ratio * y <> 0).
    { apply Qc_mul_neq0; [|assumption]. intros C1. apply Nr. rewrite <- (Qcopp_involutive ratio), C1. reflexivity. }
    split.
    - cbn [fwf]. repeat split; try assumption; lia.
    - intros k. rewrite (E j), (E j y k b). destruct (Nat.eqb_spec k j) as [->|]; [|apply D].
      rewrite Z1, Z2, Z3. ring.
    - intros k. rewrite R, (E j). destruct (Nat.eqb_spec k j) as [->|]; [|tauto]. rewrite Z1. tauto.
    - intros k. cbn [In]. rewrite A, (E j). destruct (Nat.eqb_spec k j) as [->|].
      + rewrite Z1, Z3, Qcplus_0_r. tauto.
      + split; [intros [H|H]; [congruence|assumption]|tauto].
    - assumption.
    - constructor; [|assumption]. rewrite A, Z3. tauto.
    - cbn [length] in *. lia. }
  destruct (Nat.eqb_spec j i) as [->|Nji].
  { specialize (IH (S i) b A3 B3). destruct (sub_mult ratio a b) as [[n r] d].
    destruct IH as [W D R A NR ND LN].
    assert (Z : den a i = 0 /\ den b i = 0 /\ den n i = 0).
    { repeat split; apply (den_below (S i) m); assumption || lia. }
    destruct Z as (Z1 & Z2 & Z3).
    destruct (qeqb (ratio * y) x) eqn:Q; qb.
    - split.
      + apply fwf_weaken with (S i); [lia|assumption].
      + intros k. rewrite !E, D. destruct (Nat.eqb_spec k i) as [->|]; [|reflexivity]. rewrite Z1, Z2, <- Q. ring.
      + intros k. cbn [In]. rewrite R, !E. destruct (Nat.eqb_spec k i) as [->|].
        * rewrite Z1, Z3, Qcplus_0_r. tauto.
        * split; [intros [H|H]; [congruence|assumption]|tauto].
      + intros k. rewrite A, !E. destruct (Nat.eqb_spec k i) as [->|]; [|tauto]. rewrite Z3. tauto.
      + constructor; [|assumption]. rewrite R, Z1. tauto.
      + assumption.
      + cbn [length]. lia.
    - assert (Nd : x - ratio * y <> 0). { intros C1. apply Q. rewrite <- (Qcplus_0_r (ratio * y)), <- C1. ring. }
      split; try assumption.
      + cbn [fwf]. repeat split; try assumption; lia.
      + intros k. rewrite !E, D. destruct (Nat.eqb k i); ring.
      + intros k. rewrite R, !E. destruct (Nat.eqb_spec k i) as [->|]; [|tauto].
        rewrite Z1, Z3, !Qcplus_0_r. tauto.
      + intros k. rewrite A, !E. destruct (Nat.eqb_spec k i) as [->|]; [|tauto].
        rewrite Z1, Z3, !Qcplus_0_r. tauto.
      + cbn [length]. lia. }
  specialize (IH (S i) ((j, y) :: b) A3).
  destruct (sub_mult ratio a ((j, y) :: b)) as [[n r] d].
  destruct IH as [W D R A NR ND LN]; [cbn; repeat split; assumption || lia|].
  assert (Z : den a i = 0 /\ den ((j, y) :: b) i = 0 /\ den n i = 0).
  { split; [|split].
    - apply (den_below (S i) m); assumption || lia.
    - apply (den_below j m); [cbn; repeat split; assumption || lia|lia].
    - apply (den_below (S i) m); assumption || lia. }
  destruct Z as (Z1 & Z2 & Z3).
  split; try assumption.
  - cbn [fwf]. repeat split; try assumption; lia.
  - intros k. rewrite (E i), (E i), D. destruct (Nat.eqb k i); ring.
  - intros k. rewrite R, !(E i). destruct (Nat.eqb_spec k i) as [->|]; [|tauto].
    rewrite Z1, Z3, !Qcplus_0_r. tauto.
  - intros k. rewrite A, !(E i). destruct (Nat.eqb_spec k i) as [->|]; [|tauto].
    rewrite Z1, Z3, !Qcplus_0_r. tauto.
  - cbn [length]. lia.
Qed.
