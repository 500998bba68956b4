(** * The search for the powers of one factor *)
From Verif Require Import SpecScale.
Local Open Scope Z_scope.

(** ** Sums of integers *)
Definition zsumf {A} (f : A -> Z) (l : list A) : Z := zsum (map f l).
Lemma zsumf_nil {A} (f : A -> Z) : zsumf f [] = 0. Proof. reflexivity. Qed.
Lemma zsumf_cons {A} (f : A -> Z) a l : zsumf f (a :: l) = f a + zsumf f l. Proof. reflexivity. Qed.
Lemma zsumf_app {A} (f : A -> Z) l l' : zsumf f (l ++ l') = zsumf f l + zsumf f l'.
Proof. induction l as [|a l IH]; [reflexivity|]. cbn [app]. rewrite !zsumf_cons, IH. lia. Qed.
Lemma zsumf_ext {A} (f h : A -> Z) l : (forall a, In a l -> f a = h a) -> zsumf f l = zsumf h l.
Proof. induction l as [|a l IH]; intros E; [reflexivity|]. rewrite !zsumf_cons, E, IH; [reflexivity| |now left]. intros b H. apply E. now right. Qed.
Lemma zsumf_plus {A} (f h : A -> Z) l : zsumf (fun a => f a + h a) l = zsumf f l + zsumf h l.
Proof. induction l as [|a l IH]; [reflexivity|]. rewrite !zsumf_cons, IH. lia. Qed.
Lemma zsumf_minus {A} (f h : A -> Z) l : zsumf (fun a => f a - h a) l = zsumf f l - zsumf h l.
Proof. induction l as [|a l IH]; [reflexivity|]. rewrite !zsumf_cons, IH. lia. Qed.
Lemma zsumf_nonneg {A} (f : A -> Z) l : (forall a, In a l -> 0 <= f a) -> 0 <= zsumf f l.
Proof. induction l as [|a l IH]; intros E; [reflexivity|]. rewrite !zsumf_cons. assert (0 <= f a) by (apply E; now left). assert (0 <= zsumf f l) by (apply IH; intros b HB; apply E; now right). lia. Qed.
Lemma zsumf_zero {A} (f : A -> Z) l : (forall a, In a l -> f a = 0) -> zsumf f l = 0.
Proof. induction l as [|a l IH]; intros E; [reflexivity|]. rewrite zsumf_cons, E, IH; [reflexivity| |now left]. intros b H. apply E. now right. Qed.
Lemma zsumf_map {A B} (f : B -> Z) (h : A -> B) l : zsumf f (map h l) = zsumf (fun a => f (h a)) l.
Proof. unfold zsumf. now rewrite map_map. Qed.
Lemma zsumf_flat_map {A B} (f : B -> Z) (h : A -> list B) l : zsumf f (flat_map h l) = zsumf (fun a => zsumf f (h a)) l.
Proof. induction l as [|a l IH]; [reflexivity|]. cbn [flat_map]. rewrite zsumf_app, zsumf_cons, IH. reflexivity. Qed.

(** ** One run of improvements *)
Lemma improve_spec (P : Z -> Z) count : (forall c, 0 <= P c) -> (forall c, count c = (P (c + 1) - P c, P (c - 1) - P c)) -> (forall c, 0 <= fst (count c) + snd (count c)) ->
  forall (n : nat) c made, (P c <= Z.of_nat n) -> exists c' made', (forall fuel, (n < fuel)%nat -> improve fuel count c made = Ok (c', made')) /\ (P c' < P c /\ made' = true \/ c' = c /\ made' = made).
Proof.
  intros N K X. induction n as [|n IH]; intros c made L.
  - exists c, made. split; [|now right]. intros [|fuel] F; [lia|]. cbn [improve]. rewrite K. pose proof (N (c + 1)). pose proof (N (c - 1)). pose proof (N c).
    destruct (Z.ltb_spec (P (c + 1) - P c) 0); [lia|]. destruct (Z.ltb_spec (P (c - 1) - P c) 0); [lia|]. reflexivity.
  - pose proof (X c) as XC. rewrite K in XC. cbn [fst snd] in XC.
    destruct (Z.ltb_spec (P (c + 1) - P c) 0) as [I|I]; [|destruct (Z.ltb_spec (P (c - 1) - P c) 0) as [D|D]].
    + destruct (IH (c + 1) true) as (c' & made' & E & R); [lia|]. exists c', made'. split; [|destruct R as [[R1 R2]|[-> ->]]; left; (split; [lia|reflexivity||assumption])].
      intros [|fuel] F; [lia|]. cbn [improve]. rewrite K. destruct (Z.ltb_spec (P (c + 1) - P c) 0); [|lia]. destruct (Z.ltb_spec (P (c - 1) - P c) 0); [lia|]. cbn [orb]. apply E. lia.
    + destruct (IH (c - 1) true) as (c' & made' & E & R); [lia|]. exists c', made'. split; [|destruct R as [[R1 R2]|[-> ->]]; left; (split; [lia|reflexivity||assumption])].
      intros [|fuel] F; [lia|]. cbn [improve]. rewrite K. destruct (Z.ltb_spec (P (c + 1) - P c) 0); [lia|]. destruct (Z.ltb_spec (P (c - 1) - P c) 0); [|lia]. cbn [orb]. apply E. lia.
    + exists c, made. split; [|now right]. intros [|fuel] F; [lia|]. cbn [improve]. rewrite K. destruct (Z.ltb_spec (P (c + 1) - P c) 0); [lia|]. destruct (Z.ltb_spec (P (c - 1) - P c) 0); [lia|]. reflexivity.
Qed.

(** ** What is counted *)
Lemma count_positive_is e a b : count_positive e (a, b) = (a + (Z.abs (e + 1) - Z.abs e), b + (Z.abs (e - 1) - Z.abs e)).
Proof. unfold count_positive. destruct (Z.compare_spec e 0); f_equal; lia. Qed.
Lemma count_negative_is e a b : count_negative e (a, b) = (a + (Z.abs (e - 1) - Z.abs e), b + (Z.abs (e + 1) - Z.abs e)).
Proof. unfold count_negative. destruct (Z.compare_spec e 0); f_equal; lia. Qed.
(** a penalty and its changes *)
Definition counts (P : Z -> Z) (r : Z * Z) (c : Z) : Prop := r = (P (c + 1) - P c, P (c - 1) - P c) /\ 0 <= fst r + snd r.
Lemma counts_start c : counts (fun _ => 0) (0, 0) c. Proof. split; [reflexivity|cbn; lia]. Qed.
Lemma counts_positive P r c e : counts P r c -> counts (fun c => P c + Z.abs (e + c)) (count_positive (e + c) r) c.
Proof.
  intros [E N]. destruct r as [a b]. injection E as -> ->. rewrite count_positive_is. cbn [fst snd] in *. split; [|cbn [fst snd]; lia].
  replace (e + (c + 1)) with (e + c + 1) by lia. replace (e + (c - 1)) with (e + c - 1) by lia. f_equal; lia.
Qed.
Lemma counts_negative P r c e : counts P r c -> counts (fun c => P c + Z.abs (e - c)) (count_negative (e - c) r) c.
Proof.
  intros [E N]. destruct r as [a b]. injection E as -> ->. rewrite count_negative_is. cbn [fst snd] in *. split; [|cbn [fst snd]; lia].
  replace (e - (c + 1)) with (e - c - 1) by lia. replace (e - (c - 1)) with (e - c + 1) by lia. f_equal; lia.
Qed.
Lemma counts_ext P P' r c : (forall c, P c = P' c) -> counts P r c -> counts P' r c.
Proof. intros E [H1 H2]. split; [|assumption]. now rewrite <- !E. Qed.
(** optional values *)
Definition pen (o : option factorization) (f : factorization -> Z) : Z := match o with Some l => f l | None => 0 end.
Section Single.
Variable factor : Z.
Variable fa : factored.
Variable row_index : list (list (nat * nat)).
Notation ex := (initial_exponent factor).
Notation n := (length (fa_c fa)).
Notation m := (length (fa_b fa)).
(** the penalty of a column *)
Definition column_entries (j : nat) (rows : list Z) (c : Z) : Z := zsumf (fun '(i, l) => Z.abs (ex l + zat rows i + c)) (column_of fa j).
Definition column_cost (j : nat) (k c : Z) : Z := pen (nth j (fa_c fa) None) (fun l => Z.abs (ex l + k + c)).
Definition column_bounds (j : nat) (c : Z) : Z := let b := nth j (fa_bounds fa) (None, None) in pen (fst b) (fun l => Z.abs (ex l - c)) + pen (snd b) (fun l => Z.abs (ex l - c)).
Definition column_penalty (j : nat) (k : Z) (rows : list Z) (c : Z) : Z := column_cost j k c + column_entries j rows c + column_bounds j c.
Definition row_bound (i : nat) (r : Z) : Z := pen (nth i (fa_b fa) None) (fun l => Z.abs (ex l + r)).
Definition penalty (k : Z) (rows cols : list Z) : Z :=
  zsumf (fun j => column_penalty j k rows (zat cols j)) (seq 0 n) + zsumf (fun i => row_bound i (zat rows i)) (seq 0 m).
(** the penalty of a row and of the cost row *)
Definition row_penalty (i : nat) (cols : list Z) (r : Z) : Z :=
  zsumf (fun j => zsumf (fun '(i', l) => if Nat.eqb i' i then Z.abs (ex l + r + zat cols j) else 0) (column_of fa j)) (seq 0 n) + row_bound i r.
Definition cost_penalty (cols : list Z) (k : Z) : Z := zsumf (fun j => column_cost j k (zat cols j)) (seq 0 n).

Lemma pen_nonneg o f : (forall l, 0 <= f l) -> 0 <= pen o f. Proof. intros H. destruct o; cbn; [apply H|lia]. Qed.
Lemma column_penalty_nonneg j k rows c : 0 <= column_penalty j k rows c.
Proof.
  unfold column_penalty, column_cost, column_bounds, column_entries. cbv zeta. 
  assert (0 <= pen (nth j (fa_c fa) None) (fun l => Z.abs (ex l + k + c))) by (apply pen_nonneg; intros; lia).
  assert (0 <= zsumf (fun '(i, l) => Z.abs (ex l + zat rows i + c)) (column_of fa j)) by (apply zsumf_nonneg; intros [i l] _; lia).
  assert (0 <= pen (fst (nth j (fa_bounds fa) (None, None))) (fun l => Z.abs (ex l - c))) by (apply pen_nonneg; intros; lia).
  assert (0 <= pen (snd (nth j (fa_bounds fa) (None, None))) (fun l => Z.abs (ex l - c))) by (apply pen_nonneg; intros; lia). lia.
Qed.
Lemma row_bound_nonneg i r : 0 <= row_bound i r. Proof. apply pen_nonneg. intros. lia. Qed.
Lemma row_penalty_nonneg i cols r : 0 <= row_penalty i cols r.
Proof.
  unfold row_penalty. pose proof (row_bound_nonneg i r). enough (0 <= zsumf (fun j => zsumf (fun '(i', l) => if Nat.eqb i' i then Z.abs (ex l + r + zat cols j) else 0) (column_of fa j)) (seq 0 n)) by lia.
  apply zsumf_nonneg. intros j _. apply zsumf_nonneg. intros [i' l] _. destruct (Nat.eqb i' i); lia.
Qed.
Lemma cost_penalty_nonneg cols k : 0 <= cost_penalty cols k.
Proof. apply zsumf_nonneg. intros j _. apply pen_nonneg. intros; lia. Qed.

(** *** counting *)
Lemma counts_fold {A} (E : A -> Z) (c : Z) : forall l P r, counts P r c -> counts (fun c => P c + zsumf (fun a => Z.abs (E a + c)) l) (fold_left (fun acc a => count_positive (E a + c) acc) l r) c.
Proof.
  induction l as [|a l IH]; intros P r H; cbn [fold_left].
  - apply (counts_ext P); [intros d; rewrite zsumf_nil; lia|assumption].
  - eapply counts_ext; [|apply IH, counts_positive, H]. intros d. cbn beta. rewrite zsumf_cons. lia.
Qed.
Lemma counts_bound (c : Z) o P r : counts P r c -> counts (fun c => P c + pen o (fun l => Z.abs (ex l - c))) (count_bound factor o c r) c.
Proof.
  intros H. destruct o as [l|]; cbn [pen count_bound].
  - now apply counts_negative.
  - apply (counts_ext P); [intros; lia|assumption].
Qed.
Lemma count_column_is j k rows c : counts (column_penalty j k rows) (count_column factor fa j k rows c) c.
Proof.
  unfold count_column. cbv zeta.
  assert (H0 : counts (column_cost j k) (match nth j (fa_c fa) None with Some l => count_positive (ex l + k + c) (0, 0) | None => (0, 0) end) c).
  { unfold column_cost. destruct (nth j (fa_c fa) None) as [l|]; cbn [pen]; [|apply counts_start]. eapply counts_ext; [|apply counts_positive, counts_start]. intros; cbn beta; lia. }
  set (r0 := match nth j (fa_c fa) None with Some l => _ | None => _ end) in *.
  pose proof (counts_fold (fun '(i, l) => ex l + zat rows i) c (column_of fa j) _ _ H0) as H1.
  assert (F : fold_left (fun acc '(i, l) => count_positive (ex l + zat rows i + c) acc) (column_of fa j) r0 = fold_left (fun acc (a : nat * factorization) => count_positive ((let '(i, l) := a in ex l + zat rows i) + c) acc) (column_of fa j) r0).
  { clear. generalize r0. induction (column_of fa j) as [|[i l] t IH]; intros q; [reflexivity|]. cbn [fold_left]. apply IH. }
  rewrite F. eapply counts_ext; [|apply counts_bound, counts_bound, H1]. intros d. cbn beta. unfold column_penalty, column_entries, column_bounds. cbv zeta.
  rewrite (zsumf_ext (fun '(i, l) => Z.abs (ex l + zat rows i + d)) (fun a : nat * factorization => Z.abs ((let '(i, l) := a in ex l + zat rows i) + d))) by (intros [i l] _; reflexivity). lia.
Qed.

Lemma number_from_range {A} (d : A) : forall l j, number_from j l = map (fun k => (k, nth (k - j) l d)) (seq j (length l)).
Proof.
  induction l as [|a l IH]; intros j; [reflexivity|]. cbn [number_from length]. rewrite IH. cbn [seq map]. rewrite Nat.sub_diag. f_equal. apply map_ext_in. intros k H. apply in_seq in H. replace (k - j)%nat with (S (k - S j)) by lia. reflexivity.
Qed.
Lemma count_cost_is cols k : counts (cost_penalty cols) (count_cost factor fa cols k) k.
Proof.
  unfold count_cost, cost_penalty. rewrite (number_from_range None). unfold column_cost.
  assert (G : forall l P r, counts P r k -> counts (fun k => P k + zsumf (fun j => pen (nth j (fa_c fa) None) (fun l => Z.abs (ex l + k + zat cols j))) l)
    (fold_left (fun acc '(j, o) => match o with Some l => count_positive (ex l + k + zat cols j) acc | None => acc end) (map (fun k0 => (k0, nth (k0 - 0) (fa_c fa) None)) l) r) k).
  { induction l as [|j l IH]; intros P r H; cbn [fold_left map].
    - apply (counts_ext P); [intros d; rewrite zsumf_nil; lia|assumption].
    - rewrite Nat.sub_0_r. destruct (nth j (fa_c fa) None) as [f|] eqn:EJ.
      + eapply counts_ext; [|apply IH]; [|replace (ex f + k + zat cols j) with (ex f + zat cols j + k) by lia; apply counts_positive, H]. intros d. cbn beta. rewrite zsumf_cons, EJ. cbn [pen]. lia.
      + eapply counts_ext; [|apply IH, H]. intros d. cbn beta. rewrite zsumf_cons, EJ. cbn [pen]. lia. 
 }
  eapply counts_ext; [|apply G, counts_start]. intros d. cbn beta. lia.
Qed.
(** the index lists, for every row, the entries in the columns *)
Definition index_ok : Prop := forall i (h : nat -> factorization -> Z), (i < m)%nat ->
  zsumf (fun '(j, k) => h j (entry_at fa j k)) (nth i row_index []) = zsumf (fun j => zsumf (fun '(i', l) => if Nat.eqb i' i then h j l else 0) (column_of fa j)) (seq 0 n).
Hypothesis IX : index_ok.
Lemma count_row_is i cols r : (i < m)%nat -> counts (row_penalty i cols) (count_row factor fa row_index i cols r) r.
Proof.
  intros L. unfold count_row, row_penalty, row_bound. cbv zeta.
  pose proof (counts_fold (fun a : nat * nat => let '(j, k) := a in ex (entry_at fa j k) + zat cols j) r (nth i row_index []) _ _ (counts_start r)) as H1.
  assert (F : forall q, fold_left (fun acc '(j, k) => count_positive (ex (entry_at fa j k) + r + zat cols j) acc) (nth i row_index []) q = fold_left (fun acc (a : nat * nat) => count_positive ((let '(j, k) := a in ex (entry_at fa j k) + zat cols j) + r) acc) (nth i row_index []) q).
  { clear. induction (nth i row_index []) as [|[j k] t IH]; intros q; [reflexivity|]. cbn [fold_left]. rewrite IH. do 2 f_equal. lia. }
  rewrite F. set (q := fold_left _ _ _) in *. clearbody q.
  assert (E : forall d, 0 + zsumf (fun a : nat * nat => Z.abs ((let '(j, k) := a in ex (entry_at fa j k) + zat cols j) + d)) (nth i row_index []) =
    zsumf (fun j => zsumf (fun '(i', l) => if Nat.eqb i' i then Z.abs (ex l + d + zat cols j) else 0) (column_of fa j)) (seq 0 n)).
  { intros d. rewrite <- (IX i (fun j l => Z.abs (ex l + d + zat cols j)) L). rewrite Z.add_0_l. apply zsumf_ext. intros [j k] _. f_equal. lia. }
  destruct (nth i (fa_b fa) None) as [l|]; cbn [pen].
  - replace (ex l + r + 0) with (ex l + r) by lia. eapply counts_ext; [|apply counts_positive, H1]. intros d. cbn beta. now rewrite E.
  - eapply counts_ext; [|apply H1]. intros d. cbn beta. rewrite E. lia.
Qed.

(** *** how the penalty changes *)
Lemma zat_upd l i x k : zat (upd l i x) k = if Nat.eqb k i && Nat.ltb i (length l) then x else zat l k.
Proof.
  unfold zat. revert i k. induction l as [|a l IH]; intros i k; cbn [upd length].
  - destruct i; destruct k; rewrite andb_false_r; reflexivity.
  - destruct i as [|i]; destruct k as [|k]; cbn [nth]; try reflexivity. rewrite IH. reflexivity.
Qed.
Lemma zsumf_single (f f' : nat -> Z) (j n0 : nat) : (j < n0)%nat -> (forall k, k <> j -> f' k = f k) -> zsumf f' (seq 0 n0) - zsumf f (seq 0 n0) = f' j - f j.
Proof.
  intros L E. rewrite <- zsumf_minus. assert (G : forall q s, zsumf (fun a => f' a - f a) (seq s q) = if Nat.leb s j && Nat.ltb j (s + q) then f' j - f j else 0).
  { induction q as [|q IH]; intros s; cbn [seq].
    - rewrite Nat.add_0_r. destruct (Nat.leb_spec s j), (Nat.ltb_spec j s); try lia; reflexivity.
    - rewrite zsumf_cons, IH. destruct (Nat.eq_dec s j) as [->|N].
      + destruct (Nat.leb_spec (S j) j); [lia|]. destruct (Nat.leb_spec j j); [|lia]. destruct (Nat.ltb_spec j (j + S q)); [|lia]. cbn [andb]. lia.
      + rewrite (E s N). destruct (Nat.leb_spec (S s) j), (Nat.leb_spec s j), (Nat.ltb_spec j (S s + q)), (Nat.ltb_spec j (s + S q)); try lia; cbn [andb]; lia. }
  rewrite G. destruct (Nat.ltb_spec j (0 + n0)); [|lia]. reflexivity.
Qed.
Lemma penalty_column k rows cols j c : (j < n)%nat -> length cols = n -> penalty k rows (upd cols j c) - penalty k rows cols = column_penalty j k rows c - column_penalty j k rows (zat cols j).
Proof.
  intros L E. unfold penalty. pose proof (zsumf_single (fun j => column_penalty j k rows (zat cols j)) (fun j0 => column_penalty j0 k rows (zat (upd cols j c) j0)) j n L) as H. cbn beta in H.
  rewrite (zat_upd cols j c j), Nat.eqb_refl in H. destruct (Nat.ltb_spec j (length cols)) as [_|X]; [|lia]. cbn [andb] in H. rewrite <- H; [lia|]. intros i NI. rewrite zat_upd. destruct (Nat.eqb_spec i j); [lia|]. reflexivity.
Qed.
Lemma penalty_cost k rows cols k' : penalty k' rows cols - penalty k rows cols = cost_penalty cols k' - cost_penalty cols k.
Proof.
  unfold penalty, cost_penalty, column_penalty. rewrite !zsumf_plus. lia.
Qed.
Lemma penalty_row k rows cols i r : (i < m)%nat -> length rows = m -> penalty k (upd rows i r) cols - penalty k rows cols = row_penalty i cols r - row_penalty i cols (zat rows i).
Proof.
  intros L E. unfold penalty, row_penalty, column_penalty. rewrite !zsumf_plus.
  pose proof (zsumf_single (fun i => row_bound i (zat rows i)) (fun i0 => row_bound i0 (zat (upd rows i r) i0)) i m L) as H. cbn beta in H.
  rewrite (zat_upd rows i r i), Nat.eqb_refl in H. destruct (Nat.ltb_spec i (length rows)) as [LI|X]; [|lia]. cbn [andb] in H.
  assert (H1 : zsumf (fun i0 => row_bound i0 (zat (upd rows i r) i0)) (seq 0 m) - zsumf (fun i0 => row_bound i0 (zat rows i0)) (seq 0 m) = row_bound i r - row_bound i (zat rows i)).
  { apply H. intros q NI. rewrite zat_upd. destruct (Nat.eqb_spec q i); [lia|]. reflexivity. }
  assert (H2 : zsumf (fun a => column_entries a (upd rows i r) (zat cols a)) (seq 0 n) - zsumf (fun a => column_entries a rows (zat cols a)) (seq 0 n) =
    zsumf (fun j => zsumf (fun '(i', l) => if Nat.eqb i' i then Z.abs (ex l + r + zat cols j) else 0) (column_of fa j)) (seq 0 n) -
    zsumf (fun j => zsumf (fun '(i', l) => if Nat.eqb i' i then Z.abs (ex l + zat rows i + zat cols j) else 0) (column_of fa j)) (seq 0 n)).
  { rewrite <- !zsumf_minus. apply zsumf_ext. intros j _. unfold column_entries. rewrite <- !zsumf_minus. apply zsumf_ext. intros [i' l] _. cbn beta iota. rewrite zat_upd.
    destruct (Nat.ltb_spec i (length rows)); [|lia]. destruct (Nat.eqb_spec i' i) as [->|]; cbn [andb]; lia. }
  lia.
Qed.

(** *** one step and the loop *)
Definition searching (s : search) : Prop :=
  length (se_rows s) = m /\ length (se_cols s) = n /\ (forall i, In (Some i) (se_rowq s) -> (i < m)%nat) /\ (forall j, In j (se_colq s) -> (j < n)%nat).
Definition spen (s : search) : Z := penalty (se_cost s) (se_rows s) (se_cols s).
Definition waiting (s : search) : nat := (length (se_rowq s) + length (se_colq s))%nat.
Lemma spen_nonneg s : 0 <= spen s.
Proof.
  unfold spen, penalty. assert (0 <= zsumf (fun j => column_penalty j (se_cost s) (se_rows s) (zat (se_cols s) j)) (seq 0 n)) by (apply zsumf_nonneg; intros; apply column_penalty_nonneg).
  assert (0 <= zsumf (fun i => row_bound i (zat (se_rows s) i)) (seq 0 m)) by (apply zsumf_nonneg; intros; apply row_bound_nonneg). lia.
Qed.
Lemma push_row_in r q x : In x (push_row r q) -> x = r \/ In x q.
Proof. unfold push_row. destruct (existsb _ q); [tauto|]. intros H. apply in_app_or in H. destruct H as [H|[H|[]]]; [tauto|]. now left. Qed.
Lemma push_column_in r q x : In x (push_column r q) -> x = r \/ In x q.
Proof. unfold push_column. destruct (memb r q); [tauto|]. intros H. apply in_app_or in H. destruct H as [H|[H|[]]]; [tauto|]. now left. Qed.
Hypothesis RX : forall c i l, In c (fa_constraints fa) -> In (i, l) c -> (i < m)%nat.
Hypothesis CX : forall i j k, In (j, k) (nth i row_index []) -> (j < n)%nat.
Definition progress (s s' : search) : Prop := searching s' /\ (spen s' < spen s \/ spen s' = spen s /\ (waiting s' < waiting s)%nat).
Lemma spen_bounds_column s j : (j < n)%nat -> column_penalty j (se_cost s) (se_rows s) (zat (se_cols s) j) <= spen s.
Proof.
  intros L. unfold spen, penalty. set (f := fun j => column_penalty j (se_cost s) (se_rows s) (zat (se_cols s) j)).
  assert (0 <= zsumf (fun i => row_bound i (zat (se_rows s) i)) (seq 0 m)) by (apply zsumf_nonneg; intros; apply row_bound_nonneg).
  pose proof (zsumf_single f (fun k => if Nat.eqb k j then 0 else f k) j n L) as H1. cbn beta in H1. rewrite Nat.eqb_refl in H1.
  assert (0 <= zsumf (fun k => if Nat.eqb k j then 0 else f k) (seq 0 n)) by (apply zsumf_nonneg; intros a _; destruct (Nat.eqb a j); [lia|apply column_penalty_nonneg]).
  specialize (H1 ltac:(intros k NK; destruct (Nat.eqb_spec k j); [lia|reflexivity])). change (column_penalty j (se_cost s) (se_rows s) (zat (se_cols s) j)) with (f j). lia.
Qed.
Lemma spen_bounds_cost s : cost_penalty (se_cols s) (se_cost s) <= spen s.
Proof.
  unfold spen, penalty, cost_penalty, column_penalty. rewrite !zsumf_plus.
  assert (0 <= zsumf (fun i => row_bound i (zat (se_rows s) i)) (seq 0 m)) by (apply zsumf_nonneg; intros; apply row_bound_nonneg).
  assert (0 <= zsumf (fun a => column_entries a (se_rows s) (zat (se_cols s) a)) (seq 0 n)) by (apply zsumf_nonneg; intros a _; apply zsumf_nonneg; intros [q l] _; lia).
  assert (0 <= zsumf (fun a => column_bounds a (zat (se_cols s) a)) (seq 0 n)).
  { apply zsumf_nonneg; intros a _. unfold column_bounds. cbv zeta. match goal with |- 0 <= ?a + ?b => assert (0 <= a) by (apply pen_nonneg; intros; lia); assert (0 <= b) by (apply pen_nonneg; intros; lia) end. lia. }
  lia.
Qed.
Lemma spen_bounds_row s i : (i < m)%nat -> row_penalty i (se_cols s) (zat (se_rows s) i) <= spen s.
Proof.
  intros L. unfold spen, penalty, row_penalty, column_penalty. rewrite !zsumf_plus.
  pose proof (zsumf_single (fun i => row_bound i (zat (se_rows s) i)) (fun k => if Nat.eqb k i then 0 else row_bound k (zat (se_rows s) k)) i m L) as H1. cbn beta in H1. rewrite Nat.eqb_refl in H1.
  specialize (H1 ltac:(intros k NK; destruct (Nat.eqb_spec k i); [lia|reflexivity])).
  assert (0 <= zsumf (fun k => if Nat.eqb k i then 0 else row_bound k (zat (se_rows s) k)) (seq 0 m)) by (apply zsumf_nonneg; intros a _; destruct (Nat.eqb a i); [lia|apply row_bound_nonneg]).
  assert (0 <= zsumf (fun a => column_cost a (se_cost s) (zat (se_cols s) a)) (seq 0 n)) by apply (cost_penalty_nonneg (se_cols s) (se_cost s)).
  assert (0 <= zsumf (fun a => column_bounds a (zat (se_cols s) a)) (seq 0 n)).
  { apply zsumf_nonneg; intros a _. unfold column_bounds. cbv zeta. match goal with |- 0 <= ?a + ?b => assert (0 <= a) by (apply pen_nonneg; intros; lia); assert (0 <= b) by (apply pen_nonneg; intros; lia) end. lia. }
  assert (zsumf (fun j => zsumf (fun '(i', l) => if Nat.eqb i' i then Z.abs (ex l + zat (se_rows s) i + zat (se_cols s) j) else 0) (column_of fa j)) (seq 0 n) <= zsumf (fun a => column_entries a (se_rows s) (zat (se_cols s) a)) (seq 0 n)).
  { enough (0 <= zsumf (fun a => column_entries a (se_rows s) (zat (se_cols s) a)) (seq 0 n) - zsumf (fun j => zsumf (fun '(i', l) => if Nat.eqb i' i then Z.abs (ex l + zat (se_rows s) i + zat (se_cols s) j) else 0) (column_of fa j)) (seq 0 n)) by lia.
    rewrite <- zsumf_minus. apply zsumf_nonneg. intros j _. unfold column_entries. rewrite <- zsumf_minus. apply zsumf_nonneg. intros [q l] _. destruct (Nat.eqb_spec q i) as [->|]; lia. }
  lia.
Qed.
Lemma upd_zat l i : upd l i (zat l i) = l.
Proof. unfold zat. revert i. induction l as [|a l IH]; intros i; [destruct i; reflexivity|]. destruct i as [|i]; cbn; [reflexivity|]. now rewrite IH. Qed.
Lemma upd_len {A} (l : list A) i x : length (upd l i x) = length l.
Proof. revert i. induction l as [|a l IH]; intros i; destruct i; cbn; auto. Qed.
Lemma column_step s j colq : searching s -> se_colq s = j :: colq ->
  exists s', (forall fuel, (Z.to_nat (spen s) < fuel)%nat -> update_column factor fa fuel (mk_search (se_cost s) (se_rows s) (se_cols s) (se_rowq s) colq) j = Ok s') /\ progress s s'.
Proof.
  intros (LR & LC & QR & QC) Q. assert (LJ : (j < n)%nat) by (apply QC; rewrite Q; now left).
  destruct (improve_spec (column_penalty j (se_cost s) (se_rows s)) (count_column factor fa j (se_cost s) (se_rows s))) with (n := Z.to_nat (spen s)) (c := zat (se_cols s) j) (made := false) as (c' & made' & E & R).
  - intros c. apply column_penalty_nonneg.
  - intros c. apply count_column_is.
  - intros c. apply count_column_is.
  - pose proof (spen_bounds_column s j LJ). pose proof (spen_nonneg s). lia.
  - eexists. split; [intros fuel F; unfold update_column; cbn [se_cost se_rows se_cols se_rowq se_colq]; rewrite (E fuel F); cbn [bind fst snd]; reflexivity|]. split.
    + split; [assumption|]. cbn [se_rows se_cols se_rowq se_colq]. split; [now rewrite upd_len|]. split.
      * intros i. destruct made'; [|apply QR]. assert (CB : forall i l, In (i, l) (column_of fa j) -> (i < m)%nat).
        { unfold column_of. intros i0 l H. destruct (nth_in_or_default j (fa_constraints fa) []) as [H1|H1]; [now apply (RX _ _ _ H1 H)|rewrite H1 in H; destruct H]. }
        revert CB QR. generalize (column_of fa j) (se_rowq s). induction l as [|[a f] l IH]; intros q CB QR H; [now apply QR|]. cbn [fold_left] in H. apply IH in H; [assumption| |].
        -- intros i0 l0 H0. apply (CB i0 l0). now right.
        -- intros i0 H0. apply push_row_in in H0. destruct H0 as [H0|H0]; [|now apply QR]. injection H0 as ->. apply (CB a f). now left.
      * intros k H. apply QC. rewrite Q. now right.
    + unfold spen. cbn [se_cost se_rows se_cols]. destruct R as [[R1 ->]|[-> ->]].
      * left. pose proof (penalty_column (se_cost s) (se_rows s) (se_cols s) j c' LJ LC). lia.
      * right. rewrite upd_zat. split; [reflexivity|]. unfold waiting. cbn [se_rowq se_colq]. rewrite Q. cbn. lia.
Qed.
Lemma row_step s i rowq : searching s -> se_rowq s = Some i :: rowq ->
  exists s', (forall fuel, (Z.to_nat (spen s) < fuel)%nat -> do_constraint factor fa row_index fuel (mk_search (se_cost s) (se_rows s) (se_cols s) rowq (se_colq s)) i = Ok s') /\ progress s s'.
Proof.
  intros (LR & LC & QR & QC) Q. assert (LI : (i < m)%nat) by (apply QR; rewrite Q; now left).
  destruct (improve_spec (row_penalty i (se_cols s)) (count_row factor fa row_index i (se_cols s))) with (n := Z.to_nat (spen s)) (c := zat (se_rows s) i) (made := false) as (c' & made' & E & R).
  - intros c. apply row_penalty_nonneg.
  - intros c. now apply count_row_is.
  - intros c. now apply (count_row_is i (se_cols s) c LI).
  - pose proof (spen_bounds_row s i LI). pose proof (spen_nonneg s). lia.
  - eexists. split; [intros fuel F; unfold do_constraint; cbn [se_cost se_rows se_cols se_rowq se_colq]; rewrite (E fuel F); cbn [bind fst snd]; reflexivity|]. split.
    + split; [cbn [se_rows]; now rewrite upd_len|]. cbn [se_rows se_cols se_rowq se_colq]. split; [assumption|]. split; [intros q H; apply QR; rewrite Q; now right|].
      intros j. destruct made'; [|apply QC]. assert (CB := CX i). revert CB QC. generalize (nth i row_index []) (se_colq s). induction l as [|[a f] l IH]; intros q CB QC H; [now apply QC|]. cbn [fold_left] in H. apply IH in H; [assumption| |].
      * intros i0 l0 H0. apply (CB i0 l0). now right.
      * intros i0 H0. apply push_column_in in H0. destruct H0 as [->|H0]; [|now apply QC]. apply (CB a f). now left.
    + unfold spen. cbn [se_cost se_rows se_cols]. destruct R as [[R1 ->]|[-> ->]].
      * left. pose proof (penalty_row (se_cost s) (se_rows s) (se_cols s) i c' LI LR). lia.
      * right. rewrite upd_zat. split; [reflexivity|]. unfold waiting. cbn [se_rowq se_colq]. rewrite Q. cbn. lia.
Qed.
Lemma cost_step s rowq : searching s -> se_rowq s = None :: rowq ->
  exists s', (forall fuel, (Z.to_nat (spen s) < fuel)%nat -> do_cost factor fa fuel (mk_search (se_cost s) (se_rows s) (se_cols s) rowq (se_colq s)) = Ok s') /\ progress s s'.
Proof.
  intros (LR & LC & QR & QC) Q.
  destruct (improve_spec (cost_penalty (se_cols s)) (count_cost factor fa (se_cols s))) with (n := Z.to_nat (spen s)) (c := se_cost s) (made := false) as (c' & made' & E & R).
  - intros c. apply cost_penalty_nonneg.
  - intros c. apply count_cost_is.
  - intros c. apply count_cost_is.
  - pose proof (spen_bounds_cost s). pose proof (spen_nonneg s). lia.
  - eexists. split; [intros fuel F; unfold do_cost; cbn [se_cost se_rows se_cols se_rowq se_colq]; rewrite (E fuel F); cbn [bind fst snd]; reflexivity|]. split.
    + split; [assumption|]. cbn [se_rows se_cols se_rowq se_colq]. split; [assumption|]. split; [intros q H; apply QR; rewrite Q; now right|].
      intros j. destruct made'; [|apply QC]. rewrite (number_from_range None).
      assert (CB : forall k, In k (seq 0 n) -> (k < n)%nat) by (intros k H; apply in_seq in H; lia). revert CB QC. generalize (seq 0 n). generalize (se_colq s). intros q l. revert q. induction l as [|a l IH]; intros q CB QC H; [now apply QC|]. cbn [map fold_left] in H. apply IH in H; [assumption| |].
      * intros i0 H0. apply (CB i0). now right.
      * intros i0 H0. destruct (nth (a - 0) (fa_c fa) None); [|now apply QC]. apply push_column_in in H0. destruct H0 as [->|H0]; [|now apply QC]. apply (CB a). now left.
    + unfold spen. cbn [se_cost se_rows se_cols]. destruct R as [[R1 ->]|[-> ->]].
      * left. pose proof (penalty_cost (se_cost s) (se_rows s) (se_cols s) c'). lia.
      * right. split; [reflexivity|]. unfold waiting. cbn [se_rowq se_colq]. rewrite Q. cbn. lia.
Qed.
Hypothesis NZ : (0 < n)%nat.
Lemma step_ok s : searching s -> (0 < waiting s)%nat -> exists s', (forall fuel, (Z.to_nat (spen s) < fuel)%nat -> search_step factor fa row_index fuel s = Ok (Some s')) /\ progress s s'.
Proof.
  intros I W. unfold waiting in W. destruct (length (se_colq s) * length (fa_b fa) <? length (se_rowq s) * length (fa_c fa))%nat eqn:L.
  - destruct (se_rowq s) as [|r rowq] eqn:QR; [discriminate L|]. destruct r as [i|].
    + destruct (row_step s i rowq I QR) as (s' & E & PG). exists s'. split; [|assumption]. intros fuel F. unfold search_step. rewrite QR, L, (E fuel F). reflexivity.
    + destruct (cost_step s rowq I QR) as (s' & E & PG). exists s'. split; [|assumption]. intros fuel F. unfold search_step. rewrite QR, L, (E fuel F). reflexivity.
  - destruct (se_colq s) as [|j colq] eqn:QC.
    + exfalso. apply Nat.ltb_ge in L. cbn in L, W. assert (0 < length (se_rowq s) * length (fa_c fa))%nat by (apply Nat.mul_pos_pos; lia). lia.
    + destruct (column_step s j colq I QC) as (s' & E & PG). exists s'. split; [|assumption]. intros fuel F. specialize (E fuel F). unfold search_step. rewrite QC.
      destruct (se_rowq s) eqn:QR; rewrite L, E; reflexivity.
Qed.
Theorem loop_ok : forall (p w : nat) s, searching s -> spen s <= Z.of_nat p -> (waiting s <= w)%nat -> exists fuel0 s', (forall fuel, (fuel0 <= fuel)%nat -> search_loop factor fa row_index fuel s = Ok s') /\ searching s' /\ spen s' <= spen s.
Proof.
  induction p as [p IHp] using lt_wf_ind. induction w as [|w IHw]; intros s I LP LW.
  - exists 1%nat, s. split; [|split; [assumption|lia]]. intros [|fuel] F; [lia|]. cbn [search_loop]. unfold search_step, waiting in *. destruct (se_rowq s); [|cbn in LW; lia]. destruct (se_colq s); [|cbn in LW; lia]. reflexivity.
  - destruct (Nat.eq_dec (waiting s) 0) as [W|W]; [apply IHw; [assumption|assumption|lia]|].
    destruct (step_ok s I) as (s1 & E & I1 & D); [lia|].
    assert (X : exists fuel0 s', (forall fuel, (fuel0 <= fuel)%nat -> search_loop factor fa row_index fuel s1 = Ok s') /\ searching s' /\ spen s' <= spen s1).
    { destruct D as [D|[D D']]; [|apply IHw; [assumption|lia|lia]]. pose proof (spen_nonneg s1). apply (IHp (Z.to_nat (spen s1)) ltac:(lia) (waiting s1)); [assumption|lia|lia]. }
    destruct X as (f0 & s' & E' & I' & L'). exists (S (Nat.max f0 (Z.to_nat (spen s)))), s'. split; [|split; [assumption|lia]].
    intros [|fuel] F; [lia|]. cbn [search_loop]. rewrite E by lia. cbn [bind]. apply E'. lia.
Qed.
Lemma start_searching : searching (start_search fa).
Proof.
  unfold start_search, searching. cbn [se_rows se_cols se_rowq se_colq]. rewrite !repeat_length. split; [reflexivity|]. split; [reflexivity|]. split.
  - intros i H. apply in_app_or in H. destruct H as [H|[H|[]]]; [|discriminate]. apply in_map_iff in H. destruct H as (k & E & H). injection E as ->. unfold range in H. apply in_seq in H. lia.
  - intros j H. unfold range in H. apply in_seq in H. lia.
Qed.
Theorem single_ok : exists fuel0 s', (forall fuel, (fuel0 <= fuel)%nat -> solve_single factor fa row_index fuel = Ok s') /\ length (se_rows s') = m /\ length (se_cols s') = n /\
  spen s' <= spen (start_search fa).
Proof.
  destruct (loop_ok (Z.to_nat (spen (start_search fa))) (waiting (start_search fa)) (start_search fa) start_searching) as (f0 & s' & E & I & L); [pose proof (spen_nonneg (start_search fa)); lia|lia|].
  exists f0, s'. split; [exact E|]. split; [apply I|]. split; [apply I|assumption].
Qed.
End Single.
