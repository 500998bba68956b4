(** * Deleting rows: lists, sums and sparse vectors restricted to the rows that are kept *)
From Verif Require Export CarryP.

Lemma kept_S n rm : kept (S n) rm = kept n rm ++ (if memb n rm then [] else [n]).
Proof.
  unfold kept. rewrite seq_S. cbn [Nat.add]. rewrite filter_app. f_equal. cbn [filter].
  destruct (memb n rm); reflexivity.
Qed.
Lemma kept_In n rm x : In x (kept n rm) <-> (x < n)%nat /\ ~ In x rm.
Proof.
  unfold kept. rewrite filter_In, in_seq, negb_true_iff, memb_false. intuition lia.
Qed.
Lemma kept_NoDup n rm : NoDup (kept n rm).
Proof. apply NoDup_filter, seq_NoDup. Qed.

Lemma count_below_S n rm :
  NoDup rm -> count_below (S n) rm = (count_below n rm + if memb n rm then 1 else 0)%nat.
Proof.
  unfold count_below. induction rm as [|r rm IH]; intros ND; [reflexivity|].
  inversion ND as [|? ? Nin ND']; subst. specialize (IH ND'). cbn [filter].
  unfold memb. cbn [existsb]. fold (memb n rm).
  destruct (Nat.ltb_spec r (S n)), (Nat.ltb_spec r n); try lia; cbn [length].
  - destruct (Nat.eqb_spec n r); [lia|]. cbn [orb]. rewrite IH. lia.
  - assert (n = r) by lia. subst r. rewrite Nat.eqb_refl. cbn [orb]. rewrite IH.
    apply memb_false in Nin. rewrite Nin. lia.
  - destruct (Nat.eqb_spec n r); [lia|]. cbn [orb]. rewrite IH. lia.
Qed.
Lemma kept_length_count n rm : NoDup rm -> (length (kept n rm) + count_below n rm = n)%nat.
Proof.
  intros ND. induction n as [|n IH].
  - unfold count_below, kept. cbn. clear ND. induction rm as [|r rm IH]; [reflexivity|exact IH].
  - rewrite kept_S, app_length, count_below_S by assumption.
    destruct (memb n rm); cbn [length]; lia.
Qed.
Lemma count_below_all n rm : (forall r, In r rm -> (r < n)%nat) -> count_below n rm = length rm.
Proof.
  unfold count_below. induction rm as [|r rm IH]; intros H; [reflexivity|]. cbn [filter].
  destruct (Nat.ltb_spec r n) as [C|C].
  - cbn [length]. rewrite IH; [reflexivity|]. intros x Hx. apply H. now right.
  - specialize (H r (or_introl eq_refl)). lia.
Qed.
Lemma kept_length n rm : sorted_rows n rm -> length (kept n rm) = (n - length rm)%nat.
Proof.
  intros [ND H]. pose proof (kept_length_count n rm ND). rewrite count_below_all in H0 by assumption. lia.
Qed.
Lemma sorted_rows_length n rm : sorted_rows n rm -> (length rm <= n)%nat.
Proof.
  intros [ND H]. pose proof (kept_length_count n rm ND). rewrite count_below_all in H0 by assumption. lia.
Qed.

(** position of a kept row *)
Definition pos (rm : list nat) (x : nat) : nat := (x - count_below x rm)%nat.
Lemma pos_kept rm x : NoDup rm -> pos rm x = length (kept x rm).
Proof. intros ND. unfold pos. pose proof (kept_length_count x rm ND). lia. Qed.
Lemma kept_prefix n rm x : (x <= n)%nat -> exists t, kept n rm = kept x rm ++ t.
Proof.
  induction 1 as [|n H [t E]].
  - exists []. now rewrite app_nil_r.
  - rewrite kept_S, E, <- app_assoc. eexists. reflexivity.
Qed.
Lemma pos_mono rm x y : NoDup rm -> (x <= y)%nat -> (pos rm x <= pos rm y)%nat.
Proof.
  intros ND H. rewrite !pos_kept by assumption. destruct (kept_prefix y rm x H) as [t ->].
  rewrite app_length. lia.
Qed.
Lemma pos_S rm x : NoDup rm -> ~ In x rm -> pos rm (S x) = S (pos rm x).
Proof.
  intros ND H. rewrite !pos_kept by assumption. rewrite kept_S, app_length.
  apply memb_false in H. rewrite H. cbn [length]. lia.
Qed.
Lemma nth_pos n rm x : NoDup rm -> (x < n)%nat -> ~ In x rm -> nth (pos rm x) (kept n rm) 0%nat = x.
Proof.
  intros ND Lx Nx. rewrite pos_kept by assumption. destruct (kept_prefix n rm (S x) Lx) as [t ->].
  rewrite kept_S. apply memb_false in Nx. rewrite Nx, <- app_assoc.
  rewrite app_nth2 by lia. now rewrite Nat.sub_diag.
Qed.
Lemma pos_nth n rm i : NoDup rm -> (i < length (kept n rm))%nat -> pos rm (nth i (kept n rm) 0%nat) = i.
Proof.
  intros ND Li. assert (Hin : In (nth i (kept n rm) 0%nat) (kept n rm)) by now apply nth_In.
  apply kept_In in Hin. destruct Hin as [L1 N1].
  apply (proj1 (NoDup_nth (kept n rm) 0%nat) (kept_NoDup n rm)); try assumption.
  - rewrite pos_kept by assumption.
    destruct (kept_prefix n rm (S (nth i (kept n rm) 0%nat)) L1) as [t E]. rewrite E at 2.
    rewrite kept_S. apply memb_false in N1. rewrite N1, !app_length. cbn [length]. lia.
  - now apply nth_pos.
Qed.

(** ** Lists *)
Lemma remove_indices_from_spec {A} (d : A) rm : forall l k,
  remove_indices_from k l rm =
  map (fun x => nth (x - k) l d) (filter (fun i => negb (memb i rm)) (seq k (length l))).
Proof.
  induction l as [|a l IH]; intros k; [reflexivity|].
  cbn [remove_indices_from length seq filter]. rewrite IH.
  assert (E : map (fun x => nth (x - S k) l d) (filter (fun i => negb (memb i rm)) (seq (S k) (length l)))
    = map (fun x => nth (x - k) (a :: l) d) (filter (fun i => negb (memb i rm)) (seq (S k) (length l)))).
  { apply map_ext_in. intros x Hx. apply filter_In in Hx. destruct Hx as [Hx _]. apply in_seq in Hx.
    replace (x - k)%nat with (S (x - S k)) by lia. reflexivity. }
  destruct (memb k rm); cbn [negb map]; rewrite E; [reflexivity|].
  f_equal. now rewrite Nat.sub_diag.
Qed.
Lemma remove_indices_spec {A} (d : A) (l : list A) rm :
  remove_indices l rm = map (fun x => nth x l d) (kept (length l) rm).
Proof.
  unfold remove_indices, kept. rewrite (remove_indices_from_spec d). apply map_ext.
  intros x. now rewrite Nat.sub_0_r.
Qed.
Lemma remove_indices_length {A} (l : list A) rm :
  sorted_rows (length l) rm -> length (remove_indices l rm) = (length l - length rm)%nat.
Proof.
  intros H. destruct l as [|a l].
  - destruct H as [_ H]. destruct rm as [|r rm]; [reflexivity|].
    specialize (H r (or_introl eq_refl)). simpl in H. lia.
  - rewrite (remove_indices_spec a), map_length. now apply kept_length.
Qed.
Lemma nth_remove_indices {A} (d : A) (l : list A) rm i :
  (i < length (kept (length l) rm))%nat ->
  nth i (remove_indices l rm) d = nth (nth i (kept (length l) rm) 0%nat) l d.
Proof.
  intros Li. rewrite (remove_indices_spec d).
  rewrite (nth_indep _ d (nth 0%nat l d)) by now rewrite map_length.
  now rewrite (map_nth (fun x => nth x l d)).
Qed.

(** ** Sums *)
Lemma sum_kept m rm (f : vec) :
  (forall i, (i < m)%nat -> In i rm -> f i = 0) ->
  sum m f = sum (length (kept m rm)) (fun i => f (nth i (kept m rm) 0%nat)).
Proof.
  induction m as [|m IH]; intros H; [reflexivity|]. cbn [sum].
  rewrite IH by (intros; apply H; [lia|assumption]).
  rewrite kept_S. destruct (memb m rm) eqn:M.
  - apply memb_In in M. rewrite (H m) by (try assumption; lia). rewrite app_nil_r. ring.
  - rewrite app_length. cbn [length]. rewrite Nat.add_1_r. cbn [sum]. f_equal.
    + apply sum_ext. intros i Li. now rewrite app_nth1.
    + rewrite app_nth2 by lia. now rewrite Nat.sub_diag.
Qed.

(** ** Sparse vectors *)
Lemma sremove_cons j v l rm :
  sremove ((j, v) :: l) rm = if memb j rm then sremove l rm else (pos rm j, v) :: sremove l rm.
Proof. unfold sremove. cbn [filter]. destruct (memb j rm); reflexivity. Qed.
Lemma den_sremove n rm l i :
  NoDup rm -> (forall j v, In (j, v) l -> (j < n)%nat) -> (i < length (kept n rm))%nat ->
  den (sremove l rm) i = den l (nth i (kept n rm) 0%nat).
Proof.
  intros ND Hl Li. assert (Hin : In (nth i (kept n rm) 0%nat) (kept n rm)) by now apply nth_In.
  apply kept_In in Hin. destruct Hin as [L1 N1].
  induction l as [|[j v] l IH]; [reflexivity|].
  rewrite sremove_cons. cbn [den]. assert (IH' := IH (fun a b H => Hl a b (or_intror H))).
  destruct (memb j rm) eqn:M.
  - rewrite IH'. apply memb_In in M.
    destruct (Nat.eqb_spec (nth i (kept n rm) 0%nat) j) as [E|]; [congruence|ring].
  - cbn [den]. rewrite IH'. apply memb_false in M. f_equal.
    destruct (Nat.eqb_spec i (pos rm j)) as [E|E], (Nat.eqb_spec (nth i (kept n rm) 0%nat) j) as [E'|E'];
      try reflexivity.
    + exfalso. apply E'. rewrite E. apply nth_pos; [assumption| |assumption]. apply (Hl j v). now left.
    + exfalso. apply E. rewrite <- E'. symmetry. now apply pos_nth.
Qed.
Lemma fwf_sremove rm n : NoDup rm -> forall l lo, fwf lo n l ->
  fwf (pos rm lo) (length (kept n rm)) (sremove l rm).
Proof.
  intros ND. induction l as [|[j v] l IH]; intros lo H; [exact I|].
  destruct H as (H1 & H2 & H3). rewrite sremove_cons. destruct (memb j rm) eqn:M.
  - apply IH in H3. apply fwf_weaken with (pos rm (S j)); [|assumption]. apply pos_mono; [assumption|lia].
  - apply memb_false in M. cbn [fwf]. repeat split.
    + apply pos_mono; [assumption|lia].
    + rewrite <- pos_kept by assumption.
      assert (pos rm (S j) <= pos rm n)%nat by (apply pos_mono; [assumption|lia]).
      rewrite pos_S in H by assumption. lia.
    + assumption.
    + rewrite <- pos_S by assumption. now apply IH.
Qed.
Lemma wfs_sremove rm n l : NoDup rm -> wfs n l -> wfs (length (kept n rm)) (sremove l rm).
Proof.
  intros ND H. apply fwf_weaken with (pos rm 0); [lia|]. now apply fwf_sremove.
Qed.
