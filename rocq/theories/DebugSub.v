(** * A debug build that gives an answer gives the answer of a release build

    For every input: assertions only take answers away.  The proofs go through the functions of DebugLu.v and
    DebugSolve.v one by one. *)
From Verif Require Export DebugRun.
Local Open Scope Qc_scope.

(** ** Results that are in another *)
Definition sub {A} (x y : res A) : Prop := forall a, x = Ok a -> y = Ok a.
Lemma sub_refl {A} (x : res A) : sub x x. Proof. intros a H. exact H. Qed.
Lemma sub_panic {A} (y : res A) : sub Panic y. Proof. intros a H. discriminate. Qed.
Lemma sub_fuel {A} (y : res A) : sub Fuel y. Proof. intros a H. discriminate. Qed.
Lemma sub_bind {A B} (x y : res A) (f g : A -> res B) : sub x y -> (forall a, sub (f a) (g a)) -> sub (bind x f) (bind y g).
Proof. intros H K b E. destruct x as [a| |]; try discriminate. cbn [bind] in E. rewrite (H a eq_refl). cbn [bind]. now apply K. Qed.
(** what is computed only for an assertion *)
Lemma sub_drop {A B} (x : res A) (f : A -> res B) y : (forall a, sub (f a) y) -> sub (bind x f) y.
Proof. intros H b E. destruct x as [a| |]; try discriminate. exact (H a b E). Qed.
Lemma sub_assert {B} c (f : unit -> res B) y : (c = true -> sub (f tt) y) -> sub (bind (assert c) f) y.
Proof. intros H b E. destruct c; [|discriminate]. exact (H eq_refl b E). Qed.
(** assertions about a result *)
Lemma sub_after {A} (x y : res A) f : sub x y -> (forall a, sub (f a) (Ok a)) -> sub (bind x f) y.
Proof. intros H K b E. destruct x as [a| |]; try discriminate. cbn [bind] in E. specialize (K a b E). injection K as <-. now apply H. Qed.
Lemma sub_same {A B} (x : res A) a (f : A -> res B) y : sub x (Ok a) -> sub (f a) y -> sub (bind x f) y.
Proof. intros H K b E. destruct x as [a'| |]; try discriminate. specialize (H a' eq_refl). injection H as <-. exact (K b E). Qed.
Lemma sub_value {A B} (x : res A) a (f : A -> res B) (g : res B) : sub x (Ok a) -> sub (f a) g -> sub (bind x f) g.
Proof. exact (sub_same x a f g). Qed.
Lemma sub_mapM {A B} (f g : A -> res B) : (forall a, sub (f a) (g a)) -> forall l, sub (mapM f l) (mapM g l).
Proof. intros H. induction l as [|a l IH]; [apply sub_refl|]. cbn [mapM]. apply sub_bind; [apply H|]. intros b. apply sub_bind; [apply IH|]. intros bs. apply sub_refl. Qed.
Lemma sub_foldM {A S} (f g : S -> A -> res S) : (forall s a, sub (f s a) (g s a)) -> forall l s, sub (foldM f l s) (foldM g l s).
Proof. intros H. induction l as [|a l IH]; intros s; [apply sub_refl|]. cbn [foldM]. apply sub_bind; [apply H|]. intros b. apply IH. Qed.
Lemma sub_foldM_app {A S} (f : S -> A -> res S) : forall a b s, foldM f (a ++ b) s = bind (foldM f a s) (foldM f b).
Proof. induction a as [|x a IH]; intros b s; [reflexivity|]. cbn [app foldM]. destruct (f s x); cbn [bind]; [apply IH|reflexivity|reflexivity]. Qed.
Lemma sub_findM {A} (f g : A -> res bool) : (forall a, sub (f a) (g a)) -> forall l, sub (findM f l) (findM g l).
Proof. intros H. induction l as [|a l IH]; [apply sub_refl|]. cbn [findM]. apply sub_bind; [apply H|]. intros [|]; [apply sub_refl|apply IH]. Qed.
Lemma sub_map {A B} (f : A -> res B) (g : A -> B) : (forall a, sub (f a) (Ok (g a))) -> forall l, sub (mapM f l) (Ok (map g l)).
Proof.
  intros H. induction l as [|a l IH]; [apply sub_refl|]. cbn [mapM map]. apply (sub_same _ (g a)); [apply H|]. apply (sub_same _ (map g l)); [apply IH|]. apply sub_refl.
Qed.
Lemma sub_mapid {A} (f : A -> res A) : (forall a, sub (f a) (Ok a)) -> forall l, sub (mapM f l) (Ok l).
Proof. intros H l. rewrite <- (map_id l) at 2. now apply sub_map. Qed.
Ltac ask := repeat match goal with |- sub (bind (assert _) _) _ => apply sub_assert; intros _ end.
Ltac asks := ask; try apply sub_refl.
Ltac next := apply sub_bind; [try apply sub_refl|intros ?; ask].

Lemma sub_sparse data len : sub (sparse_new data len) (Ok data).
Proof. unfold sparse_new. asks. Qed.

(** ** Permutations, eta files *)
Lemma sub_fforward f i : sub (full_forward_d f i) (full_forward f i). Proof. unfold full_forward_d. asks. Qed.
Lemma sub_fbackward f i : sub (full_backward_d f i) (full_backward f i). Proof. unfold full_backward_d. asks. Qed.
Lemma sub_indices {A} f g (l : list (nat * A)) : (forall i, sub (f i) (g i)) -> sub (map_indices f l) (map_indices g l).
Proof. intros H. unfold map_indices. apply sub_mapM. intros [i v]. next; [apply H|]. apply sub_refl. Qed.
Lemma sub_unsorted {A} n f g (l : list (nat * A)) : (forall i, sub (f i) (g i)) -> sub (unsorted_d n f l) (map_indices g l).
Proof. intros H. unfold unsorted_d. ask. now apply sub_indices. Qed.
Lemma sub_sorted {A} n f g (l : list (nat * A)) : (forall i, sub (f i) (g i)) -> sub (map_sorted_d n f l) (map_sorted g l).
Proof. intros H. unfold map_sorted_d, map_sorted. ask. apply sub_bind; [now apply sub_unsorted|]. intros l'. apply sub_refl. Qed.
Lemma sub_full_new l : sub (full_new_d l) (Ok (full_new l)).
Proof. unfold full_new_d. ask. destruct l; [apply sub_panic|]. asks. Qed.
Lemma sub_swap {A} a b n (l : list (nat * A)) : sub (sw_sorted_d a b n l) (sw_sorted a b l).
Proof. unfold sw_sorted_d. ask. apply sub_after; [apply sub_refl|]. intros o. asks. Qed.
Lemma sub_rb_sorted {A} t n (l : list (nat * A)) : sub (rb_sorted_d t n l) (rb_sorted t n l).
Proof. unfold rb_sorted_d. ask. apply sub_after; [apply sub_refl|]. intros o. asks. Qed.
Lemma sub_rb_back {A} t n (l : list (nat * A)) : sub (rb_back_sorted_d t n l) (rb_back_sorted t n l).
Proof. unfold rb_back_sorted_d. ask. apply sub_after; [apply sub_refl|]. intros o. asks. Qed.
Lemma sub_rb_forward t n i : sub (rb_forward_d t n i) (Ok (rb_forward t n i)). Proof. unfold rb_forward_d. asks. Qed.
Lemma sub_rb_backward t n i : sub (rb_backward_d t n i) (Ok (rb_backward t n i)). Proof. unfold rb_backward_d. asks. Qed.
Lemma sub_eta_new v p len : sub (eta_new_d v p len) (Ok (mk_eta v p)). Proof. unfold eta_new_d. asks. Qed.
Lemma sub_eta_left len e v : sub (eta_left_d len e v) (eta_left e v).
Proof. unfold eta_left_d. ask. apply sub_after; [apply sub_refl|]. intros o. asks. Qed.
Lemma sub_eta_right len e v : sub (eta_right_d len e v) (eta_right e v).
Proof. unfold eta_right_d. ask. apply sub_after; [apply sub_refl|]. intros o. asks. Qed.
Lemma sub_update_spike len e v : sub (update_spike_d len e v) (update_spike e v).
Proof. unfold update_spike_d. ask. destruct v; [apply sub_panic|]. asks. Qed.

(** ** Triangular systems *)
Section Tri.
Variable l : lu.
Lemma sub_upper_left rhs : sub (upper_left_d l rhs) (upper_left l (fuel_of l) rhs []).
Proof. unfold upper_left_d. apply sub_after; [apply sub_refl|]. intros o. asks. Qed.
Lemma sub_lower_right rhs : sub (lower_right_d l rhs) (lower_right l (fuel_of l) rhs []).
Proof. unfold lower_right_d. apply sub_after; [apply sub_refl|]. intros o. asks. Qed.
Lemma sub_upper_right rhs : sub (upper_right_d l rhs) (upper_right l (fuel_of l) rhs).
Proof. unfold upper_right_d. apply sub_after; [apply sub_refl|]. intros o. asks. Qed.
Lemma sub_upd i : sub (upd_forward_d l i) (Ok (upd_forward l i)).
Proof.
  unfold upd_forward_d, upd_forward. revert i. induction (l_upd l) as [|[e t] us IH]; intros i; [apply sub_refl|]. cbn [foldM fold_left]. apply (sub_same _ (rb_forward t (lu_m l) i)); [apply sub_rb_forward|]. apply IH.
Qed.
Lemma map_indices_map {A} (f : nat -> res nat) (g : nat -> nat) (c : list (nat * A)) : (forall i, sub (f i) (Ok (g i))) -> sub (map_indices f c) (Ok (map (fun '(i, v) => (g i, v)) c)).
Proof. intros H. unfold map_indices. apply sub_map. intros [i v]. apply (sub_same _ (g i)); [apply H|]. apply sub_refl. Qed.
Lemma sub_back_column us : forall c, sub (foldM (fun c '(_, t) => unsorted_d (lu_m l) (rb_backward_d t (lu_m l)) c) (rev us) c)
  (Ok (fold_right (fun '((_, t) : eta * nat) (c : svec) => map (fun '(i, v) => (rb_backward t (lu_m l) i, v)) c) c us)).
Proof.
  induction us as [|[e t] us IH]; intros c; [apply sub_refl|]. cbn [rev fold_right].
  rewrite sub_foldM_app. eapply sub_same; [apply IH|]. cbn [foldM]. apply sub_after; [|intros a; apply sub_refl]. unfold unsorted_d. ask. apply map_indices_map. intros i. apply sub_rb_backward.
Qed.
Lemma sub_fwd_column : forall us c, sub (foldM (fun c '(_, t) => unsorted_d (lu_m l) (rb_forward_d t (lu_m l)) c) us c)
  (Ok (map (fun '((i, v) : nat * Qc) => (fold_left (fun i '((_, t) : eta * nat) => rb_forward t (lu_m l) i) us i, v)) c)).
Proof.
  induction us as [|[e t] us IH]; intros c.
  - cbn [foldM fold_left]. rewrite (map_ext _ (fun x => x)); [|now intros [i v]]. rewrite map_id. apply sub_refl.
  - cbn [foldM fold_left]. apply (sub_same _ (map (fun '(i, v) => (rb_forward t (lu_m l) i, v)) c)); [unfold unsorted_d; ask; apply map_indices_map; intros i; apply sub_rb_forward|].
    intros b E. specialize (IH _ b E). rewrite <- IH, map_map. f_equal. apply map_ext. now intros [i v].
Qed.
Lemma sub_lu_left a : sub (lu_left_d l a) (lu_left l a).
Proof.
  unfold lu_left_d, lu_left. next; [apply sub_indices, sub_fforward|]. next. next.
  { apply sub_foldM. intros w [e t]. next; [apply sub_eta_right|]. apply sub_rb_sorted. }
  next; [apply sub_upper_left|]. eapply sub_same; [apply sub_back_column|]. next; [apply sub_unsorted, sub_fbackward|]. eapply sub_same; [apply sub_sparse|]. apply sub_refl.
Qed.
Lemma sub_lu_row_of r : sub (lu_row_of_d l r) (lu_row_of l r).
Proof.
  unfold lu_row_of_d, lu_row_of. next; [apply sub_upper_right|]. next.
  { apply sub_foldM. intros w [e t]. next; [apply sub_rb_back|]. apply sub_eta_left. }
  next; [apply sub_lower_right|]. apply sub_after; [apply sub_sorted, sub_fbackward|]. intros w. apply sub_sparse.
Qed.
Lemma sub_lu_right r : sub (lu_right_d l r) (lu_right l r).
Proof. unfold lu_right_d, lu_right. next; [apply sub_indices, sub_fforward|]. eapply sub_same; [apply sub_fwd_column|]. apply sub_lu_row_of. Qed.
Lemma sub_lu_row i : sub (lu_row_d l i) (lu_row l i).
Proof. unfold lu_row_d, lu_row. next; [apply sub_fforward|]. eapply sub_same; [apply sub_upd|]. apply sub_lu_row_of. Qed.
Lemma sub_lu_elem i a : sub (lu_elem_d l i a) (lu_elem l i a).
Proof. unfold lu_elem_d, lu_elem. next; [apply sub_lu_left|]. apply sub_refl. Qed.
Lemma sub_lu_change p cs : sub (lu_change_d l p cs) (lu_change l p cs).
Proof.
  unfold lu_change_d, lu_change. next; [apply sub_fforward|]. eapply sub_same; [apply sub_upd|]. next. next; [apply sub_upper_right|]. eapply sub_same; [apply sub_eta_new|]. next. next; [apply sub_update_spike|]. next. next. next. unfold rb_new_d. ask. next.
  { apply sub_foldM. intros u j. next. next; [apply sub_rb_sorted|]. apply sub_refl. }
  next. next. match goal with x : (_ * _ * _)%type |- _ => destruct x as [[ci co] la] end. ask. next. apply sub_refl.
Qed.
End Tri.

(** ** Factorization *)
Lemma sub_count rows n : sub (count_columns_d rows n) (count_columns rows n).
Proof. unfold count_columns_d. ask. apply sub_after; [apply sub_refl|]. intros nc. asks. Qed.
Lemma sub_choose nr nc rows k : sub (choose_pivot_d nr nc rows k) (choose_pivot nr nc rows k).
Proof. unfold choose_pivot_d. asks. Qed.
Lemma sub_fswap s pr pc k : sub (fswap_d s pr pc k) (fswap s pr pc k).
Proof.
  unfold fswap_d, fswap. ask. next.
  - destruct (Nat.eqb pr k); [apply sub_refl|]. next. next. next. apply sub_drop. intros _. apply sub_drop. intros _. next. apply sub_refl.
  - destruct (Nat.eqb pc k); [apply sub_refl|]. next. next. unfold sw_new_d. ask. next; [apply sub_mapM; intros r; apply sub_swap|]. apply sub_refl.
Qed.
Lemma sub_fstep s k : sub (fstep_d s k) (fstep s k).
Proof.
  unfold fstep_d, fstep. next; [apply sub_choose|]. next; [apply sub_fswap|]. next. next. next. next. match goal with x : (_ * _ * _ * _)%type |- _ => destruct x as [[[rows nr] nc] ratios] end. next.
  { apply sub_foldM. intros st ir. unfold eliminate_d. asks. }
  match goal with x : (_ * _ * _ * _)%type |- _ => destruct x as [[[rows' nr'] nc'] low] end. apply sub_drop. intros nrk. ask. apply sub_drop. intros nck. asks.
Qed.
Lemma sub_split : forall rows i up diag, sub (split_upper_d i rows up diag) (split_upper i rows up diag).
Proof.
  induction rows as [|row rows IH]; intros i up diag; [apply sub_refl|]. cbn [split_upper_d split_upper]. destruct row as [|[x d] t]; [apply sub_refl|]. ask. next. next. apply IH.
Qed.
Lemma sub_lu_rows rows : sub (lu_rows_d rows) (lu_rows rows).
Proof.
  unfold lu_rows_d, lu_rows. ask. destruct (length rows); [apply sub_refl|]. next; [apply sub_count|]. next; [apply sub_foldM; intros s k; apply sub_fstep|]. next; [apply sub_split|]. next.
  eapply sub_same; [apply sub_full_new|]. eapply sub_same; [apply sub_full_new|]. apply sub_refl.
Qed.
Lemma sub_lu_invert cols : sub (lu_invert_d cols) (lu_invert cols).
Proof. unfold lu_invert_d, lu_invert. next. apply sub_lu_rows. Qed.

(** ** Explicit inverse *)
Lemma sub_bir_identity m : sub (bir_identity_d m) (bir_identity m).
Proof. unfold bir_identity_d, bir_identity. apply sub_map. intros i. ask. apply sub_sparse. Qed.
Lemma sub_bir_invert cols : sub (bir_invert_d cols) (bir_invert cols).
Proof.
  unfold bir_invert_d, bir_invert. next; [apply sub_lu_invert|]. next; [apply sub_mapM; intros j; next; [apply sub_lu_left|apply sub_refl]|]. apply sub_after; [apply sub_refl|]. intros rows. apply sub_mapid. intros t. apply sub_sparse.
Qed.
Lemma sub_bir_change rows p col : sub (bir_change_d rows p col) (bir_change rows p col).
Proof. unfold bir_change_d, bir_change. ask. next; [unfold bir_normalize_d, bir_normalize; ask; next; next; apply sub_refl|]. apply sub_refl. Qed.
Lemma sub_bir_elem rows i a : sub (bir_elem_d rows i a) (bir_elem rows i a). Proof. unfold bir_elem_d. asks. Qed.
Lemma sub_bir_left rows a : sub (bir_left_d rows a) (bir_left rows a).
Proof. unfold bir_left_d, bir_left. apply sub_after; [|intros o; apply sub_sparse]. apply sub_foldM. intros acc i. next; [apply sub_bir_elem|]. apply sub_refl. Qed.
Lemma sub_bir_right rows r : sub (bir_right_d rows r) (bir_right rows r).
Proof. unfold bir_right_d, bir_right. destruct r as [|[i f] r]; [apply sub_refl|]. next. eapply sub_same; [apply sub_sparse|]. apply sub_refl. Qed.
Lemma sub_bir_remove rows rm : sub (bir_remove_d rows rm) (bir_remove rows rm).
Proof.
  unfold bir_remove_d, bir_remove. ask. apply sub_after; [|intros rows'; asks]. apply sub_map. intros row. unfold sparse_remove. asks.
Qed.
