(** * Carry matrix: the laws a basis inverse satisfies, and the invariant a basis change keeps *)
From Verif Require Export SparseP Tableau.

(** ** Laws of a basis inverse representation

    [rep m b N]: the representation [b] stands for the [m] by [m] matrix [N].  The three [ok_*]
    predicates say for which dimensions the operation does not panic. *)
Definition cols_mat (cols : list svec) : mat := fun i j => den (nth j cols []) i.

(** the matrix left over when the rows and columns in [rm] are deleted *)
Definition kept (m : nat) (rm : list nat) : list nat :=
  filter (fun i => negb (memb i rm)) (seq 0 m).
Definition submat (m : nat) (rm : list nat) (N : mat) : mat :=
  fun i j => N (nth i (kept m rm) 0%nat) (nth j (kept m rm) 0%nat).
Definition sorted_rows (m : nat) (rm : list nat) : Prop :=
  NoDup rm /\ (forall i, In i rm -> (i < m)%nat).

Record BILaws (O : BIOps) := mk_laws {
  rep : nat -> bi O -> mat -> Prop;
  ok_new : nat -> Prop;
  ok_invert : nat -> Prop;
  ok_change : nat -> Prop;
  law_ext : forall m b N N', meq m m N N' -> rep m b N -> rep m b N';
  law_identity : forall m b, bi_identity O m = Ok b -> rep m b delta;
  law_identity_total : forall m, ok_new m -> exists b, bi_identity O m = Ok b;
  law_invert : forall m cols b N, length cols = m -> Forall (wfs m) cols ->
    is_inverse m N (cols_mat cols) -> bi_invert O cols = Ok b -> rep m b N;
  law_invert_total : forall m cols N, ok_invert m -> length cols = m -> Forall (wfs m) cols ->
    is_inverse m N (cols_mat cols) -> exists b, bi_invert O cols = Ok b;
  law_left : forall m b N a, rep m b N -> wfs m a ->
    exists c, bi_left O b a = Ok c /\ wfs m (cci_col O c) /\
      forall i, (i < m)%nat -> den (cci_col O c) i = sum m (fun k => N i k * den a k);
  law_change : forall m b N a c p b' w, rep m b N -> wfs m a -> bi_left O b a = Ok c ->
    (p < m)%nat -> den (cci_col O c) p <> 0 ->
    bi_change O b p c = Ok (b', w) ->
    w = cci_col O c /\ rep m b' (pivot N p (den (cci_col O c)));
  law_change_total : forall m b N a c p, ok_change m -> rep m b N -> wfs m a ->
    bi_left O b a = Ok c -> (p < m)%nat -> den (cci_col O c) p <> 0 ->
    exists b' w, bi_change O b p c = Ok (b', w);
  law_refactor : forall m b N, bi_refactor O b = true -> rep m b N -> ok_change m -> ok_invert m;
  law_right : forall m b N r, rep m b N -> wfs m r -> r <> [] ->
    exists v, bi_right O b r = Ok v /\ wfs m v /\
      forall j, (j < m)%nat -> den v j = sum m (fun k => den r k * N k j);
  law_elem : forall m b N i a, rep m b N -> wfs m a -> (i < m)%nat ->
    exists e, bi_elem O b i a = Ok e /\
      match e with
      | Some v => v = sum m (fun k => N i k * den a k)
      | None => sum m (fun k => N i k * den a k) = 0
      end;
  law_row : forall m b N i, rep m b N -> (i < m)%nat ->
    exists v, bi_row O b i = Ok v /\ wfs m v /\ forall j, (j < m)%nat -> den v j = N i j;
  law_remove : forall remove m b N B rm, bi_remove O = Some remove -> rep m b N ->
    sorted_rows m rm -> is_inverse (m - length rm) (submat m rm N) B ->
    exists b', remove b rm = Ok b' /\ rep (m - length rm) b' (submat m rm N)
}.
Arguments rep {O}.
Arguments ok_new {O}.
Arguments ok_invert {O}.
Arguments ok_change {O}.

(** ** Updating dense vectors along the entries of a sparse one *)
Lemma nthq_upd l i x k :
  (i < length l)%nat -> nthq (upd l i x) k = if Nat.eqb k i then x else nthq l k.
Proof. intros H. unfold nthq. now apply upd_nth. Qed.
Lemma index_nthq l i : (i < length l)%nat -> index l i = Ok (nthq l i).
Proof.
  intros H. destruct (index_total l i H) as [x E]. rewrite E. f_equal.
  apply index_ok in E. unfold nthq. symmetry. now apply nth_error_nth.
Qed.
Lemma index_inv {A} (l : list A) i x d : index l i = Ok x -> (i < length l)%nat /\ nth i l d = x.
Proof.
  intros H. apply index_ok in H. split.
  - apply nth_error_Some. congruence.
  - now apply nth_error_nth.
Qed.
Lemma index_Ok {A} (l : list A) i d : (i < length l)%nat -> index l i = Ok (nth i l d).
Proof.
  intros H. destruct (index_total l i H) as [x E]. rewrite E. f_equal.
  destruct (index_inv l i x d E). congruence.
Qed.

Lemma foldM_upd (step : list Qc -> nat * Qc -> res (list Qc)) (F : nat -> Qc -> Qc -> Qc) m :
  (forall b i v, length b = m -> (i < m)%nat -> step b (i, v) = Ok (upd b i (F i v (nthq b i)))) ->
  (forall i x, F i 0 x = x) ->
  forall l lo b, fwf lo m l -> length b = m ->
  exists b', foldM step l b = Ok b' /\ length b' = m /\
    forall i, nthq b' i = F i (den l i) (nthq b i).
Proof.
  intros HS H0. induction l as [|[j v] t IH]; intros lo b W L; simpl.
  - exists b. repeat split; try assumption. intros i. now rewrite H0.
  - destruct W as (R & Nz & W). rewrite (HS b j v L) by lia. simpl.
    destruct (IH (S j) (upd b j (F j v (nthq b j)))) as (b' & E & L' & V);
      [assumption|now rewrite upd_length|].
    exists b'. repeat split; try assumption. intros i. rewrite V.
    rewrite nthq_upd by lia. destruct (Nat.eqb_spec i j) as [->|N].
    + rewrite (den_below (S j) m t j) by (try assumption; lia). rewrite H0.
      f_equal. ring.
    + f_equal. ring.
Qed.

Lemma update_b_spec m b p col :
  wfs m col -> length b = m -> (p < m)%nat -> den col p <> 0 ->
  exists b', update_b b p col = Ok b' /\ length b' = m /\
    forall i, nthq b' i = if Nat.eqb i p then nthq b p / den col p
                          else nthq b i - den col i * (nthq b p / den col p).
Proof.
  intros W L Lp Nz. unfold update_b. rewrite (sget_nonzero m) by assumption. simpl.
  rewrite index_nthq by lia. simpl. set (q := nthq b p / den col p).
  destruct (foldM_upd (fun b '(i, v) => if Nat.eqb i p then Ok b
      else let* x := index b i in Ok (upd b i (x - v * q)))
      (fun i v x => if Nat.eqb i p then x else x - v * q) m) with (l := col) (lo := 0%nat) (b := upd b p q)
      as (b' & E & L' & V).
  - intros b0 i v L0 Li. destruct (Nat.eqb_spec i p) as [->|N].
    + f_equal. apply nth_ext with 0 0; [now rewrite upd_length|]. intros k Hk.
      rewrite upd_nth by lia. destruct (Nat.eqb_spec k p) as [->|]; reflexivity.
    + rewrite index_nthq by lia. reflexivity.
  - intros i x. destruct (Nat.eqb i p); [reflexivity|ring].
  - assumption.
  - now rewrite upd_length.
  - exists b'. repeat split; try assumption. intros i. rewrite V.
    rewrite nthq_upd by lia. destruct (Nat.eqb_spec i p) as [->|N]; reflexivity.
Qed.

Lemma update_mpi_spec m mpi cost row :
  wfs m row -> length mpi = m ->
  exists mpi', update_mpi mpi cost row = Ok mpi' /\ length mpi' = m /\
    forall i, nthq mpi' i = nthq mpi i - cost * den row i.
Proof.
  intros W L. unfold update_mpi.
  destruct (foldM_upd (fun mpi '(j, v) => let* x := index mpi j in Ok (upd mpi j (x - cost * v)))
      (fun i v x => x - cost * v) m) with (l := row) (lo := 0%nat) (b := mpi) as (b' & E & L' & V).
  - intros b0 i v L0 Li. rewrite index_nthq by lia. reflexivity.
  - intros. ring.
  - assumption.
  - assumption.
  - exists b'. now repeat split.
Qed.

(** ** The invariant *)
Definition kind_ok (k : kind) : Prop :=
  (forall j, (j < k_cols k)%nat -> wfs (k_rows k) (k_col k j)) /\ (k_art k <= k_cols k)%nat.

Definition kA (k : kind) : mat := fun i j => den (k_col k j) i.
Definition bcol (basis : list nat) (r : nat) : nat := nth r basis 0%nat.
Definition bmat (k : kind) (basis : list nat) : mat := fun i r => kA k i (bcol basis r).

Section Inv.
Variable O : BIOps.
Variable L : BILaws O.

(** A carry matrix is consistent with kind [k] and right hand side [rhs]. *)
Record carry_inv (k : kind) (rhs : vec) (c : carry O) : Prop := mk_cinv {
  ci_lb : length (c_b c) = k_rows k;
  ci_lbasis : length (c_basis c) = k_rows k;
  ci_lmpi : length (c_mpi c) = k_rows k;
  ci_range : forall r, (r < k_rows k)%nat -> (bcol (c_basis c) r < k_cols k)%nat;
  ci_rep : exists N, rep L (k_rows k) (c_bi c) N /\ is_inverse (k_rows k) N (bmat k (c_basis c));
  ci_feas : forall i, (i < k_rows k)%nat ->
      sum (k_rows k) (fun r => bmat k (c_basis c) i r * nthq (c_b c) r) = rhs i;
  ci_nonneg : forall r, (r < k_rows k)%nat -> 0 <= nthq (c_b c) r;
  ci_dual : forall r, (r < k_rows k)%nat ->
      sum (k_rows k) (fun i => nthq (c_mpi c) i * bmat k (c_basis c) i r) = - k_cost k (bcol (c_basis c) r);
  ci_obj : c_mobj c = - sum (k_rows k) (fun r => k_cost k (bcol (c_basis c) r) * nthq (c_b c) r)
}.

Definition tab_inv (k : kind) (rhs : vec) (t : tableau O) : Prop :=
  carry_inv k rhs (t_im t) /\
  forall j, In j (t_cols t) <-> In j (c_basis (t_im t)).

Lemma inverse_injective m k N basis r r' :
  is_inverse m N (bmat k basis) -> (r < m)%nat -> (r' < m)%nat ->
  bcol basis r = bcol basis r' -> r = r'.
Proof.
  intros [H _] Lr Lr' E. destruct (Nat.eq_dec r r') as [|Ne]; [assumption|exfalso].
  pose proof (H r r Lr Lr) as H1. pose proof (H r r' Lr Lr') as H2.
  rewrite delta_same in H1. rewrite delta_diff in H2 by assumption.
  unfold mmul, bmat in *. rewrite <- E in H2. rewrite H1 in H2. discriminate.
Qed.

Lemma basis_NoDup k rhs c : carry_inv k rhs c -> NoDup (c_basis c).
Proof.
  intros I. destruct (ci_rep _ _ _ I) as (N & _ & HI). apply (NoDup_nth _ 0%nat).
  intros i j Li Lj E. rewrite (ci_lbasis _ _ _ I) in *.
  now apply (inverse_injective (k_rows k) k N (c_basis c)).
Qed.

Lemma In_bcol (basis : list nat) j :
  In j basis <-> exists r, (r < length basis)%nat /\ bcol basis r = j.
Proof.
  split.
  - intros H. destruct (In_nth _ _ 0%nat H) as (r & Lr & E). now exists r.
  - intros (r & Lr & E). subst. now apply nth_In.
Qed.

(** relative cost against the dual prices *)
Lemma relative_cost_spec k (t : tableau O) j :
  wfs (k_rows k) (k_col k j) ->
  relative_cost k t j = sum (k_rows k) (fun i => nthq (c_mpi (t_im t)) i * kA k i j) + k_cost k j.
Proof.
  intros W. unfold relative_cost, cost_difference. now rewrite (ddot_spec (k_rows k)).
Qed.

Lemma relative_cost_basic k rhs (t : tableau O) j :
  kind_ok k -> tab_inv k rhs t -> In j (t_cols t) -> relative_cost k t j = 0.
Proof.
  intros [W _] [I S] H. apply S in H. apply In_bcol in H. destruct H as (r & Lr & E).
  rewrite (ci_lbasis _ _ _ I) in Lr. subst j.
  rewrite relative_cost_spec by (apply W, (ci_range _ _ _ I), Lr).
  pose proof (ci_dual _ _ _ I r Lr) as D. unfold bmat in D. rewrite D. ring.
Qed.

(** the entering column: [B w = A_q] *)
Lemma column_spec k rhs (t : tableau O) q :
  kind_ok k -> tab_inv k rhs t -> (q < k_cols k)%nat ->
  exists cc N, generate_column k t q = Ok cc /\ wfs (k_rows k) (cci_col O cc) /\
    rep L (k_rows k) (c_bi (t_im t)) N /\ is_inverse (k_rows k) N (bmat k (c_basis (t_im t))) /\
    (forall i, (i < k_rows k)%nat ->
       den (cci_col O cc) i = sum (k_rows k) (fun l => N i l * kA k l q)) /\
    (forall i, (i < k_rows k)%nat ->
       sum (k_rows k) (fun r => bmat k (c_basis (t_im t)) i r * den (cci_col O cc) r) = kA k i q).
Proof.
  intros [W _] [I _] Lq. destruct (ci_rep _ _ _ I) as (N & R & HI).
  destruct (law_left O L _ _ _ (k_col k q) R (W q Lq)) as (cc & E & Wc & V).
  exists cc, N. repeat split; try assumption.
  - exact (proj1 HI).
  - exact (proj2 HI).
  - intros i Li. rewrite (sum_ext _ _ (fun r => bmat k (c_basis (t_im t)) i r *
        sum (k_rows k) (fun l => N r l * kA k l q))).
    2:{ intros r Lr. now rewrite V. }
    rewrite mv_assoc. rewrite (sum_ext _ _ (fun l => delta i l * kA k l q)).
    2:{ intros l Ll. f_equal. now apply (proj2 HI). }
    now apply (sum_delta_l _ i (fun l => kA k l q)).
Qed.

(** relative cost of a column in terms of the costs of the basis *)
Lemma relative_cost_basis k rhs (t : tableau O) q w :
  kind_ok k -> tab_inv k rhs t -> (q < k_cols k)%nat ->
  (forall i, (i < k_rows k)%nat ->
       sum (k_rows k) (fun r => bmat k (c_basis (t_im t)) i r * w r) = kA k i q) ->
  relative_cost k t q =
    k_cost k q - sum (k_rows k) (fun r => k_cost k (bcol (c_basis (t_im t)) r) * w r).
Proof.
  intros [W _] [I _] Lq HB. rewrite relative_cost_spec by now apply W.
  rewrite (sum_ext _ _ (fun i => nthq (c_mpi (t_im t)) i *
     sum (k_rows k) (fun r => bmat k (c_basis (t_im t)) i r * w r))).
  2:{ intros i Li. now rewrite HB. }
  rewrite dot_assoc.
  rewrite (sum_ext _ _ (fun r => - (k_cost k (bcol (c_basis (t_im t)) r) * w r))).
  2:{ intros r Lr. rewrite (ci_dual _ _ _ I r Lr). ring. }
  rewrite sum_opp. ring.
Qed.

End Inv.
Arguments carry_inv {O}.
Arguments tab_inv {O}.
