(** * Vectors, matrices, filters and networks: the lemmas behind PropData.v *)
From Verif Require Import Examples SparseP ExGeneral.
From Verif Require Export NetworkP FilterP MatrixP.
Local Open Scope Qc_scope.

(** ** The vector type with its length *)
Definition sp_ok (v : sparse) : Prop := wfs (sp_len v) (sp_data v).
Definition sp_val (v : sparse) (i : nat) : Qc := den (sp_data v) i.
Lemma sp_extend_ok v k : sp_ok v -> sp_ok (sp_extend v k) /\ sp_len (sp_extend v k) = (sp_len v + k)%nat /\
  forall i, sp_val (sp_extend v k) i = if Nat.ltb i (sp_len v) then sp_val v i else 0.
Proof.
  unfold sp_ok, sp_val, sp_extend. cbn [sp_data sp_len]. intros W. split; [|split; [reflexivity|]].
  - revert W. unfold wfs. generalize 0%nat as lo. induction (sp_data v) as [|[j x] l IH]; intros lo H; [exact I|].
    destruct H as (H1 & H2 & H3). split; [lia|]. split; [assumption|]. now apply IH.
  - intros i. destruct (Nat.ltb_spec i (sp_len v)); [reflexivity|]. now apply (den_above 0 (sp_len v)).
Qed.
Lemma sp_push_ok v x : sp_ok v -> x <> 0 -> sp_ok (sp_push v x) /\ sp_len (sp_push v x) = S (sp_len v) /\
  forall i, sp_val (sp_push v x) i = if Nat.eqb i (sp_len v) then x else sp_val v i.
Proof.
  unfold sp_ok, sp_val, sp_push. cbn [sp_data sp_len]. intros W N. split; [|split; [reflexivity|]].
  - assert (G : forall l lo, fwf lo (sp_len v) l -> (lo <= sp_len v)%nat -> fwf lo (S (sp_len v)) (l ++ [(sp_len v, x)])).
    { induction l as [|[j y] l IH]; intros lo H L; cbn [app fwf]; [split; [lia|]; split; [assumption|exact I]|].
      destruct H as (H1 & H2 & H3). split; [lia|]. split; [assumption|]. apply IH; [assumption|lia]. }
    apply G; [assumption|lia].
  - intros i. assert (A : forall l, den (l ++ [(sp_len v, x)]) i = den l i + (if Nat.eqb i (sp_len v) then x else 0)).
    { induction l as [|[j y] l IH]; cbn [app den]; [ring|]. rewrite IH. ring. }
    rewrite A. clear A. destruct (Nat.eqb_spec i (sp_len v)) as [E|E]; [rewrite E|ring]. rewrite (den_above 0 (sp_len v)) by (assumption || lia). ring.
Qed.
Lemma sp_remove_ok v rm : sp_ok v -> sorted_rows (sp_len v) rm -> sp_ok (sp_remove v rm) /\ sp_len (sp_remove v rm) = (sp_len v - length rm)%nat /\
  forall i, (i < sp_len v - length rm)%nat -> sp_val (sp_remove v rm) i = sp_val v (nth i (kept (sp_len v) rm) 0%nat).
Proof.
  unfold sp_ok, sp_val, sp_remove. cbn [sp_data sp_len]. intros W SR. assert (LK := kept_length _ _ SR). split; [|split; [reflexivity|]].
  - rewrite <- LK. apply wfs_sremove; [apply SR|assumption].
  - intros i Li. apply den_sremove; [apply SR| |lia]. intros x y H. exact (wfs_In_lt _ _ _ _ W H).
Qed.
Lemma smul_ok m l c : wfs m l -> c <> 0 -> wfs m (smul l c) /\ forall i, den (smul l c) i = den l i * c.
Proof. intros W N. split; [now apply smul_wfs|]. intros i. apply den_smul. Qed.
Lemma sdiv_ok m l c : wfs m l -> c <> 0 -> wfs m (sdiv l c) /\ forall i, den (sdiv l c) i = den l i / c.
Proof. intros W N. split; [now apply sdiv_wfs|]. intros i. apply den_sdiv. Qed.
Lemma add_ok m a b mult : wfs m a -> wfs m b -> mult <> 0 -> wfs m (add_mult mult a b) /\ forall i, den (add_mult mult a b) i = den a i + mult * den b i.
Proof. intros A B N. split; [now apply add_mult_wfs|]. intros i. now apply (den_add_mult mult m). Qed.
Lemma sbasis_ok m k : (k < m)%nat -> wfs m (sbasis k) /\ forall i, den (sbasis k) i = if Nat.eqb i k then 1 else 0.
Proof. intros L. split; [now apply sbasis_wfs|]. intros i. rewrite den_sbasis. unfold delta. now rewrite Nat.eqb_sym. Qed.
Lemma set_zero_ok m l k : wfs m l -> wfs m (set_zero l k) /\ forall i, den (set_zero l k) i = if Nat.eqb i k then 0 else den l i.
Proof. apply set_zero_fwf. Qed.
Lemma sset_ok m l k v : wfs m l -> (k < m)%nat -> v <> 0 -> wfs m (sset l k v) /\ forall i, den (sset l k v) i = if Nat.eqb i k then v else den l i.
Proof. intros W L N. apply (sset_fwf 0); [assumption|lia|assumption]. Qed.
(** dense vectors are lists *)
Lemma dense_remove l rm i : sorted_rows (length l) rm -> length (remove_indices l rm) = (length l - length rm)%nat /\
  ((i < length l - length rm)%nat -> nthq (remove_indices l rm) i = nthq l (nth i (kept (length l) rm) 0%nat)).
Proof. intros SR. split; [now apply remove_indices_length|]. intros L. unfold nthq. apply nth_remove_indices. now rewrite kept_length. Qed.

(** ** Filtering the rows of inequality constraints of [MatrixData] *)
Definition md_three : matrix_data :=
  new_md [[(0%nat, 1); (1%nat, 1); (2%nat, 1)]] [1; 1; 1] [] (mk_counts 0 0 3 0) [v_ 1 (Some 0%Z) None].
Lemma md_filter_wrong : exists d rm j i, (forall r, In r rm -> (r < md_nr_constraints d)%nat) /\ increasing_from 0 rm /\
  (j < p_cols (md_provider d))%nat /\ (i < p_rows (md_provider d) - length rm)%nat /\
  den (p_col (remove_rows (md_provider d) rm) j) i <> den (p_col (md_provider d) j) (nth i (kept (p_rows (md_provider d)) rm) 0%nat).
Proof.
  exists md_three, [2%nat], 2%nat, 1%nat. split; [intros r [<-|[]]; vm_compute; lia|]. split; [vm_compute; repeat split; lia|].
  split; [vm_compute; lia|]. split; [vm_compute; lia|]. apply qeqb_false. vm_compute. reflexivity.
Qed.
Lemma md_filtered_col d rm j i : wfs (p_rows (md_provider d)) (p_col (md_provider d) j) -> NoDup rm ->
  (forall r, In r rm -> (r < eq_end d)%nat) -> (forall r, In r rm -> (r < p_rows (md_provider d))%nat) ->
  (i < p_rows (md_provider d) - length rm)%nat ->
  den (p_col (remove_rows (md_provider d) rm) j) i = den (p_col (md_provider d) j) (nth i (kept (p_rows (md_provider d)) rm) 0%nat).
Proof. intros W ND EQ LT Li. apply filtered_col; try assumption. now apply md_filter_equal. Qed.
(** rows removed in two steps *)
Lemma filtered_counts constraints bounds rm : (length rm <= constraints)%nat ->
  filtered_constraints constraints rm = Ok (constraints - length rm)%nat /\
  filtered_rows constraints bounds rm = Ok ((constraints - length rm) + bounds)%nat.
Proof.
  intros L. unfold filtered_constraints, filtered_rows. destruct (Nat.ltb_spec constraints (length rm)); [lia|].
  destruct (Nat.ltb_spec (constraints + bounds) (length rm)); [lia|]. split; f_equal. lia.
Qed.

(** ** Examples *)
Definition ex_a : svec := [(1%nat, zq 2); (3%nat, zq (-1))].
Definition ex_b : svec := [(0%nat, zq 5); (1%nat, zq (-1)); (4%nat, zq 7)].
Lemma ex_vectors_ok : wfs 5 ex_a /\ wfs 5 ex_b.
Proof. split; apply fwfb_ok; vm_compute; reflexivity. Qed.
Definition svec_eqb (a b : svec) : bool := Nat.eqb (length a) (length b) && forallb (fun '((i, v), (j, w)) => Nat.eqb i j && qeqb v w) (combine a b).
Lemma svec_eqb_ok a b : svec_eqb a b = true -> a = b.
Proof.
  revert b. induction a as [|[i v] a IH]; intros [|[j w] b] H; try discriminate; [reflexivity|]. unfold svec_eqb in H. cbn in H.
  rewrite !andb_true_iff in H. destruct H as [H1 [[H2 H3] H4]]. apply Nat.eqb_eq in H2. apply qeqb_true in H3. subst. f_equal. apply IH.
  unfold svec_eqb. rewrite andb_true_iff. now split.
Qed.
Lemma ex_vectors : add_mult (zq 2) ex_a ex_b = [(0%nat, zq 10); (3%nat, zq (-1)); (4%nat, zq 14)] /\
  sremove ex_b [0; 3]%nat = [(0%nat, zq (-1)); (2%nat, zq 7)] /\ shift_value ex_a 3 (zq 1) = [(1%nat, zq 2)] /\
  sdot ex_a ex_b = zq (-2) /\ sqnorm ex_a = zq 5.
Proof.
  split; [apply svec_eqb_ok; vm_compute; reflexivity|]. split; [apply svec_eqb_ok; vm_compute; reflexivity|].
  split; [apply svec_eqb_ok; vm_compute; reflexivity|]. split; apply qeqb_true; vm_compute; reflexivity.
Qed.
Definition ex_matrix : matrix := mx_rows_dense [[zq 1; 0; zq 2]; [0; zq 5; zq 6]] 3.
Lemma ex_matrix_ok : mwf ex_matrix /\ mx_major ex_matrix = 2%nat /\ mx_minor ex_matrix = 3%nat /\ mx_size ex_matrix = 4%nat /\
  sorted_rows 3 [0; 1]%nat.
Proof.
  split; [apply rows_dense_ok; intros r [<-|[<-|[]]]; reflexivity|]. split; [reflexivity|]. split; [reflexivity|]. split; [vm_compute; reflexivity|].
  split; [repeat constructor; cbn; lia|]. intros r [<-|[<-|[]]]; lia.
Qed.
Definition ex_graph : list svec := [[(1%nat, zq 1); (2%nat, zq 2)]; [(2%nat, zq 2); (3%nat, zq 3)]; [(3%nat, zq 1)]; []].
Lemma ex_graph_ok : (forall f, (f < length ex_graph)%nat -> wfs (length ex_graph) (nth f ex_graph [])) /\
  (forall f v, In (f, v) (nth f ex_graph []) -> False) /\ NoDup [3; 0]%nat /\ (forall r, In r [3; 0]%nat -> (r < length ex_graph)%nat) /\
  arcs ex_graph = [(0%nat, 1%nat, zq 1); (0%nat, 2%nat, zq 2); (1%nat, 2%nat, zq 2); (1%nat, 3%nat, zq 3); (2%nat, 3%nat, zq 1)] /\
  option_map (fun '(im, _) => im_cols im) (match incidence_new ex_graph [3; 0]%nat with Ok x => Some x | _ => None end) =
    Some [[(0%nat, Incoming)]; [(1%nat, Incoming)]; [(0%nat, Outgoing); (1%nat, Incoming)]; [(0%nat, Outgoing)]; [(1%nat, Outgoing)]].
Proof.
  split.
  { intros [|[|[|[|f]]]] H; cbn in H; try lia; apply fwfb_ok; vm_compute; reflexivity. }
  split.
  { intros [|[|[|[|[|f]]]]] v H; cbn in H; repeat destruct H as [H|H]; try discriminate; auto. }
  split; [repeat constructor; cbn; lia|]. split; [intros r [<-|[<-|[]]]; cbn; lia|]. split; reflexivity.
Qed.
Lemma ex_filter : increasing_from 0 [1; 4; 5]%nat /\ (forall r, In r [1; 4; 5]%nat -> (r < 8)%nat) /\
  map (underlying_index [1; 4; 5]%nat) [0; 1; 2; 3; 4]%nat = map Ok [0; 2; 3; 6; 7]%nat /\
  delete_row false [1; 4; 5]%nat 3 = Ok [1; 4; 5; 6]%nat /\ filtered_pivots [(0, 3); (4, 1); (7, 2)]%nat [1; 4; 5]%nat = [(0, 3); (4, 2)]%nat.
Proof.
  split; [cbn; repeat split; lia|]. split; [intros r [<-|[<-|[<-|[]]]]; lia|]. repeat split.
Qed.
Lemma entry_values f t i : f <> t -> incidence_entry f t i = if Nat.eqb i f then - (1) else if Nat.eqb i t then 1 else 0.
Proof. intros N. unfold incidence_entry. destruct (Nat.eqb_spec i f), (Nat.eqb_spec i t); try reflexivity; subst; try contradiction; ring. Qed.
