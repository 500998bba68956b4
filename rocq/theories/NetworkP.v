(** * Networks: proofs *)
From Verif Require Export Network FilterP PermP.
Local Open Scope Qc_scope.

(** The arcs of an adjacency matrix in order: tail, head, value. *)
Definition arcs (adjacency : list svec) : list (nat * nat * Qc) :=
  flat_map (fun from => map (fun '(to, v) => (from, to, v)) (nth from adjacency [])) (seq 0 (length adjacency)).
(** the entry of vertex [i] in the column of an arc *)
Definition incidence_entry (from to i : nat) : Qc :=
  (if Nat.eqb i to then 1 else 0) - (if Nat.eqb i from then 1 else 0).

Lemma nsearch_found : forall l x lo, increasing_from lo l -> In x l -> fst (nsearch x l) = true.
Proof.
  induction l as [|y l IH]; intros x lo H Hx; [destruct Hx|]. destruct H as [H1 H2]. cbn [nsearch].
  destruct (Nat.ltb_spec y x) as [C|C].
  - destruct Hx as [->|Hx]; [lia|]. specialize (IH x (S y) H2 Hx). destruct (nsearch x l). exact IH.
  - destruct Hx as [->|Hx]; [now rewrite Nat.eqb_refl|]. apply (increasing_In _ _ _ H2) in Hx. lia.
Qed.
Lemma nsearch_count : forall l x lo, increasing_from lo l -> ~ In x l -> nsearch x l = (false, count_below x l).
Proof.
  induction l as [|y l IH]; intros x lo H NI; [reflexivity|]. destruct H as [H1 H2]. cbn [nsearch]. unfold count_below. cbn [filter].
  destruct (Nat.ltb_spec y x) as [C|C].
  - rewrite (IH x (S y) H2) by (intros Hx; apply NI; now right). reflexivity.
  - fold (count_below x l). rewrite count_below_none.
    + destruct (Nat.eqb_spec y x) as [->|]; [exfalso; apply NI; now left|reflexivity].
    + intros r Hr. apply (increasing_In _ _ _ H2) in Hr. lia.
Qed.

Section Sorted.
Variables (n : nat) (rm : list nat).
Hypothesis INC : increasing_from 0 rm.
Hypothesis LT : forall r, In r rm -> (r < n)%nat.
Let ND := increasing_NoDup rm 0 INC.

Lemma arc_column_spec from to : (from < n)%nat -> (to < n)%nat -> from <> to ->
  wfs (n - length rm) (arc_entries (arc_column rm from to)) /\
  forall i, (i < n - length rm)%nat ->
    den (arc_entries (arc_column rm from to)) i = incidence_entry from to (nth i (kept n rm) 0%nat).
Proof using INC LT ND.
  intros Lf Lt N. assert (LK := kept_length n rm (conj ND LT)).
  assert (PL : forall x, (x < n)%nat -> ~ In x rm -> (pos rm x < n - length rm)%nat).
  { intros x Lx Nx. rewrite <- LK, <- (pos_kept rm n ND). pose proof (pos_mono rm (S x) n ND Lx) as Q. rewrite (pos_S rm x ND Nx) in Q. lia. }
  assert (ON : forall x i, (x < n)%nat -> ~ In x rm -> (i < n - length rm)%nat ->
    Nat.eqb i (pos rm x) = Nat.eqb (nth i (kept n rm) 0%nat) x).
  { intros x i Lx Nx Li. destruct (Nat.eqb_spec i (pos rm x)) as [->|E].
    - rewrite nth_pos by assumption. now rewrite Nat.eqb_refl.
    - symmetry. apply Nat.eqb_neq. intros E'. apply E. rewrite <- E'. symmetry. apply pos_nth; [assumption|lia]. }
  assert (OFF : forall x i, In x rm -> (i < n - length rm)%nat -> Nat.eqb (nth i (kept n rm) 0%nat) x = false).
  { intros x i Hx Li. apply Nat.eqb_neq. intros <-. assert (K : In (nth i (kept n rm) 0%nat) (kept n rm)) by (apply nth_In; lia).
    apply kept_In in K. tauto. }
  assert (ONE : - (1) <> 0 :> Qc) by discriminate. assert (ONE' : 1 <> 0 :> Qc) by discriminate.
  unfold arc_column. destruct (in_dec Nat.eq_dec from rm) as [If|If], (in_dec Nat.eq_dec to rm) as [It|It].
  - pose proof (nsearch_found rm from 0 INC If) as E1. pose proof (nsearch_found rm to 0 INC It) as E2.
    destruct (nsearch from rm) as [[] a], (nsearch to rm) as [[] b]; try discriminate. cbn [arc_entries map]. split; [exact I|].
    intros i Li. unfold incidence_entry. rewrite (OFF to i It Li), (OFF from i If Li). cbn [den]. ring.
  - pose proof (nsearch_found rm from 0 INC If) as E1. rewrite (nsearch_count rm to 0 INC It).
    destruct (nsearch from rm) as [[] a]; try discriminate. cbn [arc_entries map arc_value]. fold (pos rm to).
    split; [cbn; specialize (PL to Lt It); repeat split; [lia|lia|assumption]|].
    intros i Li. unfold incidence_entry. rewrite (OFF from i If Li), <- (ON to i Lt It Li). cbn [den].
    destruct (Nat.eqb i (pos rm to)); ring.
  - pose proof (nsearch_found rm to 0 INC It) as E1. rewrite (nsearch_count rm from 0 INC If).
    destruct (nsearch to rm) as [[] a]; try discriminate. cbn [arc_entries map arc_value]. fold (pos rm from).
    split; [cbn; specialize (PL from Lf If); repeat split; [lia|lia|assumption]|].
    intros i Li. unfold incidence_entry. rewrite (OFF to i It Li), <- (ON from i Lf If Li). cbn [den].
    destruct (Nat.eqb i (pos rm from)); ring.
  - rewrite (nsearch_count rm to 0 INC It), (nsearch_count rm from 0 INC If). fold (pos rm from) (pos rm to).
    assert (D : pos rm from <> pos rm to).
    { intros E. apply N. rewrite <- (nth_pos n rm from ND Lf If), <- (nth_pos n rm to ND Lt It). now f_equal. }
    pose proof (PL from Lf If) as P1. pose proof (PL to Lt It) as P2.
    split.
    + destruct (Nat.ltb_spec (pos rm from) (pos rm to)); cbn [arc_entries map arc_value wfs fwf]; repeat split; try lia; assumption.
    + intros i Li. unfold incidence_entry. rewrite <- (ON to i Lt It Li), <- (ON from i Lf If Li).
      destruct (Nat.ltb_spec (pos rm from) (pos rm to)); cbn [arc_entries map arc_value den];
        destruct (Nat.eqb i (pos rm from)), (Nat.eqb i (pos rm to)); ring.
Qed.
End Sorted.

Lemma arc_columns_spec rm : forall adjacency from,
  arc_columns rm from adjacency =
  map (fun '(f, t, v) => (arc_column rm f t, v))
    (flat_map (fun f => map (fun '(to, v) => (f, to, v)) (nth (f - from) adjacency [])) (seq from (length adjacency))).
Proof.
  induction adjacency as [|out rest IH]; intros from; [reflexivity|]. cbn [arc_columns length seq flat_map]. rewrite map_app, Nat.sub_diag. f_equal.
  - cbn [nth]. rewrite map_map. apply map_ext. intros [to v]. reflexivity.
  - rewrite IH. f_equal. rewrite !flat_map_concat_map. f_equal. apply map_ext_in. intros f Hf. apply in_seq in Hf.
    replace (f - from)%nat with (S (f - S from)) by lia. reflexivity.
Qed.
Lemma arcs_In adjacency f t v : In (f, t, v) (arcs adjacency) <-> (f < length adjacency)%nat /\ In (t, v) (nth f adjacency []).
Proof.
  unfold arcs. rewrite in_flat_map. split.
  - intros (x & Hx & H). apply in_seq in Hx. apply in_map_iff in H. destruct H as ([to w] & E & H). injection E as -> -> ->. split; [lia|assumption].
  - intros [L H]. exists f. split; [apply in_seq; lia|]. apply in_map_iff. now exists (t, v).
Qed.

Theorem incidence_spec adjacency removed :
  (forall f, (f < length adjacency)%nat -> wfs (length adjacency) (nth f adjacency [])) ->
  (forall f v, In (f, v) (nth f adjacency []) -> False) ->
  NoDup removed -> (forall r, In r removed -> (r < length adjacency)%nat) ->
  exists im values, incidence_new adjacency removed = Ok (im, values) /\
    im_rows im = (length adjacency - length removed)%nat /\ im_vertices im = length adjacency /\
    im_edges im = length (arcs adjacency) /\ values = map snd (arcs adjacency) /\
    forall k f t v, nth_error (arcs adjacency) k = Some (f, t, v) ->
      wfs (im_rows im) (arc_entries (im_column im k)) /\
      forall i, (i < im_rows im)%nat ->
        den (arc_entries (im_column im k)) i = incidence_entry f t (nth i (kept (length adjacency) removed) 0%nat).
Proof.
  intros W NS ND LT. set (n := length adjacency) in *. set (rm := sort_by (fun x => x) removed).
  assert (Lrm : length rm = length removed) by apply sort_by_length.
  assert (IN : forall x, In x rm <-> In x removed) by (intros x; apply sort_by_In).
  assert (INC : increasing_from 0 rm).
  { pose proof (sort_by_increasing (fun x : nat => x) removed) as Q. rewrite map_id in Q. specialize (Q ND). now rewrite map_id in Q. }
  assert (LT' : forall r, In r rm -> (r < n)%nat) by (intros r Hr; apply LT, IN, Hr).
  assert (K : kept n rm = kept n removed).
  { unfold kept. apply filter_ext. intros x. f_equal. destruct (memb x rm) eqn:M1, (memb x removed) eqn:M2; try reflexivity.
    - apply memb_In, IN, memb_In in M1. congruence.
    - apply memb_In, IN, memb_In in M2. congruence. }
  assert (LE := sorted_rows_length n removed (conj ND LT)).
  assert (E : arc_columns rm 0 adjacency = map (fun '(f, t, v) => (arc_column rm f t, v)) (arcs adjacency)).
  { rewrite arc_columns_spec. unfold arcs. f_equal. rewrite !flat_map_concat_map. f_equal. apply map_ext. intros f. now rewrite Nat.sub_0_r. }
  unfold incidence_new. fold rm. fold n. rewrite Lrm. destruct (Nat.ltb_spec n (length removed)); [lia|].
  eexists. eexists. split; [reflexivity|]. cbn [im_rows im_removed im_cols]. unfold im_vertices, im_edges, im_column. cbn [im_rows im_removed im_cols].
  split; [reflexivity|]. split; [lia|]. rewrite E, !map_map. split; [now rewrite map_length|]. split.
  { apply map_ext. now intros [[f t] v]. }
  intros k f t v Hk. assert (Hin := nth_error_In _ _ Hk). apply arcs_In in Hin. destruct Hin as [Lf Hin]. fold n in Lf.
  assert (Lt := wfs_In_lt _ _ _ _ (W f Lf) Hin).
  assert (N : f <> t) by (intros <-; exact (NS _ _ Hin)).
  rewrite (nth_error_nth _ k [] (x := arc_column rm f t)).
  2:{ rewrite nth_error_map, Hk. reflexivity. }
  rewrite <- Lrm, <- K. exact (arc_column_spec n rm INC LT' f t Lf Lt N).
Qed.

Lemma dir_arithmetic x d : dir_add x d = x + arc_value d /\ dir_sub x d = x - arc_value d /\
  dir_mul x d = x * arc_value d /\ dir_div x d = x / arc_value d.
Proof. destruct d; cbn [arc_value dir_add dir_sub dir_mul dir_div]; repeat split; try ring; field; discriminate. Qed.
Lemma arc_filter_spec c rm : arc_entries (arc_filtered c rm) = sremove (arc_entries c) rm.
Proof.
  unfold arc_entries, arc_filtered, sremove. induction c as [|[i d] c IH]; [reflexivity|]. cbn [filter map].
  destruct (memb i rm); cbn [negb map]; [exact IH|f_equal; exact IH].
Qed.
