(** * All factors of a program *)
From Verif Require Import SpecScale ScaleP SearchP PowerP StandardQ.
Local Open Scope Z_scope.

(** ** The index of the rows *)
Definition row_of_column (i j : nat) (column : list nat) : list (nat * nat) := flat_map (fun '(k, i') => if Nat.eqb i' i then [(j, k)] else []) (number_from 0 column).
Definition row_list (columns : list (list nat)) (i : nat) : list (nat * nat) := flat_map (fun '(j, column) => row_of_column i j column) (number_from 0 columns).
Lemma nth_upd {A} (l : list A) i x k d : (i < length l)%nat -> nth k (upd l i x) d = if Nat.eqb k i then x else nth k l d.
Proof.
  revert i k. induction l as [|a l IH]; intros i k L; cbn [length] in L; [lia|]. destruct i as [|i]; destruct k as [|k]; cbn [upd nth Nat.eqb]; try reflexivity. apply IH. lia.
Qed.
Definition index_column (ix : list (list (nat * nat))) (jc : nat * list (nat * factorization)) : res (list (list (nat * nat))) :=
  let '(j, column) := jc in foldM (fun ix '(k, (i, _)) => let* row := index ix i in set_index ix i (row ++ [(j, k)])) (number_from 0 column) ix.
Lemma index_column_ok (m j : nat) : forall (column : list (nat * factorization)) k (ix : list (list (nat * nat))), length ix = m -> (forall i l, In (i, l) column -> (i < m)%nat) ->
  exists ix' : list (list (nat * nat)), foldM (fun (ix : list (list (nat * nat))) '(k, (i, _)) => let* row := index ix i in set_index ix i (row ++ [(j, k)])) (number_from k column) ix = Ok ix' /\ length ix' = m /\
    forall i, nth i ix' [] = nth i ix [] ++ flat_map (fun '(k, i') => if Nat.eqb i' i then [(j, k)] else []) (number_from k (map fst column)).
Proof.
  induction column as [|[i0 l] column IH]; intros k ix L B.
  - exists ix. split; [reflexivity|]. split; [assumption|]. intros i. cbn. now rewrite app_nil_r.
  - assert (LI : (i0 < m)%nat) by (apply (B i0 l); now left). cbn [number_from foldM]. unfold index at 1. rewrite (nth_error_nth' ix [] (n := i0)) by lia. cbn [ofopt bind]. unfold set_index at 1. destruct (Nat.ltb_spec i0 (length ix)) as [_|X]; [|lia]. cbn [bind].
    destruct (IH (S k) (upd ix i0 (nth i0 ix [] ++ [(j, k)]))) as (ix' & E & L' & V); [now rewrite upd_len|intros i l' H; apply (B i l'); now right|]. exists ix'. split; [exact E|]. split; [assumption|].
    intros i. rewrite V. rewrite nth_upd by lia. cbn [map fst number_from flat_map]. destruct (Nat.eqb_spec i i0) as [->|N].
    + rewrite Nat.eqb_refl. now rewrite <- app_assoc.
    + destruct (Nat.eqb_spec i0 i); [congruence|]. reflexivity.
Qed.
Lemma index_columns_ok m : forall (cs : list (list (nat * factorization))) j ix, length ix = m -> (forall c i l, In c cs -> In (i, l) c -> (i < m)%nat) ->
  exists ix', foldM index_column (number_from j cs) ix = Ok ix' /\ length ix' = m /\
    forall i, nth i ix' [] = nth i ix [] ++ flat_map (fun '(j, column) => row_of_column i j column) (number_from j (map (map fst) cs)).
Proof.
  induction cs as [|c cs IH]; intros j ix L B.
  - exists ix. split; [reflexivity|]. split; [assumption|]. intros i. cbn. now rewrite app_nil_r.
  - cbn [number_from foldM index_column]. destruct (index_column_ok m j c 0 ix L) as (ix1 & E1 & L1 & V1); [intros i l H; apply (B c i l); [now left|assumption]|]. rewrite E1. cbn [bind].
    destruct (IH (S j) ix1 L1) as (ix2 & E2 & L2 & V2); [intros c' i l H; apply B; now right|]. exists ix2. split; [exact E2|]. split; [assumption|]. intros i. rewrite V2, V1. cbn [map number_from flat_map]. now rewrite <- app_assoc.
Qed.
Definition rows_in_range (fa : factored) : Prop := forall c i l, In c (fa_constraints fa) -> In (i, l) c -> (i < length (fa_b fa))%nat.
Lemma build_index_ok fa : rows_in_range fa -> exists ix, build_index fa = Ok ix /\ forall i, nth i ix [] = row_list (map (map fst) (fa_constraints fa)) i.
Proof.
  intros B. destruct (index_columns_ok (length (fa_b fa)) (fa_constraints fa) 0 (repeat [] (length (fa_b fa)))) as (ix & E & _ & V); [apply repeat_length|exact B|].
  exists ix. split; [exact E|]. intros i. rewrite V. replace (nth i (repeat [] (length (fa_b fa))) []) with (@nil (nat * nat)); [reflexivity|].
  symmetry. destruct (nth_in_or_default i (repeat (@nil (nat * nat)) (length (fa_b fa))) []) as [H|H]; [now apply repeat_spec in H|assumption].
Qed.
Lemma row_list_index fa ix : length (fa_constraints fa) = length (fa_c fa) -> (forall i, nth i ix [] = row_list (map (map fst) (fa_constraints fa)) i) -> index_ok fa ix.
Proof.
  intros L V i h LI. rewrite V. unfold row_list. rewrite zsumf_flat_map. rewrite (number_from_range []). rewrite zsumf_map. rewrite map_length, L. apply zsumf_ext. intros j _. rewrite Nat.sub_0_r.
  unfold row_of_column. rewrite zsumf_flat_map. rewrite (number_from_range 0%nat). rewrite zsumf_map.
  replace (nth j (map (map fst) (fa_constraints fa)) []) with (map fst (column_of fa j)) by (unfold column_of; now rewrite <- (map_nth (map fst) (fa_constraints fa) [] j)).
  rewrite map_length. transitivity (zsumf (fun k => zsumf (fun '(j0, k0) => h j0 (snd (nth k0 (column_of fa j) (0%nat, [])))) (if Nat.eqb (nth (k - 0) (map fst (column_of fa j)) 0%nat) i then [(j, k)] else [])) (seq 0 (length (column_of fa j)))).
  { apply zsumf_ext. intros k _. destruct (Nat.eqb _ i); reflexivity. }
  generalize (column_of fa j) as col. intros col.
  assert (C : forall c0 s, zsumf (fun k => zsumf (fun '(j0, k0) => h j0 (snd (nth k0 (c0 ++ col) (0%nat, [])))) (if Nat.eqb (nth (k - s) (map fst col) 0%nat) i then [(j, k)] else [])) (seq s (length col)) = 
    zsumf (fun '(i', l) => if Nat.eqb i' i then h j l else 0) col \/ length c0 <> s).
  { induction col as [|[i0 l0] col IH]; intros c0 s; [now left|]. destruct (Nat.eq_dec (length c0) s) as [E|N]; [left|now right]. cbn [length seq]. rewrite !zsumf_cons. rewrite Nat.sub_diag. cbn [map fst nth]. f_equal.
    - destruct (Nat.eqb i0 i); [|reflexivity]. rewrite zsumf_cons, zsumf_nil. subst s. rewrite app_nth2, Nat.sub_diag by lia. cbn [nth snd]. lia.
    - destruct (IH (c0 ++ [(i0, l0)]) (S s)) as [IH'|IH']; [|rewrite app_length in IH'; cbn in IH'; lia]. rewrite <- IH'. apply zsumf_ext. intros k K. apply in_seq in K. replace (k - s)%nat with (S (k - S s)) by lia. cbn [nth]. rewrite <- app_assoc. reflexivity. }
  destruct (C [] 0%nat) as [E|E]; [|now elim E]. exact E.
Qed.
Lemma row_list_columns (columns : list (list nat)) i j k : In (j, k) (row_list columns i) -> (j < length columns)%nat.
Proof.
  unfold row_list. intros H. apply in_flat_map in H. destruct H as ((j', c) & H1 & H2). unfold row_of_column in H2. apply in_flat_map in H2. destruct H2 as ((k', i') & _ & H3). destruct (Nat.eqb i' i); [|destruct H3]. destruct H3 as [H3|[]]. injection H3 as -> ->.
  apply In_number_from in H1. destruct H1 as [_ H1]. rewrite Nat.sub_0_r in H1. apply nth_error_Some. congruence.
Qed.

(** ** Every factor is done *)
Definition same_shape (fa fa' : factored) : Prop :=
  length (fa_b fa') = length (fa_b fa) /\ length (fa_c fa') = length (fa_c fa) /\ map (map fst) (fa_constraints fa') = map (map fst) (fa_constraints fa).
Lemma removed_shape p fa : same_shape fa (remove_factor_info p fa).
Proof.
  unfold same_shape, remove_factor_info. cbn [fa_b fa_c fa_constraints]. rewrite !map_length. repeat split. rewrite map_map. apply map_ext. intros c. rewrite map_map. apply map_ext. intros [i l]. reflexivity.
Qed.
Lemma same_shape_trans a b c : same_shape a b -> same_shape b c -> same_shape a c.
Proof. unfold same_shape. intros (A1 & A2 & A3) (B1 & B2 & B3). repeat split; congruence. Qed.
Lemma shape_rows fa fa' : same_shape fa fa' -> rows_in_range fa -> rows_in_range fa'.
Proof.
  intros (A1 & A2 & A3) R c i l HC HI. rewrite A1. assert (X : In (map fst c) (map (map fst) (fa_constraints fa))) by (rewrite <- A3; now apply in_map). apply in_map_iff in X. destruct X as (c' & E & HC').
  assert (Y : In i (map fst c')) by (rewrite E; apply (in_map fst _ _ HI)). apply in_map_iff in Y. destruct Y as ((i' & l') & E' & HI'). cbn in E'. subst i'. now apply (R c' i l').
Qed.
Definition factor_done (fa : factored) (p : Z) (r : factor_result) : Prop :=
  let '(q, ((k, rows), cols)) := r in
  q = p /\ length rows = length (fa_b fa) /\ length cols = length (fa_c fa) /\
  penalty p fa k rows cols <= penalty p fa 0 [] [].
Lemma zat_nil i : zat [] i = 0. Proof. unfold zat. destruct i; reflexivity. Qed.
Lemma zat_repeat n i : zat (repeat 0 n) i = 0.
Proof. unfold zat. destruct (nth_in_or_default i (repeat 0 n) 0) as [H|H]; [now apply repeat_spec in H|assumption]. Qed.
Lemma penalty_ext p fa k rows rows' cols cols' : (forall i, zat rows i = zat rows' i) -> (forall j, zat cols j = zat cols' j) -> penalty p fa k rows cols = penalty p fa k rows' cols'.
Proof.
  intros R C. unfold penalty. f_equal; [|apply zsumf_ext; intros i _; now rewrite R]. apply zsumf_ext. intros j _. unfold column_penalty, column_entries. rewrite C. do 2 f_equal. apply zsumf_ext. intros [i l] _. now rewrite R.
Qed.
Lemma single_done p fa ix : rows_in_range fa -> length (fa_constraints fa) = length (fa_c fa) -> (0 < length (fa_c fa))%nat -> (forall i, nth i ix [] = row_list (map (map fst) (fa_constraints fa)) i) ->
  exists fuel0 s, (forall fuel, (fuel0 <= fuel)%nat -> solve_single p fa ix fuel = Ok s) /\ factor_done fa p (p, ((se_cost s, se_rows s), se_cols s)).
Proof.
  intros R L NZ V. destruct (single_ok p fa ix) as (f0 & s & E & L1 & L2 & L3); [now apply row_list_index|exact R| |assumption|].
  - intros i j k H. rewrite V in H. apply row_list_columns in H. rewrite map_length in H. lia.
  - exists f0, s. split; [exact E|]. split; [reflexivity|]. split; [assumption|]. split; [assumption|]. unfold spen in L3. unfold start_search in L3. cbn [se_cost se_rows se_cols] in L3.
    rewrite (penalty_ext p fa 0 (repeat 0 (length (fa_b fa))) [] (repeat 0 (length (fa_c fa))) []) in L3; [exact L3| |]; intros q; now rewrite zat_repeat, zat_nil.
Qed.
(** the program that a factor is looked for in: the factors after it are removed *)
Fixpoint removed (l : list Z) (fa : factored) : factored := match l with [] => fa | p :: t => removed t (remove_factor_info p fa) end.
Lemma factors_done ix : forall factors fa, rows_in_range fa -> length (fa_constraints fa) = length (fa_c fa) -> (0 < length (fa_c fa))%nat -> (forall i, nth i ix [] = row_list (map (map fst) (fa_constraints fa)) i) ->
  exists fuel0 l, (forall fuel, (fuel0 <= fuel)%nat -> solve_factors fuel ix factors fa = Ok l) /\ map fst l = factors /\
    (forall r, In r l -> length (snd (fst (snd r))) = length (fa_b fa) /\ length (snd (snd r)) = length (fa_c fa)) /\
    forall before p after, factors = before ++ p :: after -> exists r, In r l /\ factor_done (removed before fa) p r.
Proof.
  induction factors as [|p factors IH]; intros fa R L NZ V.
  - exists 0%nat, []. split; [reflexivity|]. split; [reflexivity|]. split; [intros r []|]. intros [|? ?] q after H; discriminate.
  - destruct (single_done p fa ix R L NZ V) as (f0 & s & E & D).
    pose proof (removed_shape p fa) as SH. destruct (IH (remove_factor_info p fa)) as (f1 & l & E1 & M & LE & D1).
    + now apply (shape_rows fa).
    + destruct SH as (S1 & S2 & S3). apply (f_equal (@length _)) in S3. rewrite !map_length in S3. congruence.
    + destruct SH as (S1 & S2 & S3). now rewrite S2.
    + intros i. rewrite V. destruct SH as (S1 & S2 & S3). now rewrite S3.
    + exists (Nat.max f0 f1), ((p, ((se_cost s, se_rows s), se_cols s)) :: l). split; [|split; [cbn; now rewrite M|split]].
      * intros fuel F. cbn [solve_factors]. rewrite E by lia. cbn [bind]. rewrite E1 by lia. reflexivity.
      * intros r [<-|IR]; [cbn [fst snd]; split; apply D|]. apply LE in IR. destruct SH as (S1 & S2 & _). now rewrite S1, S2 in IR.
      * intros before q after H. destruct before as [|b before]; cbn in H; injection H as -> H.
        -- eexists. split; [left; reflexivity|]. exact D.
        -- destruct (D1 before q after H) as (r & IR & DR). exists r. split; [now right|]. exact DR.
Qed.
