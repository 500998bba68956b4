(** * Initial tableaus satisfy the invariant *)
From Verif Require Export KindP.

Definition rhs_of (p : provider) : vec := nthq (p_rhs p).

(** ** Prices computed from scratch *)
Section Pi.
Variable O : BIOps.
Variable L : BILaws O.

Lemma nth_upd_self {A} (l : list A) i d x : (i < length l)%nat -> nth i (upd l i x) d = x.
Proof. intros H. rewrite upd_nth by assumption. now rewrite Nat.eqb_refl. Qed.

(** state of the transposition after columns [0..j-1] *)
Definition rows_ok (m j : nat) (N : mat) (rows : list svec) : Prop :=
  length rows = m /\ forall i, (i < m)%nat ->
    fwf 0 j (nth i rows []) /\ forall l, (l < j)%nat -> den (nth i rows []) l = N i l.

Lemma fwf_snoc lo j l v : fwf lo j l -> (lo <= j)%nat -> v <> 0 -> fwf lo (S j) (l ++ [(j, v)]).
Proof.
  revert lo. induction l as [|[i x] l IH]; intros lo H Lj Nz; cbn [app fwf] in *.
  - repeat split; [lia|lia|assumption].
  - destruct H as (H1 & H2 & H3). repeat split; try assumption; try lia. apply IH; [assumption|lia|assumption].
Qed.
Lemma fwf_grow lo j j' l : (j <= j')%nat -> fwf lo j l -> fwf lo j' l.
Proof.
  intros Hj. revert lo. induction l as [|[i x] l IH]; intros lo H; [exact I|].
  destruct H as (H1 & H2 & H3). repeat split; try assumption; try lia. now apply IH.
Qed.

Lemma push_column_spec m j : forall col lo rows, fwf lo m col -> length rows = m ->
  exists rows', push_column j col rows = Ok rows' /\ length rows' = m /\
    forall i, (i < m)%nat -> nth i rows' [] =
      nth i rows [] ++ (if qzero (den col i) then [] else [(j, den col i)]).
Proof.
  induction col as [|[i v] col IH]; intros lo rows W Lr.
  - exists rows. repeat split; try assumption. intros i Li. simpl. now rewrite app_nil_r.
  - destruct W as (Ri & Nz & W). cbn [push_column].
    rewrite (index_Ok rows i []) by lia. cbn [bind].
    destruct (IH (S i) (upd rows i (nth i rows [] ++ [(j, v)]))) as (rows' & E & L' & V).
    + assumption.
    + now rewrite upd_length.
    + exists rows'. split; [exact E|]. split; [exact L'|]. intros i' Li'. rewrite V by assumption.
      rewrite upd_nth by lia. cbn [den]. destruct (Nat.eqb_spec i' i) as [->|Ne].
      * rewrite (den_below (S i) m col i) by (try assumption; lia).
        replace (v + 0) with v by ring.
        replace (qzero 0) with true by reflexivity. rewrite app_nil_r.
        destruct (qzero v) eqn:Z; qb; [contradiction|reflexivity].
      * now replace (0 + den col i') with (den col i') by ring.
Qed.

Lemma transpose_spec m N : forall cols j rows,
  (forall l, (l < length cols)%nat -> wfs m (nth l cols []) /\
     forall i, (i < m)%nat -> den (nth l cols []) i = N i (j + l)%nat) ->
  rows_ok m j N rows ->
  exists rows', transpose_from j cols rows = Ok rows' /\ rows_ok m (j + length cols) N rows'.
Proof.
  induction cols as [|c cols IH]; intros j rows Hc Hr.
  - exists rows. split; [reflexivity|]. cbn [length]. now rewrite Nat.add_0_r.
  - cbn [transpose_from]. destruct Hr as [Lr Hr].
    destruct (Hc 0%nat ltac:(simpl; lia)) as [Wc Vc]. cbn [nth] in Wc, Vc.
    destruct (push_column_spec m j c 0 rows Wc Lr) as (rows1 & E1 & L1 & V1).
    rewrite E1. cbn [bind].
    destruct (IH (S j) rows1) as (rows' & E' & R').
    + intros l Ll. destruct (Hc (S l) ltac:(simpl; lia)) as [Wl Vl]. cbn [nth] in Wl, Vl.
      split; [assumption|]. intros i Li. rewrite Vl by assumption. f_equal. lia.
    + split; [assumption|]. intros i Li. rewrite V1 by assumption.
      destruct (Hr i Li) as [Wi Vi]. rewrite Vc in * by assumption. rewrite Nat.add_0_r.
      destruct (qzero (N i j)) eqn:Z; qb.
      * rewrite app_nil_r. split; [apply fwf_grow with j; [lia|assumption]|].
        intros l Ll. destruct (Nat.eq_dec l j) as [->|Ne].
        -- rewrite Z. apply (den_above 0 j); [assumption|lia].
        -- apply Vi. lia.
      * split; [apply fwf_snoc; [assumption|lia|assumption]|].
        intros l Ll. rewrite den_app. cbn [den]. destruct (Nat.eqb_spec l j) as [->|Ne].
        -- rewrite (den_above 0 j) by (try assumption; lia). ring.
        -- rewrite Vi by lia. ring.
    + exists rows'. split; [exact E'|]. cbn [length]. now rewrite <- Nat.add_succ_comm.
Qed.

Lemma add_row_to_pi_spec m pi row cost :
  wfs m row -> length pi = m ->
  exists pi', add_row_to_pi pi row cost = Ok pi' /\ length pi' = m /\
    forall j, nthq pi' j = nthq pi j + den row j * cost.
Proof.
  intros W Lp. unfold add_row_to_pi.
  destruct (foldM_upd (fun pi '(j, v) => let* x := index pi j in Ok (upd pi j (x + v * cost)))
     (fun i v x => x + v * cost) m) with (l := row) (lo := 0%nat) (b := pi) as (b' & E & L' & V).
  - intros b i v Lb Li. rewrite index_nthq by lia. reflexivity.
  - intros. ring.
  - assumption.
  - assumption.
  - now exists b'.
Qed.

Lemma pi_loop_spec m cost : forall rows basis pi,
  (forall row, In row rows -> wfs m row) -> length rows = length basis -> length pi = m ->
  exists pi', pi_loop rows basis cost pi = Ok pi' /\ length pi' = m /\
    forall j, nthq pi' j = nthq pi j +
      sum (length rows) (fun i => den (nth i rows []) j * cost (bcol basis i)).
Proof.
  induction rows as [|row rows IH]; intros basis pi W Lb Lp.
  - exists pi. repeat split; try assumption. intros. simpl. ring.
  - destruct basis as [|k basis]; [discriminate|]. cbn [pi_loop].
    destruct (add_row_to_pi_spec m pi row (cost k)) as (pi1 & E1 & L1 & V1).
    { apply W. now left. } { assumption. }
    rewrite E1. cbn [bind].
    destruct (IH basis pi1) as (pi' & E' & L' & V').
    + intros r Hr. apply W. now right.
    + simpl in Lb. lia.
    + assumption.
    + exists pi'. split; [assumption|]. split; [assumption|]. intros j. rewrite V', V1.
      cbn [length]. change (S (length rows)) with (1 + length rows)%nat. rewrite sum_add. cbn [sum].
      unfold bcol. cbn [nth Nat.add]. ring.
Qed.

Lemma minus_pi_spec m i N cost basis :
  rep L m i N -> length basis = m ->
  exists mpi, create_minus_pi O i m cost basis = Ok mpi /\ length mpi = m /\
    forall j, (j < m)%nat -> nthq mpi j = - sum m (fun r => N r j * cost (bcol basis r)).
Proof.
  intros R Lb. unfold create_minus_pi.
  assert (Hu : exists cols, unit_columns O i m = Ok cols /\ length cols = m /\
     forall l, (l < m)%nat -> wfs m (nth l cols []) /\
       forall i', (i' < m)%nat -> den (nth l cols []) i' = N i' l).
  { unfold unit_columns.
    destruct (mapM_total (fun j => let* c := bi_left O i (sbasis j) in Ok (cci_col O c)) (seq 0 m)) as [cols E].
    - intros j Hj. apply in_seq in Hj.
      destruct (law_left O L m i N (sbasis j) R) as (c & Ec & _); [apply sbasis_wfs; lia|].
      rewrite Ec. cbn [bind]. now exists (cci_col O c).
    - exists cols. split; [assumption|]. apply mapM_ok in E. destruct E as [El En].
      rewrite seq_length in El. split; [assumption|]. intros l Ll.
      destruct (En l l) as (y & Ey & Ny).
      { rewrite (nth_error_nth' _ 0%nat) by (rewrite seq_length; lia). now rewrite seq_nth by lia. }
      destruct (law_left O L m i N (sbasis l) R) as (c & Ec & Wc & Vc); [now apply sbasis_wfs|].
      rewrite Ec in Ey. cbn [bind] in Ey. inversion Ey; subst y.
      rewrite (nth_error_nth _ _ _ Ny). split; [assumption|].
      intros i' Li'. rewrite Vc by assumption.
      rewrite (sum_ext m _ (fun k => N i' k * delta k l)).
      + now rewrite (sum_delta_r m l (fun k => N i' k)).
      + intros k Lk. rewrite den_sbasis. now rewrite delta_sym. }
  destruct Hu as (cols & Eu & Lc & Hc). rewrite Eu. cbn [bind].
  destruct (transpose_spec m N cols 0 (repeat [] m)) as (rows & Et & Lr & Hr).
  - intros l Ll. apply Hc. rewrite <- Lc. exact Ll.
  - split; [apply repeat_length|]. intros i' Li'. split; [|intros; lia].
    replace (nth i' (repeat [] m) []) with (@nil (nat * Qc)) by (symmetry; apply nth_repeat). exact I.
  - rewrite Et. cbn [bind]. cbn [Nat.add] in Hr. change (length cols) with (@length svec cols) in Hr. rewrite Lc in Hr.
    destruct (pi_loop_spec m cost rows basis (repeat 0 m)) as (pi & Ep & Lp & Vp).
    + intros row Hrow. destruct (In_nth _ _ [] Hrow) as (i' & Li' & <-). apply Hr. now rewrite <- Lr.
    + congruence.
    + apply repeat_length.
    + rewrite Ep. cbn [bind]. eexists. split; [reflexivity|]. split; [now rewrite map_length|].
      intros j Lj. unfold nthq. rewrite (nth_indep _ 0 (- (0))) by (rewrite map_length; lia).
      rewrite map_nth. f_equal. fold (nthq pi j). rewrite Vp.
      unfold nthq at 1. rewrite nth_repeat. rewrite Lr.
      rewrite (sum_ext m _ (fun r => N r j * cost (bcol basis r))); [ring|].
      intros r Lr'. destruct (Hr r Lr') as [_ Vr]. now rewrite Vr.
Qed.

Lemma foldM_sum {A} (step : Qc -> A -> res Qc) (f : A -> Qc) : forall l acc,
  (forall acc x, In x l -> step acc x = Ok (acc + f x)) ->
  foldM step l acc = Ok (acc + fold_right (fun x s => f x + s) 0 l).
Proof.
  induction l as [|x l IH]; intros acc H; cbn [foldM fold_right].
  - f_equal. ring.
  - rewrite H by now left. cbn [bind]. rewrite IH by (intros; apply H; now right). f_equal. ring.
Qed.
Lemma fold_seq_sum n : forall a f, fold_right (fun x s => f x + s) 0 (seq a n) = sum n (fun i => f (a + i)%nat).
Proof.
  induction n as [|n IH]; intros a f; [reflexivity|].
  cbn [seq fold_right]. rewrite IH. change (S n) with (1 + n)%nat. rewrite sum_add. cbn [sum].
  rewrite Nat.add_0_r.
  rewrite (sum_ext n (fun i => f (a + (1 + i))%nat) (fun i => f (S a + i)%nat)); [ring|].
  intros i _. f_equal. lia.
Qed.

Lemma minus_obj_spec m cost basis b :
  length basis = m -> length b = m ->
  create_minus_obj m cost basis b = Ok (- sum m (fun r => cost (bcol basis r) * nthq b r)).
Proof.
  intros Lba Lb. unfold create_minus_obj.
  rewrite (foldM_sum _ (fun r => cost (bcol basis r) * nthq b r)).
  - cbn [bind]. f_equal. f_equal. rewrite fold_seq_sum. cbn [Nat.add]. ring.
  - intros acc r Hr. apply in_seq in Hr. rewrite (index_Ok basis r 0%nat) by lia. cbn [bind].
    rewrite index_nthq by lia. cbn [bind]. unfold bcol. f_equal. ring.
Qed.

(** Assemble the invariant from a representation of the inverse. *)
Lemma carry_from_inverse k rhs basis b bi0 N mpi mobj :
  length basis = k_rows k -> length b = k_rows k ->
  (forall r, (r < k_rows k)%nat -> (bcol basis r < k_cols k)%nat) ->
  rep L (k_rows k) bi0 N -> is_inverse (k_rows k) N (bmat k basis) ->
  (forall i, (i < k_rows k)%nat -> sum (k_rows k) (fun r => bmat k basis i r * nthq b r) = rhs i) ->
  (forall r, (r < k_rows k)%nat -> 0 <= nthq b r) ->
  create_minus_pi O bi0 (k_rows k) (k_cost k) basis = Ok mpi ->
  create_minus_obj (k_rows k) (k_cost k) basis b = Ok mobj ->
  carry_inv L k rhs (mk_carry mobj mpi b basis bi0).
Proof.
  intros Lba Lb Rng Rep HN Hf Hnn Ep Eo.
  destruct (minus_pi_spec (k_rows k) bi0 N (k_cost k) basis Rep Lba) as (mpi' & Ep' & Lp & Vp).
  rewrite Ep in Ep'. inversion Ep'; subst mpi'.
  rewrite minus_obj_spec in Eo by assumption. inversion Eo; subst mobj.
  constructor; simpl; try assumption; try reflexivity.
  - now exists N.
  - intros r Lr.
    rewrite (sum_ext _ _ (fun i => - (sum (k_rows k) (fun l => k_cost k (bcol basis l) * N l i) * bmat k basis i r))).
    2:{ intros i Li. rewrite Vp by assumption.
        rewrite (sum_ext (k_rows k) (fun l => N l i * k_cost k (bcol basis l))
          (fun l => k_cost k (bcol basis l) * N l i)) by (intros; ring). ring. }
    rewrite sum_opp. f_equal. rewrite <- dot_assoc.
    rewrite (sum_ext _ _ (fun l => k_cost k (bcol basis l) * delta l r)).
    2:{ intros l Ll. f_equal. now apply (proj1 HN). }
    now rewrite (sum_delta_r _ r (fun l => k_cost k (bcol basis l))).
Qed.

(** ** Fully artificial start *)
Lemma fully_ok p : provider_ok p -> kind_ok (fully p).
Proof.
  intros P. split; simpl; [|lia]. intros j Lj. destruct (Nat.ltb_spec j (p_rows p)).
  - now apply sbasis_wfs.
  - apply (pok_cols p P). lia.
Qed.
Lemma sumq_spec l : sumq l = sum (length l) (nthq l).
Proof.
  unfold sumq.
  assert (G : forall l acc, fold_left (fun acc v => acc + v) l acc = acc + sum (length l) (nthq l)).
  { clear. induction l as [|v l IH]; intros acc; cbn [fold_left length].
    - simpl. ring.
    - rewrite IH. change (S (length l)) with (1 + length l)%nat. rewrite sum_add. cbn [sum Nat.add].
      unfold nthq. cbn [nth]. ring. }
  rewrite G. ring.
Qed.
Lemma new_fully_spec p :
  provider_ok p ->
  match new_fully O p with
  | Ok t => tab_inv L (fully p) (rhs_of p) t /\ c_basis (t_im t) = seq 0 (p_rows p)
  | Panic => ~ ok_new L (p_rows p)
  | Fuel => ~ ok_new L (p_rows p)
  end.
Proof.
  intros P. unfold new_fully, create_fully. rewrite (pok_len p P).
  destruct (bi_identity O (p_rows p)) as [i| |] eqn:E; cbn [bind].
  - cbn [t_im c_basis]. split; [|reflexivity]. split; [|reflexivity].
    set (m := p_rows p).
    assert (Hb : forall r, (r < m)%nat -> bcol (seq 0 m) r = r).
    { intros r Lr. unfold bcol. now rewrite seq_nth by assumption. }
    assert (HB : forall i r, (r < m)%nat -> bmat (fully p) (seq 0 m) i r = delta r i).
    { intros i' r Lr. unfold bmat, kA. rewrite Hb by assumption. cbn [k_col fully].
      destruct (Nat.ltb_spec r (p_rows p)); [|fold m in H; lia]. apply den_sbasis. }
    constructor; cbn [c_b c_basis c_mpi c_mobj c_bi fully k_rows k_cols t_im]; fold m.
    + apply (pok_len p P).
    + apply seq_length.
    + apply repeat_length.
    + intros r Lr. rewrite Hb by assumption. lia.
    + exists delta. split; [now apply (law_identity O L)|].
      apply inverse_ext with delta delta; [apply meq_refl| |apply delta_inverse].
      intros i' r _ Lr. rewrite HB by assumption. apply delta_sym.
    + intros i' Li. rewrite (sum_ext m _ (fun r => nthq (p_rhs p) r * delta r i')).
      * now rewrite (sum_delta_r m i' (nthq (p_rhs p))).
      * intros r Lr. rewrite HB by assumption. ring.
    + intros r Lr. now apply (pok_rhs p P).
    + intros r Lr. rewrite Hb by assumption. cbn [k_cost fully].
      destruct (Nat.ltb_spec r (p_rows p)); [|fold m in H; lia].
      rewrite (sum_ext m _ (fun i' => delta r i' * nthq (repeat (- (1)) m) i')).
      * rewrite (sum_delta_l m r (nthq (repeat (- (1)) m))) by assumption.
        unfold nthq. rewrite (nth_indep _ 0 (- (1))) by (rewrite repeat_length; assumption). apply nth_repeat.
      * intros i' Li'. rewrite HB by assumption. ring.
    + rewrite sumq_spec, (pok_len p P). fold m. f_equal. apply sum_ext. intros r Lr.
      rewrite Hb by assumption. cbn [k_cost fully]. destruct (Nat.ltb_spec r (p_rows p)); [|fold m in H; lia]. ring.
  - intros H. destruct (law_identity_total O L _ H) as [b Eb]. congruence.
  - intros H. destruct (law_identity_total O L _ H) as [b Eb]. congruence.
Qed.

(** ** Partially artificial start *)
(** rows [r, r+c) without a real pivot, and the basis column of each of these rows *)
Fixpoint compl (c r : nat) (real : list (nat * nat)) : list nat :=
  match c with
  | 0%nat => []
  | S c' => match real with
            | (rr, _) :: real' => if Nat.eqb rr r then compl c' (S r) real' else r :: compl c' (S r) real
            | [] => r :: compl c' (S r) []
            end
  end.
Fixpoint part (nr_art c r a : nat) (real : list (nat * nat)) : list nat :=
  match c with
  | 0%nat => []
  | S c' => match real with
            | (rr, j) :: real' => if Nat.eqb rr r then (nr_art + j)%nat :: part nr_art c' (S r) a real'
                                  else a :: part nr_art c' (S r) (S a) real
            | [] => a :: part nr_art c' (S r) (S a) []
            end
  end.

Lemma compl_ge c : forall r real x, In x (compl c r real) -> (r <= x < r + c)%nat.
Proof.
  induction c as [|c IH]; intros r real x H; [contradiction|]. cbn [compl] in H.
  destruct real as [|[rr j] real].
  - destruct H as [<-|H]; [lia|]. apply IH in H. lia.
  - destruct (Nat.eqb rr r).
    + apply IH in H. lia.
    + destruct H as [<-|H]; [lia|]. apply IH in H. lia.
Qed.
Lemma compl_length c : forall r real, increasing_from r (map fst real) ->
  (forall x, In x (map fst real) -> (x < r + c)%nat) ->
  (length (compl c r real) + length real = c)%nat.
Proof.
  induction c as [|c IH]; intros r real Hi Hr.
  - destruct real as [|[rr j] real]; [reflexivity|]. exfalso.
    pose proof (Hr rr (or_introl eq_refl)). simpl in Hi. lia.
  - cbn [compl]. destruct real as [|[rr j] real].
    + specialize (IH (S r) [] I). cbn [length] in *. specialize (IH ltac:(contradiction)). lia.
    + cbn [map fst increasing_from] in Hi. destruct Hi as [Hi1 Hi2].
      destruct (Nat.eqb_spec rr r) as [->|Ne].
      * cbn [length]. rewrite Nat.add_succ_r. f_equal. apply IH; [assumption|].
        intros x Hx. specialize (Hr x (or_intror Hx)). lia.
      * cbn [length] in *. cbn [Nat.add]. f_equal.
        apply (IH (S r) ((rr, j) :: real)).
        -- cbn [map fst increasing_from]. split; [lia|assumption].
        -- intros x Hx. specialize (Hr x Hx). lia.
Qed.
Lemma artificial_rows_compl c : forall ith i real, increasing_from (ith + i) (map fst real) ->
  artificial_rows (length (compl c (ith + i) real)) ith i (map fst real) = compl c (ith + i) real.
Proof.
  induction c as [|c IH]; intros ith i real Hi; [reflexivity|]. cbn [compl].
  destruct real as [|[rr j] real].
  - cbn [length artificial_rows map fst skip_real].
    f_equal. specialize (IH (S ith) i [] I). cbn [Nat.add map] in IH. exact IH.
  - cbn [map fst increasing_from] in Hi. destruct Hi as [Hi1 Hi2].
    destruct (Nat.eqb_spec rr (ith + i)) as [->|Ne].
    + assert (E : artificial_rows (length (compl c (S (ith + i)) real)) ith i (map fst (((ith + i)%nat, j) :: real))
        = artificial_rows (length (compl c (S (ith + i)) real)) ith (S i) (map fst real)).
      { destruct (length (compl c (S (ith + i)) real)); [reflexivity|].
        cbn [artificial_rows map fst skip_real]. now rewrite Nat.eqb_refl. }
      rewrite E. rewrite <- Nat.add_succ_r in *. now apply IH.
    + cbn [length artificial_rows map fst skip_real].
      destruct (Nat.eqb_spec (ith + i) rr); [congruence|].
      f_equal. apply (IH (S ith) i ((rr, j) :: real)). cbn [map fst increasing_from]. split; [lia|assumption].
Qed.
Lemma merge_basis_part nr_art c : forall r a real, increasing_from r (map fst real) ->
  (forall x, In x (map fst real) -> (x < r + c)%nat) ->
  merge_basis nr_art c a (compl c r real) real = Ok (part nr_art c r a real).
Proof.
  induction c as [|c IH]; intros r a real Hi Hr; [reflexivity|]. cbn [compl part].
  destruct real as [|[rr j] real].
  - cbn [merge_basis]. rewrite (IH (S r) (S a) []); [reflexivity|exact I|contradiction].
  - cbn [map fst increasing_from] in Hi. destruct Hi as [Hi1 Hi2].
    destruct (Nat.eqb_spec rr r) as [->|Ne].
    + assert (IH' := IH (S r) a real Hi2).
      destruct (compl c (S r) real) as [|ra arts] eqn:E; cbn [merge_basis].
      * rewrite IH'; [reflexivity|]. intros x Hx. specialize (Hr x (or_intror Hx)). lia.
      * assert (S r <= ra)%nat by (apply (compl_ge c (S r) real); rewrite E; now left).
        destruct (Nat.ltb_spec ra r); [lia|].
        rewrite IH'; [reflexivity|]. intros x Hx. specialize (Hr x (or_intror Hx)). lia.
    + cbn [merge_basis]. destruct (Nat.ltb_spec r rr); [|lia].
      rewrite (IH (S r) (S a) ((rr, j) :: real)); [reflexivity| |].
      * cbn [map fst increasing_from]. split; [lia|assumption].
      * intros x Hx. specialize (Hr x Hx). lia.
Qed.
Lemma part_length nr_art c : forall r a real, length (part nr_art c r a real) = c.
Proof.
  induction c as [|c IH]; intros r a real; [reflexivity|]. cbn [part].
  destruct real as [|[rr j] real]; [cbn [length]; now rewrite IH|].
  destruct (Nat.eqb rr r); cbn [length]; now rewrite IH.
Qed.
(** what the basis column of row [r + i] is *)
Lemma part_nth nr_art c : forall r a real i, increasing_from r (map fst real) -> (i < c)%nat ->
  (a + length (compl c r real) <= nr_art)%nat ->
  (exists j, In ((r + i)%nat, j) real /\ nth i (part nr_art c r a real) 0%nat = (nr_art + j)%nat /\
     ~ In (r + i)%nat (compl c r real)) \/
  (exists l, (l < length (compl c r real))%nat /\ nth i (part nr_art c r a real) 0%nat = (a + l)%nat /\
     nth l (compl c r real) 0%nat = (r + i)%nat).
Proof.
  induction c as [|c IH]; intros r a real i Hi Li La; [lia|]. cbn [compl part] in *.
  destruct real as [|[rr j] real].
  - destruct i as [|i].
    + right. exists 0%nat. cbn [length nth]. repeat split; lia.
    + cbn [nth]. cbn [length] in La. destruct (IH (S r) (S a) [] i I ltac:(lia) ltac:(lia)) as [(j & [] & _)|(l & H1 & H2 & H3)].
      right. exists (S l). cbn [length nth]. repeat split; lia.
  - cbn [map fst increasing_from] in Hi. destruct Hi as [Hi1 Hi2].
    destruct (Nat.eqb_spec rr r) as [->|Ne].
    + destruct i as [|i].
      * left. exists j. cbn [nth]. rewrite Nat.add_0_r. repeat split; [now left|].
        intros H. apply compl_ge in H. lia.
      * cbn [nth]. destruct (IH (S r) a real i Hi2 ltac:(lia) La) as [(j' & H1 & H2 & H3)|(l & H1 & H2 & H3)].
        -- left. exists j'. rewrite <- Nat.add_succ_comm. repeat split; try assumption. now right.
        -- right. exists l. rewrite <- Nat.add_succ_comm. now repeat split.
    + destruct i as [|i].
      * right. exists 0%nat. cbn [length nth]. repeat split; lia.
      * cbn [nth]. cbn [length] in La.
        destruct (IH (S r) (S a) ((rr, j) :: real) i) as [(j' & H1 & H2 & H3)|(l & H1 & H2 & H3)].
        -- cbn [map fst increasing_from]. split; [lia|assumption].
        -- lia.
        -- lia.
        -- left. exists j'. rewrite <- Nat.add_succ_comm. repeat split; try assumption.
           intros [H|H]; [lia|contradiction].
        -- right. exists (S l). cbn [length nth]. rewrite <- Nat.add_succ_comm. repeat split; try assumption; lia.
Qed.
Lemma art_mpi_spec c : forall r real,
  let l := art_mpi (seq r c) (compl c r real) in
  length l = c /\
  (forall i, (i < c)%nat -> In (r + i)%nat (compl c r real) -> nthq l i = - (1)) /\
  (forall i, (i < c)%nat -> ~ In (r + i)%nat (compl c r real) -> nthq l i = 0).
Proof.
  induction c as [|c IH]; intros r real; cbv zeta.
  - repeat split; intros; lia.
  - cbn [seq compl].
    assert (Hr : forall rl, ~ In r (compl c (S r) rl)) by (intros rl H; apply compl_ge in H; lia).
    assert (Cons : forall rl, length (art_mpi (r :: seq (S r) c) (r :: compl c (S r) rl)) = S c /\
      (forall i, (i < S c)%nat -> In (r + i)%nat (r :: compl c (S r) rl) ->
         nthq (art_mpi (r :: seq (S r) c) (r :: compl c (S r) rl)) i = - (1)) /\
      (forall i, (i < S c)%nat -> ~ In (r + i)%nat (r :: compl c (S r) rl) ->
         nthq (art_mpi (r :: seq (S r) c) (r :: compl c (S r) rl)) i = 0)).
    { intros rl. cbn [art_mpi]. rewrite Nat.eqb_refl. destruct (IH (S r) rl) as (A & B & C).
      split; [cbn [length]; now rewrite A|]. split.
      - intros [|i] Li Hin; [reflexivity|]. unfold nthq. cbn [nth]. apply B; [lia|].
        destruct Hin as [Hin|Hin]; [lia|]. now rewrite Nat.add_succ_comm.
      - intros [|i] Li Hin; [exfalso; apply Hin; left; lia|]. unfold nthq. cbn [nth]. apply C; [lia|].
        intros H. apply Hin. right. now rewrite <- Nat.add_succ_comm. }
    destruct real as [|[rr j] real]; [apply Cons|].
    destruct (Nat.eqb_spec rr r) as [->|Ne]; [|apply Cons].
    destruct (IH (S r) real) as (A & B & C).
    assert (E : art_mpi (r :: seq (S r) c) (compl c (S r) real) = 0 :: art_mpi (seq (S r) c) (compl c (S r) real)).
    { specialize (Hr real). destruct (compl c (S r) real) as [|a l]; [reflexivity|].
      cbn [art_mpi]. destruct (Nat.eqb_spec a r) as [->|]; [exfalso; apply Hr; now left|reflexivity]. }
    rewrite E. split; [cbn [length]; now rewrite A|]. split.
    + intros [|i] Li Hin; [rewrite Nat.add_0_r in Hin; now apply Hr in Hin|].
      unfold nthq. cbn [nth]. apply B; [lia|]. now rewrite Nat.add_succ_comm.
    + intros [|i] Li Hin; [reflexivity|]. unfold nthq. cbn [nth]. apply C; [lia|].
      now rewrite Nat.add_succ_comm.
Qed.
Lemma compl_NoDup c : forall r real, NoDup (compl c r real).
Proof.
  induction c as [|c IH]; intros r real; [constructor|]. cbn [compl].
  destruct real as [|[rr j] real].
  - constructor; [|apply IH]. intros H. apply compl_ge in H. lia.
  - destruct (Nat.eqb rr r); [apply IH|]. constructor; [|apply IH]. intros H. apply compl_ge in H. lia.
Qed.
(** sum over the artificial rows as a sum over all rows *)
Lemma compl_sum (f : nat -> Qc) c : forall r real,
  fold_right (fun x s => f x + s) 0 (compl c r real) =
  sum c (fun i => if memb (r + i) (compl c r real) then f (r + i)%nat else 0).
Proof.
  induction c as [|c IH]; intros r real; [reflexivity|].
  change (S c) with (1 + c)%nat at 2. rewrite sum_add. cbn [sum]. rewrite Nat.add_0_r.
  assert (Hr : forall rl, memb r (compl c (S r) rl) = false).
  { intros rl. apply memb_false. intros H. apply compl_ge in H. lia. }
  assert (Cons : forall rl, fold_right (fun x s => f x + s) 0 (r :: compl c (S r) rl) =
     0 + (if memb r (r :: compl c (S r) rl) then f r else 0) +
     sum c (fun i => if memb (r + (1 + i)) (r :: compl c (S r) rl) then f (r + (1 + i))%nat else 0)).
  { intros rl. cbn [fold_right]. rewrite IH. unfold memb at 2. cbn [existsb]. rewrite Nat.eqb_refl. cbn [orb].
    rewrite (sum_ext c (fun i => if memb (r + (1 + i)) (r :: compl c (S r) rl) then f (r + (1 + i))%nat else 0)
       (fun i => if memb (S r + i) (compl c (S r) rl) then f (S r + i)%nat else 0)).
    - ring.
    - intros i Li. replace (r + (1 + i))%nat with (S r + i)%nat by lia.
      unfold memb at 1. cbn [existsb]. fold (memb (S r + i) (compl c (S r) rl)).
      destruct (Nat.eqb_spec (S r + i) r); [lia|reflexivity]. }
  cbn [compl]. destruct real as [|[rr j] real]; [apply Cons|].
  destruct (Nat.eqb_spec rr r) as [->|Ne]; [|apply Cons].
  rewrite Hr, IH.
  rewrite (sum_ext c (fun i => if memb (r + (1 + i)) (compl c (S r) real) then f (r + (1 + i))%nat else 0)
       (fun i => if memb (S r + i) (compl c (S r) real) then f (S r + i)%nat else 0)); [ring|].
  intros i Li. now replace (r + (1 + i))%nat with (S r + i)%nat by lia.
Qed.

Lemma partially_ok p arts :
  provider_ok p -> (forall x, In x arts -> (x < p_rows p)%nat) -> kind_ok (partially p arts).
Proof.
  intros P H. split; simpl; [|lia]. intros j Lj. destruct (Nat.ltb_spec j (length arts)).
  - apply sbasis_wfs. apply H. now apply nth_In.
  - apply (pok_cols p P). lia.
Qed.

Lemma new_partially_spec p real :
  provider_ok p ->
  increasing_from 0 (map fst real) ->
  (forall r j, In (r, j) real -> (r < p_rows p)%nat /\ (j < p_cols p)%nat /\ p_col p j = sbasis r) ->
  match new_partially O p real with
  | Ok (t, arts) => tab_inv L (partially p arts) (rhs_of p) t /\
       (forall x, In x arts -> (x < p_rows p)%nat) /\ NoDup arts /\
       (forall i, (i < p_rows p)%nat -> (bcol (c_basis (t_im t)) i < length arts)%nat ->
          nth (bcol (c_basis (t_im t)) i) arts 0%nat = i)
  | Panic => ~ ok_new L (p_rows p)
  | Fuel => ~ ok_new L (p_rows p)
  end.
Proof.
  intros P Hi Hreal. unfold new_partially. set (m := p_rows p) in *.
  assert (Hlt : forall x, In x (map fst real) -> (x < 0 + m)%nat).
  { intros x Hx. apply in_map_iff in Hx. destruct Hx as ([r j] & <- & H). now apply Hreal in H. }
  pose proof (compl_length m 0 real Hi Hlt) as Hlen.
  destruct (Nat.ltb_spec m (length real)); [lia|].
  replace (m - length real)%nat with (length (compl m 0 real)) by lia.
  pose proof (artificial_rows_compl m 0 0 real Hi) as Ea. cbn [Nat.add] in Ea. rewrite Ea.
  rewrite (merge_basis_part _ m 0 0 real Hi Hlt). cbn [bind].
  set (arts := compl m 0 real) in *. set (na := length arts) in *.
  set (basis := part na m 0 0 real).
  assert (Harts : forall x, In x arts -> (x < m)%nat) by (intros x Hx; apply compl_ge in Hx; lia).
  unfold create_partially. rewrite (pok_len p P). fold m.
  rewrite (foldM_sum _ (nthq (p_rhs p))).
  2:{ intros acc a Ha. rewrite index_nthq by (rewrite (pok_len p P); now apply Harts). reflexivity. }
  cbn [bind].
  destruct (bi_identity O m) as [i| |] eqn:E; cbn [bind].
  2, 3: intros H'; destruct (law_identity_total O L _ H') as [b Eb]; congruence.
  cbn [t_im c_basis].
  assert (Lbas : length basis = m) by apply part_length.
  (* classification of the rows *)
  assert (Hcl : forall r, (r < m)%nat ->
     (exists j, In (r, j) real /\ bcol basis r = (na + j)%nat /\ ~ In r arts) \/
     (exists l, (l < na)%nat /\ bcol basis r = l /\ nth l arts 0%nat = r)).
  { intros r Lr. unfold bcol, basis.
    pose proof (part_nth na m 0 0 real r Hi Lr ltac:(unfold na, arts; lia)) as H0.
    cbn [Nat.add] in H0. exact H0. }
  assert (HB : forall i r, (r < m)%nat -> bmat (partially p arts) basis i r = delta r i).
  { intros i' r Lr. unfold bmat, kA. cbn [k_col partially].
    destruct (Hcl r Lr) as [(j & H1 & H2 & H3)|(l & H1 & H2 & H3)]; rewrite H2.
    - destruct (Nat.ltb_spec (na + j) (length arts)); [fold na in H0; lia|].
      replace (na + j - length arts)%nat with j by (fold na; lia).
      destruct (Hreal r j H1) as (_ & _ & Ec). rewrite Ec. apply den_sbasis.
    - destruct (Nat.ltb_spec l (length arts)); [|fold na in H0; lia]. rewrite H3. apply den_sbasis. }
  assert (Hcost : forall r, (r < m)%nat -> k_cost (partially p arts) (bcol basis r) =
      if memb r arts then 1 else 0).
  { intros r Lr. cbn [k_cost partially].
    destruct (Hcl r Lr) as [(j & H1 & H2 & H3)|(l & H1 & H2 & H3)]; rewrite H2.
    - destruct (Nat.ltb_spec (na + j) (length arts)); [fold na in H0; lia|].
      apply memb_false in H3. now rewrite H3.
    - destruct (Nat.ltb_spec l (length arts)); [|fold na in H0; lia].
      assert (memb r arts = true) as ->; [|reflexivity]. apply memb_In. rewrite <- H3. now apply nth_In. }
  destruct (art_mpi_spec m 0 real) as (A1 & A2 & A3). cbv zeta in A1, A2, A3. fold arts in A1, A2, A3.
  split.
  - split; [|reflexivity].
    constructor; cbn [c_b c_basis c_mpi c_mobj c_bi partially k_rows k_cols t_im]; fold m.
    + apply (pok_len p P).
    + assumption.
    + exact A1.
    + intros r Lr. destruct (Hcl r Lr) as [(j & H1 & H2 & H3)|(l & H1 & H2 & H3)]; rewrite H2; fold na.
      * destruct (Hreal r j H1) as (_ & H0 & _). lia.
      * lia.
    + exists delta. split; [now apply (law_identity O L)|].
      apply inverse_ext with delta delta; [apply meq_refl| |apply delta_inverse].
      intros i' r _ Lr. rewrite HB by assumption. apply delta_sym.
    + intros i' Li. rewrite (sum_ext m _ (fun r => nthq (p_rhs p) r * delta r i')).
      * now rewrite (sum_delta_r m i' (nthq (p_rhs p))).
      * intros r Lr. rewrite HB by assumption. ring.
    + intros r Lr. now apply (pok_rhs p P).
    + intros r Lr. rewrite Hcost by assumption.
      rewrite (sum_ext m _ (fun i' => delta r i' * nthq (art_mpi (seq 0 m) arts) i')).
      2:{ intros i' Li'. rewrite HB by assumption. ring. }
      rewrite (sum_delta_l m r (nthq (art_mpi (seq 0 m) arts))) by assumption.
      destruct (memb r arts) eqn:M.
      * apply memb_In in M. now apply A2.
      * apply memb_false in M. rewrite A3 by assumption. ring.
    + f_equal. unfold arts at 1. rewrite (compl_sum (nthq (p_rhs p)) m 0 real). fold arts.
      match goal with |- 0 + ?s = _ => replace (0 + s) with s by ring end.
      apply sum_ext. intros r Lr. cbn [Nat.add]. rewrite Hcost by assumption.
      destruct (memb r arts); ring.
  - split; [assumption|]. split; [apply compl_NoDup|]. intros r Lr Hl.
    destruct (Hcl r Lr) as [(j & H1 & H2 & H3)|(l & H1 & H2 & H3)].
    + rewrite H2 in Hl. fold na in Hl. lia.
    + now rewrite H2.
Qed.

(** ** Start from a full basis *)
Lemma insert_by_head {A} (key : A -> nat) x l :
  (forall y, In y l -> (key y <= key x)%nat) -> insert_by key x l = l ++ [x].
Proof.
  induction l as [|y l IH]; intros H; [reflexivity|]. cbn [insert_by app].
  destruct (Nat.ltb_spec (key x) (key y)) as [C|C].
  - specialize (H y (or_introl eq_refl)). lia.
  - rewrite IH; [reflexivity|]. intros z Hz. apply H. now right.
Qed.
Lemma increasing_ge lo l x : increasing_from lo l -> In x l -> (lo <= x)%nat.
Proof.
  revert lo. induction l as [|y l IH]; intros lo H Hx; [contradiction|].
  destruct H as [H1 H2]. destruct Hx as [->|Hx]; [assumption|]. specialize (IH _ H2 Hx). lia.
Qed.
Lemma sort_by_sorted (l : list (nat * nat)) : increasing_from 0 (map fst l) -> sort_by fst l = l.
Proof.
  intros H. unfold sort_by.
  assert (G : forall (l acc : list (nat * nat)) lo, increasing_from lo (map fst l) -> (forall y, In y acc -> (fst y < lo)%nat) ->
    fold_left (fun acc x => insert_by fst x acc) l acc = acc ++ l).
  { clear. induction l as [|x l IH]; intros acc lo H Ha; cbn [fold_left].
    - now rewrite app_nil_r.
    - cbn [map increasing_from] in H. destruct H as [H1 H2].
      rewrite insert_by_head.
      + rewrite (IH _ (S (fst x))); [now rewrite <- app_assoc|assumption|].
        intros y Hy. apply in_app_or in Hy. destruct Hy as [Hy|[<-|[]]]; [|lia].
        specialize (Ha y Hy). lia.
      + intros y Hy. specialize (Ha y Hy). lia. }
  now rewrite (G l [] 0%nat).
Qed.

Lemma non_artificial_ok p :
  (forall j, (j < p_cols p)%nat -> wfs (p_rows p) (p_col p j)) -> kind_ok (non_artificial p).
Proof. intros P. split; simpl; [|lia]. assumption. Qed.

Lemma foldM_set m : forall col lo b, fwf lo m col -> length b = m ->
  exists b', foldM (fun b '(r, v) => set_index b r v) col b = Ok b' /\ length b' = m /\
    forall i, nthq b' i = if qzero (den col i) then nthq b i else den col i.
Proof.
  induction col as [|[r v] col IH]; intros lo b W Lb.
  - exists b. repeat split; try assumption.
  - destruct W as (Hr & Nz & W). cbn [foldM]. unfold set_index at 1. rewrite Lb.
    destruct (Nat.ltb_spec r m); [|lia]. cbn [bind].
    destruct (IH (S r) (upd b r v)) as (b' & E & L' & V); [assumption|now rewrite upd_length|].
    exists b'. repeat split; try assumption. intros i. rewrite V, nthq_upd by lia. cbn [den].
    destruct (Nat.eqb_spec i r) as [->|Ne].
    + rewrite (den_below (S r) m col r) by (try assumption; lia).
      replace (v + 0) with v by ring. replace (qzero 0) with true by reflexivity.
      destruct (qzero v) eqn:Z; qb; [contradiction|reflexivity].
    + now replace (0 + den col i) with (den col i) by ring.
Qed.

Lemma from_basis_core p basis : length (p_rhs p) = p_rows p ->
  (forall j, (j < p_cols p)%nat -> wfs (p_rows p) (p_col p j)) ->
  length basis = p_rows p -> (forall j, In j basis -> (j < p_cols p)%nat) ->
  (exists N, is_inverse (p_rows p) N (fun i r => den (p_col p (nth r basis 0%nat)) i) /\
        forall r, (r < p_rows p)%nat -> 0 <= sum (p_rows p) (fun i => N r i * nthq (p_rhs p) i)) ->
  match from_basis O basis p with
  | Ok c => carry_inv L (non_artificial p) (rhs_of p) c /\ c_basis c = basis
  | Panic => ~ ok_invert L (p_rows p)
  | Fuel => ~ ok_invert L (p_rows p)
  end.
Proof.
  intros Plen Pcols Lbas Hr (N & HN & Hnn). set (k := non_artificial p).
  set (m := p_rows p) in *.
  assert (Rng : forall r, (r < m)%nat -> (bcol basis r < k_cols k)%nat).
  { intros r Lr. unfold bcol. apply Hr. apply nth_In. lia. }
  pose proof (non_artificial_ok p Pcols) as Hk.
  assert (Ecols : basis_columns_of k basis = Ok (map (k_col k) basis)).
  { apply basis_columns_of_spec. now rewrite Lbas. }
  assert (HNb : is_inverse m N (bmat k basis)) by exact HN.
  assert (HNc : is_inverse m N (cols_mat (map (k_col k) basis))).
  { apply inverse_ext with N (bmat k basis); [apply meq_refl| |assumption].
    intros i r Li Lr. symmetry. apply cols_mat_map. now rewrite Lbas. }
  assert (Wcols : Forall (wfs m) (map (k_col k) basis)).
  { apply Forall_forall. intros x Hx. apply in_map_iff in Hx. destruct Hx as (j & <- & Hj).
    apply (proj1 Hk). apply In_bcol in Hj. destruct Hj as (r & Lr & <-). apply Rng. now rewrite <- Lbas. }
  unfold from_basis. fold k. rewrite Ecols. cbn [bind].
  destruct (bi_invert O (map (k_col k) basis)) as [i| |] eqn:E; cbn [bind].
  2, 3: intros H; destruct (law_invert_total O L m (map (k_col k) basis) N H) as [b Eb];
    [now rewrite map_length|assumption|assumption|congruence].
  assert (Rep : rep L m i N).
  { apply (law_invert O L m (map (k_col k) basis)); try assumption. now rewrite map_length. }
  destruct (sfrom_spec (p_rhs p)) as [Ws Vs]. rewrite Plen in Ws. fold m in Ws.
  destruct (law_left O L m i N (sfrom (p_rhs p)) Rep Ws) as (bc & Ebc & Wbc & Vbc).
  rewrite Ebc. cbn [bind].
  destruct (foldM_set m (cci_col O bc) 0 (repeat 0 m) Wbc (repeat_length _ _)) as (b & Eb & Lb & Vb).
  fold m. rewrite Eb. cbn [bind].
  assert (Hb : forall r, (r < m)%nat -> nthq b r = sum m (fun l => N r l * nthq (p_rhs p) l)).
  { intros r Lr. rewrite Vb.
    assert (Hd : den (cci_col O bc) r = sum m (fun l => N r l * nthq (p_rhs p) l)).
    { rewrite Vbc by assumption. apply sum_ext. intros l Ll. now rewrite Vs. }
    destruct (qzero (den (cci_col O bc) r)) eqn:Z; qb; [|assumption].
    rewrite <- Hd, Z. unfold nthq. apply nth_repeat. }
  rewrite (minus_obj_spec m (p_cost p) basis b Lbas Lb). cbn [bind].
  destruct (minus_pi_spec m i N (p_cost p) basis Rep Lbas) as (mpi & Ep & Lp & Vp).
  rewrite Ep. cbn [bind c_basis]. split; [|reflexivity].
  apply (carry_from_inverse k (rhs_of p) basis b i N); try assumption.
  - intros i' Li'. rewrite (sum_ext _ _ (fun r => bmat k basis i' r * sum m (fun l => N r l * nthq (p_rhs p) l))).
    2:{ intros r Lr. now rewrite Hb. }
    rewrite mv_assoc. rewrite (sum_ext _ _ (fun l => delta i' l * nthq (p_rhs p) l)).
    + now rewrite (sum_delta_l _ i' (nthq (p_rhs p))).
    + intros l Ll. f_equal. now apply (proj2 HNb).
  - intros r Lr. rewrite Hb by assumption. now apply Hnn.
  - rewrite <- (minus_obj_spec m (p_cost p) basis b Lbas Lb). reflexivity.
Qed.
Lemma from_basis_spec p pivots :
  provider_ok p ->
  increasing_from 0 (map fst pivots) -> length pivots = p_rows p ->
  (forall r j, In (r, j) pivots -> (r < p_rows p)%nat /\ (j < p_cols p)%nat) ->
  (exists N, is_inverse (p_rows p) N (fun i r => den (p_col p (nth r (map snd pivots) 0%nat)) i) /\
        forall r, (r < p_rows p)%nat -> 0 <= sum (p_rows p) (fun i => N r i * nthq (p_rhs p) i)) ->
  match from_basis_pivots O pivots p with
  | Ok c => carry_inv L (non_artificial p) (rhs_of p) c /\ c_basis c = map snd pivots
  | Panic => ~ ok_invert L (p_rows p)
  | Fuel => ~ ok_invert L (p_rows p)
  end.
Proof.
  intros P Hi Hl Hr H. unfold from_basis_pivots. rewrite sort_by_sorted by assumption.
  apply from_basis_core; try assumption; try apply P; [now rewrite map_length|].
  intros j Hj. apply in_map_iff in Hj. destruct Hj as ([r j'] & <- & Hj). now apply Hr in Hj.
Qed.

End Pi.
