(** * Pivot rules: they select a profitable column whenever there is one *)
From Verif Require Export TableauP PivotRule.

(** candidate columns for entering the basis *)
Definition candidate {O} (k : kind) (t : tableau O) (j : nat) : Prop :=
  (k_art k <= j < k_cols k)%nat /\ ~ In j (t_cols t).

Definition select_ok {O} (k : kind) (t : tableau O) (sel : option (nat * Qc)) : Prop :=
  match sel with
  | None => forall j, candidate k t j -> 0 <= relative_cost k t j
  | Some (q, c) => candidate k t q /\ c = relative_cost k t q /\ c < 0
  end.

(** a basis change from [t] to [t'] as the simplex loops do it *)
Definition pivoted {O} (L : BILaws O) (k : kind) (rhs : vec) (t : tableau O) (q p : nat) (cc : cci O)
  (t' : tableau O) (info : change_info) : Prop :=
  tab_inv L k rhs t /\ tab_inv L k rhs t' /\ info_ok k t cc p q info /\
  c_basis (t_im t') = upd (c_basis (t_im t)) p q /\ (p < k_rows k)%nat /\
  generate_column k t q = Ok cc /\ den (cci_col O cc) p <> 0.

Record RuleLaws {O} (L : BILaws O) (R : Rule O) := mk_rlaws {
  rl_inv : kind -> tableau O -> r_state R -> Prop;
  rl_mid : kind -> tableau O -> nat -> r_state R -> Prop;
  rl_new : forall k rhs t, kind_ok k -> tab_inv L k rhs t ->
    exists s, r_new R k t = Ok s /\ rl_inv k t s;
  rl_select : forall k rhs t s, kind_ok k -> tab_inv L k rhs t -> rl_inv k t s ->
    exists sel s', r_select R s k t = Ok (sel, s') /\ select_ok k t sel /\
      match sel with Some (q, _) => rl_mid k t q s' | None => True end;
  rl_after : forall k rhs t q p cc t' info s, kind_ok k ->
    pivoted L k rhs t q p cc t' info -> candidate k t q -> rl_mid k t q s ->
    exists s', r_after R s info k t' = Ok s' /\ rl_inv k t' s'
}.

Section Rules.
Variable O : BIOps.
Variable L : BILaws O.

Lemma in_basis_true (t : tableau O) j : in_basis t j = true <-> In j (t_cols t).
Proof. apply memb_In. Qed.
Lemma in_basis_false (t : tableau O) j : in_basis t j = false <-> ~ In j (t_cols t).
Proof. apply memb_false. Qed.

Lemma find_profitable_spec k (t : tableau O) l :
  match find_profitable O k t l with
  | None => forall j, In j l -> ~ In j (t_cols t) -> 0 <= relative_cost k t j
  | Some (q, c) => In q l /\ ~ In q (t_cols t) /\ c = relative_cost k t q /\ c < 0
  end.
Proof.
  induction l as [|j l IH]; simpl; [tauto|].
  destruct (in_basis t j) eqn:B.
  - apply in_basis_true in B. destruct (find_profitable O k t l) as [[q c]|]; [tauto|].
    intros i [->|Hi] Ni; [contradiction|now apply IH].
  - apply in_basis_false in B. destruct (qneg (relative_cost k t j)) eqn:Z; qb.
    + tauto.
    + destruct (find_profitable O k t l) as [[q c]|]; [tauto|].
      intros i [->|Hi] Ni; [assumption|now apply IH].
Qed.

(** the first profitable column really is the first *)
Lemma find_profitable_first k (t : tableau O) a b q c :
  find_profitable O k t (range a b) = Some (q, c) ->
  forall j, (a <= j < q)%nat -> ~ In j (t_cols t) -> 0 <= relative_cost k t j.
Proof.
  unfold range. generalize (b - a)%nat as n. intros n. revert a. induction n as [|n IH]; intros a; simpl.
  - discriminate.
  - destruct (in_basis t a) eqn:B.
    + intros E j Hj Nj. apply in_basis_true in B. apply (IH _ E); [|assumption].
      destruct (Nat.eq_dec j a) as [->|]; [contradiction|lia].
    + destruct (qneg (relative_cost k t a)) eqn:Z; qb.
      * intros E. inversion E; subst. lia.
      * intros E j Hj Nj. destruct (Nat.eq_dec j a) as [->|]; [assumption|].
        apply (IH _ E); [lia|assumption].
Qed.

Definition first_profitable_laws : RuleLaws L (first_profitable O).
Proof.
  refine (mk_rlaws O L (first_profitable O) (fun _ _ _ => True) (fun _ _ _ _ => True) _ _ _).
  - intros. now exists tt.
  - intros k rhs t s _ _ _. simpl. eexists. eexists. split; [reflexivity|].
    pose proof (find_profitable_spec k t (range (k_art k) (k_cols k))) as F.
    destruct (find_profitable O k t (range (k_art k) (k_cols k))) as [[q c]|]; simpl.
    + rewrite In_range in F. unfold candidate. tauto.
    + split; [|exact I]. intros j [R N]. apply F; [now apply In_range|assumption].
  - intros. now exists s.
Defined.

Definition fpm_inv (k : kind) (t : tableau O) (s : option nat) : Prop :=
  match s with None => True | Some last => (k_art k <= last)%nat /\ In last (t_cols t) end.

Definition first_profitable_memory_laws : RuleLaws L (first_profitable_memory O).
Proof.
  refine (mk_rlaws O L (first_profitable_memory O) fpm_inv
     (fun k t q s => s = Some q) _ _ _).
  - intros. now exists None.
  - intros k rhs t s Hk Ht Hs. simpl. eexists. eexists. split; [reflexivity|].
    destruct s as [last|]; simpl in Hs.
    + pose proof (find_profitable_spec k t (range (last + 1) (k_cols k))) as F.
      destruct (find_profitable O k t (range (last + 1) (k_cols k))) as [[q c]|]; simpl.
      * rewrite In_range in F. unfold candidate. repeat split; try tauto; lia.
      * pose proof (find_profitable_spec k t (range (k_art k) last)) as G.
        destruct (find_profitable O k t (range (k_art k) last)) as [[q c]|]; simpl.
        -- rewrite In_range in G. unfold candidate. destruct G as (G1 & G2 & G3 & G4).
           repeat split; try tauto; try lia.
           assert (last < k_cols k)%nat; [|lia].
           destruct Ht as [I S]. destruct Hs as [_ Hs]. apply S, In_bcol in Hs.
           destruct Hs as (r & Lr & <-). apply (ci_range _ _ _ _ _ I).
           now rewrite (ci_lbasis _ _ _ _ _ I) in Lr.
        -- split; [|exact I]. intros j [R N].
           destruct (Nat.lt_trichotomy j last) as [H|[->|H]].
           ++ apply G; [apply In_range; lia|assumption].
           ++ tauto.
           ++ apply F; [apply In_range; lia|assumption].
    + pose proof (find_profitable_spec k t (range (k_art k) (k_cols k))) as F.
      destruct (find_profitable O k t (range (k_art k) (k_cols k))) as [[q c]|]; simpl.
      * rewrite In_range in F. unfold candidate. tauto.
      * split; [|exact I]. intros j [R N]. apply F; [now apply In_range|assumption].
  - intros k rhs t q p cc t' info s Hk Hp Hq Hs. simpl in Hs. subst s. exists (Some q).
    split; [reflexivity|]. simpl. split; [apply Hq|].
    destruct Hp as (_ & [I' S'] & _ & Eb & Lp & _). apply S'. rewrite Eb.
    apply In_bcol. exists p. rewrite upd_length.
    pose proof (ci_lbasis _ _ _ _ _ I') as Lb. rewrite Eb, upd_length in Lb.
    split; [lia|]. unfold bcol. rewrite upd_nth by lia. now rewrite Nat.eqb_refl.
Defined.

(** ** Largest coefficient *)
Definition svar_state (k : kind) (t : tableau O) (P : nat -> Prop) (acc : option (nat * Qc)) : Prop :=
  match acc with
  | None => forall j, P j -> ~ In j (t_cols t) -> 0 <= relative_cost k t j
  | Some (q, c) => P q /\ ~ In q (t_cols t) /\ c = relative_cost k t q /\ c < 0 /\
      forall j, P j -> ~ In j (t_cols t) -> c <= relative_cost k t j
  end.
Lemma svar_fold k (t : tableau O) l (P : nat -> Prop) acc :
  svar_state k t P acc ->
  svar_state k t (fun j => P j \/ In j l) (fold_left (steepest_variable_step O k t) l acc).
Proof.
  revert P acc. induction l as [|j l IH]; intros P acc H.
  - simpl. destruct acc as [[q c]|]; simpl in *.
    + repeat split; try tauto. intros j [Pj|[]]. now apply H.
    + intros j [Pj|[]]. now apply H.
  - simpl. assert (S1 : svar_state k t (fun i => P i \/ i = j) (steepest_variable_step O k t acc j)).
    { unfold steepest_variable_step. destruct (in_basis t j) eqn:B.
      - apply in_basis_true in B. destruct acc as [[q c]|]; simpl in *.
        + repeat split; try tauto. intros i [Pi|Ei] Ni; [now apply H|congruence].
        + intros i [Pi|Ei] Ni; [now apply H|congruence].
      - apply in_basis_false in B. destruct (qneg (relative_cost k t j)) eqn:Z; qb.
        + destruct acc as [[q c]|]; simpl in *.
          * destruct H as (H1 & H2 & H3 & H4 & H5).
            destruct (qltb (relative_cost k t j) c) eqn:Y; qb; simpl.
            -- repeat split; try tauto. intros i [Pi|Ei] Ni; [|subst i; apply Qcle_refl].
               specialize (H5 i Pi Ni). qlra.
            -- repeat split; try tauto. intros i [Pi|Ei] Ni; [now apply H5|now subst i].
          * repeat split; try tauto. intros i [Pi|Ei] Ni; [|subst i; apply Qcle_refl].
            specialize (H i Pi Ni). qlra.
        + destruct acc as [[q c]|]; simpl in *.
          * destruct H as (H1 & H2 & H3 & H4 & H5). repeat split; try tauto.
            intros i [Pi|Ei] Ni; [now apply H5|]. subst i. qlra.
          * intros i [Pi|Ei] Ni; [now apply H|]. now subst i. }
    apply IH in S1.
    destruct (fold_left _ l _) as [[q c]|]; simpl in *.
    + destruct S1 as (H1 & H2 & H3 & H4 & H5). repeat split; try assumption; try tauto.
      * destruct H1 as [[H1|H1]|H1]; auto.
      * intros i Hi. apply H5. destruct Hi as [Hi|[Hi|Hi]]; auto.
    + intros i Hi. apply S1. destruct Hi as [Hi|[Hi|Hi]]; auto.
Qed.
Lemma steepest_variable_spec k (t : tableau O) :
  let r := fold_left (steepest_variable_step O k t) (range (k_art k) (k_cols k)) None in
  select_ok k t r /\
  match r with
  | Some (q, c) => forall j, candidate k t j -> c <= relative_cost k t j
  | None => True
  end.
Proof.
  intros r. pose proof (svar_fold k t (range (k_art k) (k_cols k)) (fun _ => False) None) as S.
  fold r in S. simpl in S. specialize (S ltac:(tauto)).
  destruct r as [[q c]|]; simpl in *.
  - destruct S as ([[]|H1] & H2 & H3 & H4 & H5). apply In_range in H1.
    unfold candidate. repeat split; try tauto; try lia.
    intros j [R N]. apply H5; [right; now apply In_range|assumption].
  - split; [|exact I]. intros j [R N]. apply S; [right; now apply In_range|assumption].
Qed.
Definition steepest_variable_laws : RuleLaws L (steepest_variable O).
Proof.
  refine (mk_rlaws O L (steepest_variable O) (fun _ _ _ => True) (fun _ _ _ _ => True) _ _ _).
  - intros. now exists tt.
  - intros k rhs t s _ _ _. simpl. eexists. eexists. split; [reflexivity|].
    split; [apply steepest_variable_spec|].
    now destruct (fold_left _ _ _) as [[q c]|].
  - intros. now exists s.
Defined.

(** ** Steepest edge *)

(** [g] is the weight of column [j]: one plus the squared length of its representation in the basis *)
Definition weight_of (k : kind) (basis : list nat) (j : nat) (g : Qc) : Prop :=
  forall y, (forall i, (i < k_rows k)%nat -> sum (k_rows k) (fun r => bmat k basis i r * y r) = kA k i j) ->
    g = 1 + sum (k_rows k) (fun r => y r * y r).
Definition gamma_inv (k : kind) (t : tableau O) (gamma : list (option Qc)) : Prop :=
  length gamma = k_cols k /\
  forall j, candidate k t j ->
    exists g, nth_error gamma j = Some (Some g) /\ weight_of k (c_basis (t_im t)) j g.

Lemma solve_unique m N B (a y : vec) :
  is_inverse m N B -> (forall i, (i < m)%nat -> sum m (fun r => B i r * y r) = a i) ->
  forall r, (r < m)%nat -> y r = sum m (fun i => N r i * a i).
Proof.
  intros [H _] E r Lr.
  rewrite (sum_ext m (fun i => N r i * a i) (fun i => N r i * sum m (fun l => B i l * y l))).
  2:{ intros i Li. now rewrite E. }
  rewrite mv_assoc. rewrite (sum_ext m _ (fun l => delta r l * y l)).
  2:{ intros l Ll. f_equal. now apply H. }
  symmetry. now apply sum_delta_l.
Qed.

Lemma weight_of_inverse k N basis j g :
  is_inverse (k_rows k) N (bmat k basis) ->
  (weight_of k basis j g <->
   g = 1 + sum (k_rows k) (fun r => sum (k_rows k) (fun i => N r i * kA k i j) *
                                     sum (k_rows k) (fun i => N r i * kA k i j))).
Proof.
  intros HI. split.
  - intros H. apply H. intros i Li. rewrite mv_assoc.
    rewrite (sum_ext _ _ (fun l => delta i l * kA k l j)).
    + now apply (sum_delta_l _ i (fun l => kA k l j)).
    + intros l Ll. f_equal. now apply (proj2 HI).
  - intros -> y Hy. f_equal. apply sum_ext. intros r Lr.
    now rewrite (solve_unique _ N (bmat k basis) (fun i => kA k i j) y HI Hy r Lr).
Qed.

Lemma weight_ge_one k N basis j g :
  is_inverse (k_rows k) N (bmat k basis) -> weight_of k basis j g -> 1 <= g.
Proof.
  intros HI H. apply (weight_of_inverse k N) in H; [|assumption]. rewrite H.
  match goal with |- 1 <= 1 + ?s => assert (0 <= s) end.
  { apply sum_nonneg. intros. apply Qc_sq_nonneg. }
  qlra.
Qed.

(** a column's representation after the pivot *)
Lemma representation_after k basis p q (w y : vec) j i :
  (p < length basis)%nat -> length basis = k_rows k -> w p <> 0 -> (i < k_rows k)%nat ->
  (sum (k_rows k) (fun r => bmat k basis i r * w r) = kA k i q) ->
  (sum (k_rows k) (fun r => bmat k basis i r * y r) = kA k i j) ->
  sum (k_rows k) (fun r => bmat k (upd basis p q) i r *
      (if Nat.eqb r p then y p / w p else y r - w r * (y p / w p))) = kA k i j.
Proof.
  intros Lp Lb Np Li Hw Hy. set (m := k_rows k) in *. set (a := y p / w p).
  rewrite (sum_ext m _ (fun r => bmat k basis i r * y r - a * (bmat k basis i r * w r)
      + delta p r * (a * kA k i q + a * (bmat k basis i p * w p) - bmat k basis i p * y p))).
  2:{ intros r Lr. rewrite bmat_upd by assumption. unfold set_col.
      destruct (Nat.eqb_spec r p) as [->|Ne].
      - rewrite delta_same. ring.
      - rewrite delta_diff by congruence. ring. }
  rewrite sum_plus, sum_minus, sum_scal_l, Hw, Hy.
  rewrite (sum_delta_l m p (fun _ => _)) by lia.
  assert (y p = a * w p) as -> by (unfold a; field; assumption). ring.
Qed.

(** the squared length after the pivot *)
Lemma length_after m p (w y : vec) :
  (p < m)%nat -> w p <> 0 ->
  let a := y p / w p in
  sum m (fun r => (if Nat.eqb r p then a else y r - w r * a) * (if Nat.eqb r p then a else y r - w r * a)) =
  sum m (fun r => y r * y r) - a * sum m (fun r => w r * y r) - a * sum m (fun r => w r * y r)
  + a * a * (1 + sum m (fun r => w r * w r)).
Proof.
  intros Lp Np a.
  rewrite (sum_ext m _ (fun r => y r * y r - a * (w r * y r) - a * (w r * y r) + a * a * (w r * w r)
     + delta p r * (a * a - (y p - w p * a) * (y p - w p * a)))).
  2:{ intros r Lr. destruct (Nat.eqb_spec r p) as [->|Ne].
      - rewrite delta_same. ring.
      - rewrite delta_diff by congruence. ring. }
  rewrite !sum_plus, !sum_minus, !sum_scal_l.
  rewrite (sum_delta_l m p (fun _ => _)) by assumption.
  assert (y p - w p * a = 0) as -> by (unfold a; field; assumption). ring.
Qed.

Lemma sdo_update_gamma_spec k rhs t q p cc t' info j g :
  kind_ok k -> pivoted L k rhs t q p cc t' info -> (q < k_cols k)%nat -> (j < k_cols k)%nat ->
  weight_of k (c_basis (t_im t)) j g ->
  weight_of k (c_basis (t_im t')) j (sdo_update_gamma k info (1 + sqnorm (i_before info)) j g).
Proof.
  intros Hk (HI & HI' & (E1 & E2 & E3 & E4 & W1 & W2 & N & HN & Vw & Vr) & Eb & Lp & Ec & Np) Lq Lj Hg.
  destruct (column_spec O L k rhs t q Hk HI Lq) as (cc' & N0 & Ec' & Wc & R0 & HN0 & V0 & HB).
  rewrite Ec in Ec'. inversion Ec'; subst cc'; clear Ec'.
  pose proof (inverse_unique _ _ _ _ HN0 HN) as EN.
  destruct HI as [I S]. destruct HI' as [I' S'].
  destruct (ci_rep _ _ _ _ _ I') as (N' & _ & HN').
  assert (Wj : wfs (k_rows k) (k_col k j)) by now apply (proj1 Hk).
  set (m := k_rows k) in *. set (w := den (cci_col O cc)) in *.
  set (y := fun r => sum m (fun i => N r i * kA k i j)).
  assert (Hy : forall i, (i < m)%nat -> sum m (fun r => bmat k (c_basis (t_im t)) i r * y r) = kA k i j).
  { intros i Li. unfold y. rewrite mv_assoc.
    rewrite (sum_ext _ _ (fun l => delta i l * kA k l j)).
    + now apply (sum_delta_l _ i (fun l => kA k l j)).
    + intros l Ll. f_equal. now apply (proj2 HN). }
  assert (Eg : g = 1 + sum m (fun r => y r * y r)) by now apply Hg.
  set (a := y p / w p).
  assert (Ea : sdot (i_binv_row info) (k_col k j) = a).
  { rewrite (sdot_spec m) by assumption.
    rewrite (sum_ext m _ (fun i => N p i * kA k i j * / w p)).
    - rewrite sum_scal_r. reflexivity.
    - intros i Li. rewrite Vr by assumption. unfold kA, Qcdiv. fold w. ring. }
  assert (Ein : sdot (i_work info) (k_col k j) = sum m (fun r => w r * y r)).
  { rewrite (sdot_spec m) by assumption.
    rewrite (sum_ext m _ (fun i => sum m (fun r => w r * N r i) * kA k i j)).
    - unfold y. now rewrite dot_assoc.
    - intros i Li. rewrite Vw by assumption. reflexivity. }
  assert (Egq : sqnorm (i_before info) = sum m (fun r => w r * w r)).
  { rewrite E4. now apply sqnorm_spec. }
  pose proof (length_after m p w y Lp Np) as Hlen. cbv zeta in Hlen. fold a in Hlen.
  set (y' := fun r => if Nat.eqb r p then a else y r - w r * a) in *.
  assert (Hy' : forall i, (i < m)%nat ->
     sum m (fun r => bmat k (c_basis (t_im t')) i r * y' r) = kA k i j).
  { intros i Li. rewrite Eb. apply (representation_after k _ p q w y j i); try assumption.
    - rewrite (ci_lbasis _ _ _ _ _ I). assumption.
    - apply (ci_lbasis _ _ _ _ _ I).
    - now apply HB.
    - now apply Hy. }
  assert (Goal1 : weight_of k (c_basis (t_im t')) j (1 + sum m (fun r => y' r * y' r))).
  { apply (weight_of_inverse k N'); [assumption|]. f_equal. apply sum_ext. intros r Lr.
    now rewrite (solve_unique m N' (bmat k (c_basis (t_im t'))) (fun i => kA k i j) y' HN' Hy' r Lr). }
  assert (Hge : 1 + a * a <= 1 + sum m (fun r => y' r * y' r)).
  { rewrite (sum_split m p) by assumption. unfold y' at 1 2. rewrite Nat.eqb_refl.
    assert (0 <= sum m (fun i => if Nat.eqb i p then 0 else y' i * y' i)).
    { apply sum_nonneg. intros i Li. destruct (Nat.eqb i p); [apply Qcle_refl|apply Qc_sq_nonneg]. }
    qlra. }
  unfold sdo_update_gamma. rewrite Ea, Ein, Egq.
  assert (Hsum : 1 + sum m (fun r => y' r * y' r) =
     g - a * sum m (fun r => w r * y r) - a * sum m (fun r => w r * y r)
      + a * a * (1 + sum m (fun r => w r * w r))).
  { unfold y'. rewrite Hlen, Eg. ring. }
  destruct (qzero a) eqn:Za; qb.
  - assert (Eq : 1 + sum m (fun r => y' r * y' r) = g) by (rewrite Hsum, Za; ring).
    destruct (qltb g 1) eqn:Q; qb.
    + exfalso. rewrite Eq, Za in Hge. qlra.
    + now rewrite <- Eq.
  - assert (Hz : (if qzero (sum m (fun r => w r * y r)) then g
       else g - a * sum m (fun r => w r * y r) - a * sum m (fun r => w r * y r)) =
       g - a * sum m (fun r => w r * y r) - a * sum m (fun r => w r * y r)).
    { destruct (qzero (sum m (fun r => w r * y r))) eqn:Z; qb; [|reflexivity]. rewrite Z. ring. }
    rewrite Hz, <- Hsum. destruct (qltb _ _) eqn:Q; qb; [|assumption]. exfalso. qlra.
Qed.

Lemma leaving_weight k rhs t q p cc t' info :
  kind_ok k -> pivoted L k rhs t q p cc t' info -> (q < k_cols k)%nat ->
  weight_of k (c_basis (t_im t')) (i_leaving info)
    ((1 + sqnorm (i_before info)) / (den (i_before info) p * den (i_before info) p)).
Proof.
  intros Hk (HI & HI' & (E1 & E2 & E3 & E4 & W1 & W2 & N & HN & Vw & Vr) & Eb & Lp & Ec & Np) Lq.
  destruct (column_spec O L k rhs t q Hk HI Lq) as (cc' & N0 & Ec' & Wc & R0 & HN0 & V0 & HB).
  rewrite Ec in Ec'. inversion Ec'; subst cc'; clear Ec'.
  destruct HI as [I S]. destruct HI' as [I' S'].
  destruct (ci_rep _ _ _ _ _ I') as (N' & _ & HN').
  rewrite E3, E4. set (m := k_rows k) in *. set (w := den (cci_col O cc)) in *.
  set (y := fun r => delta p r).
  assert (Hy : forall i, (i < m)%nat ->
     sum m (fun r => bmat k (c_basis (t_im t)) i r * y r) = kA k i (bcol (c_basis (t_im t)) p)).
  { intros i Li. unfold y. rewrite (sum_ext m _ (fun r => bmat k (c_basis (t_im t)) i r * delta r p)).
    - now rewrite (sum_delta_r m p (fun r => bmat k (c_basis (t_im t)) i r)).
    - intros. now rewrite delta_sym. }
  set (a := y p / w p).
  pose proof (length_after m p w y Lp Np) as Hlen. cbv zeta in Hlen. fold a in Hlen.
  set (y' := fun r => if Nat.eqb r p then a else y r - w r * a) in *.
  assert (Hy' : forall i, (i < m)%nat ->
     sum m (fun r => bmat k (c_basis (t_im t')) i r * y' r) = kA k i (bcol (c_basis (t_im t)) p)).
  { intros i Li. rewrite Eb.
    apply (representation_after k _ p q w y (bcol (c_basis (t_im t)) p) i); try assumption.
    - rewrite (ci_lbasis _ _ _ _ _ I). assumption.
    - apply (ci_lbasis _ _ _ _ _ I).
    - now apply HB.
    - now apply Hy. }
  apply (weight_of_inverse k N'); [assumption|].
  rewrite (sum_ext m _ (fun r => y' r * y' r)).
  2:{ intros r Lr.
      now rewrite (solve_unique m N' (bmat k (c_basis (t_im t'))) (fun i => kA k i (bcol (c_basis (t_im t)) p)) y' HN' Hy' r Lr). }
  unfold y'. rewrite Hlen. rewrite (sqnorm_spec m) by assumption. fold w.
  unfold y. rewrite (sum_delta_l m p (fun r => delta p r)) by assumption.
  rewrite (sum_ext m (fun r => w r * delta p r) (fun r => w r * delta r p))
    by (intros; now rewrite (delta_sym p)).
  rewrite (sum_delta_r m p w) by assumption. rewrite delta_same.
  unfold a, y. rewrite delta_same. set (s := sum m (fun r => w r * w r)). field. assumption.
Qed.

Lemma sdo_update_from_spec k info gq : forall gamma j0 j,
  nth_error (sdo_update_from k info gq j0 gamma) j =
  match nth_error gamma j with
  | Some (Some g) => Some (Some (if Nat.ltb (j0 + j) (k_art k) then g
                                 else sdo_update_gamma k info gq (j0 + j) g))
  | Some None => Some None
  | None => None
  end.
Proof.
  induction gamma as [|og gamma IH]; intros j0 j.
  - now destruct j.
  - destruct j; cbn [sdo_update_from nth_error].
    + rewrite Nat.add_0_r. destruct og as [g|]; [|reflexivity]. now destruct (Nat.ltb j0 (k_art k)).
    + rewrite IH. now rewrite <- Nat.add_succ_comm.
Qed.
Lemma sdo_update_from_length k info gq gamma : forall j0,
  length (sdo_update_from k info gq j0 gamma) = length gamma.
Proof. induction gamma; intros; simpl; auto. Qed.

(** selection *)
Definition sdo_state (k : kind) (t : tableau O) (gamma : list (option Qc)) (P : nat -> Prop)
  (acc : option (nat * Qc * Qc)) : Prop :=
  match acc with
  | None => forall j, P j -> ~ In j (t_cols t) -> 0 <= relative_cost k t j
  | Some (q, c, key) => P q /\ ~ In q (t_cols t) /\ c = relative_cost k t q /\ c < 0 /\
      (exists g, nth_error gamma q = Some (Some g) /\ key = c * c / g) /\
      forall j g, P j -> ~ In j (t_cols t) -> relative_cost k t j < 0 ->
        nth_error gamma j = Some (Some g) ->
        relative_cost k t j * relative_cost k t j / g <= key
  end.
Lemma sdo_fold k (t : tableau O) gamma :
  gamma_inv k t gamma -> forall l (P : nat -> Prop) acc,
  (forall j, In j l -> (k_art k <= j < k_cols k)%nat) ->
  sdo_state k t gamma P acc ->
  exists acc', foldM (sdo_step O k t gamma) l acc = Ok acc' /\
    sdo_state k t gamma (fun j => P j \/ In j l) acc'.
Proof.
  intros [GL GI]. induction l as [|j l IH]; intros P acc Sub H.
  - cbn [foldM]. exists acc. split; [reflexivity|].
    destruct acc as [[[q c] key]|]; simpl in *.
    + destruct H as (H1 & H2 & H3 & H4 & H5 & H6). repeat split; try tauto.
      intros i g [Pi|[]]. now apply H6.
    + intros i [Pi|[]]. now apply H.
  - cbn [foldM].
    assert (S1 : exists acc1, sdo_step O k t gamma acc j = Ok acc1 /\
        sdo_state k t gamma (fun i => P i \/ i = j) acc1).
    { unfold sdo_step. destruct (in_basis t j) eqn:B.
      - apply in_basis_true in B. exists acc. split; [reflexivity|].
        destruct acc as [[[q c] key]|]; simpl in *.
        + destruct H as (H1 & H2 & H3 & H4 & H5 & H6). repeat split; try tauto.
          intros i g [Pi|Ei] Ni; [now apply H6|congruence].
        + intros i [Pi|Ei] Ni; [now apply H|congruence].
      - apply in_basis_false in B. destruct (qneg (relative_cost k t j)) eqn:Z; qb.
        + destruct (GI j) as (g & Eg & Hg).
          { split; [|assumption]. apply Sub. now left. }
          unfold index. rewrite Eg. cbn [ofopt bind].
          set (key := relative_cost k t j * relative_cost k t j / g).
          destruct acc as [[[q c] key0]|]; simpl in H.
          * destruct H as (H1 & H2 & H3 & H4 & H5 & H6).
            destruct (qltb key key0) eqn:Y; qb; eexists; (split; [reflexivity|]); simpl.
            -- repeat split; try tauto. intros i g' [Pi|Ei] Ni Ci Gi; [now apply H6|].
               subst i. rewrite Eg in Gi. inversion Gi; subst g'. fold key. now apply Qclt_le_weak.
            -- repeat split; try tauto; [now exists g|].
               intros i g' [Pi|Ei] Ni Ci Gi.
               ++ specialize (H6 i g' Pi Ni Ci Gi). now apply Qcle_trans with key0.
               ++ subst i. rewrite Eg in Gi. inversion Gi; subst g'. apply Qcle_refl.
          * eexists. split; [reflexivity|]. simpl. repeat split; try tauto; [now exists g|].
            intros i g' [Pi|Ei] Ni Ci Gi.
            -- specialize (H i Pi Ni). exfalso. qlra.
            -- subst i. rewrite Eg in Gi. inversion Gi; subst g'. apply Qcle_refl.
        + exists acc. split; [reflexivity|]. destruct acc as [[[q c] key0]|]; simpl in *.
          * destruct H as (H1 & H2 & H3 & H4 & H5 & H6). repeat split; try tauto.
            intros i g' [Pi|Ei] Ni Ci Gi; [now apply H6|]. subst i. exfalso. qlra.
          * intros i [Pi|Ei] Ni; [now apply H|]. now subst i. }
    destruct S1 as (acc1 & E1 & S1). rewrite E1. cbn [bind].
    destruct (IH _ acc1 (fun i Hi => Sub i (or_intror Hi)) S1) as (acc' & E' & S').
    exists acc'. split; [assumption|].
    destruct acc' as [[[q c] key]|]; simpl in *.
    + destruct S' as (H1 & H2 & H3 & H4 & H5 & H6). repeat split; try assumption; try tauto.
      * destruct H1 as [[H1|H1]|H1]; auto.
      * intros i g Hi. apply H6. destruct Hi as [Hi|[Hi|Hi]]; auto.
    + intros i Hi. apply S'. destruct Hi as [Hi|[Hi|Hi]]; auto.
Qed.

(** The selected column has the largest ratio of squared relative cost to weight. *)
Lemma sdo_select_spec k (t : tableau O) gamma :
  gamma_inv k t gamma ->
  exists sel, sdo_select O gamma k t = Ok sel /\ select_ok k t sel /\
    match sel with
    | Some (q, c) => exists g, nth_error gamma q = Some (Some g) /\
        forall j g', candidate k t j -> relative_cost k t j < 0 ->
          nth_error gamma j = Some (Some g') ->
          relative_cost k t j * relative_cost k t j / g' <= c * c / g
    | None => True
    end.
Proof.
  intros G. unfold sdo_select.
  destruct (sdo_fold k t gamma G (range (k_art k) (k_cols k)) (fun _ => False) None) as (acc & E & S).
  - intros j Hj. now apply In_range.
  - simpl. tauto.
  - rewrite E. cbn [bind]. eexists. split; [reflexivity|].
    destruct acc as [[[q c] key]|]; simpl in *.
    + destruct S as ([[]|H1] & H2 & H3 & H4 & (g & H5 & H5') & H6). apply In_range in H1.
      split; [unfold candidate; tauto|].
      exists g. split; [assumption|]. intros j g' [R N] Cj Gj. rewrite <- H5'.
      apply H6; try assumption. right. now apply In_range.
    + split; [|exact I]. intros j [R N]. apply S; [right; now apply In_range|assumption].
Qed.

Lemma sdo_new_spec k rhs t :
  kind_ok k -> tab_inv L k rhs t -> exists gamma, sdo_new O k t = Ok gamma /\ gamma_inv k t gamma.
Proof.
  intros Hk HI.
  assert (Hg : forall j, (j < k_cols k)%nat ->
     exists g, initial_gamma O k t j = Ok g /\ weight_of k (c_basis (t_im t)) j g).
  { intros j Lj. destruct (column_spec O L k rhs t j Hk HI Lj) as (cc & N & Ec & Wc & R & HN & V & HB).
    unfold initial_gamma. rewrite Ec. cbn [bind]. eexists. split; [reflexivity|].
    intros y Hy. f_equal. rewrite (sqnorm_spec (k_rows k)) by assumption. apply sum_ext.
    intros r Lr. rewrite V by assumption.
    now rewrite <- (solve_unique _ N (bmat k (c_basis (t_im t))) (fun i => kA k i j) y HN Hy r Lr). }
  destruct (mapM_total (fun j => if Nat.leb (k_art k) j && negb (in_basis t j)
       then let* g := initial_gamma O k t j in Ok (Some g) else Ok None) (seq 0 (k_cols k))) as [gamma E].
  { intros j Hj. apply in_seq in Hj. destruct (Nat.leb (k_art k) j && negb (in_basis t j)).
    - destruct (Hg j) as (g & Eg & _); [lia|]. rewrite Eg. cbn [bind]. now exists (Some g).
    - now exists None. }
  exists gamma. split; [exact E|]. apply mapM_ok in E. destruct E as [El En].
  rewrite seq_length in El. split; [assumption|]. intros j [R N].
  destruct (Hg j) as (g & Eg & Hw); [lia|].
  destruct (En j j) as (y & Ey & Ny).
  { rewrite (nth_error_nth' _ 0%nat) by (rewrite seq_length; lia). rewrite seq_nth by lia. reflexivity. }
  assert (Nat.leb (k_art k) j = true) as E1 by (apply Nat.leb_le; lia).
  apply in_basis_false in N. rewrite E1, N in Ey. cbn [negb andb] in Ey. rewrite Eg in Ey.
  cbn [bind] in Ey. inversion Ey; subst y. now exists g.
Qed.

Lemma sdo_after_spec k rhs t q p cc t' info gamma :
  kind_ok k -> pivoted L k rhs t q p cc t' info -> candidate k t q -> gamma_inv k t gamma ->
  exists gamma', sdo_after O gamma info k t' = Ok gamma' /\ gamma_inv k t' gamma'.
Proof.
  intros Hk Hp [Rq Nq] [GL GI]. assert (Hp' := Hp).
  destruct Hp' as (HI & HI' & (E1 & E2 & E3 & E4 & W1 & W2 & N & HN & Vw & Vr) & Eb & Lp & Ec & Np).
  destruct HI as [I S]. destruct HI' as [I' S'].
  unfold sdo_after. rewrite E2. unfold set_index at 1. rewrite GL.
  assert (Nat.ltb q (k_cols k) = true) as -> by (apply Nat.ltb_lt; lia). cbn [bind].
  set (gq := 1 + sqnorm (i_before info)).
  set (gamma1 := sdo_update_from k info gq 0 (upd gamma q None)).
  assert (L1 : length gamma1 = k_cols k).
  { unfold gamma1. rewrite sdo_update_from_length, upd_length. assumption. }
  destruct (column_spec O L k rhs t q Hk (conj I S) ltac:(lia)) as (cc' & N0 & Ec' & Wc & R0 & HN0 & V0 & HB).
  rewrite Ec in Ec'. inversion Ec'; subst cc'; clear Ec'.
  assert (Eget : sget (i_before info) (i_row info) = Some (den (i_before info) p)).
  { rewrite E4, E1. apply (sget_nonzero (k_rows k)); assumption. }
  rewrite Eget. cbn [ofopt bind]. unfold set_index. rewrite L1.
  assert (Llv : (i_leaving info < k_cols k)%nat).
  { rewrite E3. now apply (ci_range _ _ _ _ _ I). }
  assert (Nat.ltb (i_leaving info) (k_cols k) = true) as -> by now apply Nat.ltb_lt.
  eexists. split; [reflexivity|]. split; [now rewrite upd_length|].
  intros j [Rj Nj]. rewrite upd_nth_error, L1.
  assert (Nat.ltb (i_leaving info) (k_cols k) = true) as -> by now apply Nat.ltb_lt.
  rewrite andb_true_r. destruct (Nat.eqb_spec j (i_leaving info)) as [->|Nl].
  - eexists. split; [reflexivity|]. unfold gq.
    now apply (leaving_weight k rhs t q p cc t' info Hk Hp ltac:(lia)).
  - assert (Lb : length (c_basis (t_im t)) = k_rows k) by apply (ci_lbasis _ _ _ _ _ I).
    assert (Njq : j <> q).
    { intros ->. apply Nj, S'. rewrite Eb. apply In_bcol. exists p. rewrite upd_length.
      split; [lia|]. unfold bcol. rewrite upd_nth by lia. now rewrite Nat.eqb_refl. }
    assert (Njb : ~ In j (t_cols t)).
    { intros Hj. apply S, In_bcol in Hj. destruct Hj as (r & Lr & Er).
      apply Nj, S'. rewrite Eb. apply In_bcol. exists r. rewrite upd_length.
      split; [assumption|]. unfold bcol. rewrite upd_nth by lia.
      destruct (Nat.eqb_spec r p) as [->|]; [|assumption]. exfalso. apply Nl. now rewrite E3. }
    destruct (GI j (conj Rj Njb)) as (g & Eg & Hg).
    unfold gamma1. rewrite sdo_update_from_spec, upd_nth_error.
    destruct (Nat.eqb_spec j q); [contradiction|]. cbn [andb]. rewrite Eg.
    replace (Nat.ltb (0 + j) (k_art k)) with false by (symmetry; apply Nat.ltb_ge; lia).
    eexists. split; [reflexivity|]. unfold gq.
    apply (sdo_update_gamma_spec k rhs t q p cc t' info j g); try assumption; lia.
Qed.

Definition steepest_objective_laws : RuleLaws L (steepest_objective O).
Proof.
  refine (mk_rlaws O L (steepest_objective O) gamma_inv (fun k t q s => gamma_inv k t s) _ _ _).
  - intros. now apply (sdo_new_spec k rhs).
  - intros k rhs t s Hk HI Hs. cbn [r_select steepest_objective].
    destruct (sdo_select_spec k t s Hs) as (sel & E & H & _). rewrite E. cbn [bind].
    exists sel, s. split; [reflexivity|]. split; [assumption|]. now destruct sel as [[q c]|].
  - intros. now apply (sdo_after_spec k rhs t q p cc t' info s).
Defined.

End Rules.
