(** * Termination of the smallest index rule (Bland's theorem)

    [FirstProfitable] enters the profitable column of smallest index, and the ratio test breaks ties
    towards the smallest leaving column. *)
From Verif Require Export SolveP.

Lemma finite_choice (A : Type) (P : nat -> A -> Prop) (d : A) n :
  (forall i, (i < n)%nat -> exists x, P i x) -> exists f, forall i, (i < n)%nat -> P i (f i).
Proof.
  induction n as [|n IH]; intros H; [exists (fun _ => d); intros; lia|].
  destruct IH as [f Hf]; [intros; apply H; lia|]. destruct (H n) as [x Hx]; [lia|].
  exists (fun i => if Nat.eqb i n then x else f i). intros i Li.
  destruct (Nat.eqb_spec i n) as [->|Ne]; [assumption|apply Hf; lia].
Qed.
Lemma max_index (Q : nat -> nat) n : (0 < n)%nat ->
  exists i, (i < n)%nat /\ forall i', (i' < n)%nat -> (Q i' <= Q i)%nat.
Proof.
  induction n as [|n IH]; intros H; [lia|]. destruct n as [|n].
  - exists 0%nat. split; [lia|]. intros i' L. assert (i' = 0%nat) as -> by lia. lia.
  - destruct IH as (i & Li & Hi); [lia|]. destruct (le_lt_dec (Q (S n)) (Q i)) as [C|C].
    + exists i. split; [lia|]. intros i' L. destruct (Nat.eq_dec i' (S n)) as [->|]; [assumption|apply Hi; lia].
    + exists (S n). split; [lia|]. intros i' L. destruct (Nat.eq_dec i' (S n)) as [->|]; [lia|].
      specialize (Hi i' ltac:(lia)). lia.
Qed.
Lemma sum_pos_ex n f : 0 < sum n f -> exists i, (i < n)%nat /\ 0 < f i.
Proof.
  induction n as [|n IH]; cbn [sum]; intros H; [qlra|].
  destruct (qltb 0 (f n)) eqn:E; qb; [exists n; split; [lia|assumption]|].
  destruct IH as (i & Li & Hi); [qlra|]. exists i. split; [lia|assumption].
Qed.

Section Bland.
Variable O : BIOps.
Variable L : BILaws O.
Variable k : kind.
Variable rhs : vec.
Hypothesis Kok : kind_ok k.
Local Notation m := (k_rows k).
Local Notation bas t := (c_basis (t_im t)).
Local Notation bv t := (c_b (t_im t)).

(** a step of the smallest index rule *)
Definition bland_step (t t' : tableau O) (q p : nat) (w : vec) : Prop :=
  step_desc k t t' q p w /\ forall j, (j < q)%nat -> candidate k t j -> 0 <= relative_cost k t j.

Lemma basis_values t t' : tab_inv L k rhs t -> tab_inv L k rhs t' -> bas t' = bas t ->
  (forall r, (r < m)%nat -> nthq (bv t') r = nthq (bv t) r) /\ objective_value t' = objective_value t.
Proof.
  intros [I _] [I' _] E. destruct (ci_rep _ _ _ _ _ I) as (N & _ & HN).
  assert (V : forall r, (r < m)%nat -> nthq (bv t') r = nthq (bv t) r).
  { intros r Lr. transitivity (sum m (fun i => N r i * rhs i)).
    - apply (solve_unique m N (bmat k (bas t)) rhs); try assumption.
      intros i Li. rewrite <- E. now apply (ci_feas _ _ _ _ _ I').
    - symmetry. apply (solve_unique m N (bmat k (bas t)) rhs); try assumption.
      intros i Li. now apply (ci_feas _ _ _ _ _ I). }
  split; [assumption|]. unfold objective_value. rewrite (ci_obj _ _ _ _ _ I), (ci_obj _ _ _ _ _ I'), E. f_equal. f_equal.
  apply sum_ext. intros r Lr. now rewrite V.
Qed.

Section Cycle.
Variable T : nat -> tableau O.
Variables Q P : nat -> nat.
Variable W : nat -> vec.
Variable n : nat.
Hypothesis Inv : forall i, (i <= n)%nat -> tab_inv L k rhs (T i).
Hypothesis Step : forall i, (i < n)%nat -> bland_step (T i) (T (S i)) (Q i) (P i) (W i).
Hypothesis Cyc : bas (T n) = bas (T 0).
Hypothesis Pos : (0 < n)%nat.

Lemma cyc_obj_mono d : forall i, (i + d <= n)%nat -> objective_value (T (i + d)) <= objective_value (T i).
Proof.
  induction d as [|d IH]; intros i Li.
  - rewrite Nat.add_0_r. apply Qcle_refl.
  - apply Qcle_trans with (objective_value (T (i + d))); [|apply IH; lia].
    rewrite Nat.add_succ_r. eapply (step_objective O L k rhs); [apply Inv; lia|apply Step; lia].
Qed.
Lemma cyc_obj i : (i <= n)%nat -> objective_value (T i) = objective_value (T 0).
Proof.
  intros Li. pose proof (cyc_obj_mono i 0 Li) as A. cbn [Nat.add] in A.
  pose proof (cyc_obj_mono (n - i) i ltac:(lia)) as B. replace (i + (n - i))%nat with n in B by lia.
  assert (C : objective_value (T n) = objective_value (T 0)).
  { apply basis_values; [apply Inv; lia|apply Inv; lia|assumption]. }
  rewrite C in B. now apply Qcle_antisym.
Qed.
Lemma cyc_degenerate i : (i < n)%nat -> nthq (bv (T i)) (P i) / W i (P i) = 0.
Proof.
  intros Li. destruct (Step i Li) as [(_ & Hneg & _ & _ & _ & _ & _ & _ & Eo) _].
  pose proof (cyc_obj i ltac:(lia)) as A. pose proof (cyc_obj (S i) ltac:(lia)) as B.
  unfold objective_value in A, B. rewrite Eo in B.
  set (th := nthq (bv (T i)) (P i) / W i (P i)) in *.
  assert (Z : relative_cost k (T i) (Q i) * th = 0) by qlra.
  apply Qc_mul_eq0 in Z. destruct Z as [Z|Z]; [|assumption]. rewrite Z in Hneg. exfalso. qlra.
Qed.
Lemma cyc_b_step i r : (i < n)%nat -> nthq (bv (T (S i))) r = nthq (bv (T i)) r.
Proof.
  intros Li. pose proof (cyc_degenerate i Li) as D.
  destruct (Step i Li) as [(_ & _ & _ & Hp & _ & _ & _ & Eb & _) _]. rewrite Eb, D.
  destruct (Nat.eqb_spec r (P i)) as [->|]; [|ring].
  rewrite <- (Qc_div_mul (nthq (bv (T i)) (P i)) (W i (P i))) by now apply Qc_pos_neq0. rewrite D. ring.
Qed.
Lemma cyc_b i r : (i <= n)%nat -> nthq (bv (T i)) r = nthq (bv (T 0)) r.
Proof. induction i as [|i IH]; intros Li; [reflexivity|]. rewrite cyc_b_step by lia. apply IH. lia. Qed.
Lemma cyc_pivot_row_zero i : (i < n)%nat -> nthq (bv (T 0)) (P i) = 0.
Proof.
  intros Li. rewrite <- (cyc_b i) by lia. pose proof (cyc_degenerate i Li) as D.
  destruct (Step i Li) as [(_ & _ & _ & Hp & _) _].
  rewrite <- (Qc_div_mul (nthq (bv (T i)) (P i)) (W i (P i))) by now apply Qc_pos_neq0. rewrite D. ring.
Qed.
Lemma cyc_len i : (i <= n)%nat -> length (bas (T i)) = m.
Proof. intros Li. apply (ci_lbasis _ _ _ _ _ (proj1 (Inv i Li))). Qed.
Lemma cyc_basis i : (i < n)%nat -> bas (T (S i)) = upd (bas (T i)) (P i) (Q i) /\ (P i < m)%nat.
Proof. intros Li. destruct (Step i Li) as [(_ & _ & Lp & _ & _ & _ & E & _) _]. now split. Qed.
Lemma cyc_bcol i r : (i < n)%nat -> bcol (bas (T (S i))) r = if Nat.eqb r (P i) then Q i else bcol (bas (T i)) r.
Proof.
  intros Li. destruct (cyc_basis i Li) as [-> Lp]. unfold bcol. apply upd_nth. rewrite cyc_len by lia. assumption.
Qed.

Lemma cyc_row_fixed r : (forall i, (i < n)%nat -> P i <> r) -> forall i, (i <= n)%nat -> bcol (bas (T i)) r = bcol (bas (T 0)) r.
Proof.
  intros H. induction i as [|i IH]; intros Li; [reflexivity|].
  rewrite cyc_bcol by lia. rewrite (proj2 (Nat.eqb_neq r (P i))); [apply IH; lia|].
  intros E. apply (H i); [lia|now symmetry].
Qed.
Lemma cyc_row_zero r a b : (a <= n)%nat -> (b <= n)%nat ->
  bcol (bas (T a)) r <> bcol (bas (T b)) r -> nthq (bv (T 0)) r = 0.
Proof.
  intros La Lb Ne. destruct (Qc_dec (nthq (bv (T 0)) r) 0) as [|Nz]; [assumption|]. exfalso. apply Ne.
  assert (H : forall i, (i < n)%nat -> P i <> r).
  { intros i Li E. apply Nz. rewrite <- E. now apply cyc_pivot_row_zero. }
  now rewrite (cyc_row_fixed r H a La), (cyc_row_fixed r H b Lb).
Qed.

Lemma cyc_In i j : (i < n)%nat -> In j (bas (T (S i))) -> In j (bas (T i)) \/ j = Q i.
Proof.
  intros Li H. apply In_bcol in H. destruct H as (r & Lr & E). rewrite cyc_len in Lr by lia.
  rewrite cyc_bcol in E by lia. destruct (Nat.eqb r (P i)); [now right|left].
  apply In_bcol. exists r. rewrite cyc_len by lia. now split.
Qed.
Lemma cyc_enter_range j d : forall a, (a + d <= n)%nat -> ~ In j (bas (T a)) -> In j (bas (T (a + d))) ->
  exists i, (i < n)%nat /\ Q i = j.
Proof.
  induction d as [|d IH]; intros a Li Na Hb; [rewrite Nat.add_0_r in Hb; contradiction|].
  rewrite Nat.add_succ_r in Hb. destruct (cyc_In (a + d) j ltac:(lia) Hb) as [H|H].
  - apply (IH a); [lia|assumption|assumption].
  - exists (a + d)%nat. split; [lia|now symmetry].
Qed.
Lemma cyc_enter j a b : (a <= n)%nat -> (b <= n)%nat -> In j (bas (T a)) -> ~ In j (bas (T b)) ->
  exists i, (i < n)%nat /\ Q i = j.
Proof.
  intros La Lb Ha Hb. destruct (le_lt_dec a b) as [C|C].
  - destruct (in_dec Nat.eq_dec j (bas (T 0))) as [H|H].
    + apply (cyc_enter_range j (n - b) b); [lia|assumption|]. replace (b + (n - b))%nat with n by lia. now rewrite Cyc.
    + apply (cyc_enter_range j a 0); [lia|assumption|assumption].
  - apply (cyc_enter_range j (a - b) b); [lia|assumption|]. now replace (b + (a - b))%nat with a by lia.
Qed.
Lemma cyc_leave_range j d : forall a, (a + d <= n)%nat -> In j (bas (T a)) -> ~ In j (bas (T (a + d))) ->
  exists i, (i < n)%nat /\ bcol (bas (T i)) (P i) = j.
Proof.
  induction d as [|d IH]; intros a Li Ha Hb; [rewrite Nat.add_0_r in Hb; contradiction|].
  rewrite Nat.add_succ_r in Hb. destruct (in_dec Nat.eq_dec j (bas (T (a + d)))) as [H|H].
  - exists (a + d)%nat. split; [lia|]. apply In_bcol in H. destruct H as (r & Lr & E). rewrite cyc_len in Lr by lia.
    destruct (Nat.eq_dec r (P (a + d))) as [<-|Ne]; [assumption|]. exfalso. apply Hb. apply In_bcol. exists r.
    rewrite cyc_len by lia. split; [assumption|]. rewrite cyc_bcol by lia. now rewrite (proj2 (Nat.eqb_neq _ _) Ne).
  - apply (IH a); [lia|assumption|assumption].
Qed.
Lemma cyc_leave j a b : (a <= n)%nat -> (b <= n)%nat -> In j (bas (T a)) -> ~ In j (bas (T b)) ->
  exists i, (i < n)%nat /\ bcol (bas (T i)) (P i) = j.
Proof.
  intros La Lb Ha Hb. destruct (le_lt_dec b a) as [C|C].
  - destruct (in_dec Nat.eq_dec j (bas (T 0))) as [H|H].
    + apply (cyc_leave_range j b 0); [lia|assumption|assumption].
    + apply (cyc_leave_range j (n - a) a); [lia|assumption|]. replace (a + (n - a))%nat with n by lia. now rewrite Cyc.
  - apply (cyc_leave_range j (b - a) a); [lia|assumption|]. now replace (a + (b - a))%nat with b by lia.
Qed.

Lemma no_cycle : False.
Proof.
  destruct (max_index Q n Pos) as (be & Lbe & Max). set (x := Q be) in *.
  destruct (Step be Lbe) as [((Cr & Cn) & Hneg & _) Bl]. fold x in Cr, Cn, Hneg, Bl.
  pose proof (Inv be ltac:(lia)) as Ibe.
  assert (Nbe : ~ In x (bas (T be))) by (intros H; apply Cn; now apply (proj2 Ibe)).
  assert (Hbe : In x (bas (T (S be)))).
  { apply In_bcol. exists (P be). rewrite cyc_len by lia. split; [now apply cyc_basis|].
    rewrite cyc_bcol by assumption. now rewrite Nat.eqb_refl. }
  destruct (cyc_leave x (S be) be ltac:(lia) ltac:(lia) Hbe Nbe) as (al & Lal & Hal).
  pose proof (Inv al ltac:(lia)) as Ial.
  destruct (Step al Lal) as [((Sr & Sn) & Sneg & Lp & Hp & HB & Tie & _) _].
  set (s := Q al) in *. set (w := W al) in *. set (p := P al) in *.
  assert (Hal' : In x (bas (T al))) by (apply In_bcol; exists p; rewrite cyc_len by lia; now split).
  assert (Ns : s <> x) by (intros E; apply Sn; apply (proj2 Ial); now rewrite E).
  assert (Ls : (s < x)%nat) by (pose proof (Max al Lal); fold s in H; lia).
  assert (Deg := cyc_degenerate al Lal). fold p w in Deg.
  (* reduced costs of the two bases along the direction of step al *)
  assert (Id : relative_cost k (T be) s - sum m (fun r => w r * relative_cost k (T be) (bcol (bas (T al)) r))
             = relative_cost k (T al) s).
  { rewrite (relative_cost_basis O L k rhs (T al) s w Kok Ial) by (assumption || lia).
    rewrite (relative_cost_spec O k (T be) s) by (apply Kok; lia).
    rewrite (sum_ext m (fun r => w r * relative_cost k (T be) (bcol (bas (T al)) r))
      (fun r => w r * sum m (fun i => nthq (c_mpi (t_im (T be))) i * bmat k (bas (T al)) i r) +
                k_cost k (bcol (bas (T al)) r) * w r)).
    2:{ intros r Lr. rewrite relative_cost_spec.
        - unfold bmat. ring.
        - apply Kok. now apply (ci_range _ _ _ _ _ (proj1 Ial)). }
    rewrite sum_plus.
    rewrite (sum_ext m (fun i => nthq (c_mpi (t_im (T be))) i * kA k i s)
      (fun i => nthq (c_mpi (t_im (T be))) i * sum m (fun r => bmat k (bas (T al)) i r * w r))).
    2:{ intros i Li. now rewrite HB. }
    rewrite dot_assoc.
    rewrite (sum_ext m (fun r => w r * sum m (fun i => nthq (c_mpi (t_im (T be))) i * bmat k (bas (T al)) i r))
      (fun r => sum m (fun i => nthq (c_mpi (t_im (T be))) i * bmat k (bas (T al)) i r) * w r)) by (intros; ring).
    ring. }
  assert (Hs : 0 <= relative_cost k (T be) s).
  { destruct (in_dec Nat.eq_dec s (t_cols (T be))) as [H|H].
    - rewrite (relative_cost_basic O L k rhs (T be) s Kok Ibe H). apply Qcle_refl.
    - apply Bl; [assumption|]. split; [lia|assumption]. }
  destruct (sum_pos_ex m (fun r => w r * relative_cost k (T be) (bcol (bas (T al)) r))) as (r & Lr & Hr).
  { set (S := sum m _) in *. qlra. }
  set (y := bcol (bas (T al)) r) in *.
  assert (Nz : relative_cost k (T be) y <> 0) by (intros E; rewrite E in Hr; qlra).
  assert (Ny : ~ In y (t_cols (T be))).
  { intros H. apply Nz. now apply (relative_cost_basic O L k rhs). }
  assert (Ny' : ~ In y (bas (T be))) by (intros H; apply Ny; now apply (proj2 Ibe)).
  assert (Hy : In y (bas (T al))) by (apply In_bcol; exists r; rewrite cyc_len by lia; now split).
  destruct (cyc_enter y al be ltac:(lia) ltac:(lia) Hy Ny') as (g & Lg & Eg).
  assert (Ly : (y <= x)%nat) by (rewrite <- Eg; now apply Max).
  assert (Cy : (k_art k <= y < k_cols k)%nat) by (destruct (Step g Lg) as [((C & _) & _) _]; now rewrite Eg in C).
  destruct (Nat.eq_dec y x) as [E|Ne].
  - assert (r = p) as ->.
    { destruct (ci_rep _ _ _ _ _ (proj1 Ial)) as (N & _ & HN).
      apply (inverse_injective m k N (bas (T al))); try assumption. fold y. now rewrite E. }
    rewrite E in Hr. qnra.
  - assert (Ry : 0 <= relative_cost k (T be) y) by (apply Bl; [lia|now split]).
    assert (Wr : 0 < w r).
    { destruct (qltb 0 (w r)) eqn:C; qb; [assumption|]. exfalso. qnra. }
    assert (Zr : nthq (bv (T 0)) r = 0).
    { apply (cyc_row_zero r al be); [lia|lia|]. fold y. intros E. apply Ny'. rewrite E. apply nth_In. rewrite cyc_len by lia. assumption. }
    destruct (Tie r Lr Wr) as [C|[C1 C2]].
    + rewrite Deg in C. rewrite (cyc_b al) in C by lia. rewrite Zr in C. unfold Qcdiv in C. rewrite Qcmult_0_l in C. now apply Qclt_not_le in C; apply C, Qcle_refl.
    + fold p in C2. rewrite Hal in C2. fold y in C2. lia.
Qed.
End Cycle.

(** ** Runs *)
Lemma fp_chain : ok_change L m -> forall fuel t, tab_inv L k rhs t ->
  simplex_loop O (first_profitable O) fuel k t tt = Fuel ->
  exists (T : nat -> tableau O) (S : nat -> nat * nat * vec), T 0%nat = t /\
    (forall i, (i <= fuel)%nat -> tab_inv L k rhs (T i)) /\
    forall i, (i < fuel)%nat -> bland_step (T i) (T (Datatypes.S i)) (fst (fst (S i))) (snd (fst (S i))) (snd (S i)).
Proof.
  intros Hok. induction fuel as [|fuel IH]; intros t HI E.
  - exists (fun _ => t), (fun _ => (0%nat, 0%nat, fun _ => 0)). split; [reflexivity|]. split; [|intros; lia].
    intros i Li. assumption.
  - cbn [simplex_loop] in E.
    pose proof (step_spec O L (first_profitable O) (first_profitable_laws O L) k rhs t tt Kok HI Logic.I) as SP.
    destruct (simplex_step O (first_profitable O) k t tt) as [[| |t' s']| |]; cbn [bind] in E; try discriminate.
    2:{ exfalso. now apply SP. }
    destruct SP as (HI' & _ & q & p & w & s0 & D & Sel & _). destruct s'.
    destruct (IH t' HI' E) as (T & S & T0 & Ti & Ts).
    exists (fun i => match i with 0%nat => t | Datatypes.S i => T i end),
           (fun i => match i with 0%nat => (q, p, w) | Datatypes.S i => S i end).
    split; [reflexivity|]. split.
    + intros [|i] Li; [assumption|apply Ti; lia].
    + intros [|i] Li; [|apply Ts; lia]. cbn [fst snd]. rewrite T0. split; [assumption|].
      intros j Lj [Cj Nj]. cbn in Sel. injection Sel as Sel _.
      apply (find_profitable_first O k t _ _ _ _ Sel j); [lia|assumption].
Qed.

Fixpoint code (b : nat) (l : list nat) : nat :=
  match l with [] => 0%nat | x :: t => (x + b * code b t)%nat end.
Lemma code_lt b l : (forall x, In x l -> (x < b)%nat) -> (code b l < b ^ length l)%nat.
Proof.
  induction l as [|x l IH]; intros H; cbn [code length Nat.pow]; [lia|].
  assert (A := H x (or_introl eq_refl)). specialize (IH (fun y Hy => H y (or_intror Hy))). nia.
Qed.
Lemma code_inj b l : forall l', length l = length l' -> (forall x, In x l -> (x < b)%nat) ->
  (forall x, In x l' -> (x < b)%nat) -> code b l = code b l' -> l = l'.
Proof.
  induction l as [|x l IH]; intros [|x' l'] Len H H' E; cbn [length] in Len; try discriminate; [reflexivity|].
  cbn [code] in E. assert (A := H x (or_introl eq_refl)). assert (A' := H' x' (or_introl eq_refl)).
  assert (Ex : x = x').
  { apply (f_equal (fun v => (v mod b)%nat)) in E. rewrite !(Nat.mul_comm b) in E.
    rewrite !Nat.mod_add in E by lia. now rewrite !Nat.mod_small in E by assumption. }
  subst x'. f_equal. apply IH; [now injection Len|intros; apply H; now right|intros; apply H'; now right|].
  nia.
Qed.
Lemma pigeonhole (f : nat -> nat) N : (forall i, (i <= N)%nat -> (f i < N)%nat) ->
  exists i j, (i < j <= N)%nat /\ f i = f j.
Proof.
  intros H.
    assert (G : forall n, (n <= S N)%nat -> (forall i j, (i < j < n)%nat -> f i <> f j) \/
        exists i j, (i < j < n)%nat /\ f i = f j).
    { induction n as [|n IH]; intros Ln; [left; intros; lia|]. destruct IH as [A|(i & j & Lij & E)]; [lia| |].
      - destruct (in_dec Nat.eq_dec (f n) (map f (seq 0 n))) as [Hin|Hout].
        + right. apply in_map_iff in Hin. destruct Hin as (i & E & Hi). apply in_seq in Hi. exists i, n. split; [lia|assumption].
        + left. intros i j Lij. destruct (Nat.eq_dec j n) as [->|Ne]; [|apply A; lia]. intros E. apply Hout.
          rewrite <- E. apply in_map. apply in_seq. lia.
      - right. exists i, j. split; [lia|assumption]. }
    destruct (G (S N) ltac:(lia)) as [A|(i & j & Lij & E)]; [|exists i, j; split; [lia|assumption]].
    exfalso. assert (ND : NoDup (map f (seq 0 (S N)))).
    2:{ assert (Len := NoDup_incl_length ND (l' := seq 0 N)).
        rewrite map_length, !seq_length in Len. enough (S N <= N)%nat by lia. apply Len.
        intros y Hy. apply in_map_iff in Hy. destruct Hy as (i & <- & Hi). apply in_seq in Hi. apply in_seq.
        split; [lia|]. apply H. lia. }
    apply NoDup_nth with 0%nat. rewrite map_length, seq_length. intros i j Li Lj E.
    assert (Nn : forall i, (i < S N)%nat -> nth i (map f (seq 0 (S N))) 0%nat = f i).
    { intros i0 Li0. rewrite (nth_indep _ 0%nat (f 0%nat)) by now rewrite map_length, seq_length. rewrite map_nth.
      now rewrite seq_nth. }
    rewrite !Nn in E by assumption. destruct (Nat.lt_trichotomy i j) as [C|[C|C]]; [|assumption|]; exfalso.
    + apply (A i j); [lia|assumption].
    + apply (A j i); [lia|now symmetry].
Qed.

(** An upper bound on the number of bases: [k_cols ^ k_rows]. *)
Theorem first_profitable_terminates t fuel : ok_change L m -> tab_inv L k rhs t ->
  (k_cols k ^ m <= fuel)%nat -> simplex_loop O (first_profitable O) fuel k t tt <> Fuel.
Proof.
  intros Hok HI Hf E. destruct (fp_chain Hok fuel t HI E) as (T & S & T0 & Ti & Ts).
  assert (Len : forall i, (i <= fuel)%nat -> length (bas (T i)) = m).
  { intros i Li. apply (ci_lbasis _ _ _ _ _ (proj1 (Ti i Li))). }
  assert (Rng : forall i, (i <= fuel)%nat -> forall x, In x (bas (T i)) -> (x < k_cols k)%nat).
  { intros i Li x Hx. apply In_bcol in Hx. destruct Hx as (r & Lr & <-). rewrite Len in Lr by assumption.
    now apply (ci_range _ _ _ _ _ (proj1 (Ti i Li))). }
  destruct (pigeonhole (fun i => code (k_cols k) (bas (T i))) (k_cols k ^ m)) as (i & j & Lij & Eij).
  { intros i Li. rewrite <- (Len i) by lia. apply code_lt. apply Rng. lia. }
  apply code_inj in Eij; [|rewrite !Len by lia; reflexivity|apply Rng; lia|apply Rng; lia].
  apply (no_cycle (fun d => T (i + d)%nat) (fun d => fst (fst (S (i + d)%nat))) (fun d => snd (fst (S (i + d)%nat)))
     (fun d => snd (S (i + d)%nat)) (j - i)%nat).
  - intros d Ld. apply Ti. lia.
  - intros d Ld. rewrite Nat.add_succ_r. apply Ts. lia.
  - replace (i + (j - i))%nat with j by lia. rewrite Nat.add_0_r. now symmetry.
  - lia.
Qed.
End Bland.

(** the whole solver with the smallest index rule *)
Theorem solve_first_profitable_terminates O (L : BILaws O) p fuel :
  provider_ok p -> sizes_ok O L p -> ((p_rows p + p_cols p) ^ p_rows p < fuel)%nat ->
  exists r, solve O (first_profitable O) fuel p = Ok r /\ result_ok p r.
Proof.
  intros Pok Sz Hf.
  pose proof (solve_spec O L (first_profitable O) (first_profitable_laws O L) fuel p Pok) as SP.
  destruct (solve O (first_profitable O) fuel p) as [r| |].
  - exists r. now split.
  - contradiction.
  - exfalso. destruct (SP Sz) as (k & rhs & t & s & Kok & HI & Lr & Lc & _ & EL & Hok & _). destruct s.
    revert EL. apply (first_profitable_terminates O L k rhs Kok); try assumption.
    destruct (Nat.eq_dec (k_cols k) 0) as [Z|Z].
    + rewrite Z. destruct (k_rows k); cbn; lia.
    + apply Nat.le_trans with ((p_rows p + p_cols p) ^ k_rows k)%nat.
      * now apply Nat.pow_le_mono_l.
      * transitivity ((p_rows p + p_cols p) ^ p_rows p)%nat; [|lia]. apply Nat.pow_le_mono_r; lia.
Qed.
